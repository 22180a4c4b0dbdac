(** * C_alpha.v -- property theorem C54 (the alpha stage keeps every word) *)

From Verif Require Import Py P_py M_token M_tree M_stages S_tree P_tree P_treeops P_alpha C_token.
From Coq Require Import String Permutation.
Open Scope list_scope.

(** What is represented unfolds. *)
Lemma rep_unfolds_both h :
  (forall i t F, rep h i t F -> unfolds h i t) /\ (forall is_ ts F, reps h is_ ts F -> Forall2 (unfolds h) is_ ts).
Proof. apply rep_reps_ind; intros; econstructor; eassumption. Qed.
Lemma rep_unfolds h i t F : rep h i t F -> unfolds h i t.
Proof. apply rep_unfolds_both. Qed.

(** Unfolding is a function: the specification leaves no choice. *)
Section unfolds_ind.
  Variable h : tree.
  Variable P : Z -> stree -> Prop.
  Hypothesis HL : forall i r ns k, table h i = Some r -> objs h r = Some (OLeaf i ns k) -> P i (SLeaf ns k).
  Hypothesis HN : forall i r ns l ls y c cs ts, table h i = Some r -> objs h r = Some (ONode i ns l ls y c) -> lists h l = Some cs ->
    Forall2 (unfolds h) cs ts -> Forall2 P cs ts -> P i (SNode ns c ts).
  Fixpoint unfolds_ind' (i : Z) (t : stree) (U : unfolds h i t) : P i t.
  Proof.
    destruct U as [i r ns k H1 H2|i r ns l ls y c cs ts H1 H2 H3 H4].
    - exact (HL i r ns k H1 H2).
    - apply (HN i r ns l ls y c cs ts H1 H2 H3 H4). clear H3. induction H4 as [|a b la lb H H4 IH]; constructor; [now apply unfolds_ind'|exact IH].
  Defined.
End unfolds_ind.
Lemma unfolds_fun h i t : unfolds h i t -> forall t', unfolds h i t' -> t = t'.
Proof.
  intros U. induction U as [i r ns k H1 H2|i r ns l ls y c cs ts H1 H2 H3 H4 IH] using unfolds_ind'; intros t' U'.
  - inversion U' as [i' r' ns' k' A B|i' r' ns' l' ls' y' c' cs' ts' A B C D]; subst; congruence.
  - inversion U' as [i' r' ns' k' A B|i' r' ns' l' ls' y' c' cs' ts' A B C D]; subst; [congruence|].
    assert (r' = r) by congruence. subst r'. rewrite H2 in B. injection B as <- <- <- <- <-. assert (cs' = cs) by congruence. subst cs'. f_equal.
    clear - IH D. revert ts' D. induction IH as [|a b la lb H IH IH2]; intros ts' D; inversion D; subst; [reflexivity|]. f_equal; [now apply H|now apply IH2].
Qed.

Lemma squash_node ns c ts : squash (SNode ns c ts) = match List.map squash ts with [SNode ns' c' ks] => SNode ns' c' ks | ts' => SNode ns c ts' end.
Proof. reflexivity. Qed.
Lemma squash_cases ns c ts : (exists ns' c' ks, List.map squash ts = [SNode ns' c' ks] /\ squash (SNode ns c ts) = SNode ns' c' ks)
  \/ ((forall ns' c' ks, List.map squash ts <> [SNode ns' c' ks]) /\ squash (SNode ns c ts) = SNode ns c (List.map squash ts)).
Proof.
  rewrite squash_node. destruct (List.map squash ts) as [|[n k|n b k] [|y r]].
  - right. split; [discriminate|reflexivity].
  - right. split; [discriminate|reflexivity].
  - right. split; [discriminate|reflexivity].
  - left. exists n, b, k. now split.
  - right. split; [discriminate|reflexivity].
Qed.
Lemma flat_map_squash ts : Forall (fun t => leaves (squash t) = leaves t) ts -> flat_map leaves (List.map squash ts) = flat_map leaves ts.
Proof. induction 1 as [|t ts H _ IH]; [reflexivity|]. cbn. now rewrite H, IH. Qed.
Lemma squash_leaves t : leaves (squash t) = leaves t.
Proof.
  induction t as [ns k|ns c ts IH] using stree_ind'; [reflexivity|]. apply flat_map_squash in IH.
  destruct (squash_cases ns c ts) as [(ns' & c' & ks & E1 & E2)|[_ E2]]; rewrite E2; [|exact IH]. cbn [leaves]. rewrite <- IH, E1. cbn. now rewrite app_nil_r.
Qed.
Lemma squash_full t : full t -> full (squash t).
Proof.
  induction t as [ns k|ns c ts IH] using stree_ind'; intros F; [exact I|]. apply full_node in F as [N F].
  assert (FM : Forall full (List.map squash ts)).
  { clear - IH F. induction ts as [|t ts IHt]; [constructor|]. inversion IH; subst. inversion F; subst. cbn. constructor; auto. }
  destruct (squash_cases ns c ts) as [(ns' & c' & ks & E1 & E2)|[_ E2]]; rewrite E2.
  - rewrite E1 in FM. now inversion FM.
  - apply full_node. split; [now destruct ts|exact FM].
Qed.
Lemma no_chains_node ns c ts : no_chains (SNode ns c ts) <-> (forall ns c ks, ts <> [SNode ns c ks]) /\ Forall no_chains ts.
Proof.
  cbn. assert (E : forall l, (fix all (l : list stree) : Prop := match l with [] => True | x :: r => no_chains x /\ all r end) l <-> Forall no_chains l).
  { induction l as [|x l IH]; [now split|]. rewrite IH. split; [now intros [H1 H2]; constructor|]. intros H. inversion H. now split. }
  now rewrite E.
Qed.
Lemma squash_no_chains t : no_chains (squash t).
Proof.
  induction t as [ns k|ns c ts IH] using stree_ind'; [exact I|].
  assert (FM : Forall no_chains (List.map squash ts)) by (clear - IH; induction IH; cbn; constructor; assumption).
  destruct (squash_cases ns c ts) as [(ns' & c' & ks & E1 & E2)|[X E2]]; rewrite E2.
  - rewrite E1 in FM. now inversion FM.
  - apply no_chains_node. now split.
Qed.

(** What alpha leaves behind, with the footprint. *)
Lemma alpha_rep sentence t : sentence_root sentence = Some t -> exists h i T F,
  alpha sentence = (Ok tt, h) /\ wf h /\ root_id h = Some i /\ rep h i T F /\ full T /\ no_chains T /\ Permutation (leaves T) (kept t) /\ T = alpha_tree t.
Proof.
  intros E. unfold alpha. rewrite E. destruct (process_token_ok t) as [PA _]. destruct (PA tree0 wf0) as (h1 & i & T & F & E1 & R1 & Fu1 & U1 & P1 & Rt1 & Sp1).
  rewrite (run_ok _ _ _ _ _ E1).
  pose (h2 := Tr (table h1) (cur_id h1) (Some i) (objs h1) (n_obj h1) (lists h1) (n_list h1)).
  assert (W2 : wf h2) by (destruct U1 as [[[A B C D] _ _ _ _] _]; now constructor).
  assert (R2 : rep h2 i T F) by (apply (rep_agree h1 h2); [exact R1|]; intros [?|?|?] _; reflexivity).
  rewrite (run_ok (set_root_id i) _ h1 tt h2 eq_refl). destruct (rep_get _ _ _ _ R2) as (r & Tr2).
  unfold remove_redundant_nesting.
  assert (Er : tree_root h2 = (Ok r, h2)).
  { unfold tree_root. rewrite (run_ok (fun h => (Ok (root_id h), h)) _ h2 (Some i) h2 eq_refl). now apply tget_ok. }
  rewrite (run_ok _ _ _ _ _ Er), (run_ok budget _ h2 (S (n_obj h2)) h2 eq_refl).
  destruct (remove_nesting_rep (S (n_obj h2)) h2 i T F r W2 R2 Tr2) as (h3 & F3 & E3 & R3 & U3 & Rt3).
  { pose proof (rep_depth h2 i T F W2 R2). lia. }
  exists h3, i, (squash T), F3. repeat apply conj; try assumption.
  - apply U3.
  - now apply squash_full.
  - apply squash_no_chains.
  - now rewrite squash_leaves.
  - unfold alpha_tree. now rewrite Sp1.
Qed.

(** ** C54

    For every parsed sentence with a root token, whatever the dependency labels,
    parts of speech and the shape of the parse: alpha succeeds; the tree it builds
    has as leaves exactly the kept tokens, each as often as it is kept (a child
    without label or with label punct is dropped with its subtree, nothing else
    is); no node is empty and none has a node as its only child.  A sentence
    without a root token raises AttributeError. *)
Theorem C54_alpha_keeps_every_word sentence :
  match sentence_root sentence with
  | Some t => exists h T, alpha sentence = (Ok tt, h) /\ shows h T /\ Permutation (leaves T) (kept t) /\ full T /\ no_chains T
  | None => fst (alpha sentence) = Err AttributeError
  end.
Proof.
  destruct (sentence_root sentence) as [t|] eqn:E; [|unfold alpha; now rewrite E].
  destruct (alpha_rep sentence t E) as (h & i & T & F & E1 & W & Rt & R & Fu & NC & P & _). exists h, T. repeat apply conj; try assumption.
  exists i. split; [exact Rt|]. now apply rep_unfolds in R.
Qed.

(** The words themselves: asking the root for its flat leaves gives leaf objects
    with the tokens of that tree, in order. *)
Theorem C54_alpha_flat_leafs sentence h T r : alpha sentence = (Ok tt, h) -> shows h T -> fst (tree_root h) = Ok r ->
  exists rs, flat_leafs (S (n_obj h)) r h = (Ok rs, h) /\ Forall2 (fun r k => exists j ns, objs h r = Some (OLeaf j ns k)) rs (leaves T).
Proof.
  intros E (i & Ei & U) Er. destruct (sentence_root sentence) as [t|] eqn:Es; [|unfold alpha in E; rewrite Es in E; discriminate].
  destruct (alpha_rep sentence t Es) as (h' & i' & T' & F & E' & W & Rt & R & _). assert (h' = h) by congruence. subst h'. assert (i' = i) by congruence. subst i'.
  assert (T' = T) by (apply (unfolds_fun h i); [now apply (rep_unfolds h i T' F)|exact U]). subst T'.
  assert (Tr : table h i = Some r).
  { unfold tree_root, sbind in Er. rewrite Ei in Er. unfold tget in Er. cbn in Er. destruct (table h i); [now injection Er as ->|discriminate]. }
  apply (flat_leafs_rep (S (n_obj h)) h i T F r R Tr). pose proof (rep_depth h i T F W R). lia.
Qed.

(** ** C64

    The tree alpha builds -- with enclosing, layers, in-place insertion and removal
    of redundant nesting on shared mutable objects -- is the tree [alpha_tree] of the
    root token: a function of the parse, written down in S_tree.v without objects. *)
Theorem C64_alpha_tree sentence t : sentence_root sentence = Some t ->
  exists h, alpha sentence = (Ok tt, h) /\ forall T, shows h T <-> T = alpha_tree t.
Proof.
  intros E. destruct (alpha_rep sentence t E) as (h & i & T & F & E1 & W & Rt & R & Fu & NC & P & Sp). exists h. split; [exact E1|].
  pose proof (rep_unfolds h i T F R) as U. intros T'. subst T. split.
  - intros (i' & Ei & U'). assert (i' = i) by congruence. subst i'. symmetry. now apply (unfolds_fun h i).
  - intros ->. now exists i.
Qed.
