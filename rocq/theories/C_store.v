(** * C_store.v -- property theorem C71 (what the extractor returns can be stored) *)

From Verif Require Import Py P_py M_symbol M_edge M_token M_tree M_stages S_tree P_exact P_edge P_tree P_gamma P_wide C_alpha C_stages C_delta.
From Verif Require Import Spec M_sql M_hypergraph S_history M_driver P_hist P_answers P_query C_graph.
From Coq Require Import String Permutation.
Open Scope list_scope.

(** ** C71

    Words as a parser makes them: no white space, no opening bracket in front, only
    Unicode scalar values. *)
Definition word_ok (w : str) : bool := no_white w && negb (starts_with c_lpar w) && forallb is_scalar w.

Lemma starts_app c (w t : str) : starts_with c w = false -> starts_with c t = false -> starts_with c (w ++ t) = false.
Proof. now destruct w. Qed.
Lemma sym_db_suffix w x : word_ok w = true -> In x [lit "/1"; lit "/?"]%string -> sym_db (w ++ x) = true.
Proof.
  unfold word_ok. intros H Hx. apply andb_prop in H as [H Hs]. apply andb_prop in H as [Hw Hp]. apply negb_true_iff in Hp.
  assert (E : exists d, x = [c_slash; d] /\ (is_space d = false /\ is_scalar d = true /\ d <> c_rpar /\ d <> max_cp /\ d <> 55295%N)).
  { cbn in Hx. destruct Hx as [<-|[<-|[]]]; eexists; (split; [reflexivity|]); vm_compute; repeat split; congruence. }
  destruct E as (d & -> & Ds & Dc & D1 & D2 & D3).
  change [c_slash; d] with ([c_slash] ++ [d]). rewrite app_assoc.
  assert (Dn : looks_numeric ((w ++ [c_slash]) ++ [d]) = false).
  { apply (nonnumeric _ c_slash); try (vm_compute; congruence). apply in_app_iff. left. apply in_app_iff. right. now left. }
  unfold sym_db, sym_ok, db_text. rewrite Dn, !ends_with_app_last. apply N.eqb_neq in D1, D2, D3. rewrite D1, D2, D3.
  unfold no_white in *. rewrite !forallb_app, Hw, Hs. cbn [forallb]. rewrite Ds, Dc. rewrite <- app_assoc, starts_app; [|exact Hp|reflexivity]. now destruct w.
Qed.
Lemma word_ok_join l : Forall (fun w => word_ok w = true) l -> word_ok (join (lit "_") l) = true.
Proof.
  assert (X : forall w, word_ok w = true -> forall t, word_ok t = true -> word_ok (w ++ t) = true).
  { intros w Hw t Ht. unfold word_ok, no_white in *. apply andb_prop in Hw as [Hw C]. apply andb_prop in Hw as [A B]. apply andb_prop in Ht as [Ht C']. apply andb_prop in Ht as [A' B'].
    rewrite !forallb_app, A, A', C, C'. apply negb_true_iff in B, B'. now rewrite starts_app. }
  induction l as [|w l IH]; intros F; [reflexivity|]. inversion F; subst. destruct l as [|w' l]; [assumption|]. cbn [join]. apply X; [assumption|]. apply X; [reflexivity|]. now apply IH.
Qed.
Lemma storable_tree T : wide T -> Forall (fun p => fst p = Some (lit "1")) (labelled T) -> Forall (fun k => word_ok (t_word k) = true) (S_tree.leaves T) ->
  forall v, hyperedge_of T v -> db_vertex v = true /\ no_float v = true.
Proof.
  induction T as [ns k|ns c ts IH] using stree_ind'; intros W L F v H.
  - cbn in L, F. apply Forall_inv in L as L1. apply Forall_inv in F as F1. cbn in L1. subst ns. inversion H; subst. split; [|reflexivity]. apply (sym_db_suffix (t_word k) (lit "/1") F1). now left.
  - inversion H as [|? ? |? ? vs G]; subst.
    + split; [|reflexivity]. apply (sym_db_suffix _ (lit "/?")); [|right; now left]. apply word_ok_join, Forall_map. exact F.
    + apply wide_node in W as [Wn W]. cbn [labelled S_tree.leaves] in L, F. rewrite Forall_flat_map in L, F. unfold db_vertex. cbn [vertex_of no_float].
      assert (X : forallb db_vertex vs = true /\ forallb no_float vs = true /\ List.length vs = List.length ts).
      { clear Wn H. induction G as [|t u ts vs Ht _ IHg]; [now repeat split|]. apply Forall_cons_iff in IH as [IH1 IH], W as [W1 W], L as [L1 L], F as [F1 F]. destruct (IHg IH F L W) as (A & B & C). cbn [forallb List.length].
        destruct (IH1 W1 L1 F1 u Ht) as [D E]. now rewrite D, E, A, B, C. }
      destruct X as (A & B & C). unfold db_vertex in A. rewrite A, B, C, andb_true_r. split; [now apply Nat.leb_le|reflexivity].
Qed.

Lemma perm_words t d T : Permutation (kept t) (d ++ S_tree.leaves T) -> Forall (fun k => word_ok (t_word k) = true) (kept t) -> Forall (fun k => word_ok (t_word k) = true) (S_tree.leaves T).
Proof. intros P F. apply Forall_forall. intros k Hk. rewrite Forall_forall in F. apply F, (Permutation_in _ (Permutation_sym P)), in_app_iff. now right. Qed.

(** What the extractor returns is a well-formed, storable vertex: it reads back from
    its text, and, when it is an edge with a symbol in front, [add] stores exactly it,
    in whatever graph -- of values in which Python's == is equality. *)
Theorem C71_extracted_can_be_stored fuel sentence t :
  sentence_root sentence = Some t -> List.length (kept t) < fuel -> Forall (fun k => word_ok (t_word k) = true) (kept t) ->
  exists v outs, read_sentence fuel default_stages sentence = Ok (OEdge v, outs)
    /\ db_vertex v = true
    /\ str2edge (edge2str v) = Ok v
    /\ (forall a rest, v = VTup (VStr a :: rest) ->
          plain_values (VStr a) /\ (forall x, In x rest -> plain_values x)
          /\ forall V ops c ts, noalias V -> reached V ops c -> int64 ts = true -> (forall x, In x (elems v) -> V x) ->
               exists c' tr, add v ts c = (Ok v, c', tr) /\ exists_ v c' = (Ok true, c', [])
                 /\ (forall e, edge_in V e -> e <> v -> exists b, exists_ e c = (Ok b, c, []) /\ exists_ e c' = (Ok b, c', []))).
Proof.
  intros Es Hf Hw. pose proof (C61_extractor fuel sentence) as X. rewrite Es in X. destruct (X Hf) as (T1 & T2 & T3 & T & v & d & E & H & P & _ & L & _ & _ & _ & _ & _ & Wd).
  destruct (storable_tree T Wd L (perm_words t d T P Hw) v H) as [Dv Nf]. eexists v, _. split; [exact E|]. split; [exact Dv|]. split; [apply str2edge_edge2str, db_vertex_wf, Dv|].
  intros a rest ->. change (forallb no_float rest = true) in Nf. split; [reflexivity|]. split; [intros x Hx; rewrite forallb_forall in Nf; now apply Nf|].
  intros V ops c ts HV Hr Hts Hin. pose proof (reached_ready V ops c HV Hr) as R. set (h := history ops) in *.
  assert (De : edge_in V (VTup (VStr a :: rest))).
  { split; [|exact Hin]. unfold db_edge. rewrite Dv, andb_true_r. unfold db_vertex in Dv. cbn [vertex_of] in Dv. apply andb_prop in Dv as [_ Dv]. cbn [forallb] in Dv. now apply andb_prop in Dv as [Dv _]. }
  destruct (goes_top true V h _ _ _ c (goes_add V h _ ts HV De Hts) R) as (us & c' & tr & [Ea _ R' _ _]). exists c', tr. split; [exact Ea|].
  split; [apply (ready_exists_true V c' _ _ HV R' De); rewrite present_add; tauto|].
  intros e He Ne. apply (ready_exists_same V c h c' _ e HV R R' He). rewrite present_add. tauto.
Qed.

(** Two sentences whose hyperedges do not start with a symbol -- one starts with an
    edge, one is a single symbol -- and what [add] then does: it answers as if all
    were well, the hyperedge is not in the graph, and what it wrote instead is edges
    made of single characters. *)
Definition bwc : token := tk 1 "r" "VERB" "ROOT" [tk 0 "a" "NOUN" "nsubj" [] []] [tk 2 "b" "NOUN" "dobj" [] []; tk 3 "w" "ADP" "prep" [] [tk 4 "c" "NOUN" "pobj" [] []]].
Definition hi : token := tk 0 "hi" "INTJ" "ROOT" [] [].
Definition after_add {A} (v : value) (m : M A) : res A := fst (fst (m (snd (fst (add v 1 (start false)))))).
Theorem C71_refuted_any_first_element :
  exists outs outs' v w,
    v = VTup [VTup [VStr (lit "r/1"); VStr (lit "w/1")]; VStr (lit "a/1"); VStr (lit "b/1"); VStr (lit "c/1")]
    /\ read_sentence 20 default_stages [bwc] = Ok (OEdge v, outs) /\ forallb (fun k => word_ok (t_word k)) (kept bwc) = true
    /\ fst (fst (add v 1 (start false))) = Ok v /\ after_add v (exists_ v) = Ok false
    /\ after_add v (star (VStr (lit "/"))) = Ok [VTup [VStr (lit "a"); VStr (lit "/"); VInt 1]; VTup [VStr (lit "b"); VStr (lit "/"); VInt 1]; VTup [VStr (lit "c"); VStr (lit "/"); VInt 1]]
    /\ w = VStr (lit "hi/1")
    /\ read_sentence 20 default_stages [hi] = Ok (OEdge w, outs') /\ forallb (fun k => word_ok (t_word k)) (kept hi) = true
    /\ fst (fst (add w 1 (start false))) = Ok w /\ after_add w (exists_ w) = Ok false
    /\ after_add w (star (VStr (lit "/"))) = Ok [VTup [VStr (lit "h"); VStr (lit "i"); VStr (lit "/"); VInt 1]].
Proof.
  do 4 eexists. split; [reflexivity|]. split; [vm_compute; reflexivity|]. split; [vm_compute; reflexivity|]. split; [vm_compute; reflexivity|]. split; [vm_compute; reflexivity|]. split; [vm_compute; reflexivity|].
  split; [reflexivity|]. split; [vm_compute; reflexivity|]. split; [vm_compute; reflexivity|]. split; [vm_compute; reflexivity|]. split; vm_compute; reflexivity.
Qed.
(** A word in brackets' clothes does not read back. *)
Theorem C71_refuted_any_words : exists outs v,
  read_sentence 20 default_stages [tk 1 "is" "VERB" "ROOT" [tk 0 "(x" "NOUN" "nsubj" [] []] [tk 2 "y" "ADJ" "acomp" [] []]] = Ok (OEdge v, outs)
  /\ v = VTup [VStr (lit "is/1"); VStr (lit "(x/1"); VStr (lit "y/1")] /\ str2edge (edge2str v) <> Ok v.
Proof. do 2 eexists. split; [vm_compute; reflexivity|]. split; [reflexivity|]. vm_compute. discriminate. Qed.
(** *** The hypotheses are met *)
Example C71_nonvacuous : sentence_root [telmo] = Some telmo /\ List.length (kept telmo) < 20 /\ Forall (fun k => word_ok (t_word k) = true) (kept telmo)
  /\ exists outs, read_sentence 20 default_stages [telmo] = Ok (OEdge (VTup [VStr (lit "is_going_to/?"); VStr (lit "telmo/1"); VStr (lit "gym/1")]), outs).
Proof.
  split; [reflexivity|]. split; [exact (proj2 telmo_fits)|]. split.
  - apply Forall_forall. intros k Hk. assert (F : forallb (fun k => word_ok (t_word k)) (kept telmo) = true) by (vm_compute; reflexivity). rewrite forallb_forall in F. now apply F.
  - eexists. vm_compute. reflexivity.
Qed.
Example C71_nonvacuous_graph : reached plain_values ex_ops ex_c.
Proof. exact ex_reached. Qed.
Print Assumptions C71_extracted_can_be_stored.
Print Assumptions C71_refuted_any_first_element.
Print Assumptions C71_refuted_any_words.
