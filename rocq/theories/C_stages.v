(** * C_stages.v -- property theorems C55 (beta), C56 (gamma), C57 (epsilon), C62 (printing) *)

From Verif Require Import Py P_py M_symbol M_token M_tree M_stages S_tree P_tree P_treeops P_alpha P_beta P_gamma C_alpha P_stages P_dag.
From Coq Require Import String Permutation.
Open Scope list_scope.

(** What is built is a tree without sharing, and no node in it is empty. *)
Lemma built_rep h : built h -> exists i T F, wf h /\ root_id h = Some i /\ rep h i T F /\ full T.
Proof.
  induction 1 as [sentence h E|h h' _ (i & T & F & W & Rt & R & Fu) E|h h' _ (i & T & F & W & Rt & R & Fu) E].
  - destruct (sentence_root sentence) as [t|] eqn:Es; [|unfold alpha in E; rewrite Es in E; discriminate].
    destruct (alpha_rep sentence t Es) as (h1 & i & T & F & E1 & W & Rt & R & Fu & _). assert (h1 = h) by congruence. subst h1. exists i, T, F. easy.
  - destruct (beta_rep h i T F W Fu Rt R) as (h1 & E1 & R1 & Fr & Rt1). assert (h1 = h') by congruence. subst h1.
    exists i, (beta_t T), F. split; [apply Fr|]. split; [exact Rt1|]. split; [exact R1|now apply beta_full].
  - destruct (gamma_rep h i T F W Fu Rt R) as (h1 & j & F1 & E1 & W1 & Rt1 & R1). assert (h1 = h') by congruence. subst h1.
    exists j, (gamma_t T), F1. split; [exact W1|]. split; [exact Rt1|]. split; [exact R1|now apply gamma_full].
Qed.
Lemma built_shows h : built h -> exists T, shows h T /\ full T.
Proof. intros B. destruct (built_rep h B) as (i & T & F & _ & Rt & R & Fu). exists T. split; [|exact Fu]. exists i. split; [exact Rt|now apply (rep_unfolds h i T F)]. Qed.
Lemma shows_fun h T T' : shows h T -> shows h T' -> T = T'.
Proof. intros (i & Ri & U) (j & Rj & V). assert (j = i) by congruence. subst j. now apply (unfolds_fun h i). Qed.

(** ** C55

    On every tree that is built, beta succeeds; the tree afterwards has the same
    shape, the same leaves with the same tokens in the same places, every namespace
    is '1', and a node is marked as a compound exactly when its children are leaves
    of one entity type or all words below have one of the four labels. *)
Theorem C55_beta_only_marks h T : built h -> shows h T ->
  exists h' T', beta h = (Ok tt, h') /\ shows h' T' /\ marked T T'.
Proof.
  intros B Sh. destruct (built_rep h B) as (i & T1 & F & W & Rt & R & Fu). assert (T1 = T).
  { apply (shows_fun h); [|exact Sh]. exists i. split; [exact Rt|now apply (rep_unfolds h i T1 F)]. } subst T1.
  destruct (beta_rep h i T F W Fu Rt R) as (h1 & E1 & R1 & Fr & Rt1). exists h1, (beta_t T). split; [exact E1|]. split; [|now apply beta_marked].
  exists i. split; [exact Rt1|now apply (rep_unfolds h1 i _ F)].
Qed.

(** ** C56

    On every tree that is built, gamma succeeds; the words of the tree afterwards,
    with their namespaces and in order, are the words before without some articles. *)
Theorem C56_gamma_keeps_words h T : built h -> shows h T ->
  exists h' T', gamma h = (Ok tt, h') /\ shows h' T' /\ less_articles (labelled T) (labelled T').
Proof.
  intros B Sh. destruct (built_rep h B) as (i & T1 & F & W & Rt & R & Fu). assert (T1 = T).
  { apply (shows_fun h); [|exact Sh]. exists i. split; [exact Rt|now apply (rep_unfolds h i T1 F)]. } subst T1.
  destruct (gamma_rep h i T F W Fu Rt R) as (h1 & j & F1 & E1 & W1 & Rt1 & R1). exists h1, (gamma_t T). split; [exact E1|]. split; [|now apply gamma_words].
  exists j. split; [exact Rt1|now apply (rep_unfolds h1 j _ F1)].
Qed.
(** The tree gamma leaves is [gamma_t] (see S_tree.v) of the tree before: a function
    of the tree alone, no matter how the objects came about. *)
Theorem C56_gamma_is_a_function h T : built h -> shows h T -> exists h', gamma h = (Ok tt, h') /\ shows h' (gamma_t T).
Proof.
  intros B Sh. destruct (built_rep h B) as (i & T1 & F & W & Rt & R & Fu). assert (T1 = T).
  { apply (shows_fun h); [|exact Sh]. exists i. split; [exact Rt|now apply (rep_unfolds h i T1 F)]. } subst T1.
  destruct (gamma_rep h i T F W Fu Rt R) as (h1 & j & F1 & E1 & W1 & Rt1 & R1). exists h1. split; [exact E1|].
  exists j. split; [exact Rt1|now apply (rep_unfolds h1 j _ F1)].
Qed.

(** ** C57, for trees that may share objects (delta builds such trees) *)
Lemma mapr_u {B} h (f : nat -> SM B) (g : stree -> res B) : forall rs ts, Forall2 (tref h) rs ts ->
  (forall r t, In t ts -> tref h r t -> f r h = (g t, h)) -> smap f rs h = (mapr g ts, h).
Proof.
  induction 1 as [|r t rs ts R _ IH]; intros K; [reflexivity|]. rewrite smap_cons. unfold sbind at 1. rewrite (K r t (or_introl eq_refl) R).
  cbn [mapr]. destruct (g t) as [y|e]; [|reflexivity]. cbn [rbind]. unfold sbind. rewrite IH by (intros r0 t0 Hi; apply K; now right). now destruct (mapr g ts).
Qed.
Lemma leaves_labelled t : leaves t = List.map snd (labelled t).
Proof.
  induction t as [ns k|ns c ts IH] using stree_ind'; [reflexivity|]. cbn [leaves labelled]. induction IH as [|t ts H _ IH2]; [reflexivity|]. cbn. now rewrite map_app, H, IH2.
Qed.
Lemma words_u h rs ps : Forall2 (fun r (p : option str * token) => tref h r (SLeaf (fst p) (snd p))) rs ps -> smap word_of rs h = (Ok (List.map (fun p => t_word (snd p)) ps), h).
Proof.
  induction 1 as [|r p rs ps R _ IH]; [reflexivity|]. rewrite smap_cons. destruct (tref_inv _ _ _ R) as (i & _ & _ & O).
  rewrite (run_ok _ _ _ (t_word (snd p)) h); [now rewrite (run_ok _ _ _ _ _ IH)|]. unfold word_of. now rewrite (run_ok _ _ _ _ _ (deref_ok _ _ _ O)).
Qed.
Lemma build_hyperedges_u : forall f h r t, depth t <= f -> tref h r t -> build_hyperedges f r h = (edge_res t, h).
Proof.
  induction f as [|f IH]; intros h r t Hd R; [pose proof (depth_pos t); lia|]. cbn [build_hyperedges]. destruct (tref_inv _ _ _ R) as (i & _ & _ & O).
  destruct t as [ns k|ns c ts].
  - rewrite (run_ok _ _ _ _ _ (deref_ok _ _ _ O)). destruct ns as [n|]; reflexivity.
  - destruct O as (l & ls & y & cs & O & L & _). rewrite (run_ok _ _ _ _ _ (deref_ok _ _ _ O)). destruct c.
    + unfold compound_node_to_hyperedges. destruct (flat_leafs_u (S f) h r _ Hd R) as (rs & E & H).
      rewrite (run_ok _ _ _ _ _ E), (run_ok _ _ _ _ _ (words_u _ _ _ H)). cbn [edge_res]. change (flat_map leaves ts) with (leaves (SNode ns true ts)).
      rewrite leaves_labelled, map_map. reflexivity.
    + destruct (children_u _ _ _ _ _ R) as (rs & Ec & Hc). rewrite (run_ok _ _ _ _ _ Ec).
      assert (E : smap (build_hyperedges f) rs h = (mapr edge_res ts, h)).
      { apply (mapr_u h _ edge_res rs ts Hc). intros r0 t0 Hi R0. apply IH; [|exact R0]. apply depth_node in Hd. now apply (depth_in t0 ts). }
      rewrite edge_res_node. unfold sbind. rewrite E. now destruct (mapr edge_res ts).
Qed.
Lemma root_u h T : shows h T -> exists r, tree_root h = (Ok r, h) /\ tref h r T.
Proof.
  intros (i & Ri & U). destruct (tget_u _ _ _ U) as (r & E & R & _). exists r. split; [|exact R].
  unfold tree_root. rewrite (run_ok (fun h => (Ok (root_id h), h)) _ h (Some i) h) by now rewrite Ri. exact E.
Qed.
Lemma epsilon_u h T : wf h -> shows h T -> epsilon h = (edge_res T, h).
Proof.
  intros W Sh. destruct (root_u h T Sh) as (r & E & R). unfold epsilon. rewrite (run_ok _ _ _ _ _ E), (run_ok _ _ _ _ _ (budget_u h)).
  apply build_hyperedges_u; [|exact R]. pose proof (tref_depth h r T W R). lia.
Qed.

(** For every tree -- shared or not -- epsilon changes nothing; it returns the
    hyperedge of the tree when every leaf outside compounds has a namespace, and
    raises TypeError when one has none. *)
Theorem C57_epsilon_output h T : wf h -> shows h T ->
  (exists v, epsilon h = (Ok v, h) /\ hyperedge_of T v /\ ~ nameless T) \/ (epsilon h = (Err TypeError, h) /\ nameless T).
Proof.
  intros W Sh. rewrite (epsilon_u h T W Sh). pose proof (edge_res_spec T) as X. destruct (edge_res T) as [v|e].
  - left. exists v. destruct X. repeat (split; [assumption||reflexivity|]). assumption.
  - right. destruct X as [-> X]. now split.
Qed.
(** The hyperedge of a tree is unique. *)
Lemma hyperedge_of_fun : forall T v v', hyperedge_of T v -> hyperedge_of T v' -> v = v'.
Proof.
  induction T as [ns k|ns c ts IH] using stree_ind'; intros v v' H H'; inversion H; subst; inversion H'; subst; try reflexivity. f_equal.
  match goal with A : Forall2 hyperedge_of ts ?a, B : Forall2 hyperedge_of ts ?b |- _ => clear - IH A B; revert a b A B end.
  induction IH as [|t ts Ht _ IHs]; intros a b A B; inversion A; subst; inversion B; subst; f_equal; auto.
Qed.
Theorem C57_epsilon_unique h T v : wf h -> shows h T -> hyperedge_of T v -> ~ nameless T -> epsilon h = (Ok v, h).
Proof.
  intros W Sh H N. destruct (C57_epsilon_output h T W Sh) as [(v' & E & H' & _)|[_ N']]; [|easy]. now rewrite (hyperedge_of_fun T v v' H H').
Qed.

(** ** C62: printing *)
Lemma elem_str_u : forall f h r t, depth t <= f -> tref h r t -> elem_str f r h = (Ok (text_of t), h).
Proof.
  induction f as [|f IH]; intros h r t Hd R; [pose proof (depth_pos t); lia|]. cbn [elem_str]. destruct (tref_inv _ _ _ R) as (i & _ & _ & O).
  destruct t as [ns k|ns c ts].
  - rewrite (run_ok _ _ _ _ _ (deref_ok _ _ _ O)). reflexivity.
  - destruct O as (l & ls & y & cs & O & L & _). rewrite (run_ok _ _ _ _ _ (deref_ok _ _ _ O)). destruct (children_u _ _ _ _ _ R) as (rs & Ec & Hc). rewrite (run_ok _ _ _ _ _ Ec).
    assert (E : smap (elem_str f) rs h = (Ok (List.map text_of ts), h)).
    { rewrite (mapr_u h _ (fun t => Ok (text_of t)) rs ts Hc).
      - f_equal. clear. induction ts as [|t ts IH]; [reflexivity|]. cbn [mapr]. rewrite IH. reflexivity.
      - intros r0 t0 Hi R0. apply IH; [|exact R0]. apply depth_node in Hd. now apply (depth_in t0 ts). }
    rewrite (run_ok _ _ _ _ _ E). destruct c; reflexivity.
Qed.
Theorem C62_printing h T : wf h -> shows h T -> tree_str h = (Ok (text_of T), h).
Proof.
  intros W Sh. destruct (root_u h T Sh) as (r & E & R). unfold tree_str.
  unfold tree_root, sbind at 1 in E. cbn [fst snd] in E. destruct (root_id h) as [i|]; [|discriminate E]. rewrite (run_ok _ _ _ _ _ E), (run_ok _ _ _ _ _ (budget_u h)).
  apply elem_str_u; [|exact R]. pose proof (tref_depth h r T W R). lia.
Qed.
Theorem built_wf h : built h -> wf h.
Proof. intros B. now destruct (built_rep h B) as (i & T & F & W & _). Qed.

(** ** The project's own test sentences

    tests/test_extractor.py:46-52 and 81-89, with the parse spaCy gives: the strings
    the model produces are the ones the tests expect.  The trees meet the hypotheses
    of the theorems above. *)
Definition tk (i : nat) (w po de : string) (l r : list token) : token := Token i (lit w) (lit w) (lit po) (lit de) [] false l r.
Definition telmo : token := tk 2 "going" "VERB" "ROOT" [tk 0 "telmo" "PROPN" "nsubj" [] []; tk 1 "is" "VERB" "aux" [] []]
  [tk 3 "to" "ADP" "prep" [] [tk 5 "gym" "NOUN" "pobj" [tk 4 "the" "DET" "det" [] []] []]; tk 6 "." "PUNCT" "punct" [] []].
Definition sweden : token := tk 1 "wants" "VERB" "ROOT" [tk 0 "sweden" "PROPN" "nsubj" [] []]
  [tk 3 "fight" "VERB" "xcomp" [tk 2 "to" "PART" "aux" [] []]
    [tk 6 "culture" "NOUN" "dobj" [tk 4 "our" "ADJ" "poss" [] []; tk 5 "disposable" "ADJ" "amod" [] []] [];
     tk 7 "with" "ADP" "prep" [] [tk 9 "breaks" "NOUN" "pobj" [tk 8 "tax" "NOUN" "compound" [] []]
       [tk 10 "for" "ADP" "prep" [] [tk 11 "repairing" "VERB" "pcomp" [] [tk 13 "stuff" "NOUN" "dobj" [tk 12 "old" "ADJ" "amod" [] []] []]]]]];
   tk 14 "." "PUNCT" "punct" [] []].
(** what the specification says of them *)
Example alpha_tree_2 : text_of (alpha_tree telmo) = lit "(is (going telmo (to (the gym))))".
Proof. vm_compute. reflexivity. Qed.
Example alpha_tree_6 : text_of (alpha_tree sweden) = lit "(wants sweden (to (fight (our (disposable culture)) (with ((for (repairing (old stuff))) (tax breaks))))))".
Proof. vm_compute. reflexivity. Qed.
Definition texts (fuel : nat) (t : token) : list (option str) := match read_sentence fuel default_stages [t] with Ok (_, l) => l | Err _ => [] end.
Example extractor_test_2 : texts 20 telmo =
  [Some (lit "(is (going telmo (to (the gym))))"); Some (lit "(is (going telmo (to (the gym))))"); Some (lit "(is_going telmo (to gym))");
   Some (lit "(is_going_to telmo gym)"); None].
Proof. vm_compute. reflexivity. Qed.
Example extractor_test_6 : texts 20 sweden =
  [Some (lit "(wants sweden (to (fight (our (disposable culture)) (with ((for (repairing (old stuff))) (tax breaks))))))");
   Some (lit "(wants sweden (to (fight (our (disposable culture)) (with ((for (repairing (old stuff))) tax_breaks)))))");
   Some (lit "(wants sweden (to_fight (our (disposable culture)) (with ((for_repairing (old stuff)) tax_breaks))))");
   Some (lit "((wants_to_fight with) sweden (our (disposable culture)) ((for_repairing (old stuff)) tax_breaks))"); None].
Proof. vm_compute. reflexivity. Qed.
Example extractor_edge_2 : (match read_sentence 20 default_stages [telmo] with Ok (o, _) => Some o | Err _ => None end) =
  Some (OEdge (VTup [VStr (lit "is_going_to/?"); VStr (lit "telmo/1"); VStr (lit "gym/1")])).
Proof. vm_compute. reflexivity. Qed.
(** the hypotheses of C55, C56 and C57: built trees that show something, at each stage *)
Lemma built_examples : exists h1 h2 h3, alpha [telmo] = (Ok tt, h1) /\ beta h1 = (Ok tt, h2) /\ gamma h2 = (Ok tt, h3) /\ built h1 /\ built h2 /\ built h3
  /\ (exists T, shows h1 T) /\ (exists T, shows h2 T) /\ exists T, shows h3 T.
Proof.
  pose proof (C54_alpha_keeps_every_word [telmo]) as X. change (sentence_root [telmo]) with (Some telmo) in X. destruct X as (h1 & T1 & E1 & S1 & _).
  assert (B1 : built h1) by exact (built_alpha _ _ E1). destruct (C55_beta_only_marks h1 T1 B1 S1) as (h2 & T2 & E2 & S2 & _).
  assert (B2 : built h2) by exact (built_beta _ _ B1 E2). destruct (C56_gamma_keeps_words h2 T2 B2 S2) as (h3 & T3 & E3 & S3 & _).
  assert (B3 : built h3) by exact (built_gamma _ _ B2 E3). exists h1, h2, h3. repeat (split; [eassumption||eauto|]). eauto.
Qed.
