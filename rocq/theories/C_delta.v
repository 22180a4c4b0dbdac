(** * C_delta.v -- property theorems C60, C70, C92 (delta) and C61 (the extractor from sentence to hyperedge) *)

From Verif Require Import Py P_py M_symbol M_token M_tree M_stages S_tree S_delta P_tree P_treeops P_alpha P_beta P_gamma C_alpha P_stages P_dag C_stages P_wide P_delta P_cands.
From Coq Require Import String Permutation.
Open Scope list_scope.

(** ** The budget of the search: enough is enough *)

Definition more {A} (m m' : SM A) : Prop := forall h v h', m h = (Ok v, h') -> m' h = (Ok v, h').
Lemma more_refl {A} (m : SM A) : more m m.
Proof. now intros h v h'. Qed.
Lemma more_bind {A B} (m m' : SM A) (k k' : A -> SM B) : more m m' -> (forall a, more (k a) (k' a)) -> more (sbind m k) (sbind m' k').
Proof.
  intros H K h v h' E. unfold sbind in *. destruct (m h) as [[a|e] h1] eqn:Em; [|discriminate]. rewrite (H _ _ _ Em). now apply K.
Qed.
Lemma more_if {A} (b : bool) (m m' n n' : SM A) : more m m' -> more n n' -> more (if b then m else n) (if b then m' else n').
Proof. now destruct b. Qed.
Definition mrec (r r' : nat -> list Z -> list nat -> SM (list nat)) : Prop := forall a b c, more (r a b c) (r' a b c).
Ltac mono1 := match goal with
  | |- more ?m ?m => exact (more_refl m)
  | |- more (if ?b then _ else _) (if ?b then _ else _) => apply (more_if b)
  | |- more (sbind _ _) (sbind _ _) => apply more_bind; [|intros ?]
  | H : mrec ?r ?r' |- more (?r _ _ _) (?r' _ _ _) => apply H
  end.
Ltac mono := repeat mono1.
Lemma build_more r r' a b c d e : mrec r r' -> more (build_candidate r a b c d e) (build_candidate r' a b c d e).
Proof. intros H. unfold build_candidate. mono. Qed.
Lemma relationship_more r r' a b c d : mrec r r' -> more (relationship_candidates r a b c d) (relationship_candidates r' a b c d).
Proof. intros H. unfold relationship_candidates. repeat first [mono1 | now apply build_more]. Qed.
Lemma each_more r r' a b c l : mrec r r' -> forall d, more (each_candidate r a b c l d) (each_candidate r' a b c l d).
Proof.
  intros H. induction l as [|x l IH]; intros d; cbn [each_candidate]; [apply more_refl|]. repeat first [mono1 | now apply relationship_more | apply IH].
Qed.
Lemma search_step f f' : mrec (find_candidates_r f) (find_candidates_r f') -> mrec (find_candidates_r (S f)) (find_candidates_r (S f')).
Proof.
  intros H a b c. cbn [find_candidates_r]. destruct b as [|x b]; [apply more_refl|]. repeat first [mono1 | now apply each_more].
Qed.
Lemma search_more f : mrec (find_candidates_r f) (find_candidates_r (S f)).
Proof. induction f as [|f IH]; [intros a b c h v h' E; discriminate|now apply search_step]. Qed.
Lemma search_le f f' : f <= f' -> mrec (find_candidates_r f) (find_candidates_r f').
Proof. induction 1 as [|f' _ IH]; intros a b c; [apply more_refl|]. intros h v h' E. now apply search_more, IH. Qed.
Lemma delta_more f f' : f <= f' -> more (delta f) (delta f').
Proof.
  intros H. pose proof (search_le f f' H) as M. unfold delta, delta_entity, find_candidates. mono.
Qed.

(** ** C60

    On every tree all of whose nodes have children -- whatever the objects behind
    it, shared or not -- delta succeeds, and the tree afterwards has the same words
    with the same namespaces, the same number of times each; only order and
    nesting change.  [fuel] is the budget the model gives the recursive search; one
    more than the number of words is enough, and a larger one changes nothing. *)
Theorem C60_delta_keeps_words fuel h T : wf h -> shows h T -> full T -> List.length (leaves T) < fuel ->
  exists h' T', delta fuel h = (Ok tt, h') /\ wf h' /\ shows h' T' /\ full T' /\ Permutation (labelled T) (labelled T').
Proof. intros W Sh Fu Hf. apply delta_u; try assumption. rewrite leaves_labelled, map_length in Hf. exact Hf. Qed.
Theorem C60_delta_fuel fuel fuel' h T : wf h -> shows h T -> full T -> List.length (leaves T) < fuel -> List.length (leaves T) < fuel' ->
  delta fuel h = delta fuel' h.
Proof.
  intros W Sh Fu H H'. destruct (C60_delta_keeps_words fuel h T W Sh Fu H) as (h1 & _ & E & _). destruct (C60_delta_keeps_words fuel' h T W Sh Fu H') as (h2 & _ & E' & _).
  destruct (Nat.le_ge_cases fuel fuel') as [L|L].
  - rewrite E. symmetry. now apply (delta_more fuel fuel' L).
  - rewrite E'. now apply (delta_more fuel' fuel L).
Qed.

(** Delta leaves the tree as it is when its root is a word or a compound, or when
    some word of the first child is neither verb, adverb, adposition nor particle. *)
Lemma rel_all_false t : ~ Forall relation_word (leaves t) -> rel_all t = false.
Proof. intros H. destruct (rel_all t) eqn:E; [|reflexivity]. exfalso. now apply H, rel_all_iff. Qed.
Lemma rel_all_true t : Forall relation_word (leaves t) -> rel_all t = true.
Proof. apply rel_all_iff. Qed.
Theorem C60_delta_idle fuel h T : wf h -> shows h T -> full T -> settled T -> delta fuel h = (Ok tt, h).
Proof.
  intros Wf (i & Ri & U) Fu Hs. unfold delta. rewrite (run_ok get_root_id _ h i h) by (unfold get_root_id; now rewrite Ri).
  assert (E : delta_entity fuel i h = (Ok i, h)); [|rewrite (run_ok _ _ _ _ _ E); unfold set_root_id; rewrite <- Ri; now destruct h].
  destruct (tget_u _ _ _ U) as (r & Er & Rr & Tr). destruct (deref_u _ _ _ Rr) as (o & Eo & _ & _ & _ & Et & _).
  unfold delta_entity. rewrite (run_ok _ _ _ _ _ Er), (run_ok _ _ _ _ _ Eo), Et. destruct T as [ns k|ns c ts]; [reflexivity|]. cbn [terminal]. destruct c; [reflexivity|].
  destruct Hs as [Hs|(t & rest & -> & Hn)]; [discriminate|]. destruct (children_ids_u _ _ _ _ _ Rr) as (cs & Ec & Us). destruct cs as [|c0 cs]; [inversion Us|]. apply F2_cons in Us as [U0 _].
  rewrite (run_ok _ _ h false h); [reflexivity|]. rewrite (run_ok _ _ _ _ _ Ec), (run_ok (nth_id (c0 :: cs) 0) _ h c0 h eq_refl), (delta_rel_u h c0 t Wf U0). now rewrite (rel_all_false t Hn).
Qed.

Lemma set_root_tref j0 h r T : tref h r T -> tref (Tr (table h) (cur_id h) (Some j0) (objs h) (n_obj h) (lists h) (n_list h)) r T.
Proof. intros (i & Ti & U). exists i. split; [exact Ti|]. now apply set_root_unf. Qed.

(** Which candidates delta builds, on every tree that does not use a node object
    twice: exactly the relations with arguments that [apart] describes -- see
    S_delta.v -- each at least once, and nothing else. *)
Lemma cand_parts h0 h bnd rel args r Arg : Inv h0 h -> cand2 h0 Arg h bnd rel args r -> exists k C, table h k = Some r /\ unfolds h k C /\ parts C rel args.
Proof.
  intros I (k & c0 & cs & Fe & _). destruct (free_tree h0 h k r _ _ I Fe) as (ns & c & ts & U & _ & Us & Es). destruct ts as [|t0 ts]; [inversion Us|]. cbn in Es. injection Es as E0 E1.
  exists k, (SNode ns c (t0 :: ts)). split; [exact (fe_tab h0 h _ _ _ _ Fe)|]. split; [exact U|]. now exists ns, c, t0, ts.
Qed.
Lemma tref_fun h r C C' : wf h -> tref h r C -> tref h r C' -> C = C'.
Proof.
  intros W (k & T & U) (k' & T' & U'). assert (k = k').
  { inversion U as [? r1 ? ? T1 O1|? r1 ? ? ? ? ? ? ? T1 O1]; inversion U' as [? r2 ? ? T2 O2|? r2 ? ? ? ? ? ? ? T2 O2]; subst; assert (r1 = r) by congruence; assert (r2 = r) by congruence; subst; congruence. }
  subst k'. exact (unfolds_fun h k C U C' U').
Qed.
Theorem C92_candidates fuel h i T : wf h -> unfolds h i T -> full T -> leafb T = false -> unshared h i -> List.length (leaves T) < fuel ->
  exists h' cands Ts, (run r <- tget i; find_candidates fuel r) h = (Ok cands, h')
    /\ Forall2 (fun c C => exists k, table h' k = Some c /\ unfolds h' k C) cands Ts
    /\ (forall C, In C Ts -> exists rel args, apart T rel args /\ parts C rel args)
    /\ (forall rel args, apart T rel args -> exists C, In C Ts /\ parts C rel args).
Proof.
  intros Wf U Fu Nl Un Hf. rewrite leaves_labelled, map_length in Hf. destruct (tget_u _ _ _ U) as (r & Er & Rr & Tr0). destruct (find_candidates2 fuel h i r T Wf U Fu Nl Tr0 Un Hf) as (h' & cands & E & [A B] & I').
  exists h', cands. set (sees := fun c C => exists k, table h' k = Some c /\ unfolds h' k C).
  assert (X : exists Ts, Forall2 sees cands Ts /\ (forall C, In C Ts -> exists rel args, apart T rel args /\ parts C rel args)).
  { clear - A I'. induction A as [|c cands (rel & args & Ha & Hc) _ (Ts & F & P)]; [exists []; split; [constructor|easy]|]. destruct (cand_parts _ _ _ _ _ _ _ I' Hc) as (k & C & Tk & Uk & Pk).
    exists (C :: Ts). split; [constructor; [now exists k|exact F]|]. intros D [<-|HD]; [now exists rel, args|now apply P]. }
  destruct X as (Ts & F & P). exists Ts. split; [now rewrite (run_ok _ _ _ _ _ Er)|]. split; [exact F|]. split; [exact P|].
  intros rel args Ha. destruct (B rel args Ha) as (c & Hc & Cc). destruct (Forall2_in_l _ _ _ _ F Hc) as (D & HD & Sd). destruct (cand_parts _ _ _ _ _ _ _ I' Cc) as (k & C & Tk & Uk & Pk).
  assert (D = C) by (apply (tref_fun h' c); [exact (inv_wf h h' I')|exact Sd|now exists k]). subst D. now exists C.
Qed.

(** So the tree after delta is one of these; where delta has nothing to do, it is the
    tree before. *)
Theorem C92_delta_rebuilds fuel h i T : wf h -> root_id h = Some i -> unfolds h i T -> full T -> unshared h i -> List.length (leaves T) < fuel ->
  exists h' C, delta fuel h = (Ok tt, h') /\ shows h' C /\ rebuilt T C.
Proof.
  intros Wf Ri U Fu Un Hf.
  assert (X : settled T \/ exists ns rel args, T = SNode ns false (rel :: args) /\ Forall relation_word (leaves rel)).
  { destruct T as [ns k|ns [|] [|rel args]]; [now left|left; now left|left; now left|apply full_node in Fu; easy|]. destruct (rel_all rel) eqn:E; [right|left; right].
    - exists ns, rel, args. split; [reflexivity|now apply rel_all_iff].
    - exists rel, args. split; [reflexivity|]. intros H. apply rel_all_iff in H. congruence. }
  destruct X as [St|(ns & rel & args & -> & Hr)].
  - exists h, T. split; [apply (C60_delta_idle fuel h T Wf); [now exists i|exact Fu|exact St]|]. split; [now exists i|]. left. now split.
  - assert (Hf' : List.length (labelled (SNode ns false (rel :: args))) < fuel) by (rewrite leaves_labelled, map_length in Hf; exact Hf).
    destruct (delta_entity_best fuel h i ns rel args Wf U Fu (rel_all_true _ Hr) Hf') as (r & h' & cands & Ts & O & pre & C & post & j & z & Tr0 & Ef & Ed & W' & FT & _ & _ & _ & _ & Es & Uj & _).
    destruct (C92_candidates fuel h i _ Wf U Fu eq_refl Un Hf) as (h2 & cands2 & Ts2 & E2 & F2 & P2 & _). rewrite (run_ok _ _ _ _ _ (tget_ok _ _ _ Tr0)), Ef in E2. injection E2 as <- <-.
    assert (ET : Ts = Ts2). { clear - FT F2 W'. revert Ts2 F2. induction FT as [|c C cs Cs Hc _ IH]; intros Ts2 F2; inversion F2 as [|? D ? Ds Hd F']; subst; [reflexivity|]. f_equal; [exact (tref_fun h' c C D W' Hc Hd)|now apply IH]. }
    subst Ts2. exists (Tr (table h') (cur_id h') (Some j) (objs h') (n_obj h') (lists h') (n_list h')), C. split; [unfold delta; rewrite (run_ok get_root_id _ h i h) by (unfold get_root_id; now rewrite Ri); rewrite (run_ok _ _ _ _ _ Ed); reflexivity|].
    split; [exists j; split; [reflexivity|now apply set_root_unf]|]. right. split; [|apply P2; rewrite Es; apply in_app_iff; right; now left].
    intros [H|(t & rest & E & H)]; [discriminate|]. injection E as <- <-. now apply H.
Qed.
(** The trees that alpha, beta and gamma build do not use an object twice. *)
Theorem C92_stages_unshared h T : built h -> shows h T -> exists i, root_id h = Some i /\ unfolds h i T /\ unshared h i.
Proof. intros B (i & Ri & U). destruct (built_unshared h B) as (j & Rj & Un). assert (j = i) by congruence. subst j. now exists i. Qed.

(** ** C61 *)

Lemma marked_leaves : forall T T', marked T T' -> leaves T' = leaves T /\ labelled T' = List.map (pair (Some (lit "1"))) (leaves T).
Proof.
  induction T as [ns k|ns c ts IH] using stree_ind'; intros T' M; inversion M as [|? ? ? b us Fm _]; subst; [now split|]. cbn [leaves labelled]. clear M.
  induction Fm as [|t u ts us Hm _ IHf]; [now split|]. inversion IH as [|? ? Ht Hts]; subst. destruct (Ht u Hm) as [A B]. destruct (IHf Hts) as [C D]. cbn. rewrite A, C, B, D, map_app. now split.
Qed.
Lemma less_articles_split l m : less_articles l m -> exists dropped, Permutation l (dropped ++ m) /\ Forall (fun p => is_article (snd p)) dropped.
Proof.
  induction 1 as [|x l m _ (d & P & F)|ns k l m A _ (d & P & F)].
  - exists []. now split.
  - exists d. split; [|exact F]. rewrite P. apply Permutation_middle.
  - exists ((ns, k) :: d). split; [cbn; now rewrite P|now constructor].
Qed.
Lemma nameless_in T : nameless T -> exists k, In (None, k) (labelled T).
Proof. induction 1 as [k|ns ts t Hi _ (k & Hk)]; [exists k; now left|]. exists k. cbn. apply in_flat_map. eauto. Qed.
Lemma built_shown h T : built h -> shows h T -> full T.
Proof. intros B Sh. destruct (built_shows h B) as (T' & Sh' & Fu). now rewrite (shows_fun h T T'). Qed.

(** The whole extractor, with its default stages, on every sentence: without a root
    it raises AttributeError; otherwise it returns a hyperedge, that of a tree whose
    words are the words of the sentence alpha keeps, each as often as there, but for
    some articles; and it records the text of the tree after each stage.  Which tree each
    stage makes of the one before is said exactly for alpha and gamma; beta only marks
    ([marked]); delta makes one of the trees [rebuilt] allows (S_delta.v). *)
Theorem C61_extractor fuel sentence :
  match sentence_root sentence with
  | None => read_sentence fuel default_stages sentence = Err AttributeError
  | Some t => List.length (kept t) < fuel ->
      exists T1 T2 T3 T v dropped,
        read_sentence fuel default_stages sentence = Ok (OEdge v, [Some (text_of T1); Some (text_of T2); Some (text_of T3); Some (text_of T); None])
        /\ hyperedge_of T v
        /\ Permutation (kept t) (dropped ++ leaves T) /\ Forall is_article dropped
        /\ Forall (fun p => fst p = Some (lit "1")) (labelled T)
        /\ T1 = alpha_tree t /\ marked T1 T2 /\ T3 = gamma_t T2 /\ Permutation (labelled T3) (labelled T) /\ rebuilt T3 T /\ wide T
  end.
Proof.
  pose proof (C54_alpha_keeps_every_word sentence) as X. destruct (sentence_root sentence) as [t|] eqn:Es.
  2: { unfold read_sentence, default_stages. cbn [List.map]. rewrite str_eqb_refl. destruct (alpha sentence) as [r h]. cbn [fst] in X. now subst r. }
  intros Hf. destruct X as (h1 & T1 & E1 & S1 & P1 & _). destruct (C64_alpha_tree sentence t Es) as (h1' & E1' & Sp1). assert (h1' = h1) by congruence. subst h1'. apply Sp1 in S1 as Eq1. assert (B1 : built h1) by exact (built_alpha _ _ E1).
  destruct (C55_beta_only_marks h1 T1 B1 S1) as (h2 & T2 & E2 & S2 & M2). assert (B2 : built h2) by exact (built_beta _ _ B1 E2).
  destruct (C56_gamma_keeps_words h2 T2 B2 S2) as (h3 & T3 & E3 & S3 & A3). assert (B3 : built h3) by exact (built_gamma _ _ B2 E3).
  assert (Eq3 : T3 = gamma_t T2) by (destruct (C56_gamma_is_a_function h2 T2 B2 S2) as (h3' & E3' & S3'); assert (h3' = h3) by congruence; subst h3'; now apply (shows_fun h3)).
  destruct (marked_leaves T1 T2 M2) as [Lv Lb]. destruct (less_articles_split _ _ A3) as (d & Pd & Fd).
  assert (Len : List.length (leaves T3) < fuel).
  { rewrite leaves_labelled, map_length. apply Permutation_length in Pd. rewrite app_length, Lb, map_length, (Permutation_length P1) in Pd. lia. }
  destruct (C60_delta_keeps_words fuel h3 T3 (built_wf _ B3) S3 (built_shown _ _ B3 S3) Len) as (h4 & T4 & E4 & W4 & S4 & F4 & P4).
  assert (PP : Permutation (List.map (pair (Some (lit "1"))) (leaves T1)) (d ++ labelled T4)) by (rewrite <- Lb, <- P4; exact Pd).
  assert (NS : Forall (fun p => fst p = Some (lit "1")) (labelled T4)).
  { apply Forall_forall. intros p Hp. assert (Hp' : In p (List.map (pair (Some (lit "1"))) (leaves T1))) by (apply (Permutation_in _ (Permutation_sym PP)), in_app_iff; now right).
    apply in_map_iff in Hp' as (k & <- & _). reflexivity. }
  destruct (C57_epsilon_output h4 T4 W4 S4) as [(v & E5 & H5 & _)|[_ N]].
  2: { exfalso. destruct (nameless_in T4 N) as (k & Hk). rewrite Forall_forall in NS. apply NS in Hk. discriminate. }
  assert (Wd : wide T4).
  { apply (delta_wide fuel h3 T3 h4 T4 (built_wf _ B3) S3); [|exact E4|exact S4]. rewrite Eq3. apply gamma_wide, (marked_wide T1 T2 M2). rewrite Eq1. apply alpha_wide. }
  assert (Rb : rebuilt T3 T4).
  { destruct (C92_stages_unshared h3 T3 B3 S3) as (i3 & R3 & U3 & Un3). destruct (C92_delta_rebuilds fuel h3 i3 T3 (built_wf _ B3) R3 U3 (built_shown _ _ B3 S3) Un3 Len) as (h4' & C & E4' & SC & Rb). assert (h4' = h4) by congruence. subst h4'. now rewrite (shows_fun h4 T4 C S4 SC). }
  exists T1, T2, T3, T4, v, (List.map snd d). split; [|split; [exact H5|split; [|split; [|split; [exact NS|split; [exact Eq1|split; [exact M2|split; [exact Eq3|split; [exact P4|split; [exact Rb|exact Wd]]]]]]]]]].
  - unfold read_sentence, default_stages. cbn [List.map]. rewrite str_eqb_refl, E1. unfold out_str.
    rewrite (C62_printing h1 T1 (built_wf _ B1) S1). cbn [fst rbind do_stages].
    change (do_stage fuel (lit "beta") (OTree h1)) with (on_tree beta (OTree h1)). unfold on_tree at 1. rewrite E2. cbn [rbind]. unfold out_str at 1. rewrite (C62_printing h2 T2 (built_wf _ B2) S2). cbn [fst rbind].
    change (do_stage fuel (lit "gamma") (OTree h2)) with (on_tree gamma (OTree h2)). unfold on_tree at 1. rewrite E3. cbn [rbind]. unfold out_str at 1. rewrite (C62_printing h3 T3 (built_wf _ B3) S3). cbn [fst rbind].
    change (do_stage fuel (lit "delta") (OTree h3)) with (on_tree (delta fuel) (OTree h3)). unfold on_tree at 1. rewrite E4. cbn [rbind]. unfold out_str at 1. rewrite (C62_printing h4 T4 W4 S4). cbn [fst rbind].
    change (do_stage fuel (lit "epsilon") (OTree h4)) with (match epsilon h4 with (Ok v, _) => Ok (OEdge v) | (Err e, _) => Err e end). rewrite E5. reflexivity.
  - apply (Permutation_map snd) in PP. rewrite map_map, map_app, <- leaves_labelled in PP. cbn in PP. rewrite map_id in PP. now rewrite <- P1.
  - clear - Fd. induction Fd; cbn; now constructor.
Qed.

(** Which lists of stages can work at all: alpha first, then stages on trees, and
    epsilon at most once, as the last.  Any other list fails on every sentence. *)
Definition tree_stage (n : str) : Prop := In n [lit "beta"; lit "gamma"; lit "delta"]%string.
Lemma do_stage_tree fuel n h o : do_stage fuel n (OTree h) = Ok o -> (tree_stage n /\ exists h', o = OTree h') \/ (n = lit "epsilon" /\ exists v, o = OEdge v).
Proof.
  unfold do_stage. destruct (str_eqb n (lit "alpha")); [discriminate|].
  assert (X : forall m, on_tree m (OTree h) = Ok o -> exists h', o = OTree h') by (intros m; unfold on_tree; destruct (m h) as [[[]|e] h']; intros E; [injection E as <-; eauto|discriminate]).
  destruct (str_eqb n (lit "beta")) eqn:Eb; [apply str_eqb_eq in Eb; left; split; [unfold tree_stage; cbn; auto|eauto]|].
  destruct (str_eqb n (lit "gamma")) eqn:Eg; [apply str_eqb_eq in Eg; left; split; [unfold tree_stage; cbn; auto|eauto]|].
  destruct (str_eqb n (lit "delta")) eqn:Ed; [apply str_eqb_eq in Ed; left; split; [unfold tree_stage; cbn; auto|eauto]|].
  destruct (str_eqb n (lit "epsilon")) eqn:Ee; [|discriminate]. apply str_eqb_eq in Ee. right. split; [exact Ee|]. destruct (epsilon h) as [[v|e] h']; [injection H as <-; eauto|discriminate].
Qed.
Lemma do_stage_edge fuel n v o : do_stage fuel n (OEdge v) <> Ok o.
Proof.
  unfold do_stage. destruct (str_eqb n (lit "alpha")); [discriminate|]. destruct (str_eqb n (lit "beta")); [discriminate|]. destruct (str_eqb n (lit "gamma")); [discriminate|].
  destruct (str_eqb n (lit "delta")); [discriminate|]. destruct (str_eqb n (lit "epsilon")); discriminate.
Qed.
Lemma do_stages_ok fuel : forall names h outs o outs', do_stages fuel names (OTree h) outs = Ok (o, outs') ->
  List.length outs' = List.length outs + List.length names
  /\ exists mid, Forall tree_stage mid /\ ((names = mid /\ exists h', o = OTree h') \/ (names = mid ++ [lit "epsilon"] /\ exists v, o = OEdge v)).
Proof.
  induction names as [|n names IH]; intros h outs o outs' E; cbn [do_stages] in E.
  - injection E as <- <-. split; [cbn; lia|]. exists []. split; [constructor|]. left. split; [reflexivity|eauto].
  - destruct (do_stage fuel n (OTree h)) as [o1|] eqn:E1; [|discriminate]. cbn [rbind] in E. destruct (out_str o1) as [s|] eqn:Eo; [|discriminate]. cbn [rbind] in E.
    destruct (do_stage_tree _ _ _ _ E1) as [[Ht (h1 & ->)]|[-> (v & ->)]].
    + apply IH in E as [L (mid & F & Hm)]. rewrite app_length in L. cbn [List.length] in *. split; [lia|]. exists (n :: mid). split; [now constructor|].
      destruct Hm as [[-> Ho]|[-> Ho]]; [left|right]; now split.
    + destruct names as [|n2 names]; cbn [do_stages] in E.
      * injection E as <- <-. rewrite app_length. split; [reflexivity|]. exists []. split; [constructor|]. right. split; [reflexivity|eauto].
      * destruct (do_stage fuel n2 (OEdge v)) as [o2|] eqn:E2; [|discriminate]. now apply do_stage_edge in E2.
Qed.
Theorem C61_stage_lists fuel stages sentence o outs : read_sentence fuel stages sentence = Ok (o, outs) ->
  List.length outs = List.length stages
  /\ exists mid, Forall tree_stage mid
     /\ ((stages = lit "alpha" :: mid /\ exists h, o = OTree h) \/ (stages = lit "alpha" :: mid ++ [lit "epsilon"] /\ exists v, o = OEdge v)).
Proof.
  unfold read_sentence. destruct stages as [|n rest]; [discriminate|]. destruct (str_eqb n (lit "alpha")) eqn:En; [|destruct (known_stage n); discriminate]. apply str_eqb_eq in En. subst n.
  destruct (alpha sentence) as [[u|e] h]; [|discriminate]. destruct (out_str (OTree h)) as [s|]; [|discriminate]. cbn [rbind]. intros E. apply do_stages_ok in E as [L (mid & F & Hm)].
  split; [cbn in *; lia|]. exists mid. split; [exact F|]. destruct Hm as [[-> Ho]|[-> Ho]]; [left|right]; now split.
Qed.
(** The first stage decides before anything is read: an empty list raises IndexError,
    another stage than alpha AttributeError, a name that is no stage RuntimeError. *)
Theorem C61_first_stage fuel sentence n rest :
  read_sentence fuel [] sentence = Err IndexError
  /\ (tree_stage n \/ n = lit "epsilon" -> read_sentence fuel (n :: rest) sentence = Err AttributeError)
  /\ (~ tree_stage n /\ n <> lit "epsilon" /\ n <> lit "alpha" -> read_sentence fuel (n :: rest) sentence = Err RuntimeError).
Proof.
  split; [reflexivity|]. unfold read_sentence, known_stage, tree_stage. split.
  - intros H. assert (K : among n ["alpha"; "beta"; "gamma"; "delta"; "epsilon"]%string = true) by (apply among_in; cbn in *; intuition). rewrite K.
    destruct (str_eqb n (lit "alpha")) eqn:En; [|reflexivity]. apply str_eqb_eq in En. subst n. exfalso. destruct H as [H|H]; [|discriminate]. cbn in H. intuition discriminate.
  - intros (Ht & He & Ha). destruct (str_eqb n (lit "alpha")) eqn:En; [now apply str_eqb_eq in En|]. destruct (among n _) eqn:K; [|reflexivity]. apply among_in in K. exfalso. cbn in K, Ht. intuition.
Qed.

(** *** The hypotheses are met: a sentence with a compound relation that delta rebuilds,
    and the hyperedge with an article less than the sentence *)
Example telmo_kept : List.map t_word (kept telmo) = List.map lit ["going"; "telmo"; "is"; "to"; "gym"; "the"]%string.
Proof. vm_compute. reflexivity. Qed.
Example telmo_fits : sentence_root [telmo] = Some telmo /\ List.length (kept telmo) < 20.
Proof. split; [reflexivity|]. vm_compute. lia. Qed.
Lemma delta_example : exists h T, wf h /\ shows h T /\ full T /\ List.length (leaves T) < 20
  /\ exists h' T', delta 20 h = (Ok tt, h') /\ shows h' T' /\ text_of T = lit "(is_going telmo (to gym))" /\ text_of T' = lit "(is_going_to telmo gym)".
Proof.
  pose proof (C61_extractor 20 [telmo]) as X. change (sentence_root [telmo]) with (Some telmo) in X. destruct (X (proj2 telmo_fits)) as (T1 & T2 & T3 & T & v & d & E & _). clear X.
  pose proof (C54_alpha_keeps_every_word [telmo]) as X. change (sentence_root [telmo]) with (Some telmo) in X. destruct X as (h1 & U1 & E1 & S1 & Q1 & _). assert (B1 : built h1) by exact (built_alpha _ _ E1).
  destruct (C55_beta_only_marks h1 U1 B1 S1) as (h2 & U2 & E2 & S2 & M2). assert (B2 : built h2) by exact (built_beta _ _ B1 E2).
  destruct (C56_gamma_keeps_words h2 U2 B2 S2) as (h3 & U3 & E3 & S3 & A3). assert (B3 : built h3) by exact (built_gamma _ _ B2 E3).
  pose proof (built_wf _ B3) as W3. pose proof (built_shown _ _ B3 S3) as F3.
  assert (L3 : List.length (leaves U3) < 20).
  { destruct (less_articles_split _ _ A3) as (d3 & Pd3 & _). destruct (marked_leaves U1 U2 M2) as [_ Lb]. rewrite leaves_labelled, map_length. apply Permutation_length in Pd3.
    rewrite app_length, Lb, map_length, (Permutation_length Q1) in Pd3. pose proof (proj2 telmo_fits). lia. }
  destruct (C60_delta_keeps_words 20 h3 U3 W3 S3 F3 L3) as (h4 & U4 & E4 & W4 & S4 & _).
  exists h3, U3. split; [exact W3|]. split; [exact S3|]. split; [exact F3|]. split; [exact L3|]. exists h4, U4. split; [exact E4|]. split; [exact S4|].
  assert (R3 : fst (tree_str (snd (gamma (snd (beta (snd (alpha [telmo]))))))) = Ok (lit "(is_going telmo (to gym))")) by (vm_compute; reflexivity).
  assert (R4 : fst (tree_str (snd (delta 20 (snd (gamma (snd (beta (snd (alpha [telmo]))))))))) = Ok (lit "(is_going_to telmo gym)")) by (vm_compute; reflexivity).
  rewrite E1 in R3, R4. cbn [snd] in R3, R4. rewrite E2 in R3, R4. cbn [snd] in R3, R4. rewrite E3 in R3, R4. cbn [snd] in R3, R4. rewrite E4 in R4. cbn [snd] in R4.
  rewrite (C62_printing _ _ W3 S3) in R3. rewrite (C62_printing _ _ W4 S4) in R4. cbn [fst] in R3, R4. injection R3 as R3. injection R4 as R4. now split.
Qed.

(** ** C70

    Two elements of a tree are equal (==) exactly when they have the same shape and
    the same words -- text, part of speech, label -- in it; asking changes nothing. *)
Theorem C70_equality h i j a b t u : wf h -> unfolds h i t -> unfolds h j u -> table h i = Some a -> table h j = Some b ->
  exists e, (run fuel <- budget; elem_eq fuel a b) h = (Ok e, h) /\ (e = true <-> equal_trees t u).
Proof.
  intros W U V A B. destruct (elem_eq_u (S (n_obj h)) h a b t u) as (e & E & H); [pose proof (unf_depth h i t W U); lia|now exists i|now exists j|].
  exists e. split; [|exact H]. now rewrite (run_ok _ _ _ _ _ (budget_u h)).
Qed.
(** Equality of trees is an equivalence. *)
Lemma equal_trees_ind' (P : stree -> stree -> Prop) :
  (forall ns k ns' k', same_word k k' -> P (SLeaf ns k) (SLeaf ns' k')) ->
  (forall ns c ts ns' c' ts', Forall2 equal_trees ts ts' -> Forall2 P ts ts' -> P (SNode ns c ts) (SNode ns' c' ts')) ->
  forall t u, equal_trees t u -> P t u.
Proof.
  intros HL HN. induction t as [ns k|ns c ts IH] using stree_ind'; intros u E; inversion E as [? ? ? ? A B C|? ? ? ns' c' us F]; subst; [apply HL; now split|].
  apply HN; [exact F|]. clear - F IH. induction F; [constructor|]. inversion IH; subst. constructor; auto.
Qed.
Theorem C70_equality_equivalence :
  (forall t, equal_trees t t) /\ (forall t u, equal_trees t u -> equal_trees u t) /\ (forall t u v, equal_trees t u -> equal_trees u v -> equal_trees t v).
Proof.
  split; [|split].
  - induction t as [ns k|ns c ts IH] using stree_ind'; [now constructor|]. constructor. induction IH; constructor; assumption.
  - apply equal_trees_ind'; [intros ns k ns' k' (A & B & C); now constructor|]. intros ns c ts ns' c' ts' _ F. constructor. induction F; constructor; assumption.
  - intros t u v E. revert t u E v. apply (equal_trees_ind' (fun t u => forall v, equal_trees u v -> equal_trees t v)).
    + intros ns k ns' k' (A & B & C) v E. inversion E; subst. constructor; congruence.
    + intros ns c ts ns' c' ts' _ F v E. inversion E as [|? ? ? ? ? us G]; subst. constructor. clear - F G. revert us G. induction F; intros us G; inversion G; subst; constructor; auto.
Qed.

(** When the root's first child is made of relation words, delta builds candidates --
    [find_candidates] returns them, at least one, each with the words of the tree --
    and makes the root the first of those that fit best: better than every one
    before it, at least as well as every one after it. *)
Theorem C70_delta_takes_the_first_best fuel h i ns rel args : let T := SNode ns false (rel :: args) in
  wf h -> root_id h = Some i -> unfolds h i T -> full T -> Forall relation_word (leaves rel) -> List.length (leaves T) < fuel ->
  exists h' cands Ts O pre C post z,
    fst ((run r <- tget i; find_candidates fuel r) h) = Ok cands
    /\ delta fuel h = (Ok tt, h')
    /\ Forall2 (fun c t => exists k, table h' k = Some c /\ unfolds h' k t) cands Ts
    /\ Forall (fun t => Permutation (labelled T) (labelled t)) Ts
    /\ unfolds h' i O /\ labelled O = labelled T
    /\ Ts = pre ++ C :: post /\ shows h' C /\ fits O C z
    /\ Forall (fun t => exists z', fits O t z' /\ (z' < z)%Z) pre
    /\ Forall (fun t => exists z', fits O t z' /\ (z' <= z)%Z) post.
Proof.
  intros T Wf Ri U Fu Hr Hf. assert (Hf' : List.length (labelled T) < fuel) by (rewrite leaves_labelled, map_length in Hf; exact Hf).
  destruct (delta_entity_best fuel h i ns rel args Wf U Fu (rel_all_true _ Hr) Hf') as (r & h' & cands & Ts & O & pre & C & post & j & z & Tr0 & Ef & Ed & W' & FT & FW & Uo & _ & Lo & Es & Uj & Hz & Fp & Fq).
  exists (Tr (table h') (cur_id h') (Some j) (objs h') (n_obj h') (lists h') (n_list h')), cands, Ts, O, pre, C, post, z.
  split; [rewrite (run_ok _ _ _ _ _ (tget_ok _ _ _ Tr0)), Ef; reflexivity|].
  split; [unfold delta; rewrite (run_ok get_root_id _ h i h) by (unfold get_root_id; now rewrite Ri); rewrite (run_ok _ _ _ _ _ Ed); reflexivity|].
  split; [clear - FT; induction FT as [|c t cs ts R _ IH]; [constructor|constructor; [now apply (set_root_tref j)|exact IH]]|].
  split; [clear - FW; induction FW as [|t ts [_ P] _ IH]; [constructor|now constructor]|].
  split; [now apply set_root_unf|]. split; [exact Lo|]. split; [exact Es|]. split; [exists j; split; [reflexivity|now apply set_root_unf]|]. split; [exact Hz|]. now split.
Qed.
(** The fit of a candidate is one number. *)
Theorem C70_fit_is_a_function O C z z' : fits O C z -> fits O C z' -> z = z' /\ (0 <= z)%Z.
Proof. intros H K. split; [now apply (fits_fun O C)|now apply (fits_pos O C)]. Qed.

(** *** The hypotheses are met, and the order matters: for "telmo is going to the gym"
    there are three candidates with fits 1000, 100, 1000; the first is taken. *)
Definition telmo3 : tree := snd (gamma (snd (beta (snd (alpha [telmo]))))).
Example telmo_candidates :
  fst ((run i <- get_root_id; run r <- tget i; run cs <- find_candidates 20 r; run zs <- smap (fun c => node_fit c r) cs; run ss <- smap (elem_str 100) cs; sret (combine ss zs)) telmo3)
  = Ok [(lit "(is_going_to telmo gym)", 1000%Z); (lit "((is_going to) telmo gym)", 100%Z); (lit "(is_going telmo (to gym))", 1000%Z)].
Proof. vm_compute. reflexivity. Qed.
Fixpoint read_off (f : nat) (h : tree) (i : Z) : option stree :=
  match f with
  | O => None
  | S f =>
      match table h i with
      | Some r => match objs h r with
                  | Some (OLeaf j ns k) => if Z.eqb i j then Some (SLeaf ns k) else None
                  | Some (ONode j ns l _ _ c) =>
                      if Z.eqb i j then
                        match lists h l with
                        | Some cs => option_map (SNode ns c) (List.fold_right (fun x acc => match read_off f h x, acc with Some t, Some ts => Some (t :: ts) | _, _ => None end) (Some []) cs)
                        | None => None
                        end
                      else None
                  | None => None
                  end
      | None => None
      end
  end.
Lemma read_off_ok : forall f h i t, read_off f h i = Some t -> unfolds h i t.
Proof.
  induction f as [|f IH]; intros h i t E; [discriminate|]. cbn [read_off] in E. destruct (table h i) as [r|] eqn:Ti; [|discriminate]. destruct (objs h r) as [[j ns k|j ns l ls y c]|] eqn:O; [| |discriminate].
  - destruct (Z.eqb_spec i j) as [<-|]; [|discriminate]. injection E as <-. now apply (unfolds_leaf h i r).
  - destruct (Z.eqb_spec i j) as [<-|]; [|discriminate]. destruct (lists h l) as [cs|] eqn:L; [|discriminate].
    match type of E with option_map _ ?x = _ => destruct x as [ts|] eqn:Ef; [|discriminate] end. cbn [option_map] in E. injection E as <-. apply (unfolds_node h i r ns l ls y c cs ts Ti O L).
    clear - IH Ef. revert ts Ef. induction cs as [|x cs IHc]; intros ts Ef; cbn [fold_right] in Ef; [injection Ef as <-; constructor|].
    destruct (read_off f h x) as [t|] eqn:Ex; [|discriminate]. match type of Ef with match ?y with _ => _ end = _ => destruct y as [us|] eqn:Eu; [|discriminate] end. injection Ef as <-. constructor; [now apply IH|now apply IHc].
Qed.
Definition searched (t : option stree) : bool :=
  match t with Some (SNode ns false (rel :: args)) => rel_all rel && Nat.ltb (List.length (leaves (SNode ns false (rel :: args)))) 20 | _ => false end.
Lemma C70_nonvacuous : exists i ns rel args, let T := SNode ns false (rel :: args) in
  wf telmo3 /\ root_id telmo3 = Some i /\ unfolds telmo3 i T /\ full T /\ Forall relation_word (leaves rel) /\ List.length (leaves T) < 20.
Proof.
  pose proof (C54_alpha_keeps_every_word [telmo]) as X. change (sentence_root [telmo]) with (Some telmo) in X. destruct X as (h1 & U1 & E1 & S1 & Q1 & _). assert (B1 : built h1) by exact (built_alpha _ _ E1).
  destruct (C55_beta_only_marks h1 U1 B1 S1) as (h2 & U2 & E2 & S2 & M2). assert (B2 : built h2) by exact (built_beta _ _ B1 E2).
  destruct (C56_gamma_keeps_words h2 U2 B2 S2) as (h3 & U3 & E3 & S3 & A3). assert (B3 : built h3) by exact (built_gamma _ _ B2 E3).
  assert (E : telmo3 = h3) by (unfold telmo3; rewrite E1; cbn [snd]; rewrite E2; cbn [snd]; rewrite E3; reflexivity).
  assert (B : built telmo3) by (rewrite E; exact B3). clear - B.
  assert (Ri : root_id telmo3 = Some 15%Z) by (vm_compute; reflexivity). assert (Hs : searched (read_off 20 telmo3 15) = true) by (vm_compute; reflexivity).
  destruct (read_off 20 telmo3 15) as [[ns k|ns [|] [|rel args]]|] eqn:Er; try discriminate Hs. apply read_off_ok in Er. cbn [searched] in Hs. apply andb_true_iff in Hs as [H1 H2]. apply Nat.ltb_lt in H2.
  exists 15%Z, ns, rel, args. split; [exact (built_wf _ B)|]. split; [exact Ri|]. split; [exact Er|]. split; [exact (built_shown telmo3 _ B (ex_intro _ 15%Z (conj Ri Er)))|]. split; [|exact H2].
  apply Forall_forall. intros x Hx. unfold rel_all in H1. rewrite forallb_forall in H1. now apply H1, among_in in Hx.
Qed.

(** *** C92_candidates and C92_delta_rebuilds: the hypotheses are met, and what [apart] says of
    a small tree: a relation [g] with the arguments [t] and ([o] [y]), where [o] is a relation word *)
Lemma C92_candidates_nonvacuous : exists i T, wf telmo3 /\ root_id telmo3 = Some i /\ unfolds telmo3 i T /\ full T /\ leafb T = false /\ ~ settled T /\ unshared telmo3 i /\ List.length (leaves T) < 20.
Proof.
  destruct C70_nonvacuous as (i & ns & rel & args & Wf & Ri & U & Fu & Hr & Hl). exists i, (SNode ns false (rel :: args)). split; [exact Wf|]. split; [exact Ri|]. split; [exact U|]. split; [exact Fu|]. split; [reflexivity|].
  split; [intros [H|(t & rest & E & H)]; [discriminate|injection E as <- <-; now apply H]|]. split; [|exact Hl].
  assert (B : built telmo3).
  { pose proof (C54_alpha_keeps_every_word [telmo]) as X. change (sentence_root [telmo]) with (Some telmo) in X. destruct X as (h1 & U1 & E1 & S1 & Q1 & _). assert (B1 : built h1) by exact (built_alpha _ _ E1).
    destruct (C55_beta_only_marks h1 U1 B1 S1) as (h2 & U2 & E2 & S2 & M2). assert (B2 : built h2) by exact (built_beta _ _ B1 E2).
    destruct (C56_gamma_keeps_words h2 U2 B2 S2) as (h3 & U3 & E3 & S3 & A3). assert (B3 : built h3) by exact (built_gamma _ _ B2 E3).
    assert (E : telmo3 = h3) by (unfold telmo3; rewrite E1; cbn [snd]; rewrite E2; cbn [snd]; rewrite E3; reflexivity). rewrite E. exact B3. }
  destruct (built_unshared telmo3 B) as (j & Rj & Un). assert (j = i) by congruence. now subst j.
Qed.
Lemma apart_example (g t o y : token) rel args : relation_word o ->
  let leaf k := SLeaf None k in let w k := (@None str, k) in
  apart (SNode None false [leaf g; leaf t; SNode None false [leaf o; leaf y]]) rel args
  <-> (rel = [w g; w o] /\ args = [[w t]; [w y]]) \/ (rel = [w g] /\ args = [[w t]; [w o; w y]]).
Proof.
  intros Ho leaf w. rewrite apart_iff, adding_cons. cbn [labelled leaf flat_map app].
  assert (A : forall m ms, apart (SNode None false [leaf o; leaf y]) m ms <-> m = [w o] /\ ms = [[w y]]).
  { intros m ms. rewrite apart_iff, adding_cons, adding_nil. split; [|intros [-> ->]; left; now split]. intros [[-> ->]|(m1 & ms1 & H & _)]; [now split|]. exfalso. exact (apart_leaf _ _ _ _ H). }
  assert (B : forall a b, adding [w g] [[w t]] [SNode None false [leaf o; leaf y]] a b <-> (a = [w g; w o] /\ b = [[w t]; [w y]]) \/ (a = [w g] /\ b = [[w t]; [w o; w y]])).
  { intros a b. rewrite adding_cons, adding_nil. cbn [labelled leaf flat_map app]. split.
    - intros [[-> ->]|(m & ms & H & _ & [[H1 _]|H1])]; [right; now split|discriminate|]. apply A in H as [-> ->]. apply adding_nil in H1 as [-> ->]. left. now split.
    - intros [[-> ->]|[-> ->]]; [right|left; now split]. exists [w o], [[w y]]. split; [now apply A|]. split; [constructor; [exact Ho|constructor]|]. right. constructor. }
  split.
  - intros [H|(m & ms & H & _)]; [now apply B|]. exfalso. exact (apart_leaf _ _ _ _ H).
  - intros H. left. now apply B.
Qed.
