(** * C_wordnet.v -- property theorem C53 (WordNet reader) *)

From Verif Require Import Py M_symbol M_edge M_sql M_hypergraph M_batch M_wordnet P_py Spec P_edge P_perm P_range P_query P_symbol
  S_history M_driver P_ops P_hist P_graph P_answers P_crash C_graph C_batch.
From Coq Require Import Permutation String.
Open Scope list_scope.

(** ** Specification: the facts of a WordNet *)

(** lemma/wn.synset *)
Definition lsym (l : lemma_ref) : value := VStr (l_name l ++ lit "/wn." ++ l_synset l).
Definition triple (rel : string) (a b : value) : value := VTup [VStr (lit rel); a; b].

Definition parts_of_speech : list (string * string) :=
  [("n", "noun/gb"); ("v", "verb/gb"); ("a", "adjective/gb"); ("s", "adjective/gb"); ("r", "adverb/gb")]%string.
Definition synset_relations : list (string * (synset -> list (list lemma_ref))) :=
  [("hypernym/gb", s_hypernyms); ("instance_hypernym/gb", s_instance_hypernyms); ("member_meronym/gb", s_member_meronyms);
   ("attribute/gb", s_attributes); ("entailment/gb", s_entailments); ("cause/gb", s_causes);
   ("also_see/gb", s_also_sees); ("verb_group/gb", s_verb_groups); ("similar_to/gb", s_similar_tos)]%string.
Definition lemma_relations : list (string * (lemma -> list lemma_ref)) :=
  [("antonym/gb", l_antonyms); ("pertainym/gb", l_pertainyms); ("derivationally_related_form/gb", l_derived)]%string.

(** The relation edges of a synset; its first lemma stands for it. *)
Inductive fact (s : synset) : value -> Prop :=
| fact_pos r rest pos sym : s_lemmas s = r :: rest -> s_part s = lit pos -> In (pos, sym) parts_of_speech ->
    fact s (triple "pos/gb" (lsym (l_ref r)) (VStr (lit sym)))
| fact_synonym r rest l : s_lemmas s = r :: rest -> In l rest ->
    fact s (triple "synonym/gb" (lsym (l_ref r)) (lsym (l_ref l)))
| fact_synset r rest rel f t ts : s_lemmas s = r :: rest -> In (rel, f) synset_relations -> In (t :: ts) (f s) ->
    fact s (triple rel (lsym (l_ref r)) (lsym t))
| fact_lemma l rel f m : In l (s_lemmas s) -> In (rel, f) lemma_relations -> In m (f l) ->
    fact s (triple rel (lsym (l_ref l)) (lsym m)).

(** Well-formed WordNets: every synset has a lemma and a known part of speech,
    every related synset has a lemma, names are storable texts. *)
Definition name_ok (l : lemma_ref) : Prop :=
  no_white (l_name l) = true /\ no_white (l_synset l) = true
  /\ forallb is_scalar (l_name l) = true /\ db_text (l_synset l) = true
  /\ starts_with c_lpar (l_name l) = false /\ ends_with c_rpar (l_synset l) = false.
Record synset_ok (s : synset) : Prop := {
  so_lemmas : s_lemmas s <> [];
  so_pos : exists pos sym, s_part s = lit pos /\ In (pos, sym) parts_of_speech;
  so_names : forall l, In l (s_lemmas s) -> name_ok (l_ref l);
  so_related : forall rel f ts, In (rel, f) synset_relations -> In ts (f s) -> exists t r, ts = t :: r /\ name_ok t;
  so_lrelated : forall l rel f m, In l (s_lemmas s) -> In (rel, f) lemma_relations -> In m (f l) -> name_ok m }.

(** ** Proof *)

Definition bel (e : value) : write := WBelief wn_source e (-1).
Lemma lemma2symbol_eq l : lemma2symbol l = Ok (lsym l).
Proof. reflexivity. Qed.
Lemma belief_eq max e s : belief max e s = buffered_all max [bel e] s.
Proof. unfold belief. cbn. destruct (bhg_add_belief max wn_source e (-1) s) as [[[]|x] s']; reflexivity. Qed.
Lemma buffered_all_app max a b s : buffered_all max (a ++ b) s = bbind (buffered_all max a) (fun _ => buffered_all max b) s.
Proof.
  revert s. induction a as [|w a IH]; intros s; [reflexivity|]. unfold bbind in *. cbn.
  destruct (buffered max w s) as [[u|x] s']; [apply IH|reflexivity].
Qed.
Lemma bfor_eq {A} max (f : A -> BM unit) (g : A -> list value) l :
  (forall x, In x l -> forall s, f x s = buffered_all max (List.map bel (g x)) s) ->
  forall s, bfor l f s = buffered_all max (List.map bel (flat_map g l)) s.
Proof.
  induction l as [|x l IH]; intros H s; [reflexivity|]. cbn [bfor flat_map]. rewrite map_app, buffered_all_app. unfold bbind.
  rewrite H by (now left). destruct (buffered_all max (List.map bel (g x)) s) as [[u|e] s']; [|reflexivity].
  apply IH. intros y Hy. apply H. now right.
Qed.
Lemma seq_eq max (m k : BM unit) a b :
  (forall s, m s = buffered_all max (List.map bel a) s) -> (forall s, k s = buffered_all max (List.map bel b) s) ->
  forall s, (m >> k) s = buffered_all max (List.map bel (a ++ b)) s.
Proof.
  intros H1 H2 s. rewrite map_app, buffered_all_app. unfold bbind. rewrite H1. destruct (buffered_all max (List.map bel a) s) as [[u|e] s']; [apply H2|reflexivity].
Qed.

Lemma fm1 {A B} (f : A -> B) l : flat_map (fun b => [f b]) l = List.map f l.
Proof. induction l as [|x l IH]; [reflexivity|]. cbn. now rewrite IH. Qed.
(** the edges in the order in which the reader adds them *)
Definition rel_edges (rel : string) (a : lemma_ref) (l : list lemma_ref) : list value := List.map (fun b => triple rel (lsym a) (lsym b)) l.
Definition heads (ts : list (list lemma_ref)) : list lemma_ref := flat_map (fun l => match l with t :: _ => [t] | [] => [] end) ts.
Definition edges_of (s : synset) : list value :=
  match s_lemmas s with
  | [] => []
  | r :: rest =>
      [triple "pos/gb" (lsym (l_ref r)) (pos2symbol (s_part s))]
      ++ rel_edges "synonym/gb" (l_ref r) (List.map l_ref rest)
      ++ flat_map (fun p => rel_edges (fst p) (l_ref r) (heads (snd p s))) synset_relations
      ++ flat_map (fun l => flat_map (fun p => rel_edges (fst p) (l_ref l) (snd p l)) lemma_relations) (s_lemmas s)
  end.
Lemma add_relationship_eq max rel a b s : add_relationship max rel a b s = buffered_all max (List.map bel [triple rel (lsym a) (lsym b)]) s.
Proof. unfold add_relationship, bbind, blift. rewrite !lemma2symbol_eq. apply belief_eq. Qed.
Lemma plr_eq max rel a l s : process_lemma_relationships max a l rel s = buffered_all max (List.map bel (rel_edges rel a l)) s.
Proof.
  unfold process_lemma_relationships, rel_edges.
  rewrite (bfor_eq max _ (fun b => [triple rel (lsym a) (lsym b)])) by (intros b _ s'; apply add_relationship_eq).
  now rewrite fm1.
Qed.
Lemma pr_eq max rel a ts s : (forall x, In x ts -> x <> []) ->
  process_relationships max a ts rel s = buffered_all max (List.map bel (rel_edges rel a (heads ts))) s.
Proof.
  intros H. unfold process_relationships.
  rewrite (bfor_eq max _ (fun l => match l with t :: _ => [triple rel (lsym a) (lsym t)] | [] => [] end)).
  - replace (rel_edges rel a (heads ts)) with (flat_map (fun l : list lemma_ref => match l with t :: _ => [triple rel (lsym a) (lsym t)] | [] => [] end) ts); [reflexivity|].
    unfold rel_edges, heads. clear. induction ts as [|[|t l] ts IH]; [reflexivity|exact IH|]. cbn. now f_equal.
  - intros [|t l] Hx s'; [now apply H in Hx|]. unfold bbind, blift, nth_res. cbn. apply add_relationship_eq.
Qed.
Lemma process_synset_eq max s0 s : synset_ok s0 -> process_synset max s0 s = buffered_all max (List.map bel (edges_of s0)) s.
Proof.
  intros [Hl _ _ Hr _]. unfold process_synset, edges_of. destruct (s_lemmas s0) as [|r rest] eqn:E; [easy|]. clear Hl.
  assert (N : forall rel f x, In (rel, f) synset_relations -> In x (f s0) -> x <> []).
  { intros rel f x H1 H2. destruct (Hr rel f x H1 H2) as (t & q & -> & _). easy. }
  unfold bbind at 1 2. unfold blift. cbn [nth_res nth_error]. rewrite lemma2symbol_eq.
  apply seq_eq; [intros s'; apply belief_eq|]. clear s. intros s.
  apply seq_eq; [clear s; intros s'|].
  { cbn [tl]. rewrite (bfor_eq max _ (fun l => [triple "synonym/gb" (lsym (l_ref r)) (lsym (l_ref l))])) by (intros b _ s''; apply add_relationship_eq).
    unfold rel_edges. rewrite fm1, (map_map l_ref). reflexivity. }
  clear s. intros s. set (ll := r :: rest). set (g := fun l => flat_map _ lemma_relations).
  change (flat_map (fun p => rel_edges (fst p) (l_ref r) (heads (snd p s0))) synset_relations) with
    (List.concat (List.map (fun p => rel_edges (fst p) (l_ref r) (heads (snd p s0))) synset_relations)).
  cbn [List.concat List.map synset_relations fst snd]. rewrite <- !app_assoc. cbn [app].
  assert (Q : forall rel f, In (rel, f) synset_relations -> forall s', process_relationships max (l_ref r) (f s0) rel s' =
       buffered_all max (List.map bel (rel_edges rel (l_ref r) (heads (f s0)))) s').
  { intros rel f Hf s'. apply pr_eq. intros x. now apply (N rel f). }
  do 9 (apply seq_eq; [apply Q; unfold synset_relations; cbn; tauto|clear s; intros s]).
  apply bfor_eq. intros l _ s'. unfold g. cbn [flat_map lemma_relations fst snd]. rewrite app_nil_r.
  apply seq_eq; [intros s''; apply plr_eq|]. clear s'. intros s'. apply seq_eq; intros s''; apply plr_eq.
Qed.

Lemma in_heads t ts : In t (heads ts) <-> exists r, In (t :: r) ts.
Proof.
  unfold heads. rewrite in_flat_map. split.
  - intros ([|x l] & H & Hx); [easy|]. destruct Hx as [<-|[]]. now exists l.
  - intros (r & H). exists (t :: r). split; [exact H|now left].
Qed.
Lemma pos2symbol_known pos sym : In (pos, sym) parts_of_speech -> pos2symbol (lit pos) = VStr (lit sym).
Proof. intros H. repeat (destruct H as [E|H]; [injection E as <- <-; reflexivity|]). easy. Qed.
Lemma lit_inj a : forall b, lit a = lit b -> a = b.
Proof.
  induction a as [|x a IH]; intros [|y b] E; try discriminate; [reflexivity|]. cbn in E. injection E as E1 E2.
  f_equal; [|now apply IH]. rewrite <- (Ascii.ascii_N_embedding x), <- (Ascii.ascii_N_embedding y). now rewrite E1.
Qed.
Lemma edges_fact s e : synset_ok s -> In e (edges_of s) <-> fact s e.
Proof.
  intros [Hl (pos & sym & Hp & Hs) _ Hr _]. unfold edges_of. destruct (s_lemmas s) as [|r rest] eqn:E; [easy|].
  rewrite Hp, (pos2symbol_known pos sym Hs). rewrite !in_app_iff, !in_flat_map. unfold rel_edges. split.
  - intros [[<-|[]]|[H|[((rel, f) & H1 & H2)|(l & H1 & H2)]]].
    + now apply (fact_pos s r rest pos sym).
    + apply in_map_iff in H as (x & <- & Hx). apply in_map_iff in Hx as (l & <- & Hx). now apply (fact_synonym s r rest l).
    + apply in_map_iff in H2 as (t & <- & Ht). cbn [fst snd] in *. apply in_heads in Ht as (ts & Ht). now apply (fact_synset s r rest rel f t ts).
    + apply in_flat_map in H2 as ((rel, f) & H2 & H3). apply in_map_iff in H3 as (m & <- & Hm). cbn [fst snd] in *.
      apply (fact_lemma s l rel f m); [now rewrite E|exact H2|exact Hm].
  - intros [r' rest' pos' sym' E' Hp' Hs'|r' rest' l E' Hx|r' rest' rel f t ts E' Hf Ht|l rel f m Hx Hf Hm].
    + rewrite E in E'. injection E' as <- <-. left. left. rewrite Hp in Hp'. apply lit_inj in Hp' as <-.
      apply pos2symbol_known in Hs, Hs'. unfold triple. congruence.
    + rewrite E in E'. injection E' as <- <-. right. left. apply in_map_iff. exists (l_ref l). split; [reflexivity|now apply in_map].
    + rewrite E in E'. injection E' as <- <-. right. right. left. exists (rel, f). split; [exact Hf|]. apply in_map_iff. exists t. split; [reflexivity|].
      apply in_heads. now exists ts.
    + rewrite E in Hx. right. right. right. exists l. split; [exact Hx|]. apply in_flat_map. exists (rel, f). split; [exact Hf|].
      apply in_map_iff. now exists m.
Qed.

(** storability *)
Lemma forallb_has_not {A} (p : A -> bool) x l : In x l -> p x = false -> forallb p l = false.
Proof. intros H1 H2. destruct (forallb p l) eqn:E; [|reflexivity]. rewrite forallb_forall in E. rewrite E in H2; easy. Qed.

Definition numc (c : char) : bool := is_digit c || N.eqb c c_dot || N.eqb c c_minus.
Lemma numeric_chars s : looks_numeric s = true -> forallb numc s = true.
Proof.
  assert (D : forall l, forallb is_digit l = true -> forallb numc l = true).
  { intros l H. rewrite forallb_forall in *. intros x Hx. unfold numc. now rewrite (H x Hx). }
  assert (M : forall l, forallb numc (snd (strip_minus l)) = true -> forallb numc l = true).
  { intros [|c l] H; [reflexivity|]. cbn in H. destruct (N.eqb c c_minus) eqn:E; [|exact H]. cbn in *. unfold numc at 1. now rewrite E, !orb_true_r. }
  intros H. apply M. unfold looks_numeric, int_shape, dbl_shape in H. set (r := snd (strip_minus s)) in *. clearbody r.
  apply orb_prop in H as [H|H]; [now apply D|].
  assert (S : forall r a b, split_dot r = Some (a, b) -> r = a ++ c_dot :: b).
  { clear. induction r as [|c r IH]; intros a b H; [discriminate|]. cbn in H. destruct (N.eqb c c_dot) eqn:E.
    - injection H as <- <-. apply N.eqb_eq in E as ->. reflexivity.
    - destruct (split_dot r) as [[x y]|]; [|discriminate]. injection H as <- <-. cbn. f_equal. now apply IH. }
  destruct (split_dot r) as [[a b]|] eqn:E; [|discriminate]. apply S in E as ->. apply andb_prop in H as [H1 H2].
  rewrite forallb_app. cbn. rewrite (D a H1), (D b H2). reflexivity.
Qed.
Lemma ends_app c a b : b <> [] -> ends_with c (a ++ b) = ends_with c b.
Proof.
  intros H. unfold ends_with. rewrite rev_app_distr. destruct (rev b) as [|x l] eqn:E; [|reflexivity].
  assert (X : b = []) by (rewrite <- (rev_involutive b), E; reflexivity). easy.
Qed.
Lemma ends_wn c l s : ends_with c s = false -> c <> c_dot -> ends_with c (l ++ lit "/wn." ++ s) = false.
Proof.
  intros H Hc. rewrite ends_app by (destruct s; easy). destruct s as [|x s].
  - change (N.eqb c_dot c = false). apply N.eqb_neq. congruence.
  - now rewrite ends_app.
Qed.
Lemma lsym_ok l : name_ok l -> sym_db (l_name l ++ lit "/wn." ++ l_synset l) = true.
Proof.
  intros (W1 & W2 & S1 & T2 & P1 & P2). unfold db_text in T2. apply andb_prop in T2 as [T2 T3]. apply andb_prop in T2 as [S2 T2].
  apply negb_true_iff in T2, T3. unfold sym_db, sym_ok, db_text. repeat (apply andb_true_intro; split).
  - now destruct (l_name l).
  - unfold no_white in *. rewrite !forallb_app, W1, W2. reflexivity.
  - apply negb_true_iff. destruct (l_name l) as [|x r]; [reflexivity|exact P1].
  - apply negb_true_iff. now apply ends_wn.
  - apply negb_true_iff. destruct (looks_numeric _) eqn:E; [|reflexivity]. apply numeric_chars in E.
    rewrite !forallb_app in E. cbn in E. rewrite andb_false_r in E. discriminate.
  - rewrite !forallb_app, S1, S2. reflexivity.
  - apply negb_true_iff. now apply ends_wn.
  - apply negb_true_iff. now apply ends_wn.
Qed.
Lemma fact_shape s e : synset_ok s -> fact s e -> exists rel a b, e = VTup [VStr rel; VStr a; VStr b] /\ sym_db rel = true /\ sym_db a = true /\ sym_db b = true.
Proof.
  intros [Hl Hp Hn Hr Hlr] [r rest pos sym E Hp' Hs|r rest l E Hx|r rest rel f t ts E Hf Ht|l rel f m Hx Hf Hm].
  - exists (lit "pos/gb"). do 2 eexists. split; [reflexivity|]. split; [reflexivity|]. split; [apply lsym_ok, Hn; rewrite E; now left|].
    repeat (destruct Hs as [Es|Hs]; [injection Es as <- <-; reflexivity|]). easy.
  - exists (lit "synonym/gb"). do 2 eexists. split; [reflexivity|]. split; [reflexivity|]. split; apply lsym_ok, Hn; rewrite E; [now left|now right].
  - exists (lit rel). do 2 eexists. split; [reflexivity|]. split; [|split; [apply lsym_ok, Hn; rewrite E; now left|]].
    + repeat (destruct Hf as [Es|Hf]; [injection Es as <- <-; reflexivity|]). easy.
    + apply lsym_ok. destruct (Hr rel f (t :: ts) Hf Ht) as (t' & q & Et & Ht'). now injection Et as <- <-.
  - exists (lit rel). do 2 eexists. split; [reflexivity|]. split; [|split; apply lsym_ok].
    + repeat (destruct Hf as [Es|Hf]; [injection Es as <- <-; reflexivity|]). easy.
    + now apply Hn.
    + now apply (Hlr l rel f m).
Qed.

(** values that may be elements *)
Definition has_texts (V : value -> Prop) : Prop :=
  (forall t, V (VStr t)) /\ (forall a b c, V (VTup [VStr a; VStr b; VStr c])).
Lemma fact_in V s e : has_texts V -> synset_ok s -> fact s e -> write_in V (bel e).
Proof.
  intros [V1 V2] Hs Hf. destruct (fact_shape s e Hs Hf) as (rel & a & b & -> & H1 & H2 & H3). cbn [bel write_in].
  assert (D : db_vertex (VTup [VStr rel; VStr a; VStr b]) = true).
  { unfold db_vertex. cbn. now rewrite H1, H2, H3. }
  split; [|reflexivity]. split; split.
  - unfold db_edge. rewrite D. unfold db_atom. cbn. now rewrite H1.
  - intros x [<-|[<-|[<-|[]]]]; apply V1.
  - unfold db_edge, link_edge. unfold db_vertex in *. cbn. now rewrite H1, H2, H3.
  - intros x [<-|[<-|[<-|[]]]]; [apply V1|apply V2|apply V1].
Qed.

(** the buffer length *)
Lemma bel_length max e buf c s' : is_tup (hd VNone (elems e)) = false -> elems e <> [] -> buffered max (bel e) (Bhg buf c) = (Ok tt, s') ->
  List.length (b_buffer s') = if (max <? Z.of_nat (List.length buf + 2))%Z then 0%nat else List.length buf + 2.
Proof.
  intros Ht He H. cbn [bel buffered] in H. unfold bhg_add_belief in H. destruct e as [| | | |l]; try easy. destruct l as [|x l]; [easy|].
  cbn [elems hd] in Ht. change (index0 (VTup (x :: l))) with (Ok x) in H. cbv iota beta in H. rewrite Ht in H. cbv zeta in H.
  set (e := VTup (x :: l)) in *. unfold bhg_add in H. change (index0 (VTup [e; link wn_source e])) with (Ok e) in H. cbv iota beta in H.
  change (is_tup e) with true in H. cbv iota zeta in H. cbn [b_buffer b_conn items_of as_seq] in H.
  rewrite app_length in H. cbn [List.length] in H.
  destruct (max <? Z.of_nat (List.length buf + 2))%Z.
  - unfold flush in H. cbn [b_buffer b_conn] in H. destruct (add _ _ c) as [[[a|y] c1] t1]; [|discriminate]. now injection H as <-.
  - injection H as <-. cbn. now rewrite app_length.
Qed.

Definition all_edges (l : list synset) : list value := flat_map edges_of l.
Lemma reader_eq max l s : Forall synset_ok l ->
  bfor l (process_synset max) s = buffered_all max (List.map bel (all_edges l)) s.
Proof. intros H. apply bfor_eq. intros x Hx s'. apply process_synset_eq. rewrite Forall_forall in H. now apply H. Qed.

Lemma mod501 k : (if (1000 <? Z.of_nat (2 * (k mod 501) + 2))%Z then 0 else 2 * (k mod 501) + 2) = 2 * (S k mod 501).
Proof.
  pose proof (Nat.mod_upper_bound k 501 ltac:(lia)) as B. pose proof (Nat.add_mod k 1 501 ltac:(lia)) as M.
  rewrite Nat.add_1_r in M. rewrite M. set (m := k mod 501) in *. clearbody m. clear M k. change (1 mod 501) with 1.
  destruct (Z.ltb_spec 1000 (Z.of_nat (2 * m + 2))).
  - assert (E : m = 500) by lia. rewrite E. reflexivity.
  - rewrite Nat.mod_small by lia. lia.
Qed.
Lemma belief_count es : forall buf c s', Forall (fun e => is_tup (hd VNone (elems e)) = false /\ elems e <> []) es ->
  (exists k, List.length buf = 2 * (k mod 501)) ->
  buffered_all 1000 (List.map bel es) (Bhg buf c) = (Ok tt, s') ->
  forall k, List.length buf = 2 * (k mod 501) -> List.length (b_buffer s') = 2 * ((k + List.length es) mod 501).
Proof.
  induction es as [|e es IH]; intros buf c s' F K H k Hk.
  - cbn in H. injection H as <-. cbn. now rewrite Nat.add_0_r.
  - inversion F as [|? ? [F1 F2] F']; subst. cbn [List.map buffered_all] in H.
    destruct (buffered 1000 (bel e) (Bhg buf c)) as [[[]|x] [b1 c1]] eqn:E; [|discriminate].
    pose proof (bel_length _ _ _ _ _ F1 F2 E) as L. cbn [b_buffer] in L.
    assert (L' : List.length b1 = 2 * (S k mod 501)).
    { rewrite L, Hk. clear -k. apply (mod501 k). }
    rewrite (IH b1 c1 s' F' (ex_intro _ (S k) L') H (S k) L'). cbn [List.length]. do 2 f_equal. lia.
Qed.

(** ** C53 *)

(** How many relation edges the reader adds, with repetitions. *)
Definition n_edges (s : synset) : nat :=
  match s_lemmas s with
  | [] => 0
  | _ :: rest => 1 + List.length rest + list_sum (List.map (fun p => List.length (snd p s)) synset_relations)
      + list_sum (List.map (fun l => list_sum (List.map (fun p => List.length (snd p l)) lemma_relations)) (s_lemmas s))
  end.
Lemma heads_length ts : (forall x, In x ts -> x <> []) -> List.length (heads ts) = List.length ts.
Proof.
  induction ts as [|[|t l] ts IH]; intros H; [reflexivity| |].
  - exfalso. apply (H []); [now left|reflexivity].
  - cbn. f_equal. apply IH. intros x Hx. apply H. now right.
Qed.
Lemma fm_length {A B} (f : A -> list B) g l : (forall x, In x l -> List.length (f x) = g x) -> List.length (flat_map f l) = list_sum (List.map g l).
Proof.
  induction l as [|x l IH]; intros H; [reflexivity|]. cbn. rewrite app_length, IH, H; [reflexivity|now left|]. intros y Hy. apply H. now right.
Qed.
Lemma edges_length s : synset_ok s -> List.length (edges_of s) = n_edges s.
Proof.
  intros [_ _ _ Hr _]. unfold edges_of, n_edges. destruct (s_lemmas s) as [|r rest] eqn:E; [reflexivity|].
  rewrite !app_length. unfold rel_edges at 1. rewrite !map_length.
  rewrite (fm_length _ (fun p => List.length (snd p s))); cycle 1.
  { intros [rel f] Hx. cbn. unfold rel_edges. rewrite map_length. apply heads_length. intros x Hx'.
    destruct (Hr rel f x Hx Hx') as (t & q & -> & _). easy. }
  rewrite (fm_length _ (fun l => list_sum (List.map (fun p => List.length (snd p l)) lemma_relations)) (r :: rest)); cycle 1.
  { intros l _. apply fm_length. intros [rel f] _. cbn. unfold rel_edges. now rewrite map_length. }
  cbn [List.length]. lia.
Qed.

(** [c]: any reachable hypergraph; [l]: any well-formed WordNet.  Reading it (batch size
    1000) adds exactly its relation edges and their links from wordnet/gb; it
    returns normally unless the number of edges is a multiple of 501: then
    everything is stored but the final flush of the empty buffer raises IndexError. *)
Theorem C53_wordnet_reader :
  forall V ops c l, noalias V -> has_texts V -> reached V ops c -> Forall synset_ok l ->
    exists r c2, wn_read 1000 l c = (r, Bhg [] c2)
      /\ r = (if Nat.eqb (list_sum (List.map n_edges l) mod 501) 0 then Err IndexError else Ok tt)
      (** everything is on the disk *)
      /\ reopen (c_auto c2) (c_comm c2) = c2
      /\ forall x, edge_in V x -> exists b b', exists_ x c = (Ok b, c, []) /\ exists_ x c2 = (Ok b', c2, [])
           /\ (b' = true <-> b = true \/ exists s e, In s l /\ fact s e /\ (x = e \/ x = link_edge (VStr (lit "wordnet/gb")) e)).
Proof.
  intros V ops c l HV HT Hr Hl.
  assert (Hw : Forall (write_in V) (List.map bel (all_edges l))).
  { apply Forall_map, Forall_forall. intros e He. apply in_flat_map in He as (s & Hs & He). rewrite Forall_forall in Hl.
    apply (edges_fact s e (Hl s Hs)) in He. now apply (fact_in V s e HT (Hl s Hs)). }
  destruct (C34_batch_writer V ops c 1000 _ HV Hr ltac:(lia) Hw) as (s' & E & L & F).
  destruct (F (-1)%Z eq_refl) as (c2 & cd & tr & Ef & _ & X & _ & _ & Du).
  assert (N : List.length (b_buffer s') = 2 * (list_sum (List.map n_edges l) mod 501)).
  { assert (A : List.length (all_edges l) = list_sum (List.map n_edges l)).
    { apply fm_length. intros s Hs. apply edges_length. rewrite Forall_forall in Hl. now apply Hl. }
    rewrite <- A. change (List.length (all_edges l)) with (0 + List.length (all_edges l)).
    apply (belief_count (all_edges l) [] c s'); [|now exists 0|exact E|reflexivity].
    apply Forall_forall. intros e He. apply in_flat_map in He as (s & Hs & He). rewrite Forall_forall in Hl.
    apply (edges_fact s e (Hl s Hs)) in He. destruct (fact_shape s e (Hl s Hs) He) as (rel & a & b & -> & _). now split. }
  exists (if Nat.eqb (list_sum (List.map n_edges l) mod 501) 0 then Err IndexError else Ok tt), c2. split; [|split; [reflexivity|split; [exact Du|]]].
  - unfold wn_read, bbind. rewrite (reader_eq 1000 l _ Hl), E. destruct s' as [buf c1]. cbn [b_buffer] in *. unfold finish in Ef. cbn [b_buffer] in Ef.
    destruct buf as [|x buf].
    + injection Ef as <-. cbn [List.length] in N. replace (list_sum (List.map n_edges l) mod 501) with 0 by lia. reflexivity.
    + rewrite Ef. cbn [List.length] in N. destruct (list_sum (List.map n_edges l) mod 501); [lia|reflexivity].
  - intros x Hx. destruct (X x Hx) as (b & b' & E1 & E2 & H). exists b, b'. split; [exact E1|]. split; [exact E2|]. rewrite H.
    assert (Q : (exists w, In w (List.map bel (all_edges l)) /\ In x (written w)) <->
      exists s e, In s l /\ fact s e /\ (x = e \/ x = link_edge (VStr (lit "wordnet/gb")) e)); [|now rewrite Q].
    split.
    + intros (w & Hw' & Hx'). apply in_map_iff in Hw' as (e & <- & He). apply in_flat_map in He as (s & Hs & He). rewrite Forall_forall in Hl.
      exists s, e. split; [exact Hs|]. split; [now apply (edges_fact s e (Hl s Hs))|]. cbn in Hx'. destruct Hx' as [<-|[<-|[]]]; [now left|now right].
    + intros (s & e & Hs & He & Hx'). rewrite Forall_forall in Hl. exists (bel e). split.
      * apply in_map, in_flat_map. exists s. split; [exact Hs|]. now apply (edges_fact s e (Hl s Hs)).
      * cbn. destruct Hx' as [->| ->]; [now left|right; now left].
Qed.
Print Assumptions C53_wordnet_reader.

(** Lemma symbols: names without '/' are the root, wn.<synset> the namespace. *)
Theorem C53_lemma_symbol :
  forall name syn, ~ In c_slash name -> ~ In c_slash syn ->
    exists s, lemma2symbol (LRef name syn) = Ok s /\ root s = VStr name /\ nspace s = VStr (lit "wn." ++ syn).
Proof.
  intros name syn Hn Hs. exists (lsym (LRef name syn)). split; [reflexivity|].
  change (lsym (LRef name syn)) with (VStr (name ++ c_slash :: lit "wn." ++ syn)).
  apply root_nspace_slash; [exact Hn| |].
  - intros H. apply in_app_iff in H as [H|H]; [|easy]. vm_compute in H. intuition discriminate.
  - assert (P : forall p, ~ In c_slash p -> prefixb (p ++ [c_slash; c_slash]) (name ++ c_slash :: lit "wn." ++ syn) = false).
    { clear Hs. revert Hn. induction name as [|x name IH]; intros Hn p Hp.
      - destruct p as [|y p]; [reflexivity|]. cbn. destruct (N.eqb_spec y c_slash) as [->|]; [|reflexivity]. destruct Hp. now left.
      - destruct p as [|y p].
        + cbn. destruct (N.eqb_spec c_slash x) as [<-|]; [|reflexivity]. destruct Hn. now left.
        + cbn. destruct (N.eqb y x); [|reflexivity]. apply IH; intros H; [apply Hn|apply Hp]; now right. }
    unfold url. change (lit "http://") with (lit "http:" ++ [c_slash; c_slash]). change (lit "https://") with (lit "https:" ++ [c_slash; c_slash]).
    rewrite (P (lit "http:")), (P (lit "https:")); [reflexivity| |]; vm_compute; intuition discriminate.
Qed.
Print Assumptions C53_lemma_symbol.
(** Without that condition it is false: WordNet has the lemma 24/7. *)
Theorem C53_lemma_symbol_refuted :
  exists l s, name_ok l /\ lemma2symbol l = Ok s /\ root s <> VStr (l_name l) /\ nspace s <> VStr (lit "wn." ++ l_synset l).
Proof.
  exists (LRef (lit "24/7") (lit "24/7.n.01")), (VStr (lit "24/7/wn.24/7.n.01")).
  split; [unfold name_ok; repeat apply conj; vm_compute; reflexivity|]. split; [vm_compute; reflexivity|]. split; vm_compute; discriminate.
Qed.
Print Assumptions C53_lemma_symbol_refuted.

(** Two synsets: dog (with synonym domestic_dog and hypernym canine) and canine. *)
Definition c53_dog := LRef (lit "dog") (lit "dog.n.01").
Definition c53_canine := LRef (lit "canine") (lit "canine.n.02").
Definition c53_wn : list synset :=
  [Synset (lit "dog.n.01") (lit "n") [Lemma c53_dog [] [] []; Lemma (LRef (lit "domestic_dog") (lit "dog.n.01")) [] [] []]
     [[c53_canine; LRef (lit "canid") (lit "canine.n.02")]] [] [] [] [] [] [] [] [];
   Synset (lit "canine.n.02") (lit "n") [Lemma c53_canine [] [] [c53_dog]] [] [] [] [] [] [] [] [] []].
Lemma plain_has_texts : has_texts plain_values.
Proof. split; reflexivity. Qed.
Example C53_nonvacuous : Forall synset_ok c53_wn /\ has_texts plain_values /\ reached plain_values ex_ops ex_c
  /\ fst (wn_read 1000 c53_wn ex_c) = Ok tt
  /\ fst (fst (exists_ (triple "hypernym/gb" (lsym c53_dog) (lsym c53_canine)) (b_conn (snd (wn_read 1000 c53_wn ex_c))))) = Ok true.
Proof.
  split; [|split; [exact plain_has_texts|split; [exact ex_reached|split; vm_compute; reflexivity]]].
  repeat (apply Forall_cons || apply Forall_nil); constructor; try discriminate.
  1, 5: exists "n"%string, "noun/gb"%string; split; [reflexivity|now left].
  all: cbn [s_lemmas].
  - intros l [<-|[<-|[]]]; unfold name_ok; repeat apply conj; vm_compute; reflexivity.
  - intros rel f ts Hf Ht. unfold synset_relations in Hf. cbn [In] in Hf.
    destruct Hf as [E|Hf].
    + injection E as <- <-. cbn in Ht. destruct Ht as [<-|[]]. do 2 eexists. split; [reflexivity|].
      unfold name_ok; repeat apply conj; vm_compute; reflexivity.
    + repeat (destruct Hf as [E|Hf]; [injection E as <- <-; now cbn in Ht|]). easy.
  - intros l rel f m [<-|[<-|[]]] Hf Hm; unfold lemma_relations in Hf; cbn [In] in Hf;
      repeat (destruct Hf as [E|Hf]; [injection E as <- <-; now (cbn in *)|]); easy.
  - intros l [<-|[]]; unfold name_ok; repeat apply conj; vm_compute; reflexivity.
  - intros rel f ts Hf Ht. unfold synset_relations in Hf. cbn [In] in Hf.
    repeat (destruct Hf as [E|Hf]; [injection E as <- <-; now (cbn in *)|]). easy.
  - intros l rel f m [<-|[]] Hf Hm. unfold lemma_relations in Hf; cbn [In] in Hf.
    repeat (destruct Hf as [E|Hf]; [injection E as <- <-; cbn in Hm; try contradiction; destruct Hm as [<-|[]]; unfold name_ok; repeat apply conj; vm_compute; reflexivity|]). easy.
Qed.
