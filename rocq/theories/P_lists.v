(** * P_lists.v -- lemmas about M_lists *)
From Verif Require Import Py M_symbol M_edge M_sql M_hypergraph P_py Spec P_edge P_perm P_range P_query
  S_history M_driver P_ops P_hist P_graph P_answers M_lists S_lists.
From Coq Require Import Permutation Factorial String.
Open Scope list_scope.

Section pv_ind.
  Variable P : pv -> Prop.
  Hypothesis HN : P PNone.
  Hypothesis HS : forall s, P (PStr s).
  Hypothesis HI : forall z, P (PInt z).
  Hypothesis HF : forall f, P (PFlt f).
  Hypothesis HT : forall l, Forall P l -> P (PTup l).
  Hypothesis HL : forall l, Forall P l -> P (PLst l).
  Fixpoint pv_nested_ind (p : pv) : P p :=
    match p with
    | PNone => HN | PStr s => HS s | PInt z => HI z | PFlt f => HF f
    | PTup l => HT l ((fix go (l : list pv) : Forall P l := match l with [] => Forall_nil P | x :: l' => Forall_cons x (pv_nested_ind x) (go l') end) l)
    | PLst l => HL l ((fix go (l : list pv) : Forall P l := match l with [] => Forall_nil P | x :: l' => Forall_cons x (pv_nested_ind x) (go l') end) l)
    end.
End pv_ind.

Lemma pv_eq_tuples p : no_lists p = true -> forall x, pv_eq p x = py_eq (tuples p) x.
Proof.
  induction p as [| | | |l IH|l IH] using pv_nested_ind; intros H x; [reflexivity|reflexivity|reflexivity|reflexivity| |discriminate].
  cbn [no_lists] in H. destruct x as [| | | |m]; try reflexivity. cbn [pv_eq tuples py_eq]. revert m.
  induction IH as [|a l Ha _ IH]; intros m; [reflexivity|]. cbn [forallb] in H. apply andb_true_iff in H as [H1 H2].
  destruct m as [|b m]; [reflexivity|]. cbn [List.map]. rewrite (Ha H1 b). f_equal. now apply IH.
Qed.
Lemma pv_eq_lists p : no_lists p = false -> forall x, pv_eq p x = false.
Proof.
  induction p as [| | | |l IH|l IH] using pv_nested_ind; intros H x; try discriminate H; [|reflexivity].
  cbn [no_lists] in H. destruct x as [| | | |m]; try reflexivity. cbn [pv_eq]. revert m.
  induction IH as [|a l Ha _ IH]; intros m; [discriminate|]. cbn [forallb] in H. destruct m as [|b m]; [reflexivity|].
  destruct (no_lists a) eqn:E; [|now rewrite (Ha eq_refl b)]. cbn [andb] in H. rewrite (IH H m). apply andb_false_r.
Qed.

Lemma pnone_tuples p : pnot_none p = not_none (tuples p).
Proof. now destruct p. Qed.
Lemma filter_tuples l : List.map tuples (filter pnot_none l) = filter not_none (List.map tuples l).
Proof. induction l as [|p l IH]; [reflexivity|]. cbn. rewrite <- pnone_tuples. destruct (pnot_none p); cbn; now rewrite IH. Qed.

Lemma pmatches_tuples e l : forallb no_lists l = true -> pmatches e l = edge_matches_pattern e (List.map tuples l).
Proof.
  intros H. unfold pmatches, edge_matches_pattern. destruct (as_seq e) as [m|]; [|reflexivity]. cbn [rbind]. rewrite map_length.
  destruct (Nat.eqb _ _); [|reflexivity]. cbn [negb]. f_equal. revert m. induction l as [|p l IH]; intros m; [now destruct m|].
  cbn [forallb] in H. apply andb_true_iff in H as [H1 H2]. destruct m as [|x m]; [reflexivity|]. cbn [List.map pmatches_loop matches_loop].
  rewrite pnone_tuples, (pv_eq_tuples p H1 x). change (match tuples p with VNone => false | _ => true end) with (not_none (tuples p)).
  destruct (not_none (tuples p) && negb (py_eq (tuples p) x)); [reflexivity|]. now apply IH.
Qed.
(** an item with a list inside matches nothing *)
Lemma pmatches_lists e l b : forallb no_lists l = false -> edge_matches_pattern e (List.map tuples l) = Ok b -> pmatches e l = Ok false.
Proof.
  intros H. unfold pmatches, edge_matches_pattern. destruct (as_seq e) as [m|]; [|discriminate]. cbn [rbind]. rewrite map_length. intros _.
  destruct (Nat.eqb_spec (List.length m) (List.length l)) as [E|E]; [|reflexivity]. cbn [negb]. f_equal. revert m E. induction l as [|p l IH]; intros m E; [discriminate|].
  destruct m as [|x m]; [discriminate|]. cbn [pmatches_loop]. cbn [forallb] in H. injection E as E.
  destruct (no_lists p) eqn:N.
  - cbn [andb] in H. destruct (pnot_none p && negb (pv_eq p x)); [reflexivity|]. now apply IH.
  - rewrite (pv_eq_lists p N x). assert (pnot_none p = true) as -> by (destruct p; [discriminate|reflexivity..]). reflexivity.
Qed.

Lemma mapr_ext {A B} (f g : A -> res B) l : (forall x, f x = g x) -> mapr f l = mapr g l.
Proof. intros H. induction l as [|x l IH]; [reflexivity|]. cbn. now rewrite H, IH. Qed.

Lemma pitems_tuples p : as_seq (tuples p) = match pitems p with Ok l => Ok (List.map tuples l) | Err e => Err e end.
Proof. destruct p; try reflexivity. cbn. f_equal. rewrite map_map. now apply map_ext. Qed.

(** the part of pattern2edges before the filter *)
Definition fetch (start_str : str) : M (list value) :=
  do end_str <- lift (str_plus_1 start_str);
  do cur <- open_cursor true;
  do rows <- query cur [start_str; end_str] (fun w => filter (in_range start_str end_str) (perms w));
  do edges <- lift (cur2edges rows);
  close_cursor cur true false;;
  ret edges.
Lemma bind_assoc3 {A B C} (m : M A) (f : A -> M B) (g : B -> M C) c : bind m (fun a => bind (f a) g) c = bind (bind m f) g c.
Proof.
  unfold bind. destruct (m c) as [[[a|e] c1] t1]; [|reflexivity]. destruct (f a c1) as [[[b|e] c2] t2]; [|reflexivity].
  destruct (g b c2) as [[r c3] t3]. now rewrite app_assoc.
Qed.
Lemma fetch_bind {B} (s : str) (k : list value -> M B) c :
  (do end_str <- lift (str_plus_1 s);
   do cur <- open_cursor true;
   do rows <- query cur [s; end_str] (fun w => filter (in_range s end_str) (perms w));
   do edges <- lift (cur2edges rows);
   close_cursor cur true false;; k edges) c = bind (fetch s) k c.
Proof.
  unfold fetch. rewrite <- bind_assoc3. apply bind_ext. intros hi c1. rewrite <- bind_assoc3. apply bind_ext. intros cur c2.
  rewrite <- bind_assoc3. apply bind_ext. intros rows c3. rewrite <- bind_assoc3. apply bind_ext. intros edges c4.
  rewrite <- bind_assoc3. apply bind_ext. intros u c5. unfold bind, ret. now destruct (k edges c5) as [[r c6] t6].
Qed.
Lemma pattern2edges_fetch items c : pattern2edges (VTup items) c =
  (do edges <- fetch (nodes2str (filter not_none items));
   do flags <- lift (mapr (fun e => edge_matches_pattern e items) edges);
   ret (py_set (List.map fst (filter snd (combine edges flags))))) c.
Proof. unfold pattern2edges. cbn [as_seq lift]. rewrite (bind_gives _ _ c items eq_refl). cbv zeta. apply fetch_bind. Qed.
Lemma pattern2edges_items v items c : as_seq v = Ok items -> pattern2edges v c = pattern2edges (VTup items) c.
Proof. intros E. unfold pattern2edges. rewrite E. reflexivity. Qed.
Lemma ppattern2edges_fetch p items c : pitems p = Ok items -> ppattern2edges p c =
  (do edges <- fetch (nodes2str (filter not_none (List.map tuples items)));
   do flags <- lift (mapr (fun e => pmatches e items) edges);
   ret (py_set (List.map fst (filter snd (combine edges flags))))) c.
Proof.
  intros E. unfold ppattern2edges. rewrite E. cbn [lift]. rewrite (bind_gives _ _ c items eq_refl). cbv zeta. rewrite filter_tuples. apply fetch_bind.
Qed.

Lemma shallow_items p : shallow p = match pitems p with Ok l => forallb no_lists l | Err _ => true end.
Proof. destruct p; try reflexivity. cbn. induction s as [|c s IH]; [reflexivity|exact IH]. Qed.

Lemma ppattern_shallow p c : shallow p = true -> ppattern2edges p c = pattern2edges (tuples p) c.
Proof.
  rewrite shallow_items. pose proof (pitems_tuples p) as T. destruct (pitems p) as [items|e] eqn:E; intros H.
  - rewrite (ppattern2edges_fetch p items c E), (pattern2edges_items _ _ c T), pattern2edges_fetch. apply bind_ext. intros edges c'.
    rewrite (mapr_ext (fun e => pmatches e items) (fun e => edge_matches_pattern e (List.map tuples items))); [reflexivity|].
    intros x. now apply pmatches_tuples.
  - unfold ppattern2edges, pattern2edges. rewrite E, T. reflexivity.
Qed.
Lemma mapr_false {A} (f g : A -> res bool) l r : (forall x b, f x = Ok b -> g x = Ok false) -> mapr f l = Ok r -> mapr g l = Ok (List.map (fun _ => false) l).
Proof.
  intros H. revert r. induction l as [|x l IH]; intros r E; [reflexivity|]. cbn in E. destruct (f x) as [b|] eqn:F; [|discriminate]. cbn in E.
  destruct (mapr f l) as [r'|] eqn:M; [|discriminate]. cbn. rewrite (H x b F). cbn. now rewrite (IH r' eq_refl).
Qed.
Lemma ppattern_lists p l c c' tr : shallow p = false -> pattern2edges (tuples p) c = (Ok l, c', tr) -> ppattern2edges p c = (Ok [], c', tr).
Proof.
  rewrite shallow_items. pose proof (pitems_tuples p) as T. destruct (pitems p) as [items|e] eqn:E; [|discriminate]. intros H.
  rewrite (ppattern2edges_fetch p items c E), (pattern2edges_items _ _ c T), pattern2edges_fetch.
  unfold bind. destruct (fetch _ c) as [[[edges|e] c1] t1]; [|discriminate].
  destruct (mapr (fun x => edge_matches_pattern x (List.map tuples items)) edges) as [flags|e] eqn:F; [|discriminate].
  rewrite (mapr_false _ (fun x => pmatches x items) _ _ (fun x b => pmatches_lists x items b H) F). cbn [lift ret]. intros [= _ <- <-].
  f_equal. f_equal. f_equal. clear. induction edges as [|x l IH]; [reflexivity|]. cbn [List.map combine filter snd]. exact IH.
Qed.

Lemma pexists_shallow p c : shallow p = true -> pexists p c = exists_ (tuples p) c.
Proof. intros H. unfold pexists, exists_. apply bind_ext_l. now apply ppattern_shallow. Qed.
Lemma pexists_lists p b c c' tr : shallow p = false -> exists_ (tuples p) c = (Ok b, c', tr) -> pexists p c = (Ok false, c', tr).
Proof.
  intros H. unfold pexists, exists_, bind. destruct (pattern2edges (tuples p) c) as [[[l|e] c1] t1] eqn:E; [|discriminate].
  rewrite (ppattern_lists p l c c1 t1 H E). cbn [ret]. intros [= _ <- <-]. reflexivity.
Qed.

(** the rest of add_raw and remove_raw *)
Definition put (e : value) (items : list value) (t : Z) : M unit :=
  mfor items (fun vert => let vert_str := edge2str vert in do found <- inc_degree vert_str; if found then ret tt else add_str vert_str 1 t);;
  add_str (edge2str e) 0 t;;
  write_edge_permutations items.
Lemma mfor_map {A B} (f : B -> A) (l : list B) (g : A -> M unit) c : mfor (List.map f l) g c = mfor l (fun x => g (f x)) c.
Proof. revert c. induction l as [|x l IH]; intros c; [reflexivity|]. cbn [List.map mfor]. apply bind_ext. intros u c'. apply IH. Qed.
Lemma mfor_ext {A} (l : list A) (f g : A -> M unit) c : (forall x c, In x l -> f x c = g x c) -> mfor l f c = mfor l g c.
Proof.
  revert c. induction l as [|x l IH]; intros c H; [reflexivity|]. cbn [mfor].
  transitivity (bind (g x) (fun _ => mfor l f) c); [apply bind_ext_l, H; now left|]. apply bind_ext. intros u c'. apply IH. intros y c2 Hy. apply H. now right.
Qed.
Lemma padd_raw_put p items t c : pitems p = Ok items ->
  padd_raw p t c = (do b <- pexists p; (if b then ret tt else put (tuples p) (List.map tuples items) t);; ret p) c.
Proof.
  intros E. unfold padd_raw. apply bind_ext. intros b c1. apply bind_ext_l. destruct b; [reflexivity|].
  rewrite E. cbn [lift]. rewrite (bind_gives _ _ c1 items eq_refl). unfold put. apply bind_ext_l. rewrite mfor_map. apply mfor_ext. reflexivity.
Qed.
Lemma add_raw_put e items t c : as_seq e = Ok items ->
  add_raw e t c = (do b <- exists_ e; (if b then ret tt else put e items t);; ret e) c.
Proof.
  intros E. unfold add_raw. apply bind_ext. intros b c1. apply bind_ext_l. destruct b; [reflexivity|].
  rewrite E. cbn [lift]. now rewrite (bind_gives _ _ c1 items eq_refl).
Qed.

(** a method with its result replaced *)
Definition answering {A B} (b : B) (r : res A * conn * list db) : res B * conn * list db :=
  let '(x, c, tr) := r in (match x with Ok _ => Ok b | Err e => Err e end, c, tr).
Lemma answering_ret {A B C} (m : M A) (a : C) (b : B) c : answering b ((m;; ret a) c) = (m;; ret b) c.
Proof. unfold bind, ret. destruct (m c) as [[[x|e] c1] t1]; reflexivity. Qed.
Lemma answering_bind {A B C} (m : M A) (f : A -> M B) (b : C) c : answering b (bind m f c) = bind m (fun a c => answering b (f a c)) c.
Proof. unfold bind. destruct (m c) as [[[x|e] c1] t1]; [|reflexivity]. destruct (f x c1) as [[r c2] t2]. reflexivity. Qed.

Lemma padd_raw_shallow p t c : shallow p = true -> padd_raw p t c = answering p (add_raw (tuples p) t c).
Proof.
  intros H. pose proof (pitems_tuples p) as T. destruct (pitems p) as [items|e] eqn:E.
  - rewrite (padd_raw_put p items t c E), (add_raw_put _ _ t c T), answering_bind.
    transitivity (bind (exists_ (tuples p)) (fun b => (if b then ret tt else put (tuples p) (List.map tuples items) t);; ret p) c);
      [apply bind_ext_l; now apply pexists_shallow|]. apply bind_ext. intros b c1. symmetry. apply (answering_ret _ (tuples p) p).
  - unfold padd_raw, pexists, ppattern2edges, add_raw, exists_, pattern2edges. rewrite E, T. reflexivity.
Qed.
Lemma premove_raw_shallow p c : shallow p = true -> premove_raw p c = remove_raw (tuples p) c.
Proof.
  intros H. pose proof (pitems_tuples p) as T. unfold premove_raw, remove_raw.
  transitivity (bind (exists_ (tuples p)) (fun b => if b then (do items <- lift (pitems p); mfor items (fun vert => dec_degree (pedge2str vert);; ret tt);;
    remove_edge_permutations (List.map tuples items);; remove_str (pedge2str p)) else ret tt) c); [apply bind_ext_l; now apply pexists_shallow|].
  apply bind_ext. intros b c1. destruct b; [|reflexivity]. rewrite T. destruct (pitems p) as [items|e]; [|reflexivity]. cbn [lift].
  rewrite (bind_gives _ _ c1 items eq_refl), (bind_gives _ _ c1 (List.map tuples items) eq_refl). apply bind_ext_l. rewrite mfor_map. apply mfor_ext. reflexivity.
Qed.
Lemma pindex0_tuples p : index0 (tuples p) = match pindex0 p with Ok x => Ok (tuples x) | Err e => Err e end.
Proof. unfold index0, pindex0. rewrite pitems_tuples. destruct (pitems p) as [[|x l]|]; reflexivity. Qed.
Lemma is_seq_tuples p : is_tup (tuples p) = is_seq p.
Proof. now destruct p. Qed.

(** the edges of an argument of add or remove *)
Lemma edges_of_items p x l : pindex0 p = Ok x -> pitems p = Ok l -> edges_of p = if is_seq x then l else [p].
Proof.
  unfold pindex0. intros E I. rewrite I in E. destruct l as [|y l]; [discriminate|]. cbn in E. injection E as <-.
  destruct p as [|s| | |m|m]; try discriminate; cbn in I.
  - injection I as I. destruct s as [|c s]; [discriminate|]. injection I as <- <-. reflexivity.
  - injection I as ->. now destruct y.
  - injection I as ->. now destruct y.
Qed.
Lemma padd_shallow p t c : forallb shallow (edges_of p) = true -> padd p t c = answering p (add (tuples p) t c).
Proof.
  intros H. unfold padd, add. rewrite pindex0_tuples, pitems_tuples. destruct (pindex0 p) as [x|e] eqn:E; [|reflexivity].
  cbn [lift]. rewrite (bind_gives _ _ c x eq_refl), (bind_gives _ _ c (tuples x) eq_refl). rewrite is_seq_tuples.
  rewrite answering_ret. apply bind_ext_l. assert (exists items, pitems p = Ok items) as [items I] by (unfold pindex0 in E; destruct (pitems p) as [l|]; [now exists l|discriminate]).
  rewrite (edges_of_items p x items E I) in H. rewrite I. clear E. destruct (is_seq x).
  - apply bind_ext. intros cur c1. cbn [lift]. rewrite (bind_gives _ _ c1 items eq_refl), (bind_gives _ _ c1 (List.map tuples items) eq_refl).
    apply bind_ext_l. rewrite mfor_map. apply mfor_ext. intros q c2 Hq. rewrite forallb_forall in H.
    rewrite <- (answering_ret (add_raw (tuples q) t) q tt).
    unfold bind. rewrite (padd_raw_shallow q t c2 (H q Hq)). destruct (add_raw (tuples q) t c2) as [[[a|e] c3] t3]; reflexivity.
  - cbn [forallb] in H. rewrite andb_true_r in H. unfold bind. rewrite (padd_raw_shallow p t c H). destruct (add_raw (tuples p) t c) as [[[a|e] c3] t3]; reflexivity.
Qed.
Lemma premove_shallow p c : forallb shallow (edges_of p) = true -> premove p c = remove (tuples p) c.
Proof.
  intros H. unfold premove, remove. rewrite pindex0_tuples, pitems_tuples. destruct (pindex0 p) as [x|e] eqn:E; [|reflexivity].
  cbn [lift]. rewrite (bind_gives _ _ c x eq_refl), (bind_gives _ _ c (tuples x) eq_refl). rewrite is_seq_tuples.
  assert (exists items, pitems p = Ok items) as [items I] by (unfold pindex0 in E; destruct (pitems p) as [l|]; [now exists l|discriminate]).
  rewrite (edges_of_items p x items E I) in H. rewrite I. clear E. destruct (is_seq x).
  - cbn [lift]. rewrite (bind_gives _ _ c items eq_refl), (bind_gives _ _ c (List.map tuples items) eq_refl). rewrite mfor_map. apply mfor_ext.
    intros q c2 Hq. rewrite forallb_forall in H. now apply premove_raw_shallow, H.
  - cbn [forallb] in H. rewrite andb_true_r in H. now apply premove_raw_shallow.
Qed.
