(** * C_spelled.v -- property theorem C84 (a text where an edge is expected) *)

From Verif Require Import Py M_symbol M_edge M_sql M_hypergraph P_py Spec P_edge P_perm P_range P_query
  S_history M_driver P_ops P_hist P_graph P_answers P_rows P_crash C_graph C_same.
From Coq Require Import Permutation Factorial String.
Open Scope list_scope.

(** A text, read as an edge: the edge of its letters. *)
Definition letters (s : str) : value := VTup (List.map (fun c => VStr [c]) s).
Definition spelled (v : value) : value := match v with VStr s => letters s | _ => v end.

(** ** connections with the same index, runs with the same outcome *)

Record samep (c1 c2 : conn) : Prop := {
  sp_cur : c_cur c1 = c_cur c2; sp_auto : c_auto c1 = c_auto c2; sp_perms : perms (c_work c1) = perms (c_work c2) }.
Lemma samep_refl c : samep c c. Proof. now constructor. Qed.
Lemma samep_trans a b c : samep a b -> samep b c -> samep a c.
Proof. intros [A1 A2 A3] [B1 B2 B3]. constructor; congruence. Qed.
Lemma samep_sym a b : samep a b -> samep b a.
Proof. intros [A1 A2 A3]. constructor; congruence. Qed.
Definition rr {A} (m1 m2 : M A) : Prop := forall c1 c2, samep c1 c2 ->
  exists r c1' t1 c2' t2, m1 c1 = (r, c1', t1) /\ m2 c2 = (r, c2', t2) /\ samep c1' c2'.

Lemma rr_bind {A B} (m1 m2 : M A) (k1 k2 : A -> M B) : rr m1 m2 -> (forall a, rr (k1 a) (k2 a)) -> rr (bind m1 k1) (bind m2 k2).
Proof.
  intros H K c1 c2 S. destruct (H c1 c2 S) as (r & d1 & t1 & d2 & t2 & E1 & E2 & S1). unfold bind. rewrite E1, E2. destruct r as [a|e].
  - destruct (K a d1 d2 S1) as (r & g1 & u1 & g2 & u2 & F1 & F2 & S2). rewrite F1, F2. exists r, g1, (t1 ++ u1), g2, (t2 ++ u2). now split.
  - exists (Err e), d1, t1, d2, t2. now split.
Qed.
Lemma rr_ret {A} (a : A) : rr (ret a) (ret a).
Proof. intros c1 c2 S. exists (Ok a), c1, [], c2, []. now split. Qed.
Lemma rr_lift {A} (r : res A) : rr (lift r) (lift r).
Proof. intros c1 c2 S. exists r, c1, [], c2, []. now destruct r. Qed.
Lemma rr_raise {A} e : rr (@raise A e) (raise e).
Proof. intros c1 c2 S. exists (Err e), c1, [], c2, []. now split. Qed.
Lemma rr_get : rr get_cur get_cur.
Proof. intros c1 c2 S. exists (Ok (c_cur c1)), c1, [], c2, []. unfold get_cur. rewrite <- (sp_cur _ _ S). now split. Qed.
Lemma rr_set s : rr (set_cur s) (set_cur s).
Proof. intros c1 c2 [A B C]. unfold set_cur. eexists; eexists; eexists; eexists; eexists. split; [reflexivity|]. split; [reflexivity|]. now constructor. Qed.
Lemma rr_commit : rr commit commit.
Proof. intros c1 c2 [A B C]. unfold commit. eexists; eexists; eexists; eexists; eexists. split; [reflexivity|]. split; [reflexivity|]. now constructor. Qed.
Lemma rr_mfor {A B} (l : list A) (g : A -> B) f1 f2 : (forall x, In x l -> rr (f1 x) (f2 (g x))) -> rr (mfor l f1) (mfor (List.map g l) f2).
Proof.
  induction l as [|x l IH]; intros H; cbn [mfor List.map]; [apply rr_ret|]. apply rr_bind; [apply H; now left|]. intros _. apply IH. intros y Hy. apply H. now right.
Qed.
Lemma rr_same {A} (l : list A) f : (forall x, In x l -> rr (f x) (f x)) -> rr (mfor l f) (mfor l f).
Proof. intros H. rewrite <- (map_id l) at 2. now apply rr_mfor. Qed.
Lemma rr_open b : rr (open_cursor b) (open_cursor b).
Proof. unfold open_cursor. apply rr_bind; [apply rr_get|]. intros s. destruct b, s; try apply rr_ret. apply rr_bind; [apply rr_set|intros; apply rr_ret]. Qed.
Lemma rr_close h l b : rr (close_cursor h l b) (close_cursor h l b).
Proof.
  unfold close_cursor. destruct l.
  - apply rr_bind; [apply rr_get|]. intros s. destruct s; try apply rr_ret. apply rr_bind; [destruct h; [apply rr_ret|apply rr_set]|]. intros _. destruct b; [apply rr_commit|apply rr_ret].
  - apply rr_bind; [destruct b; [apply rr_commit|apply rr_ret]|]. intros _. apply rr_bind; [apply rr_get|]. intros s.
    destruct s; [apply rr_raise| |]; (apply rr_bind; [apply rr_set|intros; apply rr_set]).
Qed.
(** what is read from the index *)
Lemma rr_query {A} h texts (f : list str -> A) : rr (query h texts (fun w => f (perms w))) (query h texts (fun w => f (perms w))).
Proof.
  intros c1 c2 S. unfold query, usable. rewrite <- (sp_cur _ _ S), <- (sp_perms _ _ S).
  destruct (negb _); [|destruct (negb _)]; (eexists; eexists; eexists; eexists; eexists; split; [reflexivity|]; split; [reflexivity|exact S]).
Qed.
Lemma rr_pattern v1 v2 : as_seq v1 = as_seq v2 -> rr (pattern2edges v1) (pattern2edges v2).
Proof.
  intros E. unfold pattern2edges. rewrite E. apply rr_bind; [apply rr_lift|]. intros items. apply rr_bind; [apply rr_lift|]. intros e. apply rr_bind; [apply rr_open|]. intros h.
  apply rr_bind; [apply (rr_query h _ (filter (in_range (nodes2str (filter not_none items)) e)))|]. intros rows. apply rr_bind; [apply rr_lift|]. intros es.
  apply rr_bind; [apply rr_close|]. intros _. apply rr_bind; [apply rr_lift|]. intros fl. apply rr_ret.
Qed.
Lemma rr_exists v1 v2 : as_seq v1 = as_seq v2 -> rr (exists_ v1) (exists_ v2).
Proof. intros E. unfold exists_. apply rr_bind; [now apply rr_pattern|intros; apply rr_ret]. Qed.
Lemma rr_star a : rr (star a) (star a).
Proof.
  unfold star, str2perms. apply rr_bind; [apply rr_lift|]. intros e. apply rr_bind; [apply rr_open|]. intros h.
  apply rr_bind; [apply (rr_query h _ (filter (in_range (edge2str a ++ [c_space]) e)))|]. intros rows. apply rr_bind; [apply rr_lift|]. intros es.
  apply rr_bind; [apply rr_close|]. intros; apply rr_ret.
Qed.
Lemma rr_symbols a : rr (symbols_with_root a) (symbols_with_root a).
Proof.
  unfold symbols_with_root. apply rr_bind; [apply rr_lift|]. intros e. apply rr_bind; [apply rr_open|]. intros h.
  apply rr_bind; [apply (rr_query h _ (filter (in_range (show_atom a ++ [c_slash]) e)))|]. intros rows. apply rr_bind; [apply rr_lift|]. intros es.
  apply rr_bind; [apply rr_close|]. intros; apply rr_ret.
Qed.
Lemma rr_sources e : rr (sources e) (sources e).
Proof. unfold sources. apply rr_bind; [now apply rr_pattern|]. intros l. apply rr_bind; [apply rr_lift|]. intros; apply rr_ret. Qed.
(** writing the index *)
Lemma rr_exec_perm h s : (forall w1 w2, perms w1 = perms w2 -> match sql_run s w1, sql_run s w2 with
    | Ok (x1, n1), Ok (x2, n2) => n1 = n2 /\ perms x1 = perms x2 | Err e1, Err e2 => e1 = e2 | _, _ => False end) -> rr (execute h s) (execute h s).
Proof.
  intros H c1 c2 S. unfold execute, usable. rewrite <- (sp_cur _ _ S). specialize (H _ _ (sp_perms _ _ S)).
  destruct (negb _); [|destruct (bind_error s)]; try (eexists; eexists; eexists; eexists; eexists; split; [reflexivity|]; split; [reflexivity|exact S]).
  destruct (sql_run s (c_work c1)) as [[x1 n1]|e1], (sql_run s (c_work c2)) as [[x2 n2]|e2]; try easy.
  - destruct H as [-> H]. eexists; eexists; eexists; eexists; eexists. split; [reflexivity|]. split; [reflexivity|]. destruct S. now constructor.
  - subst e2. eexists; eexists; eexists; eexists; eexists. split; [reflexivity|]. split; [reflexivity|exact S].
Qed.
Lemma rr_write r : rr (write_edge_permutation r) (write_edge_permutation r).
Proof.
  unfold write_edge_permutation, update_or_insert. apply rr_bind; [apply rr_open|]. intros h.
  apply rr_bind; [apply rr_exec_perm; intros w1 w2 E; cbn [sql_run]; rewrite <- E; now split|]. intros n.
  apply rr_bind; [|intros _; apply rr_close]. destruct (Nat.eqb n 0); [|apply rr_ret]. apply rr_bind; [|intros; apply rr_ret].
  apply rr_exec_perm. intros w1 w2 E. cbn [sql_run]. rewrite E. destruct (existsb (str_eqb r) (perms w2)); [reflexivity|]. now split.
Qed.
Lemma rr_rows items : rr (write_edge_permutations items) (write_edge_permutations items).
Proof.
  unfold write_edge_permutations, do_with_edge_permutations. apply rr_same. intros n _. apply rr_bind; [apply rr_lift|]. intros s. apply rr_write.
Qed.
(** writing vertices: the outcome depends on the cursor and the text, and the index stays *)
Definition outcome (s : str) (c : conn) : res unit :=
  match c_cur c with CClosed => Err ProgrammingError | _ => if bindable s then Ok tt else Err UnicodeEncodeError end.
Lemma upd_ins_out id d t c : int64 t = true -> exists c' tr, add_str id d t c = (outcome id c, c', tr) /\ samep c c'
  /\ (outcome id c = Ok tt -> vlook id (c_work c') = Some (d, t) /\ c_comm c' = if c_auto c then c_work c' else match c_cur c with CNone => c_work c' | _ => c_comm c end).
Proof.
  intros Ht. unfold add_str, update_or_insert. rewrite bind_open. unfold execute, bind_error, usable, hd_of, outcome, bind. destruct c as [au cm wk cu]. cbn [c_cur c_work c_auto c_comm bound_text sql_run].
  assert (V1 : forall l, List.length (filter (vkey id) l) <> O -> find (vkey id) (List.map (fun r => if vkey id r then (id, (d, t)) else r) l) = Some (id, (d, t))).
  { induction l as [|x l IH]; [now intros H|]. cbn [filter List.map find]. destruct (vkey id x) eqn:E; cbn [List.length].
    - intros _. unfold vkey at 1. cbn [fst]. now rewrite str_eqb_refl.
    - intros H. rewrite E. now apply IH. }
  assert (V2 : forall l, List.length (filter (vkey id) l) = O -> List.map (fun r => if vkey id r then (id, (d, t)) else r) l = l /\ existsb (vkey id) l = false /\ find (vkey id) (l ++ [(id, (d, t))]) = Some (id, (d, t))).
  { induction l as [|x l IH]; intros H; [cbn; unfold vkey; cbn [fst]; now rewrite str_eqb_refl|]. cbn [filter List.map existsb app find] in *. destruct (vkey id x) eqn:E; [discriminate H|].
    destruct (IH H) as (-> & -> & ->). now split. }
  assert (Hn : forall w, vlook id w = match find (vkey id) (vertices w) with Some r => Some (snd r) | None => None end) by reflexivity.
  rewrite Ht. destruct (bindable id) eqn:B; destruct cu; cbn [negb]; try (eexists; eexists; split; [reflexivity|]; split; [now constructor|discriminate]);
   (destruct (Nat.eqb (List.length (filter (vkey id) (vertices wk))) 0) eqn:N;
     [apply Nat.eqb_eq in N; destruct (V2 _ N) as (V3 & V4 & V5); unfold ret; cbn [usable c_cur c_work c_auto c_comm sql_run bound_text negb vertices perms]; rewrite V3, V4; cbn [negb];
      unfold close_cursor, close_handle, commit, bind, get_cur, set_cur, ret; cbn [c_cur c_work c_auto c_comm]
     |apply Nat.eqb_neq in N; specialize (V1 _ N); unfold close_cursor, close_handle, commit, bind, get_cur, set_cur, ret; cbn [c_cur c_work c_auto c_comm]];
     (eexists; eexists; split; [reflexivity|]; split; [now constructor|intros _; rewrite Hn; cbn [c_work c_comm vertices]; split; [first [now rewrite V5|now rewrite V1]|now destruct au]])).
Qed.

Lemma inc_out id c : exists b c' tr, inc_degree id c = (match outcome id c with Ok _ => Ok b | Err e => Err e end, c', tr) /\ samep c c'.
Proof.
  unfold inc_degree, change_degree. rewrite bind_open. unfold execute, bind_error, usable, hd_of, outcome, bind. destruct c as [au cm wk cu]. cbn [c_cur c_work c_auto c_comm bound_text sql_run].
  destruct (bindable id) eqn:B; destruct cu; cbn [negb]; try (exists true; eexists; eexists; split; [reflexivity|]; now constructor);
    unfold close_cursor, close_handle, commit, bind, get_cur, set_cur, ret; cbn [c_cur c_work c_auto c_comm];
    (eexists; eexists; eexists; split; [reflexivity|]; now constructor).
Qed.
Definition addv (t : Z) (vert : value) : M unit :=
  do found <- inc_degree (edge2str vert); if found then ret tt else add_str (edge2str vert) 1 t.
Lemma addv_out t v c : int64 t = true -> exists c' tr, addv t v c = (outcome (edge2str v) c, c', tr) /\ samep c c'.
Proof.
  intros Ht. unfold addv, bind. destruct (inc_out (edge2str v) c) as (b & c1 & t1 & E & S). rewrite E. unfold outcome in *.
  destruct (c_cur c) eqn:C; [| |eexists; eexists; split; [reflexivity|exact S]];
    (destruct (bindable (edge2str v)) eqn:B; [|eexists; eexists; split; [reflexivity|exact S]]);
    (destruct b; [eexists; eexists; split; [reflexivity|exact S]|]);
    destruct (upd_ins_out (edge2str v) 1 t c1 Ht) as (c2 & t2 & E2 & S2 & _); rewrite E2; unfold outcome; rewrite <- (sp_cur _ _ S), C, B;
    (eexists; eexists; split; [reflexivity|now apply (samep_trans c c1)]).
Qed.
Lemma rr_out {A} (m1 m2 : M A) g : (forall c, exists c' tr, m1 c = (g (c_cur c), c', tr) /\ samep c c') ->
  (forall c, exists c' tr, m2 c = (g (c_cur c), c', tr) /\ samep c c') -> rr m1 m2.
Proof.
  intros H1 H2 c1 c2 S. destruct (H1 c1) as (d1 & t1 & E1 & S1). destruct (H2 c2) as (d2 & t2 & E2 & S2).
  exists (g (c_cur c1)), d1, t1, d2, t2. split; [exact E1|]. split; [now rewrite (sp_cur _ _ S)|].
  apply (samep_trans d1 c1); [now apply samep_sym|]. now apply (samep_trans c1 c2).
Qed.
Definition outc (s : str) (u : curstate) : res unit :=
  match u with CClosed => Err ProgrammingError | _ => if bindable s then Ok tt else Err UnicodeEncodeError end.
Lemma rr_addv t v : int64 t = true -> rr (addv t v) (addv t v).
Proof. intros Ht. apply (rr_out _ _ (outc (edge2str v))); intros c; now apply addv_out. Qed.
Lemma rr_add_str s1 s2 d t : int64 t = true -> bindable s1 = bindable s2 -> rr (add_str s1 d t) (add_str s2 d t).
Proof.
  intros Ht B. apply (rr_out _ _ (outc s1)); intros c; [destruct (upd_ins_out s1 d t c Ht) as (c' & tr & E & S & _)|destruct (upd_ins_out s2 d t c Ht) as (c' & tr & E & S & _)];
    exists c', tr; (split; [|exact S]); rewrite E; unfold outcome, outc; [reflexivity|now rewrite B].
Qed.
Lemma bind_join l : bindable (join [c_space] l) = forallb bindable l.
Proof.
  unfold bindable. induction l as [|x l IH]; [reflexivity|]. destruct l as [|y l]; [cbn; now rewrite andb_true_r|]. change (join [c_space] (x :: y :: l)) with (x ++ [c_space] ++ join [c_space] (y :: l)). rewrite !forallb_app, IH. reflexivity.
Qed.
Lemma bind_letters s : bindable (edge2str (letters s)) = bindable s.
Proof.
  unfold letters. cbn [edge2str]. change (c_lpar :: ?x) with ([c_lpar] ++ x). unfold bindable at 1. rewrite !forallb_app.
  change (forallb (fun c => negb (is_surrogate c)) (join [c_space] ?l)) with (bindable (join [c_space] l)). rewrite bind_join, map_map.
  assert (L : forall s, forallb bindable (List.map (fun x => edge2str (VStr [x])) s) = bindable s).
  { clear s. induction s as [|c s IH]; [reflexivity|]. cbn [List.map forallb]. rewrite IH. unfold bindable. cbn. now rewrite andb_true_r. }
  rewrite L. change (bindable s && true = bindable s). apply andb_true_r.
Qed.
Lemma rr_add_raw x t : int64 t = true -> rr (add_raw x t;; ret tt) (add_raw (spelled x) t;; ret tt).
Proof.
  intros Ht.
  assert (E : as_seq x = as_seq (spelled x)) by (now destruct x).
  assert (B : bindable (edge2str x) = bindable (edge2str (spelled x))) by (destruct x; try reflexivity; cbn [spelled edge2str]; symmetry; apply bind_letters).
  assert (K : rr (add_raw x t;; ret tt) (add_raw (spelled x) t;; ret tt)); [|exact K].
  unfold add_raw. intros c1 c2 S.
  assert (R : rr (do b <- exists_ x; if b then ret tt else do items <- lift (as_seq x); mfor items (addv t);; add_str (edge2str x) 0 t;; write_edge_permutations items)
                 (do b <- exists_ (spelled x); if b then ret tt else do items <- lift (as_seq (spelled x)); mfor items (addv t);; add_str (edge2str (spelled x)) 0 t;; write_edge_permutations items)).
  { apply rr_bind; [now apply rr_exists|]. intros [|]; [apply rr_ret|]. rewrite <- E. apply rr_bind; [apply rr_lift|]. intros items.
    apply rr_bind; [apply rr_same; intros; now apply rr_addv|]. intros _. apply rr_bind; [now apply rr_add_str|]. intros _. apply rr_rows. }
  destruct (R c1 c2 S) as (r & d1 & t1 & d2 & t2 & E1 & E2 & S').
  assert (F : forall (y : value) c r c' tr, (do b <- exists_ y; if b then ret tt else do items <- lift (as_seq y); mfor items (addv t);; add_str (edge2str y) 0 t;; write_edge_permutations items) c = (r, c', tr) ->
            exists tr', ((do b <- exists_ y; (if b then ret tt else do items <- lift (as_seq y); mfor items (addv t);; add_str (edge2str y) 0 t;; write_edge_permutations items);; ret y);; ret tt) c = (r, c', tr')).
  { intros y c r0 c' tr H. unfold bind in H at 1. unfold bind at 1 2. destruct (exists_ y c) as [[[b|e] c0] t0]; [|injection H as <- <- <-; now eexists].
    unfold bind at 1. destruct ((if b then ret tt else _) c0) as [[[u|e] c3] t3]; injection H as <- <- <-; unfold ret; destruct u || idtac; now eexists. }
  destruct (F _ _ _ _ _ E1) as (u1 & G1). destruct (F _ _ _ _ _ E2) as (u2 & G2). exists r, d1, u1, d2, u2. split; [exact G1|]. now split.
Qed.

(** C84.  The same outcome, and afterwards the same answers to every question about
    edges, whatever is asked. *)
Definition same_outcome (v1 v2 : value) (r1 r2 : res value) : Prop :=
  match r1, r2 with Ok x1, Ok x2 => x1 = v1 /\ x2 = v2 | Err e1, Err e2 => e1 = e2 | _, _ => False end.
Record same_edges (c1 c2 : conn) : Prop := {
  se_exists : forall e, fst (fst (exists_ e c1)) = fst (fst (exists_ e c2));
  se_pattern : forall p, fst (fst (pattern2edges p c1)) = fst (fst (pattern2edges p c2));
  se_star : forall v, fst (fst (star v c1)) = fst (fst (star v c2));
  se_symbols : forall r, fst (fst (symbols_with_root r c1)) = fst (fst (symbols_with_root r c2));
  se_sources : forall e, fst (fst (sources e c1)) = fst (fst (sources e c2)) }.
Lemma samep_edges c1 c2 : samep c1 c2 -> same_edges c1 c2.
Proof.
  intros S. assert (X : forall A (m : M A), rr m m -> fst (fst (m c1)) = fst (fst (m c2))).
  { intros A m R. destruct (R c1 c2 S) as (r & d1 & t1 & d2 & t2 & E1 & E2 & _). now rewrite E1, E2. }
  constructor; intros; apply X; [now apply rr_exists|now apply rr_pattern|apply rr_star|apply rr_symbols|apply rr_sources].
Qed.

Lemma texts_spelled v t c : int64 t = true -> (exists x, index0 v = Ok x /\ is_tup x = true) \/ (exists s, v = VStr s) ->
    let v' := match v with VTup l => VTup (List.map spelled l) | _ => spelled v end in
    exists r c1 t1 r' c2 t2, add v t c = (r, c1, t1) /\ add v' t c = (r', c2, t2)
      /\ same_outcome v v' r r' /\ samep c1 c2.
Proof.
  intros Ht H v'.
  set (bd := fun w x => if is_tup x then do cur <- open_cursor false; do items <- lift (as_seq w); mfor items (fun edge => add_raw edge t;; ret tt);; close_cursor cur false true
    else add_raw w t;; ret tt).
  assert (F : forall w c r c' tr, (do x <- lift (index0 w); bd w x) c = (r, c', tr) -> exists tr', add w t c = (match r with Ok _ => Ok w | Err e => Err e end, c', tr')).
  { intros w c0 r c' tr E. change (add w t) with (do x <- lift (index0 w); bd w x;; ret w). unfold bind in E. unfold bind.
    destruct (lift (index0 w) c0) as [[[x|e] d] t0]; [|injection E as <- <- <-; now eexists].
    destruct (bd w x d) as [[[u|e] d3] t3]; injection E as <- <- <-; now eexists. }
  assert (K : rr (do x <- lift (index0 v); bd v x) (do x <- lift (index0 v'); bd v' x)).
  { assert (Go : forall x, index0 v = Ok x -> index0 v' = Ok x -> rr (bd v x) (bd v' x) -> rr (do x <- lift (index0 v); bd v x) (do x <- lift (index0 v'); bd v' x)).
    { intros x E1 E2 R c1 c2 S. rewrite E1, E2. unfold lift. rewrite !bind_ret_l. now apply R. }
    destruct H as [(x & E & T)|(s & ->)].
    - destruct v as [| | |s|l]; try discriminate E; [destruct s; [discriminate E|cbn in E; injection E as <-; discriminate T]|].
      assert (E' : index0 v' = Ok x) by (destruct l as [|y l]; [discriminate E|]; cbn in E; injection E as ->; now destruct x).
      apply (Go x E E'). unfold bd. rewrite T. apply rr_bind; [apply rr_open|]. intros h. unfold v'. cbn [as_seq].
      intros c1 c2 S. unfold lift. rewrite !bind_ret_l. revert c1 c2 S. apply rr_bind; [|intros _; apply rr_close].
      apply rr_mfor. intros z _. now apply rr_add_raw.
    - destruct s as [|a s].
      + intros c1 c2 S. exists (Err IndexError), c1, [], c2, []. now split.
      + apply (Go (VStr [a])); [reflexivity|reflexivity|]. unfold bd. cbn [is_tup]. now apply (rr_add_raw (VStr (a :: s))). }
  destruct (K c c (samep_refl c)) as (r & d1 & t1 & d2 & t2 & E1 & E2 & S). destruct (F _ _ _ _ _ E1) as (u1 & G1). destruct (F _ _ _ _ _ E2) as (u2 & G2).
  eexists; eexists; eexists; eexists; eexists; eexists. split; [exact G1|]. split; [exact G2|]. split; [now destruct r|exact S].
Qed.
(** A text [v], or a list [v] of edges or texts that starts with an edge (as does an
    edge whose first element is an edge: [add] cannot tell it from a list), in any
    state of the hypergraph, also within a batch: every text is taken as the edge of
    its letters.  What the edges [v'] so read would raise is raised; otherwise [add]
    returns its argument. *)
Theorem C84_texts_are_spelled :
  forall v t c, int64 t = true -> (exists x, index0 v = Ok x /\ is_tup x = true) \/ (exists s, v = VStr s) ->
    let v' := match v with VTup l => VTup (List.map spelled l) | _ => spelled v end in
    exists r c1 t1 r' c2 t2, add v t c = (r, c1, t1) /\ add v' t c = (r', c2, t2)
      /\ same_outcome v v' r r' /\ same_edges c1 c2.
Proof.
  intros v t c Ht H v'. destruct (texts_spelled v t c Ht H) as (r & c1 & t1 & r' & c2 & t2 & E1 & E2 & So & S).
  exists r, c1, t1, r', c2, t2. split; [exact E1|]. split; [exact E2|]. split; [exact So|]. now apply samep_edges.
Qed.
Print Assumptions C84_texts_are_spelled.

(** ** what adding a text does to the vertex with that text *)

Definition keepv {A} (m : M A) : Prop := forall c, vertices (c_work (snd (fst (m c)))) = vertices (c_work c).
Lemma kv_bind {A B} (m : M A) (k : A -> M B) : keepv m -> (forall a, keepv (k a)) -> keepv (bind m k).
Proof.
  intros H K c. specialize (H c). unfold bind. destruct (m c) as [[[a|e] c1] t1]; cbn [fst snd] in *; [|exact H].
  specialize (K a c1). destruct (k a c1) as [[r c2] t2]. cbn [fst snd] in *. congruence.
Qed.
Lemma kv_same {A} (m : M A) : (forall c, c_work (snd (fst (m c))) = c_work c) -> keepv m.
Proof. intros H c. now rewrite H. Qed.
Lemma kv_write r : keepv (write_edge_permutation r).
Proof.
  unfold write_edge_permutation, update_or_insert. apply kv_bind; [intros c; now rewrite open_true|]. intros h.
  apply kv_bind; [intros c; unfold execute; destruct (negb _); [reflexivity|]; destruct (bind_error _); reflexivity|]. intros n.
  apply kv_bind; [|intros _ c; unfold close_cursor, close_handle, commit, bind, get_cur, set_cur, ret; destruct (c_cur c), h; reflexivity].
  destruct (Nat.eqb n 0); [|intros c; reflexivity]. apply kv_bind; [|intros _ c; reflexivity].
  intros c; unfold execute; destruct (negb _); [reflexivity|]; destruct (bind_error _); [reflexivity|]. cbn [sql_run]. now destruct (existsb _ _).
Qed.
Lemma kv_rows items : keepv (write_edge_permutations items).
Proof.
  unfold write_edge_permutations, do_with_edge_permutations. induction (seq 0 (fact (List.length items))) as [|n l IH]; cbn [mfor]; [intros c; reflexivity|].
  apply kv_bind; [|intros _; exact IH]. apply kv_bind; [intros c; unfold lift; now destruct (perm_str items n)|]. intros s. apply kv_write.
Qed.
Lemma bind_ok {A B} (m : M A) (k : A -> M B) c b c' tr : bind m k c = (Ok b, c', tr) ->
  exists a c1 t1 t2, m c = (Ok a, c1, t1) /\ k a c1 = (Ok b, c', t2).
Proof.
  unfold bind. destruct (m c) as [[[a|e] c1] t1]; [|discriminate]. destruct (k a c1) as [[r c2] t2] eqn:E. intros H. injection H as -> -> _. now exists a, c1, t1, t2.
Qed.

(** Adding a text whose letters are not stored as an edge stores them as one, and
    leaves the vertex with that text with degree 0, wherever it occurs. *)
Theorem C84_degree_is_reset :
  forall V ops c s t, noalias V -> reached V ops c -> int64 t = true -> edge_in V (letters s) -> ~ present (history ops) (letters s) ->
    exists c' tr, add (VStr s) t c = (Ok (VStr s), c', tr)
      /\ degree (VStr s) c' = (Ok 0%Z, c', []) /\ timestamp (VStr s) c' = (Ok t, c', [])
      /\ forall e, edge_in V e -> exists b, exists_ e c' = (Ok b, c', []) /\ (b = true <-> present (history ops) e \/ e = letters s).
Proof.
  intros V ops c s t HV Hr Ht He Np. pose proof (reached_ready V ops c HV Hr) as R.
  destruct (op_top (fun l => l) V _ (OAdd (letters s) t) c HV (fun l => Permutation_refl l) (conj He Ht) R) as (us & c2' & tr2' & [Er _ R' _ _]).
  cbn [run_op after] in *. destruct (bind_ok _ _ _ _ _ _ Er) as (a & c3 & t3 & t4 & Ea & Eb). unfold ret in Eb. injection Eb as <- _.
  destruct (texts_spelled (VStr s) t c Ht) as (r & c1 & t1 & r' & c2 & t2 & E1 & E2 & So & Sp); [right; now exists s|]. cbn [spelled] in *.
  rewrite Ea in E2. injection E2 as <- <- <-. unfold same_outcome in So. destruct r as [x|]; [|now elim So]. destruct So as [-> ->].
  exists c1, t1. split; [exact E1|].
  destruct s as [|ch s]; [exfalso; apply (edge_in_db _ _) in He; discriminate He|].
  (* the run of the text, call by call *)
  unfold add in E1. destruct (bind_ok _ _ _ _ _ _ E1) as (x0 & d0 & v0 & v1 & F0 & F1). change (lift (index0 (VStr (ch :: s)))) with (@ret value (VStr [ch])) in F0.
  unfold ret in F0. injection F0 as <- <- <-. cbn [is_tup] in F1. clear E1.
  destruct (bind_ok _ _ _ _ _ _ F1) as (u & d1 & u1 & u2 & F2 & F3). unfold ret in F3. injection F3 as <- _. clear F1.
  destruct (bind_ok _ _ _ _ _ _ F2) as (v & d2 & u3 & u4 & F3 & F4). unfold ret in F4. injection F4 as _ <- _. clear F2.
  unfold add_raw in F3. destruct (bind_ok _ _ _ _ _ _ F3) as (b & d3 & u5 & u6 & G1 & G2). clear F3.
  destruct (ready_exists V c _ (letters (ch :: s)) HV R He) as (b0 & X1 & X2).
  change (exists_ (VStr (ch :: s))) with (exists_ (letters (ch :: s))) in G1. rewrite X1 in G1. injection G1 as <- <- <-.
  destruct b0; [exfalso; apply Np, X2; reflexivity|].
  destruct (bind_ok _ _ _ _ _ _ G2) as (w & d4 & u7 & u8 & G3 & G4). unfold ret in G4. injection G4 as _ <- _. clear G2.
  destruct (bind_ok _ _ _ _ _ _ G3) as (items & d5 & u9 & u10 & G5 & G6). clear G3. change (lift (as_seq (VStr (ch :: s)))) with (@ret (list value) (List.map (fun c => VStr [c]) (ch :: s))) in G5.
  unfold ret in G5. injection G5 as <- <- <-.
  destruct (bind_ok _ _ _ _ _ _ G6) as ([] & d6 & u11 & u12 & G7 & G8). clear G6.
  destruct (bind_ok _ _ _ _ _ _ G8) as ([] & d7 & u13 & u14 & G9 & G10). clear G8.
  change (edge2str (VStr (ch :: s))) with (ch :: s) in G9.
  destruct (upd_ins_out (ch :: s) 0 t d6 Ht) as (d8 & u15 & H1 & H2 & H3). rewrite G9 in H1. injection H1 as H1 -> ->.
  assert (Vl : vlook (ch :: s) (c_work d4) = Some (0%Z, t)).
  { pose proof (kv_rows _ d8 : vertices (c_work (snd (fst (write_edge_permutations (VStr [ch] :: List.map (fun c => VStr [c]) s) d8)))) = _) as K. cbn [List.map] in G10. unfold letters in *. rewrite G10 in K. cbn [fst snd] in K. unfold vlook. rewrite K. now apply H3. }
  assert (Cu : c_cur d4 = CNone).
  { rewrite (sp_cur _ _ Sp). apply R'. }
  assert (Bs : forallb bindable [edge2str (VStr (ch :: s))] = true).
  { change (edge2str (VStr (ch :: s))) with (ch :: s). cbn [forallb]. unfold outcome in H1. destruct (c_cur d6), (bindable (ch :: s)); try discriminate H1; reflexivity. }
  rewrite (degree_none _ _ Cu), (timestamp_none _ _ Cu), Bs. change (edge2str (VStr (ch :: s))) with (ch :: s). rewrite Vl.
  split; [reflexivity|]. split; [reflexivity|]. intros e Hee.
  destruct (ready_exists V _ _ e HV R' Hee) as (b & Y1 & Y2). destruct (qq_exists e d4 d4 (compat_refl d4)) as (r & Y3 & _).
  pose proof (se_exists _ _ (samep_edges _ _ Sp) e) as Y4. rewrite Y1, Y3 in Y4. cbn [fst] in Y4. subst r. exists b. split; [exact Y3|].
  rewrite Y2, present_add. split; [intros [X|X]; [now right|now left]|intros [X|X]; [now right|now left]].
Qed.
Print Assumptions C84_degree_is_reset.
(** the hypotheses are met by a vertex that occurs in edges (degree 4), and an edge whose
    first element is an edge is stored by its elements: its texts are spelled *)
Example C84_nonvacuous :
  reached plain_values ex_ops ex_c /\ edge_in plain_values (letters (lit "mary")) /\ fst (fst (exists_ (letters (lit "mary")) ex_c)) = Ok false
  /\ degree (VStr (lit "mary")) ex_c = (Ok 4%Z, ex_c, [])
  /\ exists c tr, let e := VTup [VTup [VStr (lit "not"); VStr (lit "is")]; VStr (lit "mary"); VStr (lit "red")] in
       add e 7 ex_c = (Ok e, c, tr) /\ fst (fst (exists_ e c)) = Ok false /\ fst (fst (star (VStr (lit "red")) c)) = Ok []
       /\ fst (fst (exists_ (VTup [VStr (lit "r"); VStr (lit "e"); VStr (lit "d")]) c)) = Ok true /\ fst (fst (degree (VStr (lit "mary")) c)) = Ok 0%Z.
Proof.
  split; [exact ex_reached|]. split; [apply edge_inb_ok; vm_compute; reflexivity|]. split; [vm_compute; reflexivity|]. split; [vm_compute; reflexivity|].
  ran (add (VTup [VTup [VStr (lit "not"); VStr (lit "is")]; VStr (lit "mary"); VStr (lit "red")]) 7) ex_c. repeat apply conj; vm_compute; reflexivity.
Qed.
