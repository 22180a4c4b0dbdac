(** * P_stuck.v -- after a multi-edge call that raised: the shared cursor stays *)

From Verif Require Import Py M_symbol M_edge M_sql M_hypergraph P_py Spec P_edge P_perm P_range P_query
  S_history M_driver P_ops P_hist P_graph P_answers P_crash.
From Coq Require Import Permutation Factorial String.
Open Scope list_scope.

(** with a shared cursor (open or closed) nothing reaches the disk *)
Definition Rstuck : rel := fun c c' tr =>
  c_auto c = false -> c_cur c <> CNone ->
  c_auto c' = false /\ c_cur c' <> CNone /\ c_comm c' = c_comm c /\ forall d, In d tr -> d = c_comm c.
(** and it stays *)
Definition Rcur : rel := fun c c' tr => c_cur c <> CNone -> c_cur c' <> CNone.

Lemma comp_stuck : comp Rstuck.
Proof.
  constructor; unfold Rstuck.
  - intros c A C. split; [exact A|]. split; [exact C|]. split; [reflexivity|easy].
  - intros c c1 c2 t1 t2 H1 H2 A C. destruct (H1 A C) as (A1 & C1 & D1 & T1).
    destruct (H2 A1 C1) as (A2 & C2 & D2 & T2). split; [exact A2|]. split; [exact C2|]. split; [congruence|].
    intros d Hd. apply in_app_iff in Hd as [Hd|Hd]; [now apply T1|]. rewrite <- D1. now apply T2.
Qed.
Lemma comp_cur : comp Rcur.
Proof. constructor; unfold Rcur; [auto|]. intros c c1 c2 t1 t2 H1 H2 H. auto. Qed.

Section Both.
  Variable R : rel.
  Hypothesis C : comp R.
  Hypothesis X : forall h s, always R (execute h s).
  Hypothesis O : always R (open_cursor true).
  Hypothesis K : forall h b, always R (close_cursor h true b).
  Hypothesis D : always R destroy.
  Lemma b_uoi u i : always R (update_or_insert u i).
  Proof.
    unfold update_or_insert. apply al_bind; [exact C|exact O|]. intros h. apply al_bind; [exact C|apply X|]. intros n.
    apply al_bind; [exact C| |intros _; apply K]. destruct (Nat.eqb n 0); [|now apply al_ret]. apply al_bind; [exact C|apply X|intros _; now apply al_ret].
  Qed.
  Lemma b_block s {A} (g : nat -> A) : always R (do cur <- open_cursor true; do n <- execute cur s; close_cursor cur true true;; ret (g n)).
  Proof. apply al_bind; [exact C|exact O|]. intros h. apply al_bind; [exact C|apply X|]. intros n. apply al_bind; [exact C|apply K|intros _; now apply al_ret]. Qed.
  Lemma b_add_raw e t : always R (add_raw e t).
  Proof.
    unfold add_raw. apply al_bind; [exact C|now apply al_exists|]. intros b.
    apply al_bind; [exact C| |intros _; now apply al_ret]. destruct b; [now apply al_ret|].
    apply al_bind; [exact C|now apply al_lift|]. intros items. apply al_bind; [exact C| |intros _].
    { apply al_mfor; [exact C|]. intros x. apply al_bind; [exact C|apply b_block|]. intros [|]; [now apply al_ret|apply b_uoi]. }
    apply al_bind; [exact C|apply b_uoi|intros _]. unfold write_edge_permutations, do_with_edge_permutations.
    apply al_mfor; [exact C|]. intros n. apply al_bind; [exact C|now apply al_lift|]. intros s. apply b_uoi.
  Qed.
  Lemma b_many es t : always R (many_loop es t).
  Proof.
    unfold many_loop. apply al_bind; [exact C|now apply al_lift|]. intros items.
    apply al_mfor; [exact C|]. intros e. apply al_bind; [exact C|apply b_add_raw|intros _; now apply al_ret].
  Qed.
  Lemma b_add_single e t : (forall x, index0 e = Ok x -> is_tup x = false) -> always R (add e t).
  Proof.
    intros H c. unfold add. destruct (index0 e) as [x|y]; [|apply (co_refl _ C)].
    unfold lift. rewrite bind_ret_l, (H x eq_refl).
    apply al_bind; [exact C| |intros _; now apply al_ret].
    apply al_bind; [exact C|apply b_add_raw|intros _; now apply al_ret].
  Qed.
End Both.

Lemma stuck_exec h s : always Rstuck (execute h s).
Proof.
  intros [au cm wk cu]. unfold Rstuck. cbn [c_cur c_comm c_work c_auto]. intros -> Hc. unfold st_of, tr_of, execute.
  destruct (negb (usable h _)); [cbn; tauto|]. destruct (bind_error s); [cbn; tauto|]. cbn [c_work].
  destruct (sql_run s wk) as [[w n]|x]; cbn; [|tauto]. split; [reflexivity|]. split; [exact Hc|]. split; [reflexivity|]. now intros d [<-|[]].
Qed.
Lemma stuck_open b : always Rstuck (open_cursor b).
Proof.
  intros [au cm wk cu]. unfold Rstuck. cbn [c_cur c_comm c_work c_auto]. intros -> Hc. unfold st_of, tr_of, open_cursor, bind, get_cur, ret. cbn [c_cur].
  destruct b, cu; try (now destruct Hc); cbn; tauto.
Qed.
Lemma stuck_close h b : always Rstuck (close_cursor h true b).
Proof.
  intros [au cm wk cu]. unfold Rstuck. cbn [c_cur c_comm c_work c_auto]. intros -> Hc. unfold st_of, tr_of, close_cursor, bind, get_cur, ret. cbn [c_cur].
  destruct cu; try (now destruct Hc); cbn; tauto.
Qed.
Lemma stuck_destroy : always Rstuck destroy.
Proof.
  pose proof comp_stuck as C. unfold destroy. apply al_bind; [exact C|apply stuck_open|]. intros h.
  apply al_bind; [exact C|apply stuck_exec|intros _]. apply al_bind; [exact C|apply stuck_exec|intros _]. apply stuck_close.
Qed.
Lemma stuck_degree v : always Rstuck (degree v) /\ always Rstuck (timestamp v).
Proof.
  split; intros [au cm wk cu]; unfold Rstuck; cbn [c_cur c_comm c_work c_auto]; intros -> Hc; unfold degree, timestamp, st_of, tr_of, bind; rewrite open_true;
    unfold hd_of, query, usable, close_handle, set_cur, ret; cbn [c_cur c_work c_auto c_comm];
    (destruct cu; [now destruct Hc| |]); cbn [negb]; try (cbn; tauto);
    (destruct (forallb bindable [edge2str v]); cbn [negb]; [|cbn; tauto]); (destruct (vlook (edge2str v) wk) as [[d t]|]; cbn; intuition discriminate).
Qed.
Lemma stuck_ask q : always Rstuck (run_ask q).
Proof.
  pose proof comp_stuck as C. destruct q; cbn [run_ask]; (apply al_bind; [exact C| |intros _; now apply al_ret]).
  - now apply al_exists.
  - now apply al_pattern.
  - apply al_pure; [exact C|]. intros c. apply qq_star, compat_refl.
  - apply stuck_degree.
  - apply stuck_degree.
  - now apply al_sources.
  - apply al_pure; [exact C|]. intros c. apply qq_symbols, compat_refl.
  - apply al_pure; [exact C|]. intros c. apply qq_f_all, compat_refl.
Qed.

Lemma cur_exec h s : always Rcur (execute h s).
Proof.
  intros c. unfold Rcur, st_of, execute. destruct (negb (usable h c)); [auto|]. destruct (bind_error s); [auto|].
  destruct (sql_run s (c_work c)) as [[w n]|x]; auto.
Qed.
Lemma cur_open b : always Rcur (open_cursor b).
Proof. intros [au cm wk cu]. unfold Rcur, st_of, open_cursor, bind, get_cur, ret. cbn [c_cur]. destruct b, cu; cbn; auto. Qed.
Lemma cur_close h b : always Rcur (close_cursor h true b).
Proof.
  intros [au cm wk cu]. unfold Rcur, st_of, close_cursor, bind, get_cur, ret. cbn [c_cur]. intros Hc. destruct cu; [now destruct Hc| |]; cbn; auto.
Qed.
Lemma cur_remove_raw e : always Rcur (remove_raw e).
Proof.
  pose proof comp_cur as C. unfold remove_raw. apply al_bind; [exact C|now apply al_exists|]. intros [|]; [|now apply al_ret].
  apply al_bind; [exact C|now apply al_lift|]. intros items. apply al_bind; [exact C| |intros _].
  { apply al_mfor; [exact C|]. intros x. apply al_bind; [exact C|apply (b_block Rcur C cur_exec (cur_open true) cur_close)|]. intros b. now apply al_ret. }
  apply al_bind; [exact C| |intros _].
  - unfold remove_edge_permutations, do_with_edge_permutations. apply al_mfor; [exact C|]. intros n.
    apply al_bind; [exact C|now apply al_lift|]. intros s. apply al_bind; [exact C|apply cur_exec|intros _ c; unfold Rcur; cbn; auto].
  - unfold remove_str. apply al_bind; [exact C|apply cur_open|]. intros h. apply al_bind; [exact C|apply cur_exec|]. intros _. apply cur_close.
Qed.
Lemma cur_remove e : always Rcur (remove e).
Proof.
  pose proof comp_cur as C. unfold remove. apply al_bind; [exact C|now apply al_lift|]. intros x.
  destruct (is_tup x); [|apply cur_remove_raw]. apply al_bind; [exact C|now apply al_lift|]. intros items.
  apply al_mfor; [exact C|]. apply cur_remove_raw.
Qed.
Lemma cur_destroy : always Rcur destroy.
Proof.
  pose proof comp_cur as C. unfold destroy. apply al_bind; [exact C|apply cur_open|]. intros h.
  apply al_bind; [exact C|apply cur_exec|intros _]. apply al_bind; [exact C|apply cur_exec|intros _]. apply cur_close.
Qed.

(** a call on one edge (not on a list of edges) *)
Definition one_edge (e : value) : bool := match e with VTup (VTup _ :: _) => false | _ => true end.
Lemma one_edge_index e x : one_edge e = true -> index0 e = Ok x -> is_tup x = false.
Proof.
  destruct e as [|s| | |[|y l]]; cbn; try discriminate.
  - intros _. destruct s; [discriminate|]. now intros [= <-].
  - intros H [= <-]. now destruct y.
Qed.
Definition bop_one (b : bop) : bool := match b with BAdd e _ => one_edge e | _ => true end.
Lemma cur_bop b : bop_one b = true -> always Rcur (run_bop b).
Proof.
  pose proof comp_cur as C. destruct b; cbn [run_bop bop_one]; intros H; try apply cur_remove; try apply cur_destroy;
    (apply al_bind; [exact C| |intros _; now apply al_ret]).
  - apply (b_add_single Rcur C cur_exec (cur_open true) cur_close). intros x. now apply one_edge_index.
  - now apply al_exists.
  - now apply al_pattern.
  - apply al_pure; [exact C|]. intros c. apply qq_star, compat_refl.
  - apply al_pure; [exact C|]. intros c. apply qq_symbols, compat_refl.
  - apply al_pure; [exact C|]. intros c. apply qq_f_all, compat_refl.
Qed.

Lemma al_mfor_in {A} R (l : list A) f : comp R -> (forall x, In x l -> always R (f x)) -> always R (mfor l f).
Proof.
  intros HR. induction l as [|x l IH]; intros H; [now apply al_ret|]. cbn. apply al_bind; [exact HR|apply H; now left|].
  intros _. apply IH. intros y Hy. apply H. now right.
Qed.

(** ** a shared-cursor call that raises leaves the cursor behind *)

Lemma shared_raises (body : M unit) c x c' tr : always Rcur body ->
  (do cur <- open_cursor false; body;; close_cursor cur false true) c = (Err x, c', tr) -> c_cur c' <> CNone.
Proof.
  intros B E. unfold bind in E. destruct (open_cursor false c) as [[[h|y] c0] t0] eqn:O.
  2: { unfold open_cursor, bind, get_cur, set_cur, ret in O. destruct (c_cur c); discriminate. }
  assert (N0 : c_cur c0 <> CNone).
  { unfold open_cursor, bind, get_cur, set_cur, ret in O. destruct (c_cur c) eqn:Ec; injection O as _ <- _; cbn; congruence. }
  specialize (B c0 N0). unfold st_of in B. destruct (body c0) as [[[u|y] c1] t1] eqn:Eb; cbn [fst snd] in B.
  - rewrite close_false in E. destruct (c_cur c1); [now destruct B|discriminate|discriminate].
  - injection E as _ <- _. exact B.
Qed.
Lemma add_many_raises es t c x c' tr : add (VTup es) t c = (Err x, c', tr) -> one_edge (VTup es) = false -> c_cur c' <> CNone.
Proof.
  intros E O. destruct es as [|[| | | |l] es]; try discriminate.
  rewrite (add_many_shape (VTup (VTup l :: es)) t c (VTup l) eq_refl eq_refl) in E. unfold bind at 1 in E.
  destruct ((do h <- open_cursor false; many_loop (VTup (VTup l :: es)) t;; close_cursor h false true) c) as [[[u|y] c1] t1] eqn:L; [discriminate|].
  injection E as <- <- <-. apply (shared_raises _ _ _ _ _ (b_many Rcur comp_cur cur_exec (cur_open true) cur_close _ _) L).
Qed.
Lemma batch_raises fs c x c' tr : forallb bop_one (List.concat fs) = true ->
  run_op (fun l => l) (OBatch fs) c = (Err x, c', tr) -> c_cur c' <> CNone.
Proof.
  intros Hb E. apply (shared_raises (mfor (List.map (fun f => mfor f run_bop) fs) (fun f => f)) c x c' tr); [|exact E].
  intros c0. rewrite mfor_nested. apply al_mfor_in; [exact comp_cur|]. intros b H. apply cur_bop. rewrite forallb_forall in Hb. now apply Hb.
Qed.

(** and one that returns commits everything *)
Lemma add_many_commits es t c a c' tr : add (VTup es) t c = (Ok a, c', tr) -> one_edge (VTup es) = false -> synced c'.
Proof.
  intros E O. destruct es as [|[| | | |l] es]; try discriminate.
  rewrite (add_many_shape (VTup (VTup l :: es)) t c (VTup l) eq_refl eq_refl) in E. unfold bind at 1 in E.
  destruct ((do h <- open_cursor false; many_loop (VTup (VTup l :: es)) t;; close_cursor h false true) c) as [[[u|y] c1] t1] eqn:L; [|discriminate].
  injection E as _ <- _. destruct u. now apply shared_ok in L.
Qed.

Lemma auto_op ord o : always Rauto (run_op ord o).
Proof.
  pose proof comp_auto as C.
  assert (AB : forall s e t, always Rauto (add_belief s e t)).
  { intros s e t. unfold add_belief. apply al_bind; [exact C|now apply al_lift|]. intros x. destruct (is_tup x).
    - apply al_bind; [exact C|now apply al_lift|]. intros items. apply al_bind; [exact C|apply auto_add|intros _; now apply al_ret].
    - apply al_bind; [exact C|apply auto_add|intros _; now apply al_ret]. }
  destruct o; cbn [run_op]; try apply auto_remove; try apply AB.
  - apply al_bind; [exact C|apply auto_add|intros _; now apply al_ret].
  - apply al_bind; [exact C|apply auto_add|intros _; now apply al_ret].
  - apply auto_destroy.
  - unfold remove_belief. apply al_bind; [exact C|apply auto_remove|intros _]. apply al_bind; [exact C|now apply al_sources|].
    intros ss. destruct (Nat.eqb _ 0); [apply auto_remove|now apply al_ret].
  - unfold remove_by_pattern. apply al_bind; [exact C|now apply al_pattern|]. intros l. apply al_mfor; [exact C|]. apply auto_remove.
  - apply auto_batch.
  - destruct q as [x|x|x|x|x|x|x|]; cbn [run_ask]; (apply al_bind; [exact C| |intros _; now apply al_ret]).
    + now apply al_exists.
    + now apply al_pattern.
    + apply al_pure; [exact C|]. intros c. apply qq_star, compat_refl.
    + intros [au cm wk cu]. unfold Rauto, degree, st_of, bind. rewrite open_true. unfold hd_of, query, usable, close_handle, set_cur, ret.
      cbn [c_cur c_work c_auto c_comm]. destruct cu; cbn [negb]; try reflexivity;
      (destruct (forallb bindable [edge2str x]); cbn [negb]; [|reflexivity]); destruct (vlook (edge2str x) wk) as [[d t]|]; reflexivity.
    + intros [au cm wk cu]. unfold Rauto, timestamp, st_of, bind. rewrite open_true. unfold hd_of, query, usable, close_handle, set_cur, ret.
      cbn [c_cur c_work c_auto c_comm]. destruct cu; cbn [negb]; try reflexivity;
      (destruct (forallb bindable [edge2str x]); cbn [negb]; [|reflexivity]); destruct (vlook (edge2str x) wk) as [[d t]|]; reflexivity.
    + now apply al_sources.
    + apply al_pure; [exact C|]. intros c. apply qq_symbols, compat_refl.
    + apply al_pure; [exact C|]. intros c. apply qq_f_all, compat_refl.
  - intros c. reflexivity.
Qed.

(** the calls whose normal return commits everything, whatever came before *)
Definition rescue (o : op) : bool :=
  match o with
  | OReopen | OBatch _ => true
  | OAdd e _ => negb (one_edge e)
  | OAddMany es _ => negb (one_edge (VTup es))
  | OAddBelief _ (VTup _) _ | OAddBeliefs _ _ _ => true
  | _ => false
  end.
Lemma belief_commits s l t c c' tr : add_belief s (VTup l) t c = (Ok tt, c', tr) -> synced c'.
Proof.
  unfold add_belief. destruct l as [|x l]; [discriminate|]. change (index0 (VTup (x :: l))) with (Ok x : res value).
  change (as_seq (VTup (x :: l))) with (Ok (x :: l) : res (list value)). change (lift (Ok x : res value)) with (ret x : M value). rewrite bind_ret_l.
  change (lift (Ok (x :: l) : res (list value))) with (ret (x :: l) : M (list value)).
  assert (X : forall v, one_edge (VTup v) = false -> (add (VTup v) t;; ret tt) c = (Ok tt, c', tr) -> synced c').
  { intros v Hv H. unfold bind in H. destruct (add (VTup v) t c) as [[[a|z] c1] t1] eqn:E; [|discriminate].
    injection H as <- _. now apply add_many_commits in E. }
  destruct (is_tup x) eqn:Ex.
  - rewrite bind_ret_l. apply X. now destruct x.
  - apply X. reflexivity.
Qed.
Lemma rescue_commits ord o c c' tr : rescue o = true -> run_op ord o c = (Ok tt, c', tr) -> synced c'.
Proof.
  assert (X : forall e t, one_edge e = false -> (add e t;; ret tt) c = (Ok tt, c', tr) -> synced c').
  { intros e t He H. unfold bind in H. destruct (add e t c) as [[[a|z] c1] t1] eqn:E; [|discriminate].
    injection H as <- _. destruct e as [| | | |es]; try discriminate. now apply add_many_commits in E. }
  destruct o; cbn [rescue run_op]; intros H E; try discriminate.
  - apply negb_true_iff in H. apply (X _ _ H E).
  - apply negb_true_iff in H. apply (X _ _ H E).
  - destruct e; try discriminate. now apply belief_commits in E.
  - now apply belief_commits in E.
  - now apply shared_ok in E.
  - unfold reopen_op in E. injection E as <- _. now split.
Qed.


(** ** with a closed shared cursor nothing works *)

Definition stops {A} (m : M A) (c : conn) : Prop := exists x, m c = (Err x, c, []).
Lemma stops_bind {A B} (m : M A) (k : A -> M B) c : stops m c -> stops (bind m k) c.
Proof. intros [x E]. exists x. unfold bind. now rewrite E. Qed.
Lemma stops_lift {A B} (r : res A) (k : A -> M B) c : (forall a, r = Ok a -> stops (k a) c) -> stops (bind (lift r) k) c.
Proof. intros H. destruct r as [a|x]; [|now exists x]. unfold lift. destruct (H a eq_refl) as [x E]. exists x. now rewrite bind_ret_l. Qed.
Lemma stops_open {B} (k : handle -> M B) b c : c_cur c = CClosed -> stops (k HShared) c -> stops (bind (open_cursor b) k) c.
Proof.
  intros Hc [x E]. exists x. unfold bind, open_cursor, get_cur, bind, ret. rewrite Hc. destruct b; rewrite E; reflexivity.
Qed.
Lemma stops_query {A} l (f : db -> A) c : c_cur c = CClosed -> stops (query HShared l f) c.
Proof. intros Hc. exists ProgrammingError. unfold query, usable. now rewrite Hc. Qed.
Lemma stops_exec s c : c_cur c = CClosed -> stops (execute HShared s) c.
Proof. intros Hc. exists ProgrammingError. unfold execute, usable. now rewrite Hc. Qed.

Lemma closed_pattern p c : c_cur c = CClosed -> stops (pattern2edges p) c.
Proof.
  intros Hc. unfold pattern2edges. apply stops_lift. intros items _. apply stops_lift. intros e _.
  apply stops_open; [exact Hc|]. apply stops_bind. now apply stops_query.
Qed.
Lemma closed_exists e c : c_cur c = CClosed -> stops (exists_ e) c.
Proof. intros Hc. unfold exists_. apply stops_bind. now apply closed_pattern. Qed.
Lemma closed_star v c : c_cur c = CClosed -> stops (star v) c.
Proof.
  intros Hc. unfold star, str2perms. apply stops_lift. intros e _.
  apply stops_open; [exact Hc|]. apply stops_bind. now apply stops_query.
Qed.
Lemma closed_symbols v c : c_cur c = CClosed -> stops (symbols_with_root v) c.
Proof.
  intros Hc. unfold symbols_with_root. apply stops_lift. intros e _.
  apply stops_open; [exact Hc|]. apply stops_bind. now apply stops_query.
Qed.
Lemma closed_sources v c : c_cur c = CClosed -> stops (sources v) c.
Proof. intros Hc. unfold sources. apply stops_bind. now apply closed_pattern. Qed.
Lemma closed_degree v c : c_cur c = CClosed -> stops (degree v) c /\ stops (timestamp v) c.
Proof.
  intros Hc. unfold degree, timestamp. split; (apply stops_open; [exact Hc|]; apply stops_bind; now apply stops_query).
Qed.
Lemma closed_f_all {B} (f : value * Z -> B) c : c_cur c = CClosed -> stops (f_all f) c.
Proof. intros Hc. unfold f_all. apply stops_open; [exact Hc|]. apply stops_bind. now apply stops_query. Qed.
Lemma closed_add_raw e t c : c_cur c = CClosed -> stops (add_raw e t) c.
Proof. intros Hc. unfold add_raw. apply stops_bind. now apply closed_exists. Qed.
Lemma closed_remove_raw e c : c_cur c = CClosed -> stops (remove_raw e) c.
Proof. intros Hc. unfold remove_raw. apply stops_bind. now apply closed_exists. Qed.
Lemma index0_seq v x l : index0 v = Ok x -> as_seq v = Ok l -> exists a r, l = a :: r.
Proof.
  destruct v as [|[|a s]| | |[|a l0]]; cbn; intros E H; try discriminate; injection H as <-; now eexists _, _.
Qed.
Lemma closed_add v t c : c_cur c = CClosed -> stops (add v t) c.
Proof.
  intros Hc. unfold add. apply stops_lift. intros x Hx. apply stops_bind. destruct (is_tup x).
  - apply stops_open; [exact Hc|]. apply stops_lift. intros l Hl. destruct (index0_seq _ _ _ Hx Hl) as (a & r & ->).
    apply stops_bind. cbn [mfor]. apply stops_bind, stops_bind. now apply closed_add_raw.
  - apply stops_bind. now apply closed_add_raw.
Qed.
Lemma closed_remove v c : c_cur c = CClosed -> stops (remove v) c.
Proof.
  intros Hc. unfold remove. apply stops_lift. intros x Hx. destruct (is_tup x); [|now apply closed_remove_raw].
  apply stops_lift. intros l Hl. destruct (index0_seq _ _ _ Hx Hl) as (a & r & ->). cbn [mfor]. apply stops_bind. now apply closed_remove_raw.
Qed.
Lemma closed_destroy c : c_cur c = CClosed -> stops destroy c.
Proof. intros Hc. unfold destroy. apply stops_open; [exact Hc|]. apply stops_bind. now apply stops_exec. Qed.
Lemma closed_op ord o c : c_cur c = CClosed -> o <> OReopen -> (forall fs, o <> OBatch fs) -> stops (run_op ord o) c.
Proof.
  intros Hc N1 N2.
  assert (AB : forall s e t, stops (add_belief s e t) c).
  { intros s e t. unfold add_belief. apply stops_lift. intros x _. destruct (is_tup x).
    - apply stops_lift. intros l _. apply stops_bind. now apply closed_add.
    - apply stops_bind. now apply closed_add. }
  destruct o; cbn [run_op]; try apply AB; try (now apply closed_remove).
  - apply stops_bind. now apply closed_add.
  - apply stops_bind. now apply closed_add.
  - now apply closed_destroy.
  - unfold remove_belief. apply stops_bind. now apply closed_remove.
  - unfold remove_by_pattern. apply stops_bind. now apply closed_pattern.
  - now destruct (N2 fs).
  - destruct q; cbn [run_ask]; apply stops_bind; try (now apply closed_degree).
    + now apply closed_exists.
    + now apply closed_pattern.
    + now apply closed_star.
    + now apply closed_sources.
    + now apply closed_symbols.
    + now apply closed_f_all.
  - now destruct N1.
Qed.
