(** * P_steps.v -- programs seen action by action, and several processes *)

From Verif Require Import Py M_symbol M_edge M_sql M_mysql M_hypergraph P_py Spec P_edge P_perm P_range P_query
  S_history M_driver P_ops P_hist P_graph P_answers P_crash M_steps S_steps.
From Coq Require Import Permutation Factorial String.
Open Scope list_scope.

(** ** the programs, run alone, are the methods *)

Lemma run_bind {A B} (p : prog A) (k : A -> prog B) c : run (pbind p k) c = bind (run p) (fun a => run (k a)) c.
Proof.
  revert c. induction p as [[a|e]|X a f IH]; intros c; cbn [pbind run].
  - unfold lift. now rewrite bind_ret_l.
  - reflexivity.
  - rewrite bind_assoc. apply bind_ext. intros x c'. apply IH.
Qed.
Lemma run_ret {A} (a : A) c : run (pret a) c = ret a c.
Proof. reflexivity. Qed.
Lemma run_lift {A} (r : res A) c : run (PRet r) c = lift r c.
Proof. reflexivity. Qed.
Lemma bind_ret_r {A} (m : M A) c : bind m (fun x => ret x) c = m c.
Proof. unfold bind, ret. destruct (m c) as [[[a|e] c'] t]; [now rewrite app_nil_r|reflexivity]. Qed.
Lemma run_pact {X} (a : act X) c : run (pact a) c = run_act a c.
Proof. unfold pact. cbn [run]. unfold pret, lift. apply (bind_ret_r (run_act a)). Qed.

(** [p] run alone is [m] *)
Definition is_run {A} (p : prog A) (m : M A) : Prop := forall c, run p c = m c.
Lemma ir_bind {A B} (p : prog A) m (k : A -> prog B) l : is_run p m -> (forall a, is_run (k a) (l a)) -> is_run (pbind p k) (bind m l).
Proof.
  intros H1 H2 c. rewrite run_bind. unfold bind. rewrite H1. destruct (m c) as [[[a|e] c1] t1]; [|reflexivity]. now rewrite H2.
Qed.
Lemma ir_ret {A} (a : A) : is_run (pret a) (ret a).
Proof. now intros c. Qed.
Lemma ir_lift {A} (r : res A) : is_run (PRet r) (lift r).
Proof. now intros c. Qed.
Lemma ir_raise {A} e : is_run (PRet (Err e)) (@raise A e).
Proof. now intros c. Qed.
Lemma ir_act {X} (a : act X) : is_run (pact a) (run_act a).
Proof. intros c. apply run_pact. Qed.
Lemma ir_get : is_run (pact AGetCur) get_cur. Proof. exact (ir_act AGetCur). Qed.
Lemma ir_set s : is_run (pact (ASetCur s)) (set_cur s). Proof. exact (ir_act (ASetCur s)). Qed.
Lemma ir_commit : is_run (pact ACommit) commit. Proof. exact (ir_act ACommit). Qed.
Lemma ir_exec h s : is_run (pact (AExec h s)) (execute h s). Proof. exact (ir_act (AExec h s)). Qed.
Lemma ir_range h lo hi : is_run (pact (AQuery h (SelRange lo hi))) (query h [lo; hi] (fun w => filter (in_range lo hi) (perms w))).
Proof. exact (ir_act (AQuery h (SelRange lo hi))). Qed.
Lemma ir_row h id : is_run (pact (AQuery h (SelRow id))) (query h [id] (vlook id)). Proof. exact (ir_act (AQuery h (SelRow id))). Qed.
Lemma ir_all h : is_run (pact (AQuery h SelAll)) (query h [] (fun w => List.map (fun r => (fst r, fst (snd r))) (vertices w))).
Proof. exact (ir_act (AQuery h SelAll)). Qed.
Lemma ir_for {A} (l : list A) f g : (forall x, is_run (f x) (g x)) -> is_run (pfor l f) (mfor l g).
Proof. intros H. induction l as [|x l IH]; [apply ir_ret|]. cbn [pfor mfor]. apply ir_bind; [apply H|intros _; exact IH]. Qed.

Ltac ir := repeat first
  [ apply ir_ret | apply ir_raise | apply ir_lift | apply ir_get | apply ir_set | apply ir_commit | apply ir_exec | apply ir_range | apply ir_row | apply ir_all
  | (apply ir_bind; [|intros ?]) | (apply ir_for; intros ?)
  | match goal with |- is_run (match ?x with _ => _ end) _ => destruct x end | assumption ].

Lemma ir_open b : is_run (p_open_cursor b) (open_cursor b).
Proof. unfold p_open_cursor, open_cursor. ir. Qed.
Lemma ir_close_handle h : is_run (p_close_handle h) (close_handle h).
Proof. destruct h; ir. Qed.
Lemma ir_close h l b : is_run (p_close_cursor h l b) (close_cursor h l b).
Proof. unfold p_close_cursor, close_cursor. destruct l, b; ir; apply ir_close_handle. Qed.
Ltac ir2 := repeat first
  [ apply ir_ret | apply ir_raise | apply ir_lift | apply ir_get | apply ir_set | apply ir_commit | apply ir_exec | apply ir_range | apply ir_row | apply ir_all
  | apply ir_open | apply ir_close | apply ir_close_handle
  | (apply ir_bind; [|intros ?]) | (apply ir_for; intros ?)
  | match goal with |- is_run (match ?x with _ => _ end) _ => destruct x end | assumption ].
Lemma ir_uoi u i : is_run (p_update_or_insert u i) (update_or_insert u i).
Proof. unfold p_update_or_insert, update_or_insert. ir2. Qed.
Lemma ir_add_str v d t : is_run (p_add_str v d t) (add_str v d t).
Proof. apply ir_uoi. Qed.
Lemma ir_dow l f g : (forall s, is_run (f s) (g s)) -> is_run (p_do_with_edge_permutations l f) (do_with_edge_permutations l g).
Proof. intros H. unfold p_do_with_edge_permutations, do_with_edge_permutations. ir. apply H. Qed.
Lemma ir_remperm r : is_run (p_remove_edge_permutation r) (remove_edge_permutation r).
Proof. unfold p_remove_edge_permutation, remove_edge_permutation. ir. Qed.
Lemma ir_remove_str r : is_run (p_remove_str r) (remove_str r).
Proof. unfold p_remove_str, remove_str. ir2. Qed.
Lemma ir_str2perms s : is_run (p_str2perms s) (str2perms s).
Proof. unfold p_str2perms, str2perms. ir2. Qed.
Lemma ir_pattern p : is_run (p_pattern2edges p) (pattern2edges p).
Proof. unfold p_pattern2edges, pattern2edges. ir2. Qed.
Lemma ir_exists e : is_run (p_exists e) (exists_ e).
Proof. unfold p_exists, exists_. apply ir_bind; [apply ir_pattern|intros l; apply ir_ret]. Qed.
Lemma ir_change v k : is_run (p_change_degree v k) (change_degree v k).
Proof. unfold p_change_degree, change_degree. ir2. Qed.
Lemma ir_add_raw e t : is_run (p_add_raw e t) (add_raw e t).
Proof.
  unfold p_add_raw, add_raw, write_edge_permutations. apply ir_bind; [apply ir_exists|]. intros b. apply ir_bind; [|intros _; apply ir_ret].
  destruct b; [apply ir_ret|]. apply ir_bind; [apply ir_lift|]. intros items. apply ir_bind; [|intros _; apply ir_bind; [apply ir_add_str|intros _]].
  - apply ir_for. intros v. unfold p_add_vertex, inc_degree. cbv zeta. apply ir_bind; [apply ir_change|]. intros [|]; [apply ir_ret|apply ir_add_str].
  - apply ir_dow. intros s. apply ir_uoi.
Qed.
Lemma ir_add e t : is_run (p_add e t) (add e t).
Proof.
  unfold p_add, add. apply ir_bind; [apply ir_lift|]. intros x. apply ir_bind; [|intros _; apply ir_ret]. destruct (is_tup x).
  - apply ir_bind; [apply ir_open|]. intros h. apply ir_bind; [apply ir_lift|]. intros l. apply ir_bind; [|intros _; apply ir_close].
    apply ir_for. intros y. apply ir_bind; [apply ir_add_raw|intros _; apply ir_ret].
  - apply ir_bind; [apply ir_add_raw|intros _; apply ir_ret].
Qed.
Lemma ir_remove_raw e : is_run (p_remove_raw e) (remove_raw e).
Proof.
  unfold p_remove_raw, remove_raw, remove_edge_permutations, dec_degree. apply ir_bind; [apply ir_exists|]. intros [|]; [|apply ir_ret].
  apply ir_bind; [apply ir_lift|]. intros l. apply ir_bind; [|intros _; apply ir_bind; [|intros _; apply ir_remove_str]].
  - apply ir_for. intros y. apply ir_bind; [apply ir_change|intros _; apply ir_ret].
  - apply ir_dow. apply ir_remperm.
Qed.
Lemma ir_remove e : is_run (p_remove e) (remove e).
Proof.
  unfold p_remove, remove. apply ir_bind; [apply ir_lift|]. intros x. destruct (is_tup x); [|apply ir_remove_raw].
  apply ir_bind; [apply ir_lift|]. intros l. apply ir_for. apply ir_remove_raw.
Qed.
Lemma ir_star a : is_run (p_star a) (star a).
Proof. apply ir_str2perms. Qed.
Lemma ir_destroy : is_run p_destroy destroy.
Proof. unfold p_destroy, destroy. ir2. Qed.
Lemma ir_degree v : is_run (p_degree v) (degree v).
Proof. unfold p_degree, degree. cbv zeta. ir2. Qed.
Lemma ir_timestamp v : is_run (p_timestamp v) (timestamp v).
Proof. unfold p_timestamp, timestamp. cbv zeta. ir2. Qed.
Lemma ir_sources e : is_run (p_sources e) (sources e).
Proof. unfold p_sources, sources. apply ir_bind; [apply ir_pattern|intros l; ir]. Qed.
Lemma ir_symbols r : is_run (p_symbols_with_root r) (symbols_with_root r).
Proof. unfold p_symbols_with_root, symbols_with_root. cbv zeta. ir2. Qed.
Lemma ir_f_all {B} (f : value * Z -> B) : is_run (p_f_all f) (f_all f).
Proof. unfold p_f_all, f_all. ir2. Qed.
Lemma ir_add_belief s e t : is_run (p_add_belief s e t) (add_belief s e t).
Proof.
  unfold p_add_belief, add_belief. apply ir_bind; [apply ir_lift|]. intros x. destruct (is_tup x).
  - apply ir_bind; [apply ir_lift|]. intros l. apply ir_bind; [apply ir_add|intros _; apply ir_ret].
  - apply ir_bind; [apply ir_add|intros _; apply ir_ret].
Qed.
Lemma ir_remove_belief s e : is_run (p_remove_belief s e) (remove_belief s e).
Proof.
  unfold p_remove_belief, remove_belief. apply ir_bind; [apply ir_remove|intros _]. apply ir_bind; [apply ir_sources|].
  intros ss. destruct (Nat.eqb (List.length ss) 0); [apply ir_remove|apply ir_ret].
Qed.
Lemma ir_remove_by_pattern ord p : is_run (p_remove_by_pattern ord p) (remove_by_pattern ord p).
Proof. unfold p_remove_by_pattern, remove_by_pattern. apply ir_bind; [apply ir_pattern|]. intros l. apply ir_for. apply ir_remove. Qed.
Lemma ir_ask q : is_run (p_ask q) (run_ask q).
Proof.
  destruct q; cbn [p_ask run_ask]; (apply ir_bind; [|intros _; apply ir_ret]); auto using ir_exists, ir_pattern, ir_star, ir_degree, ir_timestamp, ir_sources, ir_symbols, (@ir_f_all (value * Z)).
Qed.
Lemma ir_bop b : is_run (p_bop b) (run_bop b).
Proof.
  destruct b; cbn [p_bop run_bop]; try apply ir_remove; try apply ir_destroy;
    (apply ir_bind; [|intros _; apply ir_ret]); auto using ir_add, ir_exists, ir_pattern, ir_star, ir_symbols, (@ir_f_all (value * Z)).
Qed.
Lemma run_p_op ord o : o <> OReopen -> is_run (p_op ord o) (run_op ord o).
Proof.
  intros Ho. destruct o; cbn [p_op run_op]; try congruence.
  - apply ir_bind; [apply ir_add|intros _; apply ir_ret].
  - apply ir_bind; [apply ir_add|intros _; apply ir_ret].
  - apply ir_remove.
  - apply ir_remove.
  - apply ir_destroy.
  - apply ir_add_belief.
  - apply ir_add_belief.
  - apply ir_remove_belief.
  - apply ir_remove_by_pattern.
  - unfold p_batch_exec, batch_exec. apply ir_bind; [apply ir_open|]. intros h. apply ir_bind; [|intros _; apply ir_close].
    clear Ho. induction fs as [|f fs IH]; cbn [List.map pfor mfor]; [apply ir_ret|]. apply ir_bind; [|intros _; exact IH].
    apply ir_for. apply ir_bop.
  - apply ir_ask.
Qed.

(** on SQLite the connection's engine is the one of M_sql *)
Lemma run_act_on_sqlite {X} (a : act X) c : c_auto c = false -> run_act_on a c = run_act a c.
Proof. intros H. destruct a; cbn [run_act_on run_act]; try reflexivity. unfold execute_on, execute. now rewrite H. Qed.
Lemma run_act_auto {X} (a : act X) c r c' tr : run_act a c = (r, c', tr) -> c_auto c' = c_auto c.
Proof.
  destruct a; cbn [run_act].
  - unfold execute. destruct (negb (usable h c)); [now intros H; injection H as _ <- _|].
    destruct (bind_error s); [now intros H; injection H as _ <- _|].
    destruct (sql_run s (c_work c)) as [[d n]|e]; now intros H; injection H as _ <- _.
  - unfold query. destruct (negb (usable h c)); [now intros H; injection H as _ <- _|].
    destruct (negb (forallb bindable (sel_texts q))); now intros H; injection H as _ <- _.
  - unfold commit. now intros H; injection H as _ <- _.
  - unfold get_cur. now intros H; injection H as _ <- _.
  - unfold set_cur. now intros H; injection H as _ <- _.
Qed.
Lemma run_on_sqlite {A} (p : prog A) : forall c, c_auto c = false -> run_on p c = run p c.
Proof.
  induction p as [r|X a k IH]; intros c H; cbn [run_on run]; [reflexivity|]. unfold bind. rewrite (run_act_on_sqlite a c H).
  destruct (run_act a c) as [[[x|e] c1] t1] eqn:E; [|reflexivity]. rewrite IH; [reflexivity|].
  now rewrite (run_act_auto a c _ _ _ E).
Qed.
Lemma run_auto {A} (p : prog A) : forall c r c' tr, run p c = (r, c', tr) -> c_auto c' = c_auto c.
Proof.
  induction p as [r0|X a k IH]; intros c r c' tr E; cbn [run] in E; [destruct r0; now injection E as _ <- _|]. unfold bind in E.
  destruct (run_act a c) as [[[x|e] c1] t1] eqn:Ea.
  - destruct (run (k x) c1) as [[r2 c2] t2] eqn:E2. injection E as _ <- _. rewrite (IH x c1 _ _ _ E2). now apply (run_act_auto a c _ _ _ Ea).
  - injection E as _ <- _. now apply (run_act_auto a c _ _ _ Ea).
Qed.
Lemma run_ops_on_sqlite ord : forall ops c, c_auto c = false -> run_ops_on ord ops c = run_ops ord ops c.
Proof.
  induction ops as [|o ops IH]; intros c H; [reflexivity|]. unfold run_ops_on, run_ops in *. cbn [mfor]. unfold bind.
  assert (E : run_op_on ord o c = run_op ord o c /\ forall r c1 t1, run_op ord o c = (r, c1, t1) -> c_auto c1 = false).
  { assert (D : {o = OReopen} + {o <> OReopen}) by (destruct o; (now left) || (right; congruence)). destruct D as [->|Ho].
    - split; [reflexivity|]. cbn. unfold reopen_op. intros r c1 t1 E. now injection E as _ <- _.
    - split.
      + rewrite <- (run_p_op ord o Ho c), <- (run_on_sqlite _ c H). destruct o; try reflexivity. now destruct Ho.
      + intros r c1 t1 E. rewrite <- (run_p_op ord o Ho c) in E. now rewrite (run_auto _ _ _ _ _ E). }
  destruct E as [E1 E2]. rewrite E1. destruct (run_op ord o c) as [[[u|e] c1] t1]; [|reflexivity]. now rewrite (IH c1 (E2 _ _ _ eq_refl)).
Qed.

(** a process that has the database for itself *)
Record alone (auto : bool) (i : nat) (c : conn) (w : world) : Prop := {
  al_auto : c_auto c = auto;
  al_comm : wd_disk w = c_comm c;
  al_work : view i w = c_work c;
  al_free : lock_free i w = true;
  al_none : auto = true -> wd_writer w = None }.

Lemma usable_closed h c : negb (usable h c) = closed h (c_cur c).
Proof. unfold usable, closed. now destruct h, (c_cur c). Qed.
Lemma act_alone {X} auto i c w (a : act X) r c' tr : alone auto i c w -> run_act_on a c = (r, c', tr) ->
  exists d wr, act_on auto i w (c_cur c) a = Some (r, d, wr, c_cur c')
    /\ forall ps, alone auto i c' (World d wr ps).
Proof.
  intros [Ha Hc Hw Hf Hn] E.
  assert (K : forall ps, alone auto i c (World (wd_disk w) (wd_writer w) ps)) by (intros ps; constructor; [exact Ha|exact Hc|exact Hw|exact Hf|exact Hn]).
  destruct a; cbn [run_act_on act_on] in *.
  - unfold execute_on in E. rewrite Ha in E. rewrite usable_closed in E. destruct (closed h (c_cur c)); [injection E as <- <- _; eauto|].
    destruct (bind_error s); [injection E as <- <- _; eauto|]. rewrite Hw, Hf. destruct auto.
    + assert (Hd : wd_disk w = c_work c) by (rewrite <- Hw; unfold view; now rewrite (Hn eq_refl)).
      rewrite Hd. destruct (engine true s (c_work c)) as [[d n]|e]; injection E as <- <- _.
      * eexists _, _. split; [reflexivity|]. intros ps. rewrite (Hn eq_refl). now constructor.
      * eexists _, _. split; [reflexivity|]. intros ps. rewrite <- Hd. apply K.
    + destruct (engine false s (c_work c)) as [[d n]|e]; injection E as <- <- _.
      * eexists _, _. split; [reflexivity|]. intros ps. constructor; cbn; auto; try discriminate;
          unfold view, lock_free; cbn; now rewrite Nat.eqb_refl.
      * eexists _, _. split; [reflexivity|]. intros ps. constructor; cbn; auto; try discriminate;
          unfold view, lock_free; cbn; now rewrite Nat.eqb_refl.
  - unfold query in E. rewrite usable_closed in E. destruct (closed h (c_cur c)); [injection E as <- <- _; eauto|].
    destruct (negb (forallb bindable (sel_texts q))); [injection E as <- <- _; eauto|]. rewrite Hw. injection E as <- <- _. eauto.
  - unfold commit in E. injection E as <- <- _. destruct (holds i w) eqn:Hh.
    + eexists _, _. split; [reflexivity|]. intros ps. rewrite Hw. now constructor.
    + eexists _, _. split; [reflexivity|]. intros ps. cbn.
      assert (Hr : wd_writer w = None).
      { unfold holds, lock_free in *. destruct (wd_writer w) as [[j d]|]; [congruence|reflexivity]. }
      rewrite Hr. constructor; cbn; auto. now rewrite <- Hw; unfold view; rewrite Hr.
      now rewrite <- Hw; unfold view; rewrite Hr.
  - unfold get_cur in E. injection E as <- <- _. eauto.
  - unfold set_cur in E. injection E as <- <- _. eexists _, _. split; [reflexivity|]. intros ps. now constructor.
Qed.

Lemma steps_trans flt auto ord w w1 w2 : steps flt auto ord w w1 -> steps flt auto ord w1 w2 -> steps flt auto ord w w2.
Proof. intros H1 H2. induction H2 as [|x y H2 IH S]; [exact H1|]. now apply (steps_next _ _ _ _ x). Qed.
Lemma steps_one flt auto ord w w1 : step flt auto ord w w1 -> steps flt auto ord w w1.
Proof. intros H. apply (steps_next _ _ _ _ w); [apply steps_refl|exact H]. Qed.
Lemma set_same i p ps : set_proc i p ps i = p.
Proof. unfold set_proc. now rewrite Nat.eqb_refl. Qed.
Lemma set_other i j p ps : j <> i -> set_proc i p ps j = ps j.
Proof. intros H. unfold set_proc. apply Nat.eqb_neq in H. now rewrite H. Qed.

Lemma solo_prog flt auto ord i todo ok (p : prog unit) : forall c r c' tr w,
  run_on p c = (r, c', tr) -> alone auto i c w -> wd_procs w i = Proc (c_cur c) (Some p) todo ok ->
  exists w', steps flt auto ord w w' /\ alone auto i c' w' /\ wd_procs w' i = Proc (c_cur c') (Some (PRet r)) todo ok.
Proof.
  induction p as [r0|X a k IH]; intros c r c' tr w E A P; cbn [run_on] in E.
  - exists w. split; [apply steps_refl|]. destruct r0; injection E as <- <- _; auto.
  - unfold bind in E. destruct (run_act_on a c) as [[[x|e] c1] t1] eqn:Ea.
    + destruct (act_alone auto i c w a _ _ _ A Ea) as (d & wr & E1 & A1).
      destruct (run_on (k x) c1) as [[r2 c2] t2] eqn:E2. injection E as <- <- _.
      destruct (IH x c1 r2 c2 t2 (World d wr (set_proc i (Proc (c_cur c1) (Some (k x)) todo ok) (wd_procs w))) E2 (A1 _)) as (w' & S & A' & P').
      { cbn. apply set_same. }
      exists w'. split; [|split; [exact A'|exact P']]. eapply steps_trans; [apply steps_one|exact S].
      pose proof (SAct flt auto ord i w _ X a k (Ok x) d wr (c_cur c1) P eq_refl E1) as St. exact St.
    + destruct (act_alone auto i c w a _ _ _ A Ea) as (d & wr & E1 & A1). injection E as <- <- _.
      exists (World d wr (set_proc i (Proc (c_cur c1) (Some (PRet (Err e))) todo ok) (wd_procs w))).
      split; [|split; [apply A1|cbn; apply set_same]]. apply steps_one.
      pose proof (SAct flt auto ord i w _ X a k (Err e) d wr (c_cur c1) P eq_refl E1) as St. exact St.
Qed.

(** the calls of one process, with nobody else there *)
Lemma solo_ops flt auto ord i : forall ops c c' tr w, run_ops_on ord ops c = (Ok tt, c', tr) -> alone auto i c w ->
  wd_procs w i = Proc (c_cur c) None ops true ->
  exists w', steps flt auto ord w w' /\ alone auto i c' w' /\ wd_procs w' i = Proc (c_cur c') None [] true.
Proof.
  induction ops as [|o ops IH]; intros c c' tr w E A P.
  - injection E as <- _. exists w. split; [apply steps_refl|auto].
  - unfold run_ops_on in E. cbn [mfor] in E. unfold bind in E. destruct (run_op_on ord o c) as [[[u|e] c1] t1] eqn:Eo; [|discriminate]. destruct u.
    destruct (mfor ops (run_op_on ord) c1) as [[r2 c2] t2] eqn:E2. injection E as -> -> _.
    assert (D : {o = OReopen} + {o <> OReopen}) by (destruct o; (now left) || (right; congruence)). destruct D as [->|Ho].
    + cbn in Eo. unfold reopen_op in Eo. injection Eo as <- _.
      set (w1 := World (wd_disk w) (if holds i w then None else wd_writer w) (set_proc i (Proc CNone None ops true) (wd_procs w))).
      assert (A1 : alone auto i (reopen (c_auto c) (c_comm c)) w1).
      { assert (Hr : wd_writer w1 = None).
        { pose proof (al_free _ _ _ _ A) as F. cbn. unfold holds, lock_free in *. destruct (wd_writer w) as [[j d]|]; [now rewrite F|reflexivity]. }
        destruct A as [Aa Ac Aw Af An]. constructor; cbn [reopen open_db c_auto c_comm c_work]; [exact Aa|exact Ac| | |intros _; exact Hr].
        - unfold view. rewrite Hr. exact Ac.
        - unfold lock_free. now rewrite Hr. }
      destruct (IH _ c' t2 w1 E2 A1) as (w' & S & A' & P').
      { cbn. apply set_same. }
      exists w'. split; [|auto]. eapply steps_trans; [apply steps_one|exact S].
      pose proof (SReopen flt auto ord i w _ ops P eq_refl eq_refl) as St. cbn [pr_ok] in St. exact St.
    + assert (Eo' : run_on (p_op ord o) c = (Ok tt, c1, t1)) by (now destruct o). clear Eo. rename Eo' into Eo.
      set (w0 := World (wd_disk w) (wd_writer w) (set_proc i (Proc (c_cur c) (Some (p_op ord o)) ops true) (wd_procs w))).
      assert (A0 : alone auto i c w0) by (destruct A as [Aa Ac Aw Af An]; constructor; [exact Aa|exact Ac|exact Aw|exact Af|exact An]).
      destruct (solo_prog flt auto ord i ops true _ c _ c1 t1 w0 Eo A0) as (w1 & S1 & A1 & P1).
      { cbn. apply set_same. }
      set (w2 := World (wd_disk w1) (wd_writer w1) (set_proc i (Proc (c_cur c1) None ops true) (wd_procs w1))).
      assert (A2 : alone auto i c1 w2) by (destruct A1 as [Aa Ac Aw Af An]; constructor; [exact Aa|exact Ac|exact Aw|exact Af|exact An]).
      destruct (IH _ c' t2 w2 E2 A2) as (w' & S & A' & P').
      { cbn. apply set_same. }
      exists w'. split; [|auto].
      pose proof (SCall flt auto ord i w _ o ops P eq_refl eq_refl Ho) as Sa. cbn [pr_cur pr_ok] in Sa.
      pose proof (SDone flt auto ord i w1 _ (Ok tt) P1 eq_refl) as Sb. cbn [pr_cur pr_ok pr_todo] in Sb.
      eapply steps_trans; [apply steps_one; exact Sa|]. eapply steps_trans; [exact S1|].
      eapply steps_trans; [apply steps_one; exact Sb|exact S].
Qed.

(** ** what the statements of a program can change *)

Section Tame.
Variables (J : db -> Prop) (G : db -> db -> Prop).

Definition tame_act {X} (a : act X) (K : X -> Prop) : Prop :=
  match a in act X return (X -> Prop) -> Prop with
  | AExec h s => fun K => (forall b d d' n, J d -> engine b s d = Ok (d', n) -> J d' /\ G d d') /\ forall n, K n
  | AQuery h q => fun K => forall d, J d -> K (sel_run q d)
  | ACommit => fun K => K tt
  | AGetCur => fun K => forall c, K c
  | ASetCur s => fun K => K tt
  end K.
Fixpoint tame {A} (p : prog A) (Q : A -> Prop) : Prop :=
  match p with
  | PRet (Ok a) => Q a
  | PRet (Err _) => True
  | PAct a k => tame_act a (fun x => tame (k x) Q)
  end.

Lemma tame_act_mono {X} (a : act X) (K K' : X -> Prop) : (forall x, K x -> K' x) -> tame_act a K -> tame_act a K'.
Proof. destruct a; cbn; intuition auto. Qed.
Lemma tame_mono {A} (p : prog A) (Q Q' : A -> Prop) : (forall a, Q a -> Q' a) -> tame p Q -> tame p Q'.
Proof.
  intros H. induction p as [[a|e]|X a k IH]; cbn [tame]; auto. apply tame_act_mono. exact IH.
Qed.
Lemma tame_bind {A B} (p : prog A) (k : A -> prog B) Q : tame p (fun a => tame (k a) Q) -> tame (pbind p k) Q.
Proof.
  induction p as [[a|e]|X a f IH]; cbn [tame pbind]; auto. apply tame_act_mono. exact IH.
Qed.
Lemma tame_for {A} (l : list A) f : (forall x, In x l -> tame (f x) (fun _ => True)) -> tame (pfor l f) (fun _ => True).
Proof.
  induction l as [|x l IH]; intros H; cbn [pfor]; [exact I|]. apply tame_bind.
  apply (tame_mono _ (fun _ => True)); [|apply H; now left]. intros _ _. apply IH. intros y Hy. apply H. now right.
Qed.
End Tame.

(** ** the index rows and vertex records that a set T of edges does not concern *)

Definition apart (T : value -> Prop) (v : value) : Prop := ~ T v /\ forall e, T e -> ~ In v (elems e).
Record keeps (V T : value -> Prop) (d d' : db) : Prop := {
  k_rows : forall x r, edge_in V x -> ~ T x -> is_row (elems x) r -> (In r (perms d) <-> In r (perms d'));
  k_vert : forall v, db_vertex v = true -> apart T v -> row v d' = row v d;
  k_know : forall v, db_vertex v = true -> ~ T v -> row v d <> None -> row v d' <> None }.
Lemma keeps_refl V T d : keeps V T d d.
Proof. constructor; [reflexivity|reflexivity|auto]. Qed.
Lemma keeps_trans V T d1 d2 d3 : keeps V T d1 d2 -> keeps V T d2 d3 -> keeps V T d1 d3.
Proof.
  intros [A B K] [C D L]. constructor.
  - intros x r Hx Nx Hr. now rewrite (A x r Hx Nx Hr), (C x r Hx Nx Hr).
  - intros v Hv Av. now rewrite (D v Hv Av), (B v Hv Av).
  - intros v Hv Nv Rv. apply L; [exact Hv|exact Nv|]. now apply K.
Qed.
Lemma keeps_weaken V (T T' : value -> Prop) d d' : (forall x, T x -> T' x) -> keeps V T d d' -> keeps V T' d d'.
Proof.
  intros H [A B K]. constructor.
  - intros x r Hx Nx. apply A; auto.
  - intros v Hv [N E]. apply B; [exact Hv|]. split; [auto|]. intros e He. auto.
  - intros v Hv Nv. apply K; auto.
Qed.

(** statements about the edges T *)
Inductive stmt_on (V T : value -> Prop) : stmt -> Prop :=
| so_updv e v n t : T e -> edge_in V e -> (v = e \/ In v (elems e)) -> stmt_on V T (UpdVertex (edge2str v) n t)
| so_insv e v n t : T e -> edge_in V e -> (v = e \/ In v (elems e)) -> stmt_on V T (InsVertex (edge2str v) n t)
| so_inc e v k : T e -> edge_in V e -> (v = e \/ In v (elems e)) -> stmt_on V T (IncDegree (edge2str v) k)
| so_delv e : T e -> edge_in V e -> stmt_on V T (DelVertex (edge2str e))
| so_updp r : stmt_on V T (UpdPerm r)
| so_insp e r : T e -> edge_in V e -> is_row (elems e) r -> stmt_on V T (InsPerm r)
| so_delp e r : T e -> edge_in V e -> is_row (elems e) r -> stmt_on V T (DelPerm r)
| so_allv : (forall x, T x) -> stmt_on V T DelAllVertices
| so_allp : (forall x, T x) -> stmt_on V T DelAllPerms.

Lemma elem_vertex V e v : edge_in V e -> v = e \/ In v (elems e) -> db_vertex v = true.
Proof. intros He [->|H]; [now apply db_edge_vertex, (edge_in_db V)|now apply (elems_db V e)]. Qed.

(** what a successful statement does *)
Lemma sql_effect s w w' n : sql_run s w = Ok (w', n) ->
  match s with
  | UpdVertex id k t => (n = O /\ vlook id w = None /\ w' = w) \/ (n <> O /\ vlook id w <> None /\ w' = set_row id (k, t) w)
  | InsVertex id k t => vlook id w = None /\ w' = set_row id (k, t) w
  | IncDegree id k => (n = O <-> vlook id w = None) /\ w' = inc_row id k w
  | DelVertex id => w' = del_row id w
  | UpdPerm r => (n = O <-> ~ In r (perms w)) /\ w' = w
  | InsPerm r => ~ In r (perms w) /\ w' = ins_perm r w
  | DelPerm r => w' = del_perm r w
  | DelAllVertices => w' = wipe_v w
  | DelAllPerms => w' = wipe_p w
  end.
Proof.
  assert (L : forall {A} (k : A -> bool) l, List.length (filter k l) = O <-> existsb k l = false).
  { intros A k l. rewrite existsb_filter. destruct (Nat.eqb_spec (List.length (filter k l)) 0) as [E|E]; cbn; split; congruence. }
  assert (P : forall r, existsb (str_eqb r) (perms w) = false <-> ~ In r (perms w)).
  { intros r. split.
    - intros E Hr. assert (existsb (str_eqb r) (perms w) = true); [|congruence]. apply existsb_exists. exists r. split; [exact Hr|apply str_eqb_refl].
    - intros Hr. destruct (existsb (str_eqb r) (perms w)) eqn:E; [|reflexivity]. exfalso. apply Hr.
      apply existsb_exists in E as (x & Hx & Ex). apply str_eqb_eq in Ex as ->. exact Hx. }
  destruct s; cbn [sql_run]; intros H.
  - injection H as <- <-. destruct (existsb (vkey id) (vertices w)) eqn:E.
    + right. split; [intros Z; apply L in Z; congruence|]. split; [now apply vlook_some|]. unfold set_row. now rewrite E.
    + left. split; [now apply L|]. split; [now apply vlook_none|]. rewrite map_nokey by exact E. apply db_eta.
  - destruct (existsb (vkey id) (vertices w)) eqn:E; [discriminate|]. injection H as <- <-.
    split; [now apply vlook_none|]. unfold set_row. now rewrite E.
  - injection H as <- <-. split; [now rewrite L, P|reflexivity].
  - destruct (existsb (str_eqb id) (perms w)) eqn:E; [discriminate|]. injection H as <- <-. split; [now apply P|].
    unfold ins_perm. now rewrite E.
  - now injection H as <- _.
  - now injection H as <- _.
  - injection H as <- <-. split; [rewrite L; apply vlook_none|reflexivity].
  - now injection H as <- _.
  - now injection H as <- _.
Qed.
(** the same for both engines *)
Lemma my_same s w w' n : sql_run_my s w = Ok (w', n) -> exists n', sql_run s w = Ok (w', n').
Proof.
  destruct s; cbn [sql_run_my sql_run]; intros H; try (injection H as <- _; eexists; reflexivity).
  - destruct (existsb (fun r => str_eqb (my_key id) (my_key (fst r))) (vertices w)) eqn:E; [discriminate|]. injection H as <- _.
    destruct (existsb (vkey id) (vertices w)) eqn:E'; [|eexists; reflexivity].
    apply existsb_exists in E' as (r & Hr & Er). apply vkey_eq in Er. subst id.
    assert (existsb (fun r0 => str_eqb (my_key (fst r)) (my_key (fst r0))) (vertices w) = true); [|congruence].
    apply existsb_exists. exists r. split; [exact Hr|apply str_eqb_refl].
  - destruct (existsb (fun r => str_eqb (my_key id) (my_key r)) (perms w)) eqn:E; [discriminate|]. injection H as <- _.
    destruct (existsb (str_eqb id) (perms w)) eqn:E'; [|eexists; reflexivity].
    apply existsb_exists in E' as (r & Hr & Er). apply str_eqb_eq in Er. subst r.
    assert (existsb (fun r => str_eqb (my_key id) (my_key r)) (perms w) = true); [|congruence].
    apply existsb_exists. exists id. split; [exact Hr|apply str_eqb_refl].
Qed.
Lemma eng_effect auto s w w' n : engine auto s w = Ok (w', n) ->
  match s with
  | UpdVertex id k t => (n = O /\ (auto = false -> vlook id w = None /\ w' = w) /\ (w' = w \/ w' = set_row id (k, t) w)) \/ (n <> O /\ vlook id w <> None /\ w' = set_row id (k, t) w)
  | InsVertex id k t => vlook id w = None /\ w' = set_row id (k, t) w
  | IncDegree id k => (k <> 0%Z -> (n = O <-> vlook id w = None)) /\ w' = inc_row id k w
  | DelVertex id => w' = del_row id w
  | UpdPerm r => (n <> O -> In r (perms w)) /\ (auto = false -> n = O -> ~ In r (perms w)) /\ w' = w
  | InsPerm r => ~ In r (perms w) /\ w' = ins_perm r w
  | DelPerm r => w' = del_perm r w
  | DelAllVertices => w' = wipe_v w
  | DelAllPerms => w' = wipe_p w
  end.
Proof.
  assert (Dec : forall r, In r (perms w) \/ ~ In r (perms w)).
  { intros r. destruct (in_dec (list_eq_dec N.eq_dec) r (perms w)); auto. }
  destruct auto; cbn [engine]; intros H.
  - destruct (my_same s w w' n H) as [n' H']. pose proof (sql_effect s w w' n' H') as E.
    destruct s; cbn [sql_run_my] in H; try exact E.
    + destruct (Nat.eq_dec n 0) as [->|N].
      * left. split; [reflexivity|]. split; [discriminate|]. destruct E as [(_ & _ & E)|(_ & _ & E)]; auto.
      * right. split; [exact N|]. destruct E as [(-> & E0 & _)|(_ & E1 & E2)]; [|auto]. exfalso. apply N. injection H as _ <-.
        destruct (filter (fun r => vkey id r && negb ((fst (snd r) =? degree)%Z && (snd (snd r) =? timestamp)%Z)) (vertices w)) as [|r l] eqn:F; [reflexivity|].
        exfalso. assert (In r (r :: l)) as Hr by now left. rewrite <- F in Hr. apply filter_In in Hr as [Hr Kr]. apply andb_true_iff in Kr as [Kr _].
        apply vlook_none in E0. assert (existsb (vkey id) (vertices w) = true); [|congruence]. apply existsb_exists. now exists r.
    + injection H as -> <-. split; [easy|]. split; [discriminate|reflexivity].
    + destruct E as [E1 E2]. split; [|exact E2]. intros K. injection H as _ <-. apply Z.eqb_neq in K. rewrite K.
      cbn [sql_run] in H'. now injection H' as _ <-.
  - pose proof (sql_effect s w w' n H) as E. destruct s; try exact E.
    + destruct E as [(A & B & C)|E]; [left|right; exact E]. auto.
    + destruct E as [E1 E2]. split; [|split; [|exact E2]].
      * intros N. destruct (Dec id) as [I|I]; [exact I|]. exfalso. now apply N, E1.
      * intros _. apply E1.
    + destruct E as [E1 E2]. split; [|exact E2]. intros _. exact E1.
Qed.
(** which statements can fail *)
Lemma sql_fails s w e : sql_run s w = Err e ->
  match s with InsVertex id _ _ => vlook id w <> None | InsPerm r => In r (perms w) | _ => False end.
Proof.
  destruct s; cbn [sql_run]; try discriminate.
  - destruct (existsb (vkey id) (vertices w)) eqn:E; [|discriminate]. intros _. now apply vlook_some.
  - destruct (existsb (str_eqb id) (perms w)) eqn:E; [|discriminate]. intros _.
    apply existsb_exists in E as (x & Hx & Ex). apply str_eqb_eq in Ex as ->. exact Hx.
Qed.

Lemma eng_fails auto s w e : engine auto s w = Err e ->
  match s with InsVertex id _ _ => auto = false -> vlook id w <> None | InsPerm r => auto = false -> In r (perms w) | _ => False end.
Proof.
  destruct auto; cbn [engine]; intros H.
  - destruct s; cbn [sql_run_my sql_run] in H; try discriminate.
  - apply sql_fails in H. destruct s; auto.
Qed.

Lemma apart_neq V (T : value -> Prop) e u v : T e -> edge_in V e -> (v = e \/ In v (elems e)) -> db_vertex u = true -> apart T u ->
  str_eqb (edge2str u) (edge2str v) = false.
Proof.
  intros Te He Hv Hu [N E]. rewrite (id_eqb u v Hu (elem_vertex V e v He Hv)). apply veqb_neq. intros ->.
  destruct Hv as [->|Hv]; [now apply N|now apply (E e Te)].
Qed.
Lemma wf_wipe_v V w : wf_db V w -> wf_db V (wipe_v w).
Proof. intros [A B C D]. constructor; [exact A|exact B|constructor|easy]. Qed.
Lemma wf_wipe_p V w : wf_db V w -> wf_db V (wipe_p w).
Proof. intros [A B C D]. constructor; [easy|constructor|exact C|exact D]. Qed.

Lemma stmt_keeps V T s b d d' n : stmt_on V T s -> wf_db V d -> engine b s d = Ok (d', n) -> wf_db V d' /\ keeps V T d d'.
Proof.
  intros H W E. apply eng_effect in E. destruct H as [e v k t Te He Hv|e v k t Te He Hv|e v k Te He Hv|e Te He|r|e r Te He Hr|e r Te He Hr|T'|T'].
  - assert (E' : d' = d \/ d' = set_row (edge2str v) (k, t) d) by (destruct E as [(_ & _ & E)|(_ & _ & E)]; auto).
    destruct E' as [->| ->]; [split; [exact W|apply keeps_refl]|].
    split; [now apply wf_set, W; apply (elem_vertex V e)|]. constructor.
    + intros x r Hx Nx Hr. now rewrite perms_set.
    + intros u Hu Au. unfold row. now rewrite vlook_set, (apart_neq V T e u v).
    + intros u Hu Nu Ru. unfold row in *. rewrite vlook_set. now destruct (str_eqb (edge2str u) (edge2str v)).
  - destruct E as [_ ->]. split; [now apply wf_set, W; apply (elem_vertex V e)|]. constructor.
    + intros x r Hx Nx Hr. now rewrite perms_set.
    + intros u Hu Au. unfold row. now rewrite vlook_set, (apart_neq V T e u v).
    + intros u Hu Nu Ru. unfold row in *. rewrite vlook_set. now destruct (str_eqb (edge2str u) (edge2str v)).
  - destruct E as [_ ->]. split; [now apply wf_inc|]. constructor.
    + intros x r Hx Nx Hr. now rewrite perms_inc.
    + intros u Hu Au. unfold row. now rewrite vlook_inc, (apart_neq V T e u v).
    + intros u Hu Nu Ru. unfold row in *. rewrite vlook_inc. destruct (str_eqb (edge2str u) (edge2str v)); [|exact Ru]. now destruct (vlook (edge2str u) d).
  - subst d'. split; [now apply wf_del|]. constructor.
    + intros x r Hx Nx Hr. now rewrite perms_del.
    + intros u Hu Au. unfold row. now rewrite vlook_del, (apart_neq V T e u e); auto.
    + intros u Hu Nu Ru. unfold row in *. rewrite vlook_del, (id_eqb u e Hu (db_edge_vertex _ (edge_in_db _ _ He))).
      destruct (veqb u e) eqn:Ue; [|exact Ru]. apply veqb_eq in Ue as ->. contradiction.
  - destruct E as (_ & _ & ->). split; [exact W|apply keeps_refl].
  - destruct E as [_ ->]. split; [now apply (wf_ins V e)|]. constructor.
    + intros x r' Hx Nx Hr'. rewrite in_ins_perm. split; [tauto|]. intros [->|H]; [|exact H].
      exfalso. apply Nx. now rewrite (row_other V x e r).
    + intros u Hu Au. apply vlook_ins_perm.
    + intros u Hu Nu Ru. unfold row in *. now rewrite vlook_ins_perm.
  - subst d'. split; [now apply wf_delp|]. constructor.
    + intros x r' Hx Nx Hr'. rewrite in_del_perm. split; [|tauto]. intros H. split; [|exact H]. intros ->.
      apply Nx. now rewrite (row_other V x e r).
    + intros u Hu Au. apply vlook_del_perm.
    + intros u Hu Nu Ru. unfold row in *. now rewrite vlook_del_perm.
  - subst d'. split; [now apply wf_wipe_v|]. constructor; [reflexivity| |]; [intros v _ [N _]|intros v _ N _]; now destruct (N (T' v)).
  - subst d'. split; [now apply wf_wipe_p|]. constructor; [|reflexivity|auto]. intros x r _ N. now destruct (N (T' x)).
Qed.

(** ** what the queries compute *)

Definition pat_text (items : list value) : str := nodes2str (filter not_none items).
Record pat_ans (V : value -> Prop) (items : list value) (d : db) (l : list value) : Prop := {
  pa_nodup : NoDup l;
  pa_in : forall e, In e l <-> edge_in V e /\ hit d (pat_text items) e /\ matches items (elems e) }.

Lemma pattern_pure V d items : noalias V -> rows_ok V d -> pattern_ok V items ->
  exists hi es flags, str_plus_1 (pat_text items) = Ok hi /\ forallb bindable [pat_text items; hi] = true
    /\ cur2edges (filter (in_range (pat_text items) hi) (perms d)) = Ok es
    /\ mapr (fun e => edge_matches_pattern e items) es = Ok flags
    /\ pat_ans V items d (py_set (List.map fst (filter snd (combine es flags)))).
Proof.
  intros HV Hd Hp. destruct (pattern_run V d (open_db false d) items HV Hd eq_refl) as (res & G & N & I); [easy|exact Hp|].
  unfold gives, pattern2edges in G. cbn [as_seq] in G. change (lift (Ok items)) with (ret items) in G. rewrite bind_ret_l in G. cbv zeta in G.
  change (nodes2str (filter not_none items)) with (pat_text items) in *.
  destruct (str_plus_1 (pat_text items)) as [hi|x]; [|discriminate]. change (lift (Ok hi)) with (ret hi) in G.
  rewrite bind_ret_l, bind_open in G. change (hd_of (open_db false d)) with HLocal in G.
  destruct (forallb bindable [pat_text items; hi]) eqn:B; [|unfold bind at 1, query in G; rewrite B in G; discriminate].
  assert (Q : gives (query HLocal [pat_text items; hi] (fun w => filter (in_range (pat_text items) hi) (perms w))) (open_db false d)
                (filter (in_range (pat_text items) hi) (perms d))) by (unfold gives, query; rewrite B; reflexivity).
  rewrite (bind_gives _ _ _ _ Q) in G.
  destruct (cur2edges (filter (in_range (pat_text items) hi) (perms d))) as [es|x] eqn:Ec; [|discriminate].
  change (lift (Ok es)) with (ret es) in G. rewrite bind_ret_l in G. rewrite (bind_gives _ _ _ _ (close_true (open_db false d))) in G.
  destruct (mapr (fun e => edge_matches_pattern e items) es) as [flags|x] eqn:F; [|discriminate].
  change (lift (Ok flags)) with (ret flags) in G. rewrite bind_ret_l in G.
  injection G as G. exists hi, es, flags. split; [reflexivity|]. split; [exact B|]. split; [exact Ec|]. split; [exact F|].
  subst res. constructor; [exact N|exact I].
Qed.

(** a program that looks at the database once, at [d1], and has the answer [l] *)
Record star_ans (V : value -> Prop) (a : value) (d : db) (l : list value) : Prop := {
  sa_nodup : NoDup l;
  sa_in : forall e, In e l <-> edge_in V e /\ hit d (edge2str a ++ [c_space]) e }.
Lemma star_pure V d a : noalias V -> rows_ok V d -> db_atom a = true ->
  exists hi es, str_plus_1 (edge2str a ++ [c_space]) = Ok hi /\ forallb bindable [edge2str a ++ [c_space]; hi] = true
    /\ cur2edges (filter (in_range (edge2str a ++ [c_space]) hi) (perms d)) = Ok es
    /\ star_ans V a d (py_set es).
Proof.
  intros HV Hd Ha. destruct (star_run V d (open_db false d) a HV Hd eq_refl) as (res & G & N & I); [easy|exact Ha|].
  unfold gives, star, str2perms in G. set (s := edge2str a ++ [c_space]) in *.
  destruct (str_plus_1 s) as [hi|x]; [|discriminate]. change (lift (Ok hi)) with (ret hi) in G.
  rewrite bind_ret_l, bind_open in G. change (hd_of (open_db false d)) with HLocal in G.
  destruct (forallb bindable [s; hi]) eqn:B; [|unfold bind at 1, query in G; rewrite B in G; discriminate].
  assert (Q : gives (query HLocal [s; hi] (fun w => filter (in_range s hi) (perms w))) (open_db false d)
                (filter (in_range s hi) (perms d))) by (unfold gives, query; rewrite B; reflexivity).
  rewrite (bind_gives _ _ _ _ Q) in G.
  destruct (cur2edges (filter (in_range s hi) (perms d))) as [es|x] eqn:Ec; [|discriminate].
  change (lift (Ok es)) with (ret es) in G. rewrite bind_ret_l in G. rewrite (bind_gives _ _ _ _ (close_true (open_db false d))) in G.
  injection G as G. exists hi, es. split; [reflexivity|]. split; [exact B|]. split; [exact Ec|].
  subst res. constructor; [exact N|exact I].
Qed.

(** the loop over the permutations is a loop over the index rows *)
Lemma dow_rows l f : p_do_with_edge_permutations l f = pfor (rows_of l) f.
Proof.
  unfold p_do_with_edge_permutations, rows_of.
  assert (H : forall k, In k (seq 0 (fact (List.length l))) -> (k < fact (List.length l))%nat) by (intros k Hk; apply in_seq in Hk; lia).
  revert H. generalize (seq 0 (fact (List.length l))). induction l0 as [|k ks IH]; intros H; [reflexivity|].
  cbn [List.map pfor]. rewrite IH by (intros k' Hk; apply H; now right).
  rewrite (perm_str_ok l k) at 1 by (apply H; now left). reflexivity.
Qed.

(** ** the methods change only what belongs to the edges they are about *)

Section On.
Variables (V T : value -> Prop).
Hypothesis HV : noalias V.
Notation on p Q := (tame (wf_db V) (keeps V T) p Q).
Notation any := (fun _ => True).

Lemma on_true {A} (p : prog A) (Q : A -> Prop) : (forall a, Q a) -> on p any -> on p Q.
Proof. intros H. apply tame_mono. auto. Qed.
Lemma on_open b (Q : handle -> Prop) : (forall h, Q h) -> on (p_open_cursor b) Q.
Proof. intros H. cbn. intros c. destruct b, c; cbn; auto. Qed.
Lemma on_close_handle h (Q : unit -> Prop) : Q tt -> on (p_close_handle h) Q.
Proof. intros H. destruct h; exact H. Qed.
Lemma on_close h l b (Q : unit -> Prop) : Q tt -> on (p_close_cursor h l b) Q.
Proof.
  intros H. destruct l; cbn.
  - intros c. destruct c; cbn; auto. destruct h, b; exact H.
  - destruct b; cbn; intros c; destruct c; cbn; auto.
Qed.
Lemma on_exec h s (Q : nat -> Prop) : stmt_on V T s -> (forall n, Q n) -> on (pact (AExec h s)) Q.
Proof.
  intros Hs H. cbn. split; [|exact H]. intros d d' n Hd E. now apply (stmt_keeps V T s d d' n).
Qed.
Lemma on_query {A} h (q : sel A) (Q : A -> Prop) : (forall d, wf_db V d -> Q (sel_run q d)) -> on (pact (AQuery h q)) Q.
Proof. intros H. exact H. Qed.
Lemma on_uoi u i (Q : unit -> Prop) : stmt_on V T u -> stmt_on V T i -> Q tt -> on (p_update_or_insert u i) Q.
Proof.
  intros Hu Hi H. unfold p_update_or_insert. apply tame_bind, on_open. intros h. apply tame_bind, on_exec; [exact Hu|]. intros n.
  apply tame_bind. destruct (Nat.eqb n 0).
  - apply tame_bind, on_exec; [exact Hi|]. intros _. now apply on_close.
  - now apply on_close.
Qed.
Lemma on_dow e f : edge_in V e -> (forall r, is_row (elems e) r -> on (f r) any) -> on (p_do_with_edge_permutations (elems e) f) any.
Proof.
  intros He H. rewrite dow_rows. apply tame_for. intros r Hr. apply H. apply rows_of_spec; [now apply (elems_nonnil V)|exact Hr].
Qed.
Lemma on_change e v k (Q : bool -> Prop) : T e -> edge_in V e -> v = e \/ In v (elems e) -> (forall b, Q b) -> on (p_change_degree (edge2str v) k) Q.
Proof.
  intros Te He Hv H. unfold p_change_degree. apply tame_bind, on_open. intros h. apply tame_bind, on_exec; [now apply (so_inc V T e)|].
  intros n. apply tame_bind, on_close. apply H.
Qed.
Lemma on_pattern items (Q : list value -> Prop) : pattern_ok V items -> (forall d l, wf_db V d -> pat_ans V items d l -> Q l) -> on (p_pattern2edges (VTup items)) Q.
Proof.
  intros Hp H. unfold p_pattern2edges. cbn [pbind as_seq].
  destruct (pattern_pure V db_empty items HV) as (hi & _ & _ & E & _); [easy|exact Hp|].
  change (nodes2str (filter not_none items)) with (pat_text items). rewrite E. cbn [pbind].
  apply tame_bind, on_open. intros h. apply tame_bind, on_query. intros d Hd. cbn [sel_run].
  destruct (pattern_pure V d items HV (wf_rows _ _ Hd) Hp) as (hi' & es & flags & E' & _ & Ec & Ef & A).
  rewrite E in E'. injection E' as <-. rewrite Ec. cbn [pbind].
  apply tame_bind, on_close. rewrite Ef. cbn. now apply (H d).
Qed.
Lemma on_exists e (Q : bool -> Prop) : edge_in V e -> (forall b, Q b) -> on (p_exists e) Q.
Proof.
  intros He H. unfold p_exists. apply tame_bind. destruct (db_edge_elems e (edge_in_db _ _ He)) as (Ee & _ & _). rewrite Ee.
  apply on_pattern; [now apply edge_pattern_ok|]. intros d l _ _. apply H.
Qed.
Lemma on_add_raw e t (Q : value -> Prop) : T e -> edge_in V e -> (forall a, Q a) -> on (p_add_raw e t) Q.
Proof.
  intros Te He H. pose proof (edge_in_db _ _ He) as De. unfold p_add_raw. apply tame_bind, on_exists; [exact He|]. intros b.
  apply tame_bind. apply on_true; [intros _; apply H|]. destruct b; [exact I|]. rewrite (as_seq_edge e De). cbn [pbind].
  apply tame_bind. apply on_true; [|apply tame_for]; [intros _|].
  - apply tame_bind. apply on_uoi; [apply (so_updv V T e); auto|apply (so_insv V T e); auto|].
    apply on_dow; [exact He|]. intros r Hr. apply on_uoi; [constructor|now apply (so_insp V T e)|exact I].
  - intros x Hx. unfold p_add_vertex. apply tame_bind. apply (on_change e); auto. intros [|]; [exact I|].
    apply on_uoi; [apply (so_updv V T e); auto|apply (so_insv V T e); auto|exact I].
Qed.
Lemma on_remove_raw e (Q : unit -> Prop) : T e -> edge_in V e -> Q tt -> on (p_remove_raw e) Q.
Proof.
  intros Te He H. pose proof (edge_in_db _ _ He) as De. unfold p_remove_raw. apply tame_bind, on_exists; [exact He|]. intros [|]; [|exact H].
  rewrite (as_seq_edge e De). cbn [pbind]. apply tame_bind. apply on_true; [|apply tame_for]; [intros _|].
  - apply tame_bind. apply on_true; [|apply on_dow; [exact He|]]; [intros _|].
    + unfold p_remove_str. apply tame_bind, on_open. intros h. apply tame_bind, on_exec; [apply (so_delv V T e); auto|]. intros _. now apply on_close.
    + intros r Hr. unfold p_remove_edge_permutation. apply tame_bind, on_exec; [now apply (so_delp V T e)|]. intros _. exact I.
  - intros x Hx. apply tame_bind. apply (on_change e); auto. intros b. exact I.
Qed.
Lemma on_add e t (Q : value -> Prop) : T e -> edge_in V e -> (forall a, Q a) -> on (p_add e t) Q.
Proof.
  intros Te He H. pose proof (edge_in_db _ _ He) as De. destruct (index0_edge e De) as (a & E0 & Ea). unfold p_add. rewrite E0. cbn [pbind]. rewrite Ea.
  apply tame_bind. apply tame_bind. apply on_add_raw; [exact Te|exact He|]. intros x. apply H.
Qed.
Lemma on_add_many es t (Q : value -> Prop) : es <> [] -> (forall e, In e es -> T e /\ edge_in V e) -> (forall a, Q a) -> on (p_add (VTup es) t) Q.
Proof.
  intros Hn Hes H. assert (Fes : Forall (edge_in V) es) by (apply Forall_forall; intros e He; now apply Hes).
  destruct (index0_edges V es Hn Fes) as (a & E0 & Ea). unfold p_add. rewrite E0. cbn [pbind]. rewrite Ea.
  apply tame_bind. apply tame_bind, on_open. intros h. cbn [as_seq pbind]. apply tame_bind.
  apply on_true; [|apply tame_for]; [intros _|].
  - apply on_close. apply H.
  - intros e He. apply tame_bind. destruct (Hes e He). apply on_add_raw; auto. intros _. exact I.
Qed.
Lemma on_remove e (Q : unit -> Prop) : T e -> edge_in V e -> Q tt -> on (p_remove e) Q.
Proof.
  intros Te He H. pose proof (edge_in_db _ _ He) as De. destruct (index0_edge e De) as (a & E0 & Ea). unfold p_remove. rewrite E0. cbn [pbind]. rewrite Ea.
  now apply on_remove_raw.
Qed.
Lemma on_remove_many es : es <> [] -> (forall e, In e es -> T e /\ edge_in V e) -> on (p_remove (VTup es)) any.
Proof.
  intros Hn Hes. assert (Fes : Forall (edge_in V) es) by (apply Forall_forall; intros e He; now apply Hes).
  destruct (index0_edges V es Hn Fes) as (a & E0 & Ea). unfold p_remove. rewrite E0. cbn [pbind]. rewrite Ea. cbn [as_seq pbind].
  apply tame_for. intros e He. destruct (Hes e He). now apply on_remove_raw.
Qed.
Lemma on_destroy : (forall x, T x) -> on p_destroy any.
Proof.
  intros H. unfold p_destroy. apply tame_bind, on_open. intros h. apply tame_bind, on_exec; [now constructor|]. intros _.
  apply tame_bind, on_exec; [now constructor|]. intros _. now apply on_close.
Qed.
Lemma on_star a (Q : list value -> Prop) : db_atom a = true -> (forall l, Q l) -> on (p_star a) Q.
Proof.
  intros Ha H. unfold p_star, p_str2perms. destruct (star_pure V db_empty a HV) as (hi & _ & E & _); [easy|exact Ha|].
  rewrite E. cbn [pbind]. apply tame_bind, on_open. intros h. apply tame_bind, on_query. intros d Hd. cbn [sel_run].
  destruct (cur2edges (filter (in_range (edge2str a ++ [c_space]) hi) (perms d))) as [es|x]; cbn [pbind]; [|exact I].
  apply tame_bind, on_close. apply H.
Qed.
Lemma on_degree v (Q : Z -> Prop) : (forall z, Q z) -> on (p_degree v) Q.
Proof.
  intros H. unfold p_degree. cbv zeta. apply tame_bind, on_open. intros h. apply tame_bind, on_query. intros d _. cbn [sel_run]. destruct (vlook (edge2str v) d) as [[k t]|].
  - apply tame_bind, on_close_handle. apply H.
  - apply tame_bind, on_close. apply H.
Qed.
Lemma on_timestamp v (Q : Z -> Prop) : (forall z, Q z) -> on (p_timestamp v) Q.
Proof.
  intros H. unfold p_timestamp. cbv zeta. apply tame_bind, on_open. intros h. apply tame_bind, on_query. intros d _. cbn [sel_run]. destruct (vlook (edge2str v) d) as [[k t]|].
  - apply tame_bind, on_close_handle. apply H.
  - apply tame_bind, on_close. apply H.
Qed.
Lemma on_sources e (Q : list value -> Prop) : db_vertex e = true -> V e -> V const_source -> (forall l, Q l) -> on (p_sources e) Q.
Proof.
  intros He Ve Vs H. unfold p_sources. apply tame_bind, on_pattern; [now apply pattern_in_ok, sources_pattern_in|]. intros d l _ _.
  destruct (mapr (fun e0 => let? l0 := as_seq e0 in nth_res l0 2) l) as [ss|x]; cbn [pbind]; [apply H|exact I].
Qed.
Lemma on_symbols r (Q : list str -> Prop) : root_in r -> (forall l, Q l) -> on (p_symbols_with_root (VStr r)) Q.
Proof.
  intros Hr H. unfold p_symbols_with_root. cbn [show_atom]. cbv zeta. rewrite root_plus. cbn [pbind]. apply tame_bind, on_open. intros h. apply tame_bind, on_query.
  intros d Hd. cbn [sel_run]. destruct (root_pure V d r Hr Hd) as (ss & E). unfold first_tokens in E. rewrite E. cbn [pbind]. apply tame_bind, on_close. apply H.
Qed.
Lemma on_all {B} (f : value * Z -> B) (Q : list B -> Prop) : (forall l, Q l) -> on (p_f_all f) Q.
Proof.
  intros H. unfold p_f_all. apply tame_bind, on_open. intros h. apply tame_bind, on_query. intros d Hd. cbn [sel_run].
  destruct (all_pure f V d Hd) as (ps & E & _). rewrite E. cbn [pbind]. apply tame_bind, on_close. apply H.
Qed.
Lemma on_bop b : bop_in V b -> (forall x, bop_on b x -> T x) -> on (p_bop b) any.
Proof.
  intros Hb Ht. destruct b; cbn [p_bop bop_in bop_on] in *.
  - apply tame_bind, on_add; [auto|tauto|]. intros a. exact I.
  - apply on_remove; auto.
  - destruct Hb as [Hn Hes]. rewrite Forall_forall in Hes. apply on_remove_many; auto.
  - apply on_destroy. auto.
  - apply tame_bind, on_exists; auto. intros a. exact I.
  - apply tame_bind, on_pattern; [now apply pattern_in_ok|]. intros d l _ _. exact I.
  - apply tame_bind, on_star; auto. intros l. exact I.
  - apply tame_bind, on_symbols; auto. intros l. exact I.
  - apply tame_bind, on_all. intros l. exact I.
Qed.
Lemma pfor_concat_on fs : (forall b, In b (List.concat fs) -> on (p_bop b) any) ->
  on (pfor (List.map (fun f => pfor f p_bop) fs) (fun f => f)) any.
Proof.
  induction fs as [|f fs IH]; intros H; cbn [List.map pfor]; [exact I|]. apply tame_bind.
  apply on_true; [intros _; apply IH; intros b Hb; apply H; cbn; apply in_app_iff; now right|].
  apply tame_for. intros b Hb. apply H. cbn. apply in_app_iff. now left.
Qed.
Lemma on_op ord o : (forall l, Permutation (ord l) l) -> op_in V o -> (forall x, op_on o x -> T x) -> on (p_op ord o) any.
Proof.
  intros Hord Ho Ht. destruct o; cbn [p_op op_in op_on] in *.
  - apply tame_bind, on_add; [auto|tauto|]. intros a. exact I.
  - destruct Ho as [[Hn Hes] _]. rewrite Forall_forall in Hes. apply tame_bind, on_add_many; auto. intros a. exact I.
  - apply on_remove; auto.
  - destruct Ho as [Hn Hes]. rewrite Forall_forall in Hes. apply on_remove_many; auto.
  - apply on_destroy. auto.
  - destruct Ho as [[He Hl] _]. pose proof (edge_in_db _ _ He) as De. destruct (index0_edge e De) as (a & E0 & Ea).
    unfold p_add_belief. rewrite E0. cbn [pbind]. rewrite Ea. apply tame_bind, on_add_many; [discriminate| |intros x; exact I].
    intros x [<-|[<-|[]]]; (split; [apply Ht; tauto|assumption]).
  - destruct Ho as [[Hn Hes] _]. assert (Fes : Forall (edge_in V) es) by (eapply Forall_impl; [|exact Hes]; intros x [A _]; exact A).
    destruct (index0_edges V es Hn Fes) as (a & E0 & Ea).
    unfold p_add_belief. rewrite E0. cbn [pbind]. rewrite Ea. cbn [as_seq pbind]. rewrite Forall_forall in Hes.
    apply tame_bind, on_add_many; [destruct es; [easy|discriminate]| |intros x; exact I].
    intros x Hx. apply in_flat_map in Hx as (e & He & [<-|[<-|[]]]); destruct (Hes e He) as [A B];
      (split; [apply Ht; exists e; tauto|assumption]).
  - destruct Ho as [He Hl]. unfold p_remove_belief. apply tame_bind, on_remove; [apply Ht; now right|exact Hl|].
    apply tame_bind, on_sources; [now apply db_edge_vertex, (edge_in_db V)|apply Hl; cbn; tauto|apply Hl; cbn; tauto|].
    intros ss. destruct (Nat.eqb (List.length ss) 0); [|exact I]. apply on_remove; auto.
  - unfold p_remove_by_pattern. apply tame_bind, on_pattern; [now apply pattern_in_ok|]. intros d l Hd Hl.
    apply tame_for. intros e He. apply (Permutation_in _ (Hord l)), (pa_in _ _ _ _ Hl) in He as (Hi & _ & M).
    apply on_remove; auto.
  - rewrite Forall_forall in Ho. unfold p_batch_exec. apply tame_bind, on_open. intros h. apply tame_bind.
    apply on_true; [intros _; now apply on_close|]. apply pfor_concat_on. intros b Hb. apply on_bop; [now apply Ho|].
    intros x Hx. apply Ht. now exists b.
  - destruct q as [e|p|a|v|v|e|r|]; cbn [p_ask ask_in] in *; apply tame_bind.
    + apply on_exists; auto. intros b. exact I.
    + apply on_pattern; [now apply pattern_in_ok|]. intros d l _ _. exact I.
    + apply on_star; auto. intros l. exact I.
    + apply on_degree. intros z. exact I.
    + apply on_timestamp. intros z. exact I.
    + destruct Ho as (De & Ve & Vs). apply on_sources; auto. intros l. exact I.
    + apply on_symbols; auto. intros l. exact I.
    + apply on_all. intros l. exact I.
  - exact I.
Qed.
End On.

(** ** every schedule *)

(** the state of the world when all calls are about storable edges: the statements
    of process j change the database as [G j] allows *)
Section Safe.
Variables (V : value -> Prop) (flt auto : bool) (ord : list value -> list value) (G : nat -> db -> db -> Prop).
Hypothesis G_refl : forall j d, G j d d.
Hypothesis G_trans : forall j a b c, G j a b -> G j b c -> G j a c.
Record safe (w : world) : Prop := {
  sf_auto : auto = true -> wd_writer w = None;
  sf_disk : wf_db V (wd_disk w);
  sf_writer : forall j d, wd_writer w = Some (j, d) -> wf_db V d /\ G j (wd_disk w) d;
  sf_now : forall i p, pr_now (wd_procs w i) = Some p -> tame (wf_db V) (G i) p (fun _ => True);
  sf_todo : forall i o, In o (pr_todo (wd_procs w i)) -> o <> OReopen -> tame (wf_db V) (G i) (p_op ord o) (fun _ => True) }.

Lemma view_or i w : view i w = wd_disk w \/ exists d, wd_writer w = Some (i, d) /\ view i w = d.
Proof.
  unfold view. destruct (wd_writer w) as [[j d]|]; [|now left]. destruct (Nat.eqb_spec j i) as [->|]; [|now left]. right. now exists d.
Qed.
Lemma safe_view i w : safe w -> wf_db V (view i w) /\ G i (wd_disk w) (view i w).
Proof.
  intros S. destruct (view_or i w) as [->|(d & E & ->)].
  - split; [apply S|apply G_refl].
  - now apply (sf_writer _ S).
Qed.

(** an accepted action *)
Lemma act_safe {X} i w cur (a : act X) k r d wr cur' :
  safe w -> tame (wf_db V) (G i) (PAct a k) (fun _ : unit => True) -> act_on auto i w cur a = Some (r, d, wr, cur') ->
  wf_db V d /\ G i (wd_disk w) d
  /\ (auto = true -> wr = None) /\ (forall j d', wr = Some (j, d') -> wf_db V d' /\ G j d d')
  /\ tame (wf_db V) (G i) (after_act r k) (fun _ => True).
Proof.
  intros S Tm E. destruct (safe_view i w S) as [Wv Kv].
  assert (Same : forall r0 cur0, Some (r0, wd_disk w, wd_writer w, cur0) = Some (r, d, wr, cur') ->
     wf_db V d /\ G i (wd_disk w) d
     /\ (auto = true -> wr = None) /\ (forall j d', wr = Some (j, d') -> wf_db V d' /\ G j d d')
     /\ r = r0).
  { intros r0 cur0 H. injection H as <- <- <- _. split; [apply S|]. split; [apply G_refl|]. split; [apply S|].
    split; [|reflexivity]. intros j d' Hw. now apply (sf_writer _ S j d' Hw). }
  cbn [tame] in Tm. destruct a; cbn [act_on tame_act] in *.
  - destruct Tm as [Ts Tk]. destruct (closed h cur); [apply Same in E as (P & B & C & D & ->); cbn; auto 6|].
    destruct (bind_error s); [apply Same in E as (P & B & C & D & ->); cbn; auto 6|]. destruct auto eqn:Ea.
    + destruct (engine true s (wd_disk w)) as [[d1 n]|e] eqn:R; [|apply Same in E as (P & B & C & D & ->); cbn; auto 6].
      injection E as <- <- <- _. destruct (Ts _ _ _ _ (sf_disk _ S) R) as [W K].
      split; [exact W|]. split; [exact K|]. split; [intros _; exact (sf_auto _ S Ea)|]. split; [|apply Tk]. rewrite (sf_auto _ S Ea). discriminate.
    + destruct (lock_free i w); [|discriminate]. destruct (engine false s (view i w)) as [[d1 n]|e] eqn:R; injection E as <- <- <- _.
      * destruct (Ts _ _ _ _ Wv R) as [W K]. split; [apply S|]. split; [apply G_refl|]. split; [discriminate|]. split; [|apply Tk].
        intros j d' Hw. injection Hw as <- <-. split; [exact W|]. now apply (G_trans i _ (view i w)).
      * split; [apply S|]. split; [apply G_refl|]. split; [discriminate|]. split; [|exact I].
        intros j d' Hw. injection Hw as <- <-. split; [exact Wv|exact Kv].
  - destruct (closed h cur); [apply Same in E as (P & B & C & D & ->); cbn; auto 6|].
    destruct (negb (forallb bindable (sel_texts q))); [apply Same in E as (P & B & C & D & ->); cbn; auto 6|].
    apply Same in E as (P & B & C & D & ->). cbn. auto 6.
  - destruct (holds i w) eqn:Hh.
    + injection E as <- <- <- _. split; [exact Wv|]. split; [exact Kv|]. split; [reflexivity|]. split; [discriminate|exact Tm].
    + apply Same in E as (P & B & C & D & ->). cbn. auto 6.
  - apply Same in E as (P & B & C & D & ->). cbn. auto 6.
  - apply Same in E as (P & B & C & D & ->). cbn. auto 6.
Qed.

Lemma step_safe w w' : safe w -> step flt auto ord w w' ->
  safe w' /\ exists j, G j (wd_disk w) (wd_disk w').
Proof.
  intros S St.
  assert (P1 : forall i p w0, (forall j q, pr_now (wd_procs w j) = Some q -> tame (wf_db V) (G j) q (fun _ => True)) ->
     (forall q, pr_now p = Some q -> tame (wf_db V) (G i) q (fun _ => True)) ->
     wd_procs w0 = set_proc i p (wd_procs w) ->
     forall j q, pr_now (wd_procs w0 j) = Some q -> tame (wf_db V) (G j) q (fun _ => True)).
  { intros i p w0 H1 H2 -> j q. unfold set_proc. destruct (Nat.eqb_spec j i) as [->|Nj]; [apply H2|apply H1]. }
  assert (P2 : forall i p w0, incl (pr_todo p) (pr_todo (wd_procs w i)) -> wd_procs w0 = set_proc i p (wd_procs w) ->
     forall j o, In o (pr_todo (wd_procs w0 j)) -> o <> OReopen -> tame (wf_db V) (G j) (p_op ord o) (fun _ => True)).
  { intros i p w0 H -> j o. unfold set_proc. destruct (Nat.eqb_spec j i) as [->|Nj].
    - intros Ho. apply H in Ho. now apply (sf_todo _ S).
    - apply (sf_todo _ S). }
  assert (Drop : forall i j d, (if holds i w then None else wd_writer w) = Some (j, d) -> wd_writer w = Some (j, d)).
  { intros i j d. now destruct (holds i w). }
  assert (Drop2 : forall i, auto = true -> (if holds i w then None else wd_writer w) = None).
  { intros i Ha. rewrite (sf_auto _ S Ha). now destruct (holds i w). }
  destruct St as [i w p o todo Hp Hn Ht Ho|i w p todo Hp Hn Ht|i w p X a k r d wr cur Hp Hn E|i w p r Hp Hn|i w p X a k Hf Hp Hn|i w p todo' Hf Hp Hi]; subst p.
  - split; [|exists i; apply G_refl]. constructor; cbn [wd_disk wd_writer].
    + apply S. + apply S. + apply S.
    + eapply P1; [apply S| |reflexivity].
      cbn. intros q Hq. injection Hq as <-. apply (sf_todo _ S i o); [rewrite Ht; now left|exact Ho].
    + eapply P2; [|reflexivity]. cbn. rewrite Ht. intros x Hx. now right.
  - split; [|exists i; apply G_refl]. constructor; cbn [wd_disk wd_writer].
    + apply Drop2. + apply S. + intros j d Hw. apply S. now apply (Drop i).
    + eapply P1; [apply S| |reflexivity]. cbn. discriminate.
    + eapply P2; [|reflexivity]. cbn. rewrite Ht. intros x Hx. now right.
  - pose proof (sf_now _ S i _ Hn) as Tm. destruct (act_safe i w _ a k r d wr cur S Tm E) as (W & K & An & Wr & Tk).
    split; [|now exists i]. constructor; cbn [wd_disk wd_writer]; [exact An|exact W|exact Wr| |].
    + eapply P1; [apply S| |reflexivity]. cbn. intros q Hq. injection Hq as <-. exact Tk.
    + eapply P2; [|reflexivity]. cbn. apply incl_refl.
  - split; [|exists i; apply G_refl]. constructor; cbn [wd_disk wd_writer]; [apply S|apply S|apply S| |].
    + eapply P1; [apply S| |reflexivity]. cbn. discriminate.
    + eapply P2; [|reflexivity]. cbn. apply incl_refl.
  - split; [|exists i; apply G_refl]. constructor; cbn [wd_disk wd_writer]; [apply S|apply S|apply S| |].
    + eapply P1; [apply S| |reflexivity]. cbn. intros q Hq. injection Hq as <-. exact I.
    + eapply P2; [|reflexivity]. cbn. apply incl_refl.
  - split; [|exists i; apply G_refl]. constructor; cbn [wd_disk wd_writer].
    + apply Drop2. + apply S. + intros j d Hw. apply S. now apply (Drop i).
    + eapply P1; [apply S| |reflexivity]. cbn. discriminate.
    + eapply P2; [|reflexivity]. cbn. exact Hi.
Qed.

Lemma steps_safe (H : db -> db -> Prop) w w' : (forall d, H d d) -> (forall a b c, H a b -> H b c -> H a c) -> (forall j a b, G j a b -> H a b) ->
  safe w -> steps flt auto ord w w' -> safe w' /\ H (wd_disk w) (wd_disk w').
Proof.
  intros H1 H2 H3 S St. induction St as [|w1 w2 St IH S1]; [split; [exact S|apply H1]|].
  destruct IH as [Sa Ka]. destruct (step_safe w1 w2 Sa S1) as [Sb (j & Kb)]. split; [exact Sb|].
  apply (H2 _ (wd_disk w1)); [exact Ka|]. now apply (H3 j).
Qed.
End Safe.

Lemma tame_weaken {A} (J : db -> Prop) (G G' : db -> db -> Prop) (p : prog A) Q : (forall d d', J d -> G d d' -> G' d d') -> tame J G p Q -> tame J G' p Q.
Proof.
  intros H. induction p as [[a|e]|X a k IH]; cbn [tame]; auto. intros T. destruct a; cbn [tame_act] in *; auto.
  destruct T as [T1 T2]. split; [|auto]. intros b d d' n Hd E. destruct (T1 b d d' n Hd E). auto.
Qed.
Lemma start_safe V auto ord (calls : nat -> list op) d : noalias V -> (forall l, Permutation (ord l) l) -> wf_db V d -> (forall i, Forall (op_in V) (calls i)) ->
  safe V auto ord (fun i => keeps V (calls_on (calls i))) (start_world d calls).
Proof.
  intros HV Hord W H. constructor; cbn; [reflexivity|exact W|discriminate|discriminate|].
  intros i o Ho _. specialize (H i). rewrite Forall_forall in H. apply on_op; [exact HV|exact Hord|now apply H|]. intros x Hx. now exists o.
Qed.

(** processes with storable calls: the disk keeps what nobody's calls are about *)
Lemma run_safe V flt auto ord (calls : nat -> list op) d w : noalias V -> (forall l, Permutation (ord l) l) -> wf_db V d -> (forall i, Forall (op_in V) (calls i)) ->
  steps flt auto ord (start_world d calls) w ->
  safe V auto ord (fun i => keeps V (calls_on (calls i))) w /\ keeps V (fun x => exists i, calls_on (calls i) x) d (wd_disk w).
Proof.
  intros HV Hord W H St.
  refine (steps_safe V flt auto ord _ _ _ (keeps V (fun x => exists i, calls_on (calls i) x)) (start_world d calls) w _ _ _ _ St).
  - intros j e. apply keeps_refl.
  - intros j a b c. apply keeps_trans.
  - apply keeps_refl.
  - apply keeps_trans.
  - intros j a b K. eapply keeps_weaken; [|exact K]. intros x Hx. now exists j.
  - now apply start_safe.
Qed.

(** ** one process among others *)

Section Wp.
(** [R]: what the others can do to the database between two of our actions (on
    SQLite not while we have the write lock); [strict]: exceptions are ruled out *)
Variables (auto strict : bool) (R : db -> db -> Prop).
Hypothesis R_refl : forall d, R d d.
Hypothesis R_trans : forall a b c, R a b -> R b c -> R a c.

Definition env (dirty : bool) (d d1 : db) : Prop := if dirty then d1 = d else R d d1.
Definition wp_act {X} (a : act X) (K : X -> db -> curstate -> bool -> Prop) (d : db) (cur : curstate) (dirty : bool) : Prop :=
  match a in act X return (X -> db -> curstate -> bool -> Prop) -> Prop with
  | AExec h s => fun K =>
      if closed h cur then strict = false
      else match bind_error s with Some _ => strict = false | None =>
           forall d1, env dirty d d1 -> match engine auto s d1 with Ok (d2, n) => K n d2 cur (negb auto) | Err _ => strict = false end end
  | AQuery h q => fun K =>
      if closed h cur then strict = false
      else if negb (forallb bindable (sel_texts q)) then strict = false
      else forall d1, env dirty d d1 -> K (sel_run q d1) d1 cur dirty
  | ACommit => fun K => K tt d cur false
  | AGetCur => fun K => K cur d cur dirty
  | ASetCur s => fun K => K tt d s dirty
  end K.
Fixpoint wp {A} (p : prog A) (Q : A -> db -> curstate -> bool -> Prop) (d : db) (cur : curstate) (dirty : bool) : Prop :=
  match p with
  | PRet (Ok a) => Q a d cur dirty
  | PRet (Err _) => strict = false
  | PAct a k => wp_act a (fun x => wp (k x) Q) d cur dirty
  end.

Lemma wp_act_mono {X} (a : act X) (K K' : X -> db -> curstate -> bool -> Prop) d cur dirty :
  (forall x d cur dirty, K x d cur dirty -> K' x d cur dirty) -> wp_act a K d cur dirty -> wp_act a K' d cur dirty.
Proof.
  intros H. destruct a; cbn; auto.
  - destruct (closed h cur); [auto|]. destruct (bind_error s); [auto|]. intros G d1 E. specialize (G d1 E).
    destruct (engine auto s d1) as [[d2 n]|e]; auto.
  - destruct (closed h cur); [auto|]. destruct (negb (forallb bindable (sel_texts q))); auto.
Qed.
Lemma wp_mono {A} (p : prog A) (Q Q' : A -> db -> curstate -> bool -> Prop) : (forall a d cur dirty, Q a d cur dirty -> Q' a d cur dirty) ->
  forall d cur dirty, wp p Q d cur dirty -> wp p Q' d cur dirty.
Proof.
  intros H. induction p as [[a|e]|X a k IH]; intros d cur dirty; cbn [wp]; auto. apply wp_act_mono. exact IH.
Qed.
Lemma wp_bind {A B} (p : prog A) (k : A -> prog B) (Q : B -> db -> curstate -> bool -> Prop) : forall d cur dirty,
  wp p (fun a => wp (k a) Q) d cur dirty -> wp (pbind p k) Q d cur dirty.
Proof.
  induction p as [[a|e]|X a f IH]; intros d cur dirty; cbn [wp pbind]; auto. apply wp_act_mono. exact IH.
Qed.
(** between two actions, without the lock, the others can do what they can do *)
Lemma wp_stable {A} (p : prog A) (Q : A -> db -> curstate -> bool -> Prop) : (forall a d d' cur, R d d' -> Q a d cur false -> Q a d' cur false) ->
  forall d d' cur, R d d' -> wp p Q d cur false -> wp p Q d' cur false.
Proof.
  intros HQ. induction p as [[a|e]|X a k IH]; intros d d' cur HR; cbn [wp]; [now apply HQ|auto|]. destruct a; cbn.
  - destruct (closed h cur); [auto|]. destruct (bind_error s); [auto|]. intros G d1 E. apply G. now apply (R_trans d d').
  - destruct (closed h cur); [auto|]. destruct (negb (forallb bindable (sel_texts q))); [auto|]. intros G d1 E. apply G. now apply (R_trans d d').
  - apply (IH tt d d' cur HR).
  - apply (IH cur d d' cur HR).
  - apply (IH tt d d' s HR).
Qed.
End Wp.

Lemma holds_view i w : holds i w = false -> view i w = wd_disk w.
Proof. unfold holds, view. destruct (wd_writer w) as [[j d]|]; [|reflexivity]. now intros ->. Qed.
Lemma holds_other i j w : i <> j -> holds i w = true -> holds j w = false /\ lock_free j w = false.
Proof.
  unfold holds, lock_free. destruct (wd_writer w) as [[k d]|]; [|discriminate]. intros N E. apply Nat.eqb_eq in E as ->.
  apply Nat.eqb_neq in N. now rewrite N.
Qed.
Lemma act_other {X} auto i j w cur (a : act X) r d wr cur' : i <> j -> (auto = true -> wd_writer w = None) ->
  act_on auto j w cur a = Some (r, d, wr, cur') ->
  (holds i w = true /\ d = wd_disk w /\ wr = wd_writer w)
  \/ (holds i w = false /\ forall ps, holds i (World d wr ps) = false).
Proof.
  intros N Ha E. assert (Nj : Nat.eqb j i = false) by (apply Nat.eqb_neq; congruence).
  assert (Same : forall (r0 : res X) cur0, Some (r0, wd_disk w, wd_writer w, cur0) = Some (r, d, wr, cur') ->
    (holds i w = true /\ d = wd_disk w /\ wr = wd_writer w) \/ (holds i w = false /\ forall ps, holds i (World d wr ps) = false)).
  { intros r0 cur0 H. injection H as _ <- <- _. destruct (holds i w) eqn:Hh; [left; auto|right; split; [reflexivity|]]. intros ps. exact Hh. }
  destruct a; cbn [act_on] in E.
  - destruct (closed h cur); [now apply Same in E|]. destruct (bind_error s); [now apply Same in E|]. destruct auto.
    + destruct (engine true s (wd_disk w)) as [[d1 n]|e]; [|now apply Same in E]. injection E as _ <- <- _. right.
      unfold holds. cbn. now rewrite (Ha eq_refl).
    + destruct (holds i w) eqn:Hh; [destruct (holds_other i j w N Hh) as [_ F]; rewrite F in E; discriminate|]. right. split; [reflexivity|].
      destruct (lock_free j w); [|discriminate]. intros ps. destruct (engine false s (view j w)) as [[d1 n]|e]; injection E as _ <- <- _;
        unfold holds; cbn; exact Nj.
  - destruct (closed h cur); [now apply Same in E|]. destruct (negb (forallb bindable (sel_texts q))); now apply Same in E.
  - destruct (holds i w) eqn:Hh; [destruct (holds_other i j w N Hh) as [F _]; rewrite F in E; apply Same in E; destruct E as [E|[E _]]; [now left|discriminate]|].
    right. split; [reflexivity|]. intros ps. destruct (holds j w); injection E as _ <- <- _; [reflexivity|exact Hh].
  - now apply Same in E.
  - now apply Same in E.
Qed.

(** after an action of process i, the rest of its call is as [wp] says *)
Lemma mine_act {X} V auto strict ord G i (R : db -> db -> Prop) w cur (a : act X) (k : X -> prog unit) r d wr cur' (Q : unit -> db -> curstate -> bool -> Prop) ps : (forall d, R d d) -> safe V auto ord G w ->
  wp auto strict R (PAct a k) Q (view i w) cur (holds i w) -> act_on auto i w cur a = Some (r, d, wr, cur') ->
  wp auto strict R (after_act r k) Q (view i (World d wr ps)) cur' (holds i (World d wr ps)).
Proof.
  intros R_refl S W E. cbn [wp] in W.
  assert (En : env R (holds i w) (view i w) (view i w)) by (unfold env; destruct (holds i w); auto).
  assert (Same : forall (r0 : res X) cur0, Some (r0, wd_disk w, wd_writer w, cur0) = Some (r, d, wr, cur') ->
     r = r0 /\ view i (World d wr ps) = view i w /\ holds i (World d wr ps) = holds i w /\ cur' = cur0).
  { intros r0 cur0 H. injection H as <- <- <- <-. auto. }
  destruct a; cbn [act_on wp_act] in *.
  - destruct (closed h cur); [apply Same in E as (-> & _ & _ & _); exact W|].
    destruct (bind_error s); [apply Same in E as (-> & _ & _ & _); exact W|]. specialize (W _ En). destruct auto.
    + assert (Hw : wd_writer w = None) by (now apply (sf_auto _ _ _ _ _ S)).
      assert (Hv : view i w = wd_disk w) by (unfold view; now rewrite Hw). rewrite Hv in W.
      destruct (engine true s (wd_disk w)) as [[d1 n]|e]; [|apply Same in E as (-> & _ & _ & _); exact W].
      injection E as <- <- <- <-. unfold view, holds. cbn [wd_disk wd_writer]. rewrite Hw. exact W.
    + destruct (lock_free i w); [|discriminate]. destruct (engine false s (view i w)) as [[d1 n]|e]; injection E as <- <- <- <-; [|exact W].
      unfold view, holds. cbn [wd_disk wd_writer]. rewrite Nat.eqb_refl. exact W.
  - destruct (closed h cur); [apply Same in E as (-> & _ & _ & _); exact W|].
    destruct (negb (forallb bindable (sel_texts q))); [apply Same in E as (-> & _ & _ & _); exact W|].
    apply Same in E as (-> & -> & -> & ->). exact (W _ En).
  - destruct (holds i w) eqn:Hh.
    + injection E as <- <- <- <-. exact W.
    + apply Same in E as (-> & -> & -> & ->). exact W.
  - apply Same in E as (-> & -> & -> & ->). exact W.
  - apply Same in E as (-> & -> & -> & ->). exact W.
Qed.

Section Follow.
Variables (V : value -> Prop) (flt auto strict : bool) (ord : list value -> list value) (G : nat -> db -> db -> Prop) (i : nat).
Variables (R : db -> db -> Prop) (fin : list op -> db -> Prop).
Hypothesis G_refl : forall j d, G j d d.
Hypothesis G_trans : forall j a b c, G j a b -> G j b c -> G j a c.
Hypothesis R_refl : forall d, R d d.
Hypothesis R_trans : forall a b c, R a b -> R b c -> R a c.
Hypothesis R_others : forall j d d', j <> i -> wf_db V d -> wf_db V d' -> G j d d' -> R d d'.
Hypothesis Hflt : flt = true -> strict = false.
Hypothesis fin_stable : forall todo d d', R d d' -> fin todo d -> fin todo d'.
Definition done (todo : list op) : unit -> db -> curstate -> bool -> Prop :=
  fun _ d cur dirty => cur = CNone /\ dirty = false /\ fin todo d.
Hypothesis fin_call : forall o todo d, o <> OReopen -> fin (o :: todo) d -> wp auto strict R (p_op ord o) (done todo) d CNone false.
Hypothesis fin_reopen : forall todo d, fin (OReopen :: todo) d -> fin todo d.

Definition mine (w : world) : Prop :=
  let p := wd_procs w i in
  pr_ok p = true ->
  match pr_now p with
  | Some q => wp auto strict R q (done (pr_todo p)) (view i w) (pr_cur p) (holds i w)
  | None => done (pr_todo p) tt (view i w) (pr_cur p) (holds i w)
  end.

Lemma mine_step w w' : safe V auto ord G w -> mine w -> step flt auto ord w w' -> mine w'.
Proof.
  intros S Mi St. unfold mine in *. cbv zeta in *.
  (* steps of others that change nothing we see *)
  assert (Oth : forall j p d wr, j <> i -> wf_db V d -> G j (wd_disk w) d ->
    (holds i w = true /\ d = wd_disk w /\ wr = wd_writer w) \/ (holds i w = false /\ forall ps, holds i (World d wr ps) = false) ->
    let w1 := World d wr (set_proc j p (wd_procs w)) in
    pr_ok (wd_procs w1 i) = true ->
    match pr_now (wd_procs w1 i) with
    | Some q => wp auto strict R q (done (pr_todo (wd_procs w1 i))) (view i w1) (pr_cur (wd_procs w1 i)) (holds i w1)
    | None => done (pr_todo (wd_procs w1 i)) tt (view i w1) (pr_cur (wd_procs w1 i)) (holds i w1)
    end).
  { intros j p d wr N W K H w1. unfold w1. cbn [wd_procs]. rewrite (set_other j i p (wd_procs w)) by congruence. intros Ok. specialize (Mi Ok).
    destruct H as [(Hh & -> & ->)|[Hh Hh']]; [exact Mi|]. pose proof (Hh' (set_proc j p (wd_procs w))) as Hh1. rewrite Hh1.
    rewrite (holds_view _ _ Hh1). cbn [wd_disk]. rewrite Hh, (holds_view _ _ Hh) in Mi.
    assert (HR : R (wd_disk w) d) by (apply (R_others j); auto; apply S).
    destruct (pr_now (wd_procs w i)) as [q|].
    - apply (wp_stable auto strict R R_trans q _) with (d := wd_disk w); [|exact HR|exact Mi].
      intros a e e' cur HRe (A & B & C). split; [exact A|]. split; [exact B|]. now apply (fin_stable _ e).
    - destruct Mi as (A & B & C). split; [exact A|]. split; [reflexivity|]. now apply (fin_stable _ (wd_disk w)). }
  assert (Nochange : forall j, j <> i -> (holds i w = true /\ wd_disk w = wd_disk w /\ wd_writer w = wd_writer w) \/ (holds i w = false /\ forall ps, holds i (World (wd_disk w) (wd_writer w) ps) = false)).
  { intros j N. destruct (holds i w) eqn:Hh; [left; auto|right; split; [reflexivity|]]. intros ps. exact Hh. }
  assert (Drop : forall j, j <> i -> (holds i w = true /\ wd_disk w = wd_disk w /\ (if holds j w then None else wd_writer w) = wd_writer w)
       \/ (holds i w = false /\ forall ps, holds i (World (wd_disk w) (if holds j w then None else wd_writer w) ps) = false)).
  { intros j N. destruct (holds i w) eqn:Hh.
    - left. destruct (holds_other i j w) as [F _]; [congruence|exact Hh|]. rewrite F. auto.
    - right. split; [reflexivity|]. intros ps. destruct (holds j w); [reflexivity|exact Hh]. }
  destruct St as [j w p o todo Hp Hn Ht Ho|j w p todo Hp Hn Ht|j w p X a k r d wr cur Hp Hn E|j w p r Hp Hn|j w p X a k Hf Hp Hn|j w p todo' Hf Hp Hi]; subst p;
    destruct (Nat.eq_dec j i) as [->|N].
  - cbn [wd_procs]. rewrite set_same. cbn [pr_ok pr_now pr_todo pr_cur]. intros Ok. specialize (Mi Ok). rewrite Hn, Ht in Mi.
    destruct Mi as (A & B & C). change (view i _) with (view i w). change (holds i _) with (holds i w). rewrite A, B. now apply fin_call.
  - apply Oth; [exact N|apply S|apply G_refl|now apply (Nochange j)].
  - cbn [wd_procs]. rewrite set_same. cbn [pr_ok pr_now pr_todo pr_cur]. intros Ok. specialize (Mi Ok). rewrite Hn, Ht in Mi.
    destruct Mi as (A & B & C). rewrite B. change (view i _) with (view i w). change (holds i _) with (holds i w). rewrite B.
    split; [reflexivity|]. split; [reflexivity|]. now apply fin_reopen.
  - apply Oth; [exact N|apply S|apply G_refl|now apply (Drop j)].
  - cbn [wd_procs]. rewrite set_same. cbn [pr_ok pr_now pr_todo pr_cur]. intros Ok. specialize (Mi Ok). rewrite Hn in Mi.
    now apply (mine_act V auto strict ord G i R w (pr_cur (wd_procs w i)) a k).
  - destruct (act_safe V auto ord G G_refl G_trans j w (pr_cur (wd_procs w j)) a k r d wr cur S (sf_now _ _ _ _ _ S j _ Hn) E) as (W & K & _).
    apply Oth; [exact N|exact W|exact K|]. apply (act_other auto i j w (pr_cur (wd_procs w j)) a r d wr cur); [congruence|apply S|exact E].
  - cbn [wd_procs]. rewrite set_same. cbn [pr_ok pr_now pr_todo pr_cur]. intros Ok. apply andb_true_iff in Ok as [Ok Or]. specialize (Mi Ok). rewrite Hn in Mi.
    destruct r as [u|e]; [|discriminate]. destruct u. exact Mi.
  - apply Oth; [exact N|apply S|apply G_refl|now apply (Nochange j)].
  - cbn [wd_procs]. rewrite set_same. cbn [pr_ok pr_now pr_todo pr_cur]. intros Ok. now apply Hflt.
  - apply Oth; [exact N|apply S|apply G_refl|now apply (Nochange j)].
  - cbn [wd_procs]. rewrite set_same. cbn [pr_ok]. discriminate.
  - apply Oth; [exact N|apply S|apply G_refl|now apply (Drop j)].
Qed.
Lemma mine_steps w w' : safe V auto ord G w -> mine w -> steps flt auto ord w w' -> mine w'.
Proof.
  intros S Mi St. induction St as [|w1 w2 St IH S1]; [exact Mi|].
  apply (mine_step w1); [|exact IH|exact S1]. refine (proj1 (steps_safe V flt auto ord G G_refl G_trans (fun _ _ => True) w w1 _ _ _ S St)); auto.
Qed.
End Follow.
