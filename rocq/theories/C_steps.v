(** * C_steps.v -- property theorems C65- (several processes on one database) *)

From Verif Require Import Py M_symbol M_edge M_sql M_mysql M_hypergraph P_py Spec P_edge P_perm P_range P_query
  S_history M_driver P_ops P_hist P_graph P_answers P_crash C_graph C_crash S_steps M_steps P_steps P_owned.
From Coq Require Import Permutation Factorial String.
Open Scope list_scope.

(** Reading guide.  [steps flt auto ord (start_world d calls) w]: the database
    holds [d]; process i makes the calls [calls i], one after the other; [w] is
    the state of the disk and of the processes after some of their database
    actions, in any order the engine allows.  [auto]: MySQL's autocommit (else
    SQLite's transactions); [flt]: the engine may refuse any action, and processes
    may die at any moment and be started again.

    Schedules as data, to show concrete runs: process i does the next thing it
    has to do; is refused; dies. *)
Inductive move := Go (i : nat) | Refuse (i : nat) | Die (i : nat).
Definition perform (auto : bool) (ord : list value -> list value) (m : move) (w : world) : option world :=
  match m with
  | Go i =>
      let p := wd_procs w i in
      match pr_now p with
      | None =>
          match pr_todo p with
          | [] => None
          | OReopen :: todo => Some (World (wd_disk w) (if holds i w then None else wd_writer w)
                                 (set_proc i (Proc CNone None todo (pr_ok p)) (wd_procs w)))
          | o :: todo => Some (World (wd_disk w) (wd_writer w)
                                 (set_proc i (Proc (pr_cur p) (Some (p_op ord o)) todo (pr_ok p)) (wd_procs w)))
          end
      | Some (PRet r) => Some (World (wd_disk w) (wd_writer w)
          (set_proc i (Proc (pr_cur p) None (pr_todo p) (pr_ok p && match r with Ok _ => true | Err _ => false end)) (wd_procs w)))
      | Some (PAct a k) =>
          match act_on auto i w (pr_cur p) a with
          | Some (r, d, wr, cur) => Some (World d wr (set_proc i (Proc cur (Some (after_act r k)) (pr_todo p) (pr_ok p)) (wd_procs w)))
          | None => None
          end
      end
  | Refuse i =>
      let p := wd_procs w i in
      match pr_now p with
      | Some (PAct a k) => Some (World (wd_disk w) (wd_writer w)
          (set_proc i (Proc (pr_cur p) (Some (PRet (Err OperationalError))) (pr_todo p) (pr_ok p)) (wd_procs w)))
      | _ => None
      end
  | Die i => let p := wd_procs w i in
      Some (World (wd_disk w) (if holds i w then None else wd_writer w) (set_proc i (Proc CNone None (pr_todo p) false) (wd_procs w)))
  end.
Fixpoint performs (auto : bool) (ord : list value -> list value) (ms : list move) (w : world) : option world :=
  match ms with
  | [] => Some w
  | m :: ms' => match perform auto ord m w with Some w' => performs auto ord ms' w' | None => None end
  end.
Definition faulty (m : move) : bool := match m with Go _ => false | _ => true end.
Lemma perform_step flt auto ord m w w' : (faulty m = true -> flt = true) -> perform auto ord m w = Some w' -> step flt auto ord w w'.
Proof.
  intros Hf. destruct m as [i|i|i]; cbn [perform]; cbv zeta.
  - destruct (pr_now (wd_procs w i)) as [[r|X a k]|] eqn:En.
    + intros H. injection H as <-. now apply (SDone flt auto ord i w (wd_procs w i) r).
    + destruct (act_on auto i w (pr_cur (wd_procs w i)) a) as [[[[r d] wr] cur]|] eqn:E; [|discriminate].
      intros H. injection H as <-. now apply (SAct flt auto ord i w (wd_procs w i) X a k r d wr cur).
    + destruct (pr_todo (wd_procs w i)) as [|o todo] eqn:Et; [discriminate|].
      destruct o; intros H; injection H as <-; try exact (SCall flt auto ord i w (wd_procs w i) _ todo eq_refl En Et ltac:(discriminate)).
      now apply (SReopen flt auto ord i w (wd_procs w i)).
  - destruct (pr_now (wd_procs w i)) as [[r|X a k]|] eqn:En; try discriminate. intros H. injection H as <-.
    apply (SRefused flt auto ord i w (wd_procs w i) X a k); auto.
  - intros H. injection H as <-. apply (SDies flt auto ord i w (wd_procs w i)); [now apply Hf|reflexivity|apply incl_refl].
Qed.
Lemma performs_steps flt auto ord : forall ms w w', (forallb (fun m => negb (faulty m)) ms = false -> flt = true) ->
  performs auto ord ms w = Some w' -> steps flt auto ord w w'.
Proof.
  induction ms as [|m ms IH]; intros w w' Hf H; cbn in H; [injection H as <-; apply steps_refl|].
  destruct (perform auto ord m w) as [w1|] eqn:E; [|discriminate].
  apply (steps_trans flt auto ord w w1).
  - apply steps_one. apply (perform_step flt auto ord m); [|exact E]. intros Hm. apply Hf. cbn. now rewrite Hm.
  - apply IH; [|exact H]. intros Hm. apply Hf. cbn. rewrite Hm. apply andb_false_r.
Qed.

(** What a client sees that asks the database now: a new connection, or process i *)
Definition asks (auto : bool) (w : world) (c : conn) : Prop :=
  c = reopen auto (wd_disk w) \/ exists i, c = Conn auto (wd_disk w) (view i w) CNone.

(** C65 *)
Theorem C65_untouched_edges_under_any_schedule :
  forall V ops c flt ord calls w c1, noalias V -> reached V ops c ->
    (forall l, Permutation (ord l) l) -> (forall i, Forall (op_in V) (calls i)) ->
    steps flt (c_auto c) ord (start_world (c_comm c) calls) w -> asks (c_auto c) w c1 ->
    let busy x := exists i, calls_on (calls i) x in
    (forall x, edge_in V x -> ~ busy x ->
       exists b, exists_ x c = (Ok b, c, []) /\ exists_ x c1 = (Ok b, c1, []))
    /\ (forall p, pattern_in V p ->
       exists l l1, pattern2edges (VTup p) c = (Ok l, c, []) /\ pattern2edges (VTup p) c1 = (Ok l1, c1, [])
         /\ (forall x, In x l1 -> matches p (elems x)) /\ forall x, ~ busy x -> (In x l1 <-> In x l))
    /\ (forall a, db_atom a = true ->
       exists l l1, star a c = (Ok l, c, []) /\ star a c1 = (Ok l1, c1, [])
         /\ (forall x, In x l1 -> In a (elems x)) /\ forall x, ~ busy x -> (In x l1 <-> In x l))
    /\ (forall v, db_vertex v = true -> ~ busy v -> (forall e, busy e -> ~ In v (elems e)) ->
       exists n t, degree v c = (Ok n, c, []) /\ degree v c1 = (Ok n, c1, [])
         /\ timestamp v c = (Ok t, c, []) /\ timestamp v c1 = (Ok t, c1, [])).
Proof.
  intros V ops c flt ord calls w c1 HV Hr Hord Hin St Hc1 busy. pose proof (reached_ready V ops c HV Hr) as R.
  pose proof (Inv_Idx _ _ _ (rd_inv _ _ _ R)) as I. set (P := present (history ops)) in *.
  pose proof (Idx_answers V c P HV (ready_live _ _ _ R) I) as A.
  assert (W0 : wf_db V (c_comm c)) by (rewrite (rd_sync _ _ _ R); apply I).
  destruct (run_safe V flt (c_auto c) ord calls (c_comm c) w HV Hord W0 Hin St) as [S K].
  assert (X : exists d, c_work c1 = d /\ c_cur c1 = CNone /\ wf_db V d /\ keeps V busy (c_comm c) d).
  { destruct Hc1 as [->|(i & ->)]; cbn.
    - exists (wd_disk w). split; [reflexivity|]. split; [reflexivity|]. split; [apply S|exact K].
    - destruct (safe_view V (c_auto c) ord _ (fun i => keeps_refl V _) i w S) as [Wv Kv]. exists (view i w). split; [reflexivity|]. split; [reflexivity|]. split; [exact Wv|].
      apply (keeps_trans V busy _ (wd_disk w)); [exact K|]. eapply keeps_weaken; [|exact Kv]. intros x Hx. now exists i. }
  destruct X as (d & Ed & Ec & W & Kd). rewrite (rd_sync _ _ _ R) in Kd.
  assert (O : othersT V P busy d).
  { intros x Hx Nx r Hr2. rewrite <- (k_rows _ _ _ _ Kd x r Hx Nx Hr2). now apply (x_rows _ _ _ I). }
  assert (L1 : live c1) by (unfold live; rewrite Ec; discriminate). split; [|split; [|split]].
  - intros x Hx Nx. destruct (an_exists _ _ _ A x Hx) as (b & E & Hb).
    destruct (others_exists V d P busy c1 x HV W Ed L1 Hx Nx O) as (b' & E' & Hb').
    exists b. split; [exact E|]. rewrite E'. assert (b' = b) as ->; [|reflexivity].
    destruct b, b'; try reflexivity; exfalso; intuition discriminate.
  - intros p Hp. destruct (an_pattern _ _ _ A p Hp) as (l & E & _ & Hl).
    destruct (others_pattern V d P busy p c1 HV W Ed L1 Hp (x_edges _ _ _ I) O) as (l1 & E1 & _ & M1 & H1).
    exists l, l1. split; [exact E|]. split; [exact E1|]. split; [exact M1|]. intros x Nx. rewrite H1 by exact Nx. symmetry. apply Hl.
  - intros a Hp. destruct (an_star _ _ _ A a Hp) as (l & E & _ & Hl).
    destruct (others_star V d P busy a c1 HV W Ed L1 Hp (x_edges _ _ _ I) O) as (l1 & E1 & _ & M1 & H1).
    exists l, l1. split; [exact E|]. split; [exact E1|]. split; [exact M1|]. intros x Nx. rewrite H1 by exact Nx. symmetry. apply Hl.
  - intros v Hv N1 N2. pose proof (k_vert _ _ _ _ Kd v Hv (conj N1 N2)) as Rw. unfold row in Rw.
    pose proof (degree_gives v c (rd_cur _ _ _ R) Hv) as D0. pose proof (degree_gives v c1 Ec Hv) as D1.
    pose proof (timestamp_gives v c (rd_cur _ _ _ R) Hv) as T0. pose proof (timestamp_gives v c1 Ec Hv) as T1.
    unfold gives in *. rewrite Ed, Rw in *.
    eexists _, _. split; [exact D0|]. split; [exact D1|]. split; [exact T0|exact T1].
Qed.
Print Assumptions C65_untouched_edges_under_any_schedule.

(** Process i is between two calls: the calls [later] are still to be made, and
    all calls so far returned normally. *)
Definition between_calls (i : nat) (later : list op) (w : world) : Prop :=
  let p := wd_procs w i in pr_now p = None /\ pr_todo p = later /\ pr_ok p = true.

(** C66.  [X]: edges that no other process's calls are about. *)
Theorem C66_own_edges_follow_own_calls :
  forall V ops c flt ord calls w c1 i before later (X : value -> Prop), noalias V -> reached V ops c ->
    (forall l, Permutation (ord l) l) -> (forall j, Forall (op_in V) (calls j)) ->
    (forall x j, X x -> j <> i -> ~ calls_on (calls j) x) ->
    (forall s e, In (ORemoveBelief s e) (calls i) -> X e -> forall s', X (link_edge s' e)) ->
    steps flt (c_auto c) ord (start_world (c_comm c) calls) w -> asks (c_auto c) w c1 ->
    calls i = before ++ later -> between_calls i later w ->
    let h := history (ops ++ before) in
    (forall x, X x -> edge_in V x -> exists b, exists_ x c1 = (Ok b, c1, []) /\ (b = true <-> present h x))
    /\ (forall p, pattern_in V p -> exists l, pattern2edges (VTup p) c1 = (Ok l, c1, []) /\ NoDup l
         /\ (forall x, In x l -> matches p (elems x))
         /\ forall x, X x -> edge_in V x -> (In x l <-> present h x /\ matches p (elems x)))
    /\ (forall a, db_atom a = true -> exists l, star a c1 = (Ok l, c1, []) /\ NoDup l
         /\ (forall x, In x l -> In a (elems x))
         /\ forall x, X x -> edge_in V x -> (In x l <-> present h x /\ In a (elems x))).
Proof.
  intros V ops c flt ord calls w c1 i before later X HV Hr Hord Hin Xo Xl St Hc1 Ec Hb h. pose proof (reached_ready V ops c HV Hr) as R.
  pose proof (Inv_Idx _ _ _ (rd_inv _ _ _ R)) as I.
  assert (W0 : wf_db V (c_comm c)) by (rewrite (rd_sync _ _ _ R); apply I).
  assert (S0 : forall x r, X x -> edge_in V x -> is_row (elems x) r -> (In r (perms (c_comm c)) <-> present (history ops) x)).
  { intros x r _ Hx Hr2. rewrite (rd_sync _ _ _ R). now apply (x_rows _ _ _ I). }
  assert (Xl' : forall s e, In (ORemoveBelief s e) (calls i) -> X e -> forall y, is_link_of e y = true -> X y).
  { intros s e He Xe y Hy. apply (link_is s) in Hy as [s' ->]. now apply (Xl s e). }
  pose proof (own_mine V X flt (c_auto c) ord calls i (c_comm c) (history ops) HV Hord Hin (reached_in V ops c Hr) W0 S0 Xo Xl' w St) as M.
  destruct (run_safe V flt (c_auto c) ord calls (c_comm c) w HV Hord W0 Hin St) as [S _].
  destruct Hb as (Bn & Bt & Bo). unfold mine in M. specialize (M Bo). cbv zeta in M. rewrite Bn, Bt in M.
  destruct M as (_ & Hh & before' & rho & Eb & Sr & T). rewrite Ec in Eb. apply app_inv_tail in Eb as <-.
  rewrite (holds_view _ _ Hh) in Sr.
  assert (Eh : fold_left after before (history ops) = h) by (unfold h, history; symmetry; apply fold_left_app). rewrite Eh in T.
  assert (Y : c_cur c1 = CNone /\ st V X rho (c_work c1)).
  { destruct Hc1 as [->|(j & ->)]; cbn; (split; [reflexivity|]); [exact Sr|].
    destruct (Nat.eq_dec j i) as [->|N]; [now rewrite (holds_view _ _ Hh)|].
    destruct (safe_view V (c_auto c) ord _ (fun i => keeps_refl V _) j w S) as [Wv Kv]. apply (st_R V X rho (wd_disk w)); [|exact Sr]. split; [auto|].
    intros x r Xx Hx Hr2. apply (k_rows _ _ _ _ Kv x r Hx); [|exact Hr2]. now apply Xo. }
  destruct Y as [Cc Sc]. assert (L : live c1) by (unfold live; rewrite Cc; discriminate).
  pose proof (wf_rows _ _ (proj1 Sc)) as Ro. split; [|split].
  - intros x Xx Hx. destruct (exists_run V (c_work c1) c1 x HV Ro eq_refl L Hx) as (b & G & Hb). exists b. split; [exact G|].
    rewrite Hb. now apply (hit_tracks V X rho).
  - intros p Hp. pose proof (pattern_in_ok V p Hp) as Hp'.
    destruct (pattern_run V (c_work c1) c1 p HV Ro eq_refl L Hp') as (l & G & N & Il).
    exists l. split; [exact G|]. split; [exact N|]. split; [intros x Hx; now apply Il in Hx|].
    intros x Xx Hx. now apply (pat_tracks V X rho (present h) (c_work c1) p l x Hp').
  - intros a Ha. destruct (star_run V (c_work c1) c1 a HV Ro eq_refl L Ha) as (l & G & N & Il).
    exists l. split; [exact G|]. split; [exact N|].
    split; [intros x Hx; apply Il in Hx as [He Hh']; now apply (hit_star_elem V (c_work c1))|].
    intros x Xx Hx. rewrite Il. split.
    + intros (_ & Hh'). split; [|now apply (hit_star_elem V (c_work c1))]. destruct Hh' as (r & Hr2 & Rr & _).
      apply (T x r Xx Hx Rr). now apply (proj2 Sc x r Xx Hx Rr).
    + intros (Px & Mx). split; [exact Hx|]. apply indexed_hit_star; [|exact Mx]. intros r Hr2.
      apply (proj2 Sc x r Xx Hx Hr2). now apply (T x r Xx Hx Hr2).
Qed.
Print Assumptions C66_own_edges_follow_own_calls.

(** C67.  SQLite, and the engine refuses nothing and no process dies: no call
    ever raises, whatever the other processes do. *)
Theorem C67_no_call_raises :
  forall V ops c ord calls w, noalias V -> reached V ops c -> c_auto c = false ->
    (forall l, Permutation (ord l) l) -> (forall j, Forall (op_in V) (calls j)) ->
    steps false false ord (start_world (c_comm c) calls) w ->
    forall i, pr_ok (wd_procs w i) = true /\ forall e, pr_now (wd_procs w i) <> Some (PRet (Err e)).
Proof.
  intros V ops c ord calls w HV Hr Ha Hord Hin St i. pose proof (reached_ready V ops c HV Hr) as R.
  pose proof (Inv_Idx _ _ _ (rd_inv _ _ _ R)) as I.
  assert (W0 : wf_db V (c_comm c)) by (rewrite (rd_sync _ _ _ R); apply I).
  assert (M : forall w, steps false false ord (start_world (c_comm c) calls) w -> mine false true i (Rx V (fun _ => False)) (own_fin V (fun _ => False) calls i (history ops)) w).
  { intros w1 S1. apply (own_mine V (fun _ => False) false false ord calls i (c_comm c) (history ops)); auto; try easy. now apply (reached_in V ops c). }
  assert (Er : forall w, steps false false ord (start_world (c_comm c) calls) w -> pr_ok (wd_procs w i) = true -> forall e, pr_now (wd_procs w i) <> Some (PRet (Err e))).
  { intros w1 S1 Ok e He. specialize (M w1 S1 Ok). cbv zeta in M. rewrite He in M. cbn in M. discriminate. }
  assert (Ok : pr_ok (wd_procs w i) = true).
  { clear R I W0 M. induction St as [|w w' St IH S1]; [reflexivity|].
    assert (Q : forall j p, (j = i -> pr_ok p = true) -> pr_ok (set_proc j p (wd_procs w) i) = true).
    { intros j p H. unfold set_proc. destruct (Nat.eqb_spec i j) as [->|]; [now apply H|exact IH]. }
    pose proof (Er w St IH) as E1.
    inversion S1 as [j w1 p o todo Hp Hn Ht Ho|j w1 p todo Hp Hn Ht|j w1 p Y a k r d wr cur Hp Hn E|j w1 p r Hp Hn|j w1 p Y a k Hf Hp Hn|j w1 p todo' Hf Hp Hi]; subst; cbn [wd_procs]; apply Q; cbn [pr_ok]; intros ->; auto; try discriminate.
    rewrite IH. destruct r as [u|e]; [reflexivity|]. now destruct (E1 e). }
  split; [exact Ok|now apply Er].
Qed.
Print Assumptions C67_no_call_raises.

(** C68.  Finitely many processes, nothing refused, nobody dies: no run goes on
    for ever; and on SQLite, when nothing can go on, every process has made all
    its calls and all of them returned normally.  (On MySQL nobody ever waits; the
    calls have all been made, but may have raised: C67_mysql_call_raises_refuted.) *)
Theorem C68_every_run_ends :
  forall V ops c ord calls n w, noalias V -> reached V ops c ->
    (forall l, Permutation (ord l) l) -> (forall j, Forall (op_in V) (calls j)) -> (forall i, (n <= i)%nat -> calls i = []) ->
    let auto := c_auto c in
    steps false auto ord (start_world (c_comm c) calls) w ->
    Acc (fun w' w => step false auto ord w w') w
    /\ ((forall w', ~ step false auto ord w w') ->
          forall i, pr_now (wd_procs w i) = None /\ pr_todo (wd_procs w i) = []
                    /\ (auto = false -> pr_ok (wd_procs w i) = true)).
Proof.
  intros V ops c ord calls n w HV Hr Hord Hin Hn auto St. pose proof (reached_ready V ops c HV Hr) as R.
  pose proof (Inv_Idx _ _ _ (rd_inv _ _ _ R)) as I.
  assert (W0 : wf_db V (c_comm c)) by (rewrite (rd_sync _ _ _ R); apply I).
  assert (Q : quiet_above n w).
  { clear R I W0. induction St as [|w w' St IH S1]; [intros i Hi; cbn; auto|]. now apply (step_dec auto ord n w). }
  split; [now apply (ends auto ord n)|]. intros Stuck i.
  destruct (run_safe V false auto ord calls (c_comm c) w HV Hord W0 Hin St) as [S _].
  (* who is in a call has to wait *)
  assert (Wait : forall j q, pr_now (wd_procs w j) = Some q -> exists X (a : act X) k, q = PAct a k /\ act_on auto j w (pr_cur (wd_procs w j)) a = None).
  { intros j [r|X a k] Hq.
    - exfalso. eapply Stuck. exact (SDone false auto ord j w _ r eq_refl Hq).
    - exists X, a, k. split; [reflexivity|]. destruct (act_on auto j w (pr_cur (wd_procs w j)) a) as [[[[r d] wr] cur]|] eqn:E; [|reflexivity].
      exfalso. eapply Stuck. exact (SAct false auto ord j w _ X a k r d wr cur eq_refl Hq E). }
  assert (Lock : forall j X (a : act X), act_on auto j w (pr_cur (wd_procs w j)) a = None -> auto = false /\ lock_free j w = false).
  { intros j X a E. destruct a; cbn [act_on] in E; try discriminate.
    - destruct (closed h (pr_cur (wd_procs w j))); [discriminate|]. destruct (bind_error s); [discriminate|]. destruct auto.
      + destruct (engine true s (wd_disk w)) as [[d m]|e]; discriminate.
      + split; [reflexivity|]. destruct (lock_free j w); [|reflexivity]. destruct (engine false s (view j w)) as [[d m]|e]; discriminate.
    - destruct (closed h (pr_cur (wd_procs w j))); [discriminate|]. destruct (negb (forallb bindable (sel_texts q))); discriminate.
    - destruct (holds j w); discriminate. }
  assert (Now : pr_now (wd_procs w i) = None).
  { destruct (pr_now (wd_procs w i)) as [q|] eqn:Eq; [|reflexivity]. exfalso.
    destruct (Wait i q Eq) as (X & a & k & -> & E). destruct (Lock i X a E) as [Ha F].
    assert (exists j d, wd_writer w = Some (j, d)) as (j & d & Hw) by (unfold lock_free in F; destruct (wd_writer w) as [[j d]|]; [now exists j, d|discriminate]).
    assert (Hj : holds j w = true) by (unfold holds; rewrite Hw; apply Nat.eqb_refl).
    assert (Fj : lock_free j w = true) by (unfold lock_free; rewrite Hw; apply Nat.eqb_refl).
    destruct (pr_now (wd_procs w j)) as [q|] eqn:Ej.
    - destruct (Wait j q Ej) as (X' & a' & k' & -> & E'). destruct (Lock j X' a' E') as [_ F']. congruence.
    - assert (M : mine auto true j (Rx V (fun _ => False)) (own_fin V (fun _ => False) calls j (history ops)) w).
      { pose proof (own_mine V (fun _ => False) false auto ord calls j (c_comm c) (history ops)) as M0. rewrite Ha in *. apply M0; auto; try easy. now apply (reached_in V ops c). }
      rewrite Ha in St. destruct (C67_no_call_raises V ops c ord calls w HV Hr Ha Hord Hin St j) as [Ok _].
      specialize (M Ok). cbv zeta in M. rewrite Ej in M. destruct M as (_ & Hh & _). congruence. }
  split; [exact Now|]. split.
  - destruct (pr_todo (wd_procs w i)) as [|o todo] eqn:Et; [reflexivity|]. exfalso.
    assert (D : {o = OReopen} + {o <> OReopen}) by (destruct o; (now left) || (right; congruence)). destruct D as [->|Ho].
    + eapply Stuck. exact (SReopen false auto ord i w _ todo eq_refl Now Et).
    + eapply Stuck. exact (SCall false auto ord i w _ o todo eq_refl Now Et Ho).
  - intros Ha. rewrite Ha in St. apply (C67_no_call_raises V ops c ord calls w HV Hr Ha Hord Hin St i).
Qed.
Print Assumptions C68_every_run_ends.

(** ** concrete runs *)

Definition two (l0 l1 : list op) (i : nat) : list op := match i with O => l0 | S O => l1 | _ => [] end.
Definition c_e : value := VTup [VStr (lit "is"); VStr (lit "sky"); VStr (lit "blue")].
Definition c_e2 : value := VTup [VStr (lit "is"); VStr (lit "sky"); VStr (lit "red")].
Definition goes (i n : nat) : list move := repeat (Go i) n.
(** both processes have made all their calls, and these returned normally *)
Definition ok2 (w : world) : Prop := between_calls 0 [] w /\ between_calls 1 [] w.
Definition idleb (i : nat) (w : world) : bool :=
  match pr_now (wd_procs w i), pr_todo (wd_procs w i) with None, [] => pr_ok (wd_procs w i) | _, _ => false end.
Lemma idleb_ok i w : idleb i w = true -> between_calls i [] w.
Proof. unfold idleb, between_calls. cbv zeta. destruct (pr_now (wd_procs w i)), (pr_todo (wd_procs w i)); try discriminate. auto. Qed.
Definition end_of (auto : bool) (d : db) (calls : nat -> list op) (ms : list move) : option db :=
  match performs auto (fun l => l) ms (start_world d calls) with
  | Some w => if idleb 0 w && idleb 1 w then Some (wd_disk w) else None
  | None => None
  end.
Lemma end_of_ok auto d calls ms d' : forallb (fun m => negb (faulty m)) ms = true -> end_of auto d calls ms = Some d' ->
  exists w, steps false auto (fun l => l) (start_world d calls) w /\ ok2 w /\ wd_disk w = d'.
Proof.
  intros F. unfold end_of. destruct (performs auto (fun l => l) ms (start_world d calls)) as [w|] eqn:E; [|discriminate].
  destruct (idleb 0 w && idleb 1 w) eqn:B; [|discriminate]. intros H. injection H as <-. apply andb_true_iff in B as [B0 B1].
  exists w. split; [apply (performs_steps false auto _ ms); [now rewrite F|exact E]|]. split; [|reflexivity]. split; now apply idleb_ok.
Qed.
Definition some_db (o : option db) : db := match o with Some d => d | None => db_empty end.

(** C66 needs its hypothesis: two processes, one adds and removes an edge, the
    other adds it; all calls return normally; afterwards exists finds the edge, and
    star does not (SQLite). *)
Definition d66 : db := Eval vm_compute in
  some_db (end_of false db_empty (two [OAdd c_e 1; ORemove c_e] [OAdd c_e 2]) (goes 0 89 ++ goes 1 48 ++ goes 0 11)).
Theorem C66_shared_edge_refuted :
  exists w, steps false false (fun l => l) (start_world db_empty (two [OAdd c_e 1; ORemove c_e] [OAdd c_e 2])) w /\ ok2 w
    /\ let c := reopen false (wd_disk w) in
       exists_ c_e c = (Ok true, c, []) /\ star (VStr (lit "blue")) c = (Ok [], c, []).
Proof.
  destruct (end_of_ok false db_empty (two [OAdd c_e 1; ORemove c_e] [OAdd c_e 2]) (goes 0 89 ++ goes 1 48 ++ goes 0 11) d66) as (w & S & O & D);
    [reflexivity|vm_compute; reflexivity|].
  exists w. split; [exact S|]. split; [exact O|]. rewrite D. cbv zeta. split; vm_compute; reflexivity.
Qed.
Print Assumptions C66_shared_edge_refuted.

(** ... and where it holds: two processes on their own edges, which share two new
    atoms; interleaved action by action on SQLite *)
Definition d66b : db := Eval vm_compute in
  some_db (end_of false db_empty (two [OAdd c_e 1] [OAdd c_e2 2]) (goes 0 8 ++ goes 1 67 ++ goes 0 53)).
Example C66_nonvacuous :
  exists w, steps false false (fun l => l) (start_world db_empty (two [OAdd c_e 1] [OAdd c_e2 2])) w /\ ok2 w
    /\ wd_disk w = d66b /\ reached plain_values [] (start false)
    /\ (forall j, Forall (op_in plain_values) (two [OAdd c_e 1] [OAdd c_e2 2] j))
    /\ (forall x j, x = c_e -> j <> O -> ~ calls_on (two [OAdd c_e 1] [OAdd c_e2 2] j) x)
    /\ present (history ([] ++ [OAdd c_e 1])) c_e.
Proof.
  destruct (end_of_ok false db_empty (two [OAdd c_e 1] [OAdd c_e2 2]) (goes 0 8 ++ goes 1 67 ++ goes 0 53) d66b) as (w & S & O & D);
    [reflexivity|vm_compute; reflexivity|].
  exists w. split; [exact S|]. split; [exact O|]. split; [exact D|].
  split; [exists (fun l => l), false, []; split; [reflexivity|split; [constructor|reflexivity]]|]. split; [|split].
  - intros [|[|j]]; cbn; repeat (apply Forall_cons || apply Forall_nil); cbn; edge_ok.
  - intros x [|[|j]] -> N (o & Ho & Ox); [easy| |destruct Ho]. destruct Ho as [<-|[]]. discriminate Ox.
  - exists [], 1%Z, []. split; [reflexivity|]. split; intros [].
Qed.

(** C67 needs SQLite: on MySQL (autocommit) two adds of different edges that
    share a new atom can collide, and one of the two calls raises *)
Theorem C67_mysql_call_raises_refuted :
  exists w, steps false true (fun l => l) (start_world db_empty (two [OAdd c_e 1] [OAdd c_e2 2])) w
    /\ pr_now (wd_procs w 0) = None /\ pr_todo (wd_procs w 0) = [] /\ pr_ok (wd_procs w 0) = false
    /\ let c := reopen true (wd_disk w) in exists_ c_e c = (Ok false, c, []).
Proof.
  set (ms := goes 0 10 ++ goes 1 67 ++ goes 0 2).
  set (calls := two [OAdd c_e 1] [OAdd c_e2 2]).
  pose (obs := fun w => (pr_ok (wd_procs w 0), match pr_now (wd_procs w 0) with None => true | _ => false end, pr_todo (wd_procs w 0),
                         fst (fst (exists_ c_e (reopen true (wd_disk w)))))).
  assert (F : option_map obs (performs true (fun l => l) ms (start_world db_empty calls)) = Some (false, true, [], Ok false)) by (vm_compute; reflexivity).
  destruct (performs true (fun l => l) ms (start_world db_empty calls)) as [w|] eqn:E; [|discriminate]. injection F as F1 F2 F3 F4.
  exists w. split; [apply (performs_steps false true _ ms); [vm_compute; discriminate|exact E]|].
  split; [now destruct (pr_now (wd_procs w 0))|]. split; [exact F3|]. split; [exact F1|]. cbv zeta.
  pose proof (qq_exists c_e (reopen true (wd_disk w)) (reopen true (wd_disk w)) (compat_refl _)) as (r & E1 & _).
  rewrite E1 in *. cbn in F4. now rewrite F4.
Qed.
Print Assumptions C67_mysql_call_raises_refuted.

(** C65 on a concrete run, with a refused action and a death: the database holds
    (is sky blue); process 0 adds (is sky red) and is refused half-way, process 1
    dies in the middle of another add.  Afterwards exists finds (is sky red), star
    does not, and the questions about (is sky blue) are still answered as before. *)
Definition c_e3 : value := VTup [VStr (lit "likes"); VStr (lit "bob"); VStr (lit "red")].
Definition c65 : conn := Eval vm_compute in snd (fst (run_ops (fun l => l) [OAdd c_e 1] (start false))).
Definition disk_of (flt auto : bool) (d : db) (calls : nat -> list op) (ms : list move) : option db :=
  option_map wd_disk (performs auto (fun l => l) ms (start_world d calls)).
Lemma disk_of_ok flt auto d calls ms d' : (forallb (fun m => negb (faulty m)) ms = false -> flt = true) -> disk_of flt auto d calls ms = Some d' ->
  exists w, steps flt auto (fun l => l) (start_world d calls) w /\ wd_disk w = d'.
Proof.
  intros F. unfold disk_of. destruct (performs auto (fun l => l) ms (start_world d calls)) as [w|] eqn:E; [|discriminate].
  intros H. injection H as <-. exists w. split; [now apply (performs_steps flt auto _ ms)|reflexivity].
Qed.
Definition ms65 : list move := goes 1 23 ++ goes 0 38 ++ [Refuse 0; Die 1].
Definition d65 : db := Eval vm_compute in some_db (disk_of true false (c_comm c65) (two [OAdd c_e2 2] [OAdd c_e3 3]) ms65).
Example C65_nonvacuous :
  exists w, steps true false (fun l => l) (start_world (c_comm c65) (two [OAdd c_e2 2] [OAdd c_e3 3])) w
    /\ reached plain_values [OAdd c_e 1] c65
    /\ (forall j, Forall (op_in plain_values) (two [OAdd c_e2 2] [OAdd c_e3 3] j))
    /\ (forall j, ~ calls_on (two [OAdd c_e2 2] [OAdd c_e3 3] j) c_e)
    /\ let c := reopen false (wd_disk w) in
       exists_ c_e2 c = (Ok true, c, []) /\ star (VStr (lit "red")) c = (Ok [], c, [])
       /\ degree (VStr (lit "bob")) c = (Ok 1%Z, c, []) /\ exists_ c_e3 c = (Ok false, c, []).
Proof.
  destruct (disk_of_ok true false (c_comm c65) (two [OAdd c_e2 2] [OAdd c_e3 3]) ms65 d65) as (w & S & D); [easy|vm_compute; reflexivity|].
  exists w. split; [exact S|]. split; [|split; [|split]].
  - exists (fun l => l), false. eexists. split; [intros l; apply Permutation_refl|]. split; [apply Forall_cons; [cbn; edge_ok|apply Forall_nil]|].
    vm_compute. reflexivity.
  - intros [|[|j]]; cbn; repeat (apply Forall_cons || apply Forall_nil); cbn; edge_ok.
  - intros [|[|j]] (o & Ho & Ox); [| |destruct Ho]; destruct Ho as [<-|[]]; discriminate Ox.
  - rewrite D. cbv zeta. split; [|split; [|split]]; vm_compute; reflexivity.
Qed.

Definition waitsb (w : world) : bool :=
  match pr_now (wd_procs w 1) with
  | Some (PAct a k) => match act_on false 1 w (pr_cur (wd_procs w 1)) a with None => true | _ => false end
  | _ => false
  end.
Lemma waitsb_ok w : waitsb w = true ->
  exists X (a : act X) k, pr_now (wd_procs w 1) = Some (PAct a k) /\ act_on false 1 w (pr_cur (wd_procs w 1)) a = None.
Proof.
  unfold waitsb. destruct (pr_now (wd_procs w 1)) as [[r|X a k]|]; try discriminate. intros H. exists X, a, k. split; [reflexivity|].
  destruct (act_on false 1 w (pr_cur (wd_procs w 1)) a) as [x|]; [discriminate|reflexivity].
Qed.
Definition canb (w : world) : bool := match perform false (fun l => l) (Go 0) w with Some _ => true | None => false end.
Lemma canb_ok w : canb w = true -> exists w', step false false (fun l => l) w w'.
Proof.
  unfold canb. destruct (perform false (fun l => l) (Go 0) w) as [w'|] eqn:E; [|discriminate]. intros _. exists w'.
  apply (perform_step false false _ (Go 0)); [discriminate|exact E].
Qed.
(** C67, C68: the same two adds as C66_nonvacuous, stopped while process 0 is in
    the middle of its call and process 1 has to wait for the lock; the run is not
    over (process 0 can go on) *)
Example C67_nonvacuous :
  exists w, steps false false (fun l => l) (start_world db_empty (two [OAdd c_e 1] [OAdd c_e2 2])) w
    /\ (exists X (a : act X) k, pr_now (wd_procs w 1) = Some (PAct a k) /\ act_on false 1 w (pr_cur (wd_procs w 1)) a = None)
    /\ (exists w', step false false (fun l => l) w w')
    /\ (forall j, Forall (op_in plain_values) (two [OAdd c_e 1] [OAdd c_e2 2] j))
    /\ (forall j, (2 <= j)%nat -> two [OAdd c_e 1] [OAdd c_e2 2] j = []).
Proof.
  set (calls := two [OAdd c_e 1] [OAdd c_e2 2]). set (ms := goes 1 5 ++ goes 0 7).
  assert (F : option_map (fun w => (waitsb w, canb w))
            (performs false (fun l => l) ms (start_world db_empty calls)) = Some (true, true)) by (vm_compute; reflexivity).
  destruct (performs false (fun l => l) ms (start_world db_empty calls)) as [w|] eqn:E; [|discriminate]. injection F as F1 F2.
  exists w. split; [apply (performs_steps false false _ ms); [vm_compute; discriminate|exact E]|]. clear E. split; [|split; [|split]].
  - exact (waitsb_ok w F1).
  - exact (canb_ok w F2).
  - intros [|[|j]]; cbn; repeat (apply Forall_cons || apply Forall_nil); cbn; edge_ok.
  - intros [|[|j]] H; [lia|lia|reflexivity].
Qed.

(** The programs of this model are those of the other theorems: on SQLite, what a
    process that works alone does to the database is what the sequential model says
    (so the disk of every such [reached] state is the disk of a run here); for MySQL
    see C69. *)
Theorem C68_sequential_runs_are_runs :
  forall flt ord ops d c tr i, run_ops ord ops (open_db false d) = (Ok tt, c, tr) ->
    exists w, steps flt false ord (start_world d (fun j => if Nat.eqb j i then ops else [])) w
      /\ between_calls i [] w /\ wd_disk w = c_comm c /\ view i w = c_work c.
Proof.
  intros flt ord ops d c tr i E. rewrite <- run_ops_on_sqlite in E by reflexivity.
  set (w0 := start_world d (fun j => if Nat.eqb j i then ops else [])).
  destruct (solo_ops flt false ord i ops (open_db false d) c tr w0 E) as (w & S & A & P).
  - constructor; try reflexivity; intros _; reflexivity.
  - cbn. unfold start_proc. now rewrite Nat.eqb_refl.
  - exists w. split; [exact S|]. unfold between_calls. cbv zeta. rewrite P. split; [split; [reflexivity|split; reflexivity]|].
    split; apply A.
Qed.
Print Assumptions C68_sequential_runs_are_runs.
