(** * C_mycrash.v -- property theorem C89 (crashes on MySQL, and the repair) *)

From Verif Require Import Py M_symbol M_edge M_sql M_mysql M_hypergraph P_py Spec P_edge P_perm P_range P_query
  S_history M_driver P_ops P_hist P_graph P_answers P_rows P_crash P_stuck C_graph C_crash S_steps M_steps P_steps P_owned C_steps P_mysql C_mysql P_mycrash.
From Coq Require Import Permutation Factorial String.
Open Scope list_scope.

(** Reading guide.  [run_op_on ord o c]: one call on the engine of the connection
    [c]; [c_auto c = true]: MySQL.  [died m c d] (C_crash): if the process dies
    during [m], the disk may hold [d].  [reopen true d]: a new connection to it.
    [answers V c P] (C_crash): exists, pattern2edges and star answer exactly as for
    the set [P] of edges. *)

(** the results and the final state of [n] calls of [m], whatever they raise *)
Fixpoint tries (n : nat) (m : M unit) (c : conn) : list (res unit) * conn :=
  match n with
  | O => ([], c)
  | S n' => let '(r, c1, _) := m c in let '(rs, c2) := tries n' m c1 in (r :: rs, c2)
  end.

(** C89.  A crash during a call of a fine history leaves on MySQL's disk what it
    would leave in the model of C24 and C25. *)
Theorem C89_same_crash_states :
  forall V ord ops o c, noalias V -> (forall l, Permutation (ord l) l) -> reached V ops c -> c_auto c = true -> op_in V o ->
    my_fine (history (ops ++ [o])) -> forall d, died (run_op_on ord o) c d <-> died (run_op ord o) c d.
Proof.
  intros V ord ops o c HV Hord Hr Ha Hi Hf d. pose proof (reached_ready V ops c HV Hr) as R.
  unfold history in Hf. rewrite fold_left_app in Hf. cbn [fold_left] in Hf. fold (history ops) in Hf.
  assert (E : run_op_on ord o c = run_op ord o c).
  { destruct o; try reflexivity; cbn [run_op_on]; rewrite (op_same ord V (history ops)) by (auto; now apply (reached_in V ops c)); now apply run_p_op. }
  unfold died. now rewrite E.
Qed.
Print Assumptions C89_same_crash_states.

Lemma hurt_crash V ops c e t0 o ord d : noalias V -> reached V ops c -> edge_in V e -> int64 t0 = true -> (o = OAdd e t0 \/ o = ORemove e) ->
  died (run_op ord o) c d -> hurt V (present (history ops)) e (reopen true d)
    /\ ((o = OAdd e t0 /\ (no_rows e (reopen true d) \/ gives (exists_ e) (reopen true d) true)) \/ (o = ORemove e /\ tail_rows e d)).
Proof.
  intros HV Hr He Ht0 Ho Hd. pose proof (reached_ready V ops c HV Hr) as R. set (c1 := reopen true d).
  pose proof (rd_inv _ _ _ R) as Iv. pose proof (Inv_Idx _ _ _ Iv) as I. set (P := present (history ops)) in *.
  assert (Hst : forall o1, o = o1 -> (o1 = OAdd e t0 -> In d (states (add_fs (history ops) e t0) (c_work c))) /\ (o1 = ORemove e -> In d (states (rem_fs (history ops) e) (c_work c)))).
  { intros o1 E1. assert (Hd' : d = c_work c \/ In d (tr_of (run_op ord o c))) by (rewrite <- (rd_sync _ _ _ R); exact Hd). split; intros ->; subst o.
    - destruct Hd' as [->|Hd']; [apply states_hd|]. cbn [run_op] in Hd'. rewrite tr_bind_ret in Hd'. revert d Hd' Hd c1.
      intros d Hd' _ _. revert d Hd'. now apply (goesf_crash V (history ops) _ _ _ c _ (goesf_add V (history ops) e t0 HV He Ht0)).
    - destruct Hd' as [->|Hd']; [apply states_hd|]. clear Hd c1. revert d Hd'. now apply (goesf_crash V (history ops) _ _ _ c _ (goesf_remove V (history ops) e HV He)). }
  assert (O0 : othersT V P (fun x => x = e) (c_work c)) by (intros x Hx _ r Hx2; now apply (x_rows _ _ _ I)).
  assert (H1 : hurt V P e c1).
  { assert (X : wf_db V d /\ othersT V P (fun x => x = e) d).
    { destruct Ho as [Ho|Ho].
      - apply (states_on V P (fun x => x = e) (add_fs (history ops) e t0) (c_work c)); [now apply add_fs_on|apply I|exact O0|]. now apply (Hst _ Ho).
      - apply (states_on V P (fun x => x = e) (rem_fs (history ops) e) (c_work c)); [now apply rem_fs_on|apply I|exact O0|]. now apply (Hst _ Ho). }
    destruct X as [W O]. constructor; [reflexivity|exact W|apply I|exact O]. }
  split; [exact H1|]. pose proof (edge_in_db _ _ He) as De.
  destruct Ho as [Ho|Ho]; [left|right]; (split; [exact Ho|]); pose proof (Hst _ Ho) as [Hs1 Hs2].
  - specialize (Hs1 eq_refl). unfold add_fs in Hs1.
    destruct (hurt_exists V P e c1 HV He H1) as (b & G & _ & B). destruct (memb e (stored (history ops))) eqn:M.
    + apply memb_in in M. destruct Hs1 as [<-|[]]. right. rewrite B in G; [exact G|]. intros r Hrw. now apply (i_rows _ _ _ Iv e r He Hrw).
    + apply memb_nin in M. destruct (add_states_rows V e t0 (c_work c) d He) as (j & Hj); [intros r Hrw Hi; now apply (i_rows _ _ _ Iv e r He Hrw) in Hi|exact Hs1|].
      destruct j as [|j]; [left; intros r Hrw Hi; now apply (Hj r Hrw) in Hi|right].
      destruct (exists_run V d c1 e HV (wf_rows _ _ (hu_wf _ _ _ _ H1)) eq_refl (hurt_live _ _ _ _ H1) He) as (b' & G' & Hb').
      destruct b'; [exact G'|]. exfalso. enough (false = true) by discriminate. apply Hb'.
      set (r0 := nodes2str (elems e ++ [VInt 0])).
      assert (Rw : rows_of (elems e) = r0 :: tl (rows_of (elems e))).
      { unfold rows_of. pose proof (lt_O_fact (List.length (elems e))) as F. destruct (fact (List.length (elems e))) as [|m] eqn:Ef; [lia|]. cbn [seq List.map tl]. f_equal.
        assert (Hn : elems e <> []) by now apply (elems_nonnil V). destruct (perm_str_row (elems e) 0 Hn ltac:(lia)) as (p & Ep & _ & ->).
        change (Z.of_nat 0) with 0%Z in *. rewrite nthperm_0 in Ep. injection Ep as <-. reflexivity. }
      assert (R0 : is_row (elems e) r0) by (apply rows_of_spec; [now apply (elems_nonnil V)|rewrite Rw; now left]).
      exists r0. split; [apply (Hj r0 R0); rewrite Rw; now left|]. split; [exact R0|].
      unfold r0. rewrite nodes2str_app; [apply prefixb_app|now apply (elems_nonnil V)|easy].
  - specialize (Hs2 eq_refl). unfold rem_fs in Hs2. destruct (memb e (stored (history ops))) eqn:M.
    + apply memb_in in M. apply (rem_states_rows V e (c_work c)); [exact He| |exact Hs2]. intros r Hrw. now apply (i_rows _ _ _ Iv e r He Hrw).
    + apply memb_nin in M. destruct Hs2 as [<-|[]]. apply (no_rows_tail V e c He). intros r Hrw Hi. now apply (i_rows _ _ _ Iv e r He Hrw) in Hi.
Qed.

(** C89, the repair: remove the edge, then add it with a time other than the one
    recorded (the time does not matter if exists finds the edge).  After a crash in
    an add, both calls return; after a crash in a remove, the add may raise
    IntegrityError; in all cases the queries then answer exactly as they should.  To
    get rid of the edge: add it with another time, ignore an IntegrityError, and
    remove it. *)
Theorem C89_repair :
  forall V ord ops c e t0 o d t, noalias V -> (forall l, Permutation (ord l) l) -> reached V ops c -> c_auto c = true ->
    edge_in V e -> short_texts e -> int64 t0 = true -> (o = OAdd e t0 \/ o = ORemove e) -> my_fine (history (ops ++ [o])) ->
    died (run_op_on ord o) c d -> int64 t = true -> let c1 := reopen true d in
    (exists_ e c1 = (Ok true, c1, []) \/ (forall ts, timestamp e c1 = (Ok ts, c1, []) -> ts <> t)) ->
    (exists c2 tr2 r c3 tr3, run_op_on ord (ORemove e) c1 = (Ok tt, c2, tr2) /\ run_op_on ord (OAdd e t) c2 = (r, c3, tr3)
       /\ (r = Ok tt \/ r = Err IntegrityError /\ o = ORemove e)
       /\ answers V c3 (fun x => x = e \/ present (history ops) x))
    /\ (exists r c2 tr2 c3 tr3, run_op_on ord (OAdd e t) c1 = (r, c2, tr2) /\ run_op_on ord (ORemove e) c2 = (Ok tt, c3, tr3)
       /\ (r = Ok tt \/ r = Err IntegrityError /\ o = ORemove e)
       /\ answers V c3 (fun x => x <> e /\ present (history ops) x)).
Proof.
  intros V ord ops c e t0 o d t HV Hord Hr Ha He Hs Ht0 Ho Hf Hd Ht c1 Hq.
  assert (Hi : op_in V o) by (destruct Ho as [->| ->]; [exact (conj He Ht0)|exact He]).
  apply (C89_same_crash_states V ord ops o c HV Hord Hr Ha Hi Hf d) in Hd.
  destruct (hurt_crash V ops c e t0 o ord d HV Hr He Ht0 Ho Hd) as [H1 K]. fold c1 in H1, K. set (P := present (history ops)) in *.
  destruct (hurt_exists V P e c1 HV He H1) as (b & G & Bn & _).
  assert (Hq' : gives (exists_ e) c1 true \/ gives (exists_ e) c1 false /\ vlook (edge2str e) (c_work c1) <> Some (0%Z, t) /\ tail_rows e (c_work c1)).
  { destruct b; [now left|right]. split; [exact G|]. split.
    - destruct Hq as [Hq|Hq]; [unfold gives in G; congruence|]. intros E.
      pose proof (timestamp_gives e c1 eq_refl (db_edge_vertex _ (edge_in_db _ _ He))) as T. rewrite E in T. exact (Hq t T eq_refl).
    - destruct K as [(_ & [N|G'])|(_ & Tl)]; [now apply (no_rows_tail V)|unfold gives in G, G'; congruence|exact Tl]. }
  assert (Kr : forall r : res value, r = Ok e \/ r = Err IntegrityError -> (gives (exists_ e) c1 true \/ no_rows e c1 -> r = Ok e) ->
     r = Ok e \/ r = Err IntegrityError /\ o = ORemove e).
  { intros r R1 R2. destruct K as [(_ & [N|G'])|(Eo & _)]; [left; apply R2; now right|left; apply R2; now left|]. destruct R1 as [R1|R1]; [now left|now right]. }
  assert (Ka : forall r c2 c3 tr, run_on (p_add e t) c2 = (r, c3, tr) -> (r = Ok e \/ r = Err IntegrityError /\ o = ORemove e) ->
     exists r' tr', run_op_on ord (OAdd e t) c2 = (r', c3, tr') /\ (r' = Ok tt \/ r' = Err IntegrityError /\ o = ORemove e)).
  { intros r c2 c3 tr E [->|[-> Eo]]; cbn [run_op_on p_op]; rewrite run_on_bind; unfold bind; rewrite E.
    - exists (Ok tt). eexists. split; [reflexivity|now left].
    - exists (Err IntegrityError). eexists. split; [reflexivity|now right]. }
  split.
  - destruct (repair_add_on V P e t c1 HV He Ht Hs eq_refl eq_refl H1 Hq') as (c2 & t2 & r & c3 & t3 & E2 & E3 & R1 & R2 & H3 & N3).
    destruct (Ka r c2 c3 t3 E3 (Kr r R1 R2)) as (r' & tr' & E3' & R3). exists c2, t2, r', c3, tr'. split; [exact E2|]. split; [exact E3'|]. split; [exact R3|].
    apply Idx_answers; [exact HV|now apply (hurt_live V P e)|]. apply (hurt_Idx V P _ e c3 He H3). left. split; [exact N3|tauto].
  - destruct (repair_remove_on V P e t c1 HV He Ht Hs eq_refl eq_refl H1 Hq') as (r & c2 & t2 & c3 & t3 & E2 & E3 & R1 & R2 & H3 & N3).
    destruct (Ka r c1 c2 t2 E2 (Kr r R1 R2)) as (r' & tr' & E2' & R3). exists r', c2, tr', c3, t3. split; [exact E2'|]. split; [exact E3|]. split; [exact R3|].
    apply Idx_answers; [exact HV|now apply (hurt_live V P e)|]. apply (hurt_Idx V P _ e c3 He H3). right. split; [exact N3|tauto].
Qed.
Print Assumptions C89_repair.

(** C89, what does not help: adding the edge again with the same time.  For every
    edge that is not in the hypergraph there is a crash point of its add after which
    this raises IntegrityError for ever; exists never finds the edge, and every
    attempt counts the edge's elements once more. *)
Theorem C89_same_time_never_succeeds :
  forall V ord ops c e t, noalias V -> (forall l, Permutation (ord l) l) -> reached V ops c -> c_auto c = true ->
    edge_in V e -> int64 t = true -> ~ present (history ops) e -> my_fine (history (ops ++ [OAdd e t])) ->
    exists d, died (run_op_on ord (OAdd e t)) c d /\
      forall n, exists c2, tries n (run_op_on ord (OAdd e t)) (reopen true d) = (List.repeat (Err IntegrityError) n, c2)
        /\ exists_ e c2 = (Ok false, c2, [])
        /\ forall v, db_vertex v = true -> v <> e -> exists k,
             degree v c = (Ok k, c, []) /\ degree v c2 = (Ok (k + Z.of_nat (S n) * Z.of_nat (count v (elems e)))%Z, c2, []).
Proof.
  intros V ord ops c e t HV Hord Hr Ha He Ht Np Hf. pose proof (reached_ready V ops c HV Hr) as R. pose proof (rd_inv _ _ _ R) as I.
  pose proof (ready_live _ _ _ R) as L. pose proof (edge_in_db _ _ He) as De. destruct (db_edge_elems e De) as (Ee & Ae & Le).
  assert (G : gives (exists_ e) c false).
  { pose proof (Inv_exists V _ _ c e HV I eq_refl L He) as G. assert (M : memb e (stored (history ops)) = false) by (apply memb_nin; now rewrite stored_present).
    now rewrite M in G. }
  assert (Hs : short_texts e).
  { unfold history in Hf. rewrite fold_left_app in Hf. cbn [fold_left after] in Hf. now apply fine_add in Hf. }
  set (d := half_add e t (c_work c)). exists d. split.
  { apply (C89_same_crash_states V ord ops (OAdd e t) c HV Hord Hr Ha (conj He Ht) Hf d). right.
    destruct (half_add_seen V e t c He Ht (rd_cur _ _ _ R) G) as (r & c' & tr & E & Hin). rewrite (ir_add e t c) in E. cbn [run_op].
    change (In d (tr_of ((add e t;; ret tt) c))). rewrite tr_bind_ret. unfold tr_of. rewrite E. exact Hin. }
  set (us := List.map (fun x => touch (edge2str x) t) (elems e)).
  assert (Ed : d = set_row (edge2str e) (0%Z, t) (runs us (c_work c))) by (unfold d, half_add, part_upds; now rewrite !runs_app).
  (* what holds after every attempt; the degrees have grown n times *)
  set (Q := fun (n : nat) (c1 : conn) => c_auto c1 = true /\ c_cur c1 = CNone /\ wf_db V (c_work c1) /\ perms (c_work c1) = perms (c_work c)
     /\ vlook (edge2str e) (c_work c1) = Some (0%Z, t)
     /\ forall v, db_vertex v = true -> v <> e -> exists k, degree v c = (Ok k, c, []) /\ degree v c1 = (Ok (k + Z.of_nat n * Z.of_nat (count v (elems e)))%Z, c1, [])).
  assert (Dg : forall w v, db_vertex v = true -> (match vlook (edge2str v) (runs us w) with Some (x, _) => x | None => 0%Z end)
     = ((match vlook (edge2str v) w with Some (x, _) => x | None => 0%Z end) + Z.of_nat (count v (elems e)))%Z).
  { intros w v Dv. unfold us. rewrite (touch_runs _ _ _ v Ae Dv).
    destruct (count v (elems e)) as [|m], (vlook (edge2str v) w) as [[x y]|]; lia. }
  assert (Wf : forall w, wf_db V w -> wf_db V (runs us w)).
  { intros w W. apply runs_inv; [exact W|]. intros f d0 Hf0 W0. apply (add_upds_wf V e t f d0 He); [|exact W0]. unfold add_upds. fold us. apply in_app_iff. now left. }
  assert (Q0 : Q 1%nat (reopen true d)).
  { split; [reflexivity|]. split; [reflexivity|]. split; [|split; [|split]].
    - change (c_work (reopen true d)) with d. rewrite Ed. apply (wf_set V (0%Z, t) (runs us (c_work c)) e); [now apply db_edge_vertex|]. apply Wf, I.
    - change (c_work (reopen true d)) with d. rewrite Ed, perms_set. apply touch_perms_runs.
    - change (c_work (reopen true d)) with d. rewrite Ed, vlook_set, str_eqb_refl. reflexivity.
    - intros v Dv Nv. pose proof (degree_gives v c (rd_cur _ _ _ R) Dv) as G1. pose proof (degree_gives v (reopen true d) eq_refl Dv) as G2.
      eexists. split; [exact G1|]. rewrite G2. f_equal. f_equal. f_equal. change (c_work (reopen true d)) with d.
      rewrite Ed, vlook_set, (id_eqb v e Dv) by now apply db_edge_vertex. apply veqb_neq in Nv. rewrite Nv, (Dg (c_work c) v Dv). lia. }
  assert (Qn : forall n c1, Q n c1 -> exists c2 tr, run_op_on ord (OAdd e t) c1 = (Err IntegrityError, c2, tr) /\ Q (S n) c2).
  { intros n c1 (A1 & C1 & W1 & P1 & V1 & D1). assert (L1 : live c1) by (unfold live; now rewrite C1).
    assert (G1 : gives (exists_ e) c1 false).
    { destruct (exists_run V (c_work c1) c1 e HV (wf_rows _ _ W1) eq_refl L1 He) as (b1 & G1 & B1).
      destruct (exists_run V (c_work c) c e HV (wf_rows _ _ (i_wf _ _ _ I)) eq_refl L He) as (b2 & G2 & B2).
      assert (b2 = false) as -> by (unfold gives in G, G2; congruence). assert (b1 = false) as ->; [|exact G1].
      apply Bool.eq_true_iff_eq. rewrite B1, B2. unfold hit. now rewrite P1. }
    destruct (add_stuck V e t c1 He Ht Hs A1 C1 (wf_ndv _ _ W1) G1 V1) as (tr & E). cbv zeta in E. fold us in E.
    exists (Conn true (runs us (c_work c1)) (runs us (c_work c1)) CNone), tr. split.
    - cbn [run_op_on p_op]. rewrite run_on_bind. unfold bind. rewrite E. reflexivity.
    - split; [reflexivity|]. split; [reflexivity|]. cbn [c_work]. split; [now apply Wf|]. split; [etransitivity; [apply touch_perms_runs|exact P1]|]. split.
      + unfold us. rewrite (touch_runs _ _ _ e Ae (db_edge_vertex _ De)), (count_0 e (elems e) (elems_not_self e)), V1. reflexivity.
      + intros v Dv Nv. destruct (D1 v Dv Nv) as (k & K1 & K2). exists k. split; [exact K1|].
        pose proof (degree_gives v c1 C1 Dv) as G2. pose proof (degree_gives v (Conn true (runs us (c_work c1)) (runs us (c_work c1)) CNone) eq_refl Dv) as G3.
        cbn [c_work] in G3. rewrite G3. f_equal. f_equal. f_equal. rewrite (Dg (c_work c1) v Dv). rewrite G2 in K2. injection K2 as K2. rewrite K2. lia. }
  assert (Qe : forall n c1, Q n c1 -> exists_ e c1 = (Ok false, c1, [])).
  { intros n c1 (A1 & C1 & W1 & P1 & V1 & D1). assert (L1 : live c1) by (unfold live; now rewrite C1).
    destruct (exists_run V (c_work c1) c1 e HV (wf_rows _ _ W1) eq_refl L1 He) as (b1 & G1 & B1).
    destruct (exists_run V (c_work c) c e HV (wf_rows _ _ (i_wf _ _ _ I)) eq_refl L He) as (b2 & G2 & B2).
    assert (b2 = false) as -> by (unfold gives in G, G2; congruence). assert (b1 = false) as ->; [|exact G1].
    apply Bool.eq_true_iff_eq. rewrite B1, B2. unfold hit. now rewrite P1. }
  assert (Qt : forall n k c1, Q k c1 -> exists c2, tries n (run_op_on ord (OAdd e t)) c1 = (List.repeat (Err IntegrityError) n, c2) /\ Q (n + k)%nat c2).
  { induction n as [|n IH]; intros k c1 Hq; [exists c1; split; [reflexivity|exact Hq]|].
    destruct (Qn k c1 Hq) as (c2 & tr & E & Hq2). destruct (IH (S k) c2 Hq2) as (c3 & E3 & Hq3). exists c3.
    split; [cbn [tries List.repeat]; rewrite E, E3; reflexivity|]. replace (S n + k)%nat with (n + S k)%nat by lia. exact Hq3. }
  intros n. destruct (Qt n 1%nat (reopen true d) Q0) as (c2 & E2 & Hq2). exists c2. split; [exact E2|]. split; [now apply (Qe (n + 1)%nat)|].
  replace (S n) with (n + 1)%nat by lia. exact (proj2 (proj2 (proj2 (proj2 (proj2 Hq2))))).
Qed.
Print Assumptions C89_same_time_never_succeeds.

(** A crash in a remove: exists does not find the edge, star does; removing it again
    does nothing; adding it with its old time raises and changes neither answer;
    adding it with another time raises too, but repairs the index.  (On SQLite the
    add returns and repairs: C24_repair.) *)
Theorem C89_remove_crash_refuted :
  let a := VStr (lit "blue") in let ord := fun l : list value => l in
  exists c tr d, run_op_on ord (OAdd m_in 1) (start true) = (Ok tt, c, tr) /\ died (run_op_on ord (ORemove m_in)) c d /\
    let c1 := reopen true d in
    exists_ m_in c1 = (Ok false, c1, []) /\ star a c1 = (Ok [m_in], c1, [])
    /\ run_op_on ord (ORemove m_in) c1 = (Ok tt, c1, [])
    /\ (exists c2 t2, run_op_on ord (OAdd m_in 1) c1 = (Err IntegrityError, c2, t2)
          /\ exists_ m_in c2 = (Ok false, c2, []) /\ star a c2 = (Ok [m_in], c2, []))
    /\ (exists c2 t2, run_op_on ord (OAdd m_in 2) c1 = (Err IntegrityError, c2, t2)
          /\ exists_ m_in c2 = (Ok true, c2, []) /\ star a c2 = (Ok [m_in], c2, []))
    /\ (exists c2 t2, run_op ord (OAdd m_in 1) c1 = (Ok tt, c2, t2) /\ exists_ m_in c2 = (Ok true, c2, [])).
Proof.
  intros a ord. set (s := run_op_on ord (OAdd m_in 1) (start true)). set (c := snd (fst s)). set (d := nth 8 (snd (run_op_on ord (ORemove m_in) c)) db_empty).
  exists c, (snd s), d. split; [vm_compute; reflexivity|]. split; [right; apply nth_In; apply Nat.ltb_lt; vm_compute; reflexivity|]. intros c1.
  split; [vm_compute; reflexivity|]. split; [vm_compute; reflexivity|]. split; [vm_compute; reflexivity|]. split; [|split].
  - exists (snd (fst (run_op_on ord (OAdd m_in 1) c1))), (snd (run_op_on ord (OAdd m_in 1) c1)).
    split; [vm_compute; reflexivity|]. split; vm_compute; reflexivity.
  - exists (snd (fst (run_op_on ord (OAdd m_in 2) c1))), (snd (run_op_on ord (OAdd m_in 2) c1)).
    split; [vm_compute; reflexivity|]. split; vm_compute; reflexivity.
  - exists (snd (fst (run_op ord (OAdd m_in 1) c1))), (snd (run_op ord (OAdd m_in 1) c1)).
    split; [vm_compute; reflexivity|]. vm_compute; reflexivity.
Qed.
Print Assumptions C89_remove_crash_refuted.

(** the hypotheses of the theorems above are met; there are many crash points, at
    some of which the repair is needed, and the two results of the repair occur *)
Example C89_nonvacuous :
  let ord := fun l : list value => l in let ops := [OAdd m_out 1] in let c := snd (fst (run_ops_on ord ops (start true))) in
  noalias plain_values /\ reached plain_values ops c /\ c_auto c = true
  /\ edge_in plain_values m_in /\ short_texts m_in /\ ~ present (history ops) m_in /\ my_fine (history (ops ++ [OAdd m_in 2]))
  /\ edge_in plain_values m_out /\ short_texts m_out /\ my_fine (history (ops ++ [ORemove m_out]))
  /\ (List.length (snd (run_op_on ord (OAdd m_in 2) c)) = 35)%nat
  /\ let d := nth 9 (snd (run_op_on ord (ORemove m_out) c)) db_empty in let c1 := reopen true d in
     outcome (exists_ m_out c1) = Ok false /\ outcome (timestamp m_out c1) = Ok 1%Z
     /\ outcome (run_op_on ord (OAdd m_out 2) c1) = Err IntegrityError.
Proof.
  assert (S1 : short_texts m_in) by (apply short3; reflexivity). assert (S2 : short_texts m_out) by (apply short3; reflexivity).
  intros ord ops c. assert (Fi : Forall (op_in plain_values) ops) by (repeat apply Forall_cons; try apply Forall_nil; cbn; edge_ok).
  assert (F1 : my_fine (history (ops ++ [OAdd m_in 2]))).
  { intros later e t earlier E Np. change (history (ops ++ [OAdd m_in 2])) with [EAdd m_in 2; EAdd m_out 1] in E.
    destruct later as [|? [|? later]]; cbn [app] in E.
    - injection E as <- <- <-. split; [exact S1|]. intros (_ & h0 & Eb & _). vm_compute in Eb. discriminate Eb.
    - injection E as _ <- <- <-. split; [exact S2|]. intros (_ & h0 & Eb & _). vm_compute in Eb. discriminate Eb.
    - apply (f_equal (@List.length ev)) in E. cbn in E. rewrite app_length in E. cbn in E. lia. }
  assert (F0 : my_fine (history ops)) by (exact (fine_tail [EAdd m_in 2] _ F1)).
  destruct (C69_mysql_runs_as_modelled plain_values ord ops plain_noalias (fun l => Permutation_refl l) Fi F0) as (c' & tr & E & _ & Hr).
  assert (c = c') as Ec by (unfold c; now rewrite E). split; [exact plain_noalias|]. split; [rewrite Ec; exact Hr|]. split; [vm_compute; reflexivity|].
  split; [edge_ok|]. split; [exact S1|]. split; [rewrite <- stored_present; vm_compute; intros [H|[]]; discriminate H|]. split; [exact F1|].
  split; [edge_ok|]. split; [exact S2|]. split.
  - intros later e t earlier E0 Np. change (history (ops ++ [ORemove m_out])) with [ERem m_out; EAdd m_out 1] in E0.
    destruct later as [|? later]; cbn [app] in E0; [discriminate E0|]. injection E0 as _ E0. exact (F0 later e t earlier E0 Np).
  - split; [vm_compute; reflexivity|]. split; [vm_compute; reflexivity|]. split; vm_compute; reflexivity.
Qed.

(** ** calls that raise, on MySQL *)

(** calls made one after the other, exceptions caught by the client, on the engine
    of the connection ([attempts] of C_crash on M_sql) *)
Fixpoint attempts_on (ord : list value -> list value) (ops : list op) (c : conn) : list (res unit) * conn :=
  match ops with
  | [] => ([], c)
  | o :: ops' => let '(r, c1, _) := run_op_on ord o c in let '(log, c2) := attempts_on ord ops' c1 in (r :: log, c2)
  end.

Lemma auto_synced {A} (p : prog A) c r c' tr : c_auto c = true -> c_comm c = c_work c -> run_on p c = (r, c', tr) ->
  c_auto c' = true /\ c_comm c' = c_work c'.
Proof.
  revert c r c' tr. induction p as [x|X a f IH]; intros c r c' tr Ha Hs E.
  - cbn in E. unfold lift in E. destruct x; injection E as <- <- <-; now split.
  - cbn [run_on] in E. unfold bind in E. destruct (run_act_on a c) as [[ra c1] t1] eqn:E1.
    assert (K : c_auto c1 = true /\ c_comm c1 = c_work c1).
    { destruct a as [h s|X0 h q| | |s]; cbn [run_act_on] in E1.
      - unfold execute_on in E1. destruct (negb (usable h c)); [injection E1 as _ <- <-; now split|].
        destruct (bind_error s); [injection E1 as _ <- <-; now split|].
        destruct (engine (c_auto c) s (c_work c)) as [[w n]|]; [|injection E1 as _ <- <-; now split].
        injection E1 as _ <- <-. cbn [c_auto c_comm c_work]. rewrite Ha. now split.
      - unfold query in E1. destruct (negb (usable h c)); [injection E1 as _ <- <-; now split|].
        destruct (negb (forallb bindable (sel_texts q))); injection E1 as _ <- <-; now split.
      - injection E1 as _ <- <-. cbn [c_auto c_comm c_work]. now split.
      - injection E1 as _ <- <-. now split.
      - injection E1 as _ <- <-. now split. }
    destruct K as (A1 & S1). destruct ra as [x|y].
    + destruct (run_on (f x) c1) as [[r2 c2] t2] eqn:E2. injection E as <- <- <-. exact (IH x c1 r2 c2 t2 A1 S1 E2).
    + injection E as <- <- <-. now split.
Qed.
(** C27 on MySQL: whatever the arguments, whichever calls raise, and also while a
    cursor is stuck, the disk holds what the process sees. *)
Theorem C27_mysql_keeps_everything :
  forall ord ops log c, attempts_on ord ops (start true) = (log, c) ->
    reopen true (c_comm c) = Conn true (c_work c) (c_work c) CNone.
Proof.
  intros ord ops log c H. assert (K : forall ops c0 log c, c_auto c0 = true -> c_comm c0 = c_work c0 -> attempts_on ord ops c0 = (log, c) -> c_comm c = c_work c).
  { clear. induction ops as [|o ops IH]; intros c0 log c Ha Hs H; cbn [attempts_on] in H; [now injection H as _ <-|].
    destruct (run_op_on ord o c0) as [[r c1] t1] eqn:E. destruct (attempts_on ord ops c1) as [log1 c2] eqn:E2. injection H as _ <-.
    assert (K : c_auto c1 = true /\ c_comm c1 = c_work c1).
    { destruct o; try exact (auto_synced _ _ _ _ _ Ha Hs E). cbn in E. injection E as _ <- _. now split. }
    exact (IH c1 log1 c2 (proj1 K) (proj2 K) E2). }
  rewrite (K ops (start true) log c eq_refl eq_refl H). reflexivity.
Qed.
Print Assumptions C27_mysql_keeps_everything.
(** but a list of edges is not added all or nothing there (C23 is about SQLite):
    the first edge stays when the second raises *)
Theorem C27_mysql_not_all_or_nothing_refuted :
  let bad := VTup [VStr (lit "a"); VStr [55296%N]] in
  exists c, attempts_on (fun l => l) [OAddMany [m_in; bad] 1; OReopen] (start true) = ([Err UnicodeEncodeError; Ok tt], c)
    /\ exists_ m_in c = (Ok true, c, []).
Proof.
  intros bad. exists (snd (attempts_on (fun l => l) [OAddMany [m_in; bad] 1; OReopen] (start true))). split; vm_compute; reflexivity.
Qed.
Print Assumptions C27_mysql_not_all_or_nothing_refuted.
