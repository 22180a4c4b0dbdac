(** * C_private.v -- property theorems C90 (calls that nobody gets in the way of) *)

From Verif Require Import Py M_symbol M_edge M_sql M_mysql M_hypergraph P_py Spec P_edge P_perm P_range P_query
  S_history M_driver P_ops P_hist P_graph P_answers P_rows P_crash C_graph C_crash S_steps M_steps P_steps P_owned P_mysql C_steps C_mysql P_private.
From Coq Require Import Permutation Factorial String.
Open Scope list_scope.

(** C90.  [private V ops calls i] (S_steps): every edge that process i's calls are
    about, and every element of it, is touched by no other process, except elements
    that were in the hypergraph before and that nobody adds or removes as an edge.
    Then no call of process i raises, on MySQL too, whatever the others do. *)
Theorem C90_private_calls_never_raise :
  forall V ops c ord calls w i, noalias V -> reached V ops c ->
    (forall l, Permutation (ord l) l) -> (forall j, Forall (op_in V) (calls j)) ->
    private V ops calls i -> (c_auto c = true -> my_fine (history (ops ++ calls i))) ->
    steps false (c_auto c) ord (start_world (c_comm c) calls) w ->
    pr_ok (wd_procs w i) = true /\ forall e, pr_now (wd_procs w i) <> Some (PRet (Err e)).
Proof.
  intros V ops c ord calls w i HV Hr Hord Hin Hp Hf St. pose proof (reached_ready V ops c HV Hr) as R.
  pose proof (rd_inv _ _ _ R) as I. rewrite <- (rd_sync _ _ _ R) in I.
  pose proof (fun w => prv_mine V (c_auto c) ord calls i ops (c_comm c) HV Hord Hin (reached_in V ops c Hr) I Hp Hf w) as M.
  assert (Er : forall w, steps false (c_auto c) ord (start_world (c_comm c) calls) w -> pr_ok (wd_procs w i) = true -> forall e, pr_now (wd_procs w i) <> Some (PRet (Err e))).
  { intros w1 S1 Ok e He. specialize (M w1 S1 Ok). cbv zeta in M. rewrite He in M. cbn in M. discriminate. }
  assert (Ok : pr_ok (wd_procs w i) = true).
  { clear R I M. induction St as [|w w' St IH S1]; [reflexivity|].
    assert (Q : forall j p, (j = i -> pr_ok p = true) -> pr_ok (set_proc j p (wd_procs w) i) = true).
    { intros j p H. unfold set_proc. destruct (Nat.eqb_spec i j) as [->|]; [now apply H|exact IH]. }
    pose proof (Er w St IH) as E1.
    inversion S1 as [j w1 p o todo Hp1 Hn Ht Ho|j w1 p todo Hp1 Hn Ht|j w1 p Y a k r d wr cur Hp1 Hn E|j w1 p r Hp1 Hn|j w1 p Y a k Hf1 Hp1 Hn|j w1 p todo' Hf1 Hp1 Hi]; subst; cbn [wd_procs]; apply Q; cbn [pr_ok]; intros ->; auto; try discriminate.
    rewrite IH. destruct r as [u|e]; [reflexivity|]. now destruct (E1 e). }
  split; [exact Ok|now apply Er].
Qed.
Print Assumptions C90_private_calls_never_raise.

(** ... and between its calls every answer about what only it touches is the one it
    would get if it had made its calls alone. *)
Theorem C90_private_answers_as_if_alone :
  forall V ops c ord calls w i before later c1 c2, noalias V -> reached V ops c ->
    (forall l, Permutation (ord l) l) -> (forall j, Forall (op_in V) (calls j)) ->
    private V ops calls i -> (c_auto c = true -> my_fine (history (ops ++ calls i))) ->
    steps false (c_auto c) ord (start_world (c_comm c) calls) w -> asks (c_auto c) w c1 ->
    calls i = before ++ later -> pr_now (wd_procs w i) = None -> pr_todo (wd_procs w i) = later ->
    reached V (ops ++ before) c2 ->
    (forall v, db_vertex v = true -> only calls i v -> exists n t,
       degree v c2 = (Ok n, c2, []) /\ degree v c1 = (Ok n, c1, [])
       /\ timestamp v c2 = (Ok t, c2, []) /\ timestamp v c1 = (Ok t, c1, []))
    /\ (forall e, edge_in V e -> (forall j, j <> i -> ~ calls_on (calls j) e) -> exists b,
       exists_ e c2 = (Ok b, c2, []) /\ exists_ e c1 = (Ok b, c1, [])).
Proof.
  intros V ops c ord calls w i before later c1 c2 HV Hr Hord Hin Hp Hf St Hc1 Ec Bn Bt Hr2. pose proof (reached_ready V ops c HV Hr) as R.
  pose proof (rd_inv _ _ _ R) as I. rewrite <- (rd_sync _ _ _ R) in I.
  destruct (C90_private_calls_never_raise V ops c ord calls w i HV Hr Hord Hin Hp Hf St) as [Bo _].
  pose proof (prv_mine V (c_auto c) ord calls i ops (c_comm c) HV Hord Hin (reached_in V ops c Hr) I Hp Hf w St Bo) as M.
  cbv zeta in M. rewrite Bn, Bt in M. destruct M as (_ & Hh & before' & rho & f & Eb & Sr & T).
  rewrite Ec in Eb. apply app_inv_tail in Eb as <-. rewrite (holds_view _ _ Hh) in Sr.
  pose proof (Inv_Idx _ _ _ I) as Ix.
  destruct (run_safe V false (c_auto c) ord calls (c_comm c) w HV Hord (x_wf _ _ _ Ix) Hin St) as [S _].
  pose proof (reached_ready V _ c2 HV Hr2) as R2. split.
  - intros v Hv Uv.
    assert (Y : c_cur c1 = CNone /\ row v (c_work c1) = vrow (history (ops ++ before)) v).
    { rewrite <- (gd_recs _ _ _ _ _ _ T v Uv Hv), <- (proj1 (proj2 Sr) v Uv Hv).
      destruct Hc1 as [->|(j & ->)]; cbn [c_cur c_work reopen open_db]; (split; [reflexivity|]); [reflexivity|].
      destruct (Nat.eq_dec j i) as [->|N]; [now rewrite (holds_view _ _ Hh)|].
      destruct (safe_view V (c_auto c) ord _ (fun i => keeps_refl V _) j w S) as [Wv Kv]. apply (k_vert _ _ _ _ Kv v Hv).
      split; [intros Hj; apply (Uv j N); now left|]. intros e He Hve. apply (Uv j N). right. now exists e. }
    destruct Y as [Cc Rw]. unfold row in Rw.
    pose proof (degree_gives v c1 Cc Hv) as D1. pose proof (timestamp_gives v c1 Cc Hv) as T1.
    pose proof (degree_gives v c2 (rd_cur _ _ _ R2) Hv) as D2. pose proof (timestamp_gives v c2 (rd_cur _ _ _ R2) Hv) as T2.
    unfold gives in *. rewrite Rw in D1, T1. rewrite (i_vert _ _ _ (rd_inv _ _ _ R2) v Hv) in D2, T2.
    eexists _, _. split; [exact D2|]. split; [exact D1|]. split; [exact T2|exact T1].
  - intros e He Xe.
    assert (Xl : forall s e, In (ORemoveBelief s e) (calls i) -> (forall j, j <> i -> ~ calls_on (calls j) e) -> forall s' j, j <> i -> ~ calls_on (calls j) (link_edge s' e)).
    { intros s y Hy _ s' j Nj Hj. assert (Hye : edge_in V y) by (apply (proj1 (Forall_forall _ _) (Hin i) _ Hy)).
      assert (Cy : calls_on (calls i) y) by (exists (ORemoveBelief s y); split; [exact Hy|now left]).
      destruct (Hp y Hye Cy) as [Uy _]. apply (Uy j Nj). right. exists (link_edge s' y). split; [exact Hj|]. cbn. tauto. }
    destruct (C66_own_edges_follow_own_calls V ops c false ord calls w c1 i before later (fun x => forall j, j <> i -> ~ calls_on (calls j) x) HV Hr Hord Hin
      (fun x j Hx Nj => Hx j Nj) Xl St Hc1 Ec (conj Bn (conj Bt Bo))) as (A & _ & _).
    destruct (A e Xe He) as (b & Eb & Hb). exists b. split; [|exact Eb].
    destruct (an_exists _ _ _ (Idx_answers V c2 _ HV (ready_live _ _ _ R2) (Inv_Idx _ _ _ (rd_inv _ _ _ R2))) e He) as (b' & E' & Hb').
    rewrite E'. assert (b' = b) as ->; [|reflexivity]. destruct b, b'; try reflexivity; exfalso; intuition discriminate.
Qed.
Print Assumptions C90_private_answers_as_if_alone.

(** ... and if that is true of every process, all calls of all processes return. *)
Theorem C90_all_private_runs_finish :
  forall V ops c ord calls n w, noalias V -> reached V ops c ->
    (forall l, Permutation (ord l) l) -> (forall j, Forall (op_in V) (calls j)) -> (forall i, (n <= i)%nat -> calls i = []) ->
    (forall i, private V ops calls i) -> (forall i, c_auto c = true -> my_fine (history (ops ++ calls i))) ->
    steps false (c_auto c) ord (start_world (c_comm c) calls) w ->
    Acc (fun w' w => step false (c_auto c) ord w w') w
    /\ ((forall w', ~ step false (c_auto c) ord w w') -> forall i, between_calls i [] w).
Proof.
  intros V ops c ord calls n w HV Hr Hord Hin Hn Hp Hf St.
  destruct (C68_every_run_ends V ops c ord calls n w HV Hr Hord Hin Hn St) as [A B]. split; [exact A|].
  intros H i. destruct (B H i) as (B1 & B2 & _). split; [exact B1|]. split; [exact B2|].
  apply (C90_private_calls_never_raise V ops c ord calls w i); auto.
Qed.
Print Assumptions C90_all_private_runs_finish.

(** *** The hypotheses are met: MySQL; the hypergraph holds (is sky blue); process 0
    adds and removes (is apple red) and adds it again, process 1 adds (is grass
    green), both with the atom "is", which is known. *)
Definition pe0 : value := VTup [VStr (lit "is"); VStr (lit "apple"); VStr (lit "red")].
Definition pe1 : value := VTup [VStr (lit "is"); VStr (lit "grass"); VStr (lit "green")].
Definition ops90 : list op := [OAdd c_e 1].
Definition calls90 : nat -> list op := two [OAdd pe0 2; ORemove pe0; OAdd pe0 3] [OAdd pe1 4].
Definition c90 : conn := Eval vm_compute in snd (fst (run_ops (fun l => l) ops90 (start true))).
Definition d90 : db := Eval vm_compute in
  some_db (end_of true (c_comm c90) calls90 (goes 0 8 ++ goes 1 20 ++ goes 0 40 ++ goes 1 42 ++ goes 0 99)).
Lemma touch_or l v : forallb (fun o => match o with OAdd _ _ | ORemove _ => true | _ => false end) l = true ->
  calls_touch l v -> exists e, In e (List.map (fun o => match o with OAdd e _ | ORemove e => e | _ => VNone end) l) /\ In v (e :: elems e).
Proof.
  assert (Q : forall x, forallb (fun o => match o with OAdd _ _ | ORemove _ => true | _ => false end) l = true -> calls_on l x ->
    In x (List.map (fun o => match o with OAdd e _ | ORemove e => e | _ => VNone end) l)).
  { intros x F (o & Ho & Ox). rewrite forallb_forall in F. specialize (F o Ho). apply in_map_iff. exists o. split; [|exact Ho].
    destruct o; try discriminate F; cbn in Ox; now symmetry. }
  intros F [H|(e & H & Hv)]; [exists v; split; [now apply Q|now left]|exists e; split; [now apply Q|now right]].
Qed.
Lemma apart_by l v : forallb (fun o => match o with OAdd _ _ | ORemove _ => true | _ => false end) l = true ->
  forallb (fun e => negb (memb v (e :: elems e))) (List.map (fun o => match o with OAdd e _ | ORemove e => e | _ => VNone end) l) = true -> ~ calls_touch l v.
Proof.
  intros F G H. destruct (touch_or l v F H) as (e & He & Hv). rewrite forallb_forall in G. specialize (G e He). apply negb_true_iff in G.
  apply memb_nin in G. contradiction.
Qed.
Lemma private90 i : private plain_values ops90 calls90 i.
Proof.
  assert (Kis : known ops90 calls90 (VStr (lit "is"))).
  { split; [discriminate|]. intros j (o & Ho & Ox). destruct j as [|[|j]]; cbn in Ho; [| |destruct Ho].
    - destruct Ho as [<-|[<-|[<-|[]]]]; discriminate Ox.
    - destruct Ho as [<-|[]]; discriminate Ox. }
  assert (U0 : forall v, In v [pe0; VStr (lit "apple"); VStr (lit "red")] -> only calls90 0 v).
  { intros v Hv j Nj. destruct j as [|[|j]]; [now elim Nj| |intros [(o & [] & _)|(e & (o & [] & _) & _)]].
    apply apart_by; [reflexivity|]. destruct Hv as [<-|[<-|[<-|[]]]]; vm_compute; reflexivity. }
  assert (U1 : forall v, In v [pe1; VStr (lit "grass"); VStr (lit "green")] -> only calls90 1 v).
  { intros v Hv j Nj. destruct j as [|[|j]]; [|now elim Nj|intros [(o & [] & _)|(e & (o & [] & _) & _)]].
    apply apart_by; [reflexivity|]. destruct Hv as [<-|[<-|[<-|[]]]]; vm_compute; reflexivity. }
  intros e He (o & Ho & Ox). destruct i as [|[|i]]; cbn in Ho; [| |destruct Ho].
  - assert (e = pe0) as -> by (destruct Ho as [<-|[<-|[<-|[]]]]; exact Ox). split; [apply U0; now left|].
    intros x [<-|Hx]; [right; exact Kis|]. left. apply U0. now right.
  - assert (e = pe1) as -> by (destruct Ho as [<-|[]]; exact Ox). split; [apply U1; now left|].
    intros x [<-|Hx]; [right; exact Kis|]. left. apply U1. now right.
Qed.
Lemma fine90 i : my_fine (history (ops90 ++ calls90 i)).
Proof.
  assert (S0 : short_texts c_e) by (apply short3; reflexivity). assert (S1 : short_texts pe0) by (apply short3; reflexivity). assert (S2 : short_texts pe1) by (apply short3; reflexivity).
  apply C69_different_times_are_fine.
  - intros e t. destruct i as [|[|i]]; cbn; intros H; repeat (destruct H as [H|H]; [try discriminate H; injection H as <- _; assumption|]); destruct H.
  - intros later e t mid e' earlier E.
    assert (N : forall h : list ev, NoDup (flat_map (fun x => match x with EAdd _ t => [t] | _ => [] end) h) -> h <> later ++ EAdd e t :: mid ++ EAdd e' t :: earlier).
    { intros h N ->. rewrite !flat_map_app in N. cbn [flat_map app] in N. rewrite flat_map_app in N. cbn [flat_map app] in N.
      apply NoDup_remove_2 in N. apply N. apply in_or_app. right. apply in_or_app. right. now left. }
    revert E. apply N. destruct i as [|[|i]]; cbn; repeat (apply NoDup_cons; [cbn; intuition discriminate|]); apply NoDup_nil.
Qed.
Example C90_nonvacuous :
  c_auto c90 = true /\ reached plain_values ops90 c90 /\ (forall j, Forall (op_in plain_values) (calls90 j))
  /\ (forall i, private plain_values ops90 calls90 i) /\ (forall i, my_fine (history (ops90 ++ calls90 i)))
  /\ only calls90 0 (VStr (lit "apple")) /\ ~ only calls90 0 (VStr (lit "is"))
  /\ exists w, steps false true (fun l => l) (start_world (c_comm c90) calls90) w /\ ok2 w
    /\ let c := reopen true (wd_disk w) in
       degree (VStr (lit "apple")) c = (Ok 1%Z, c, []) /\ timestamp (VStr (lit "apple")) c = (Ok 2%Z, c, [])
       /\ timestamp pe0 c = (Ok 3%Z, c, []) /\ degree (VStr (lit "is")) c = (Ok 3%Z, c, []).
Proof.
  split; [reflexivity|]. split.
  { eexists (fun l => l), true, _. split; [reflexivity|]. split; [repeat (apply Forall_cons || apply Forall_nil); cbn; edge_ok|]. vm_compute. reflexivity. }
  split; [intros [|[|j]]; cbn; repeat (apply Forall_cons || apply Forall_nil); cbn; edge_ok|].
  split; [exact private90|]. split; [exact fine90|]. split.
  { intros j Nj. destruct j as [|[|j]]; [now elim Nj|apply apart_by; vm_compute; reflexivity|intros [(o & [] & _)|(e & (o & [] & _) & _)]]. }
  split.
  { intros H. apply (H 1%nat ltac:(discriminate)). right. exists pe1. split; [|now left]. exists (OAdd pe1 4). split; [now left|reflexivity]. }
  destruct (end_of_ok true (c_comm c90) calls90 (goes 0 8 ++ goes 1 20 ++ goes 0 40 ++ goes 1 42 ++ goes 0 99) d90) as (w & S & O & D);
    [reflexivity|vm_compute; reflexivity|].
  exists w. split; [exact S|]. split; [exact O|]. rewrite D. cbv zeta.
  split; [vm_compute; reflexivity|]. split; [vm_compute; reflexivity|]. split; vm_compute; reflexivity.
Qed.
