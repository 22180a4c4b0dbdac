(** * C_added.v -- property theorems C72- (several processes that add the same edges) *)

From Verif Require Import Py M_symbol M_edge M_sql M_mysql M_hypergraph P_py Spec P_edge P_perm P_range P_query
  S_history M_driver P_ops P_hist P_graph P_answers P_crash C_graph C_crash S_steps M_steps P_steps P_owned P_added C_steps.
From Coq Require Import Permutation Factorial String.
Open Scope list_scope.

(** Everything that asks finds [x]: exists says so, every pattern that it matches
    returns it, and so does star of each of its atoms. *)
Definition found (V : value -> Prop) (x : value) (c : conn) : Prop :=
  exists_ x c = (Ok true, c, [])
  /\ (forall p, pattern_in V p -> matches p (elems x) -> exists l, pattern2edges (VTup p) c = (Ok l, c, []) /\ In x l)
  /\ (forall a, db_atom a = true -> In a (elems x) -> exists l, star a c = (Ok l, c, []) /\ In x l).
(** Nothing that asks finds [x]. *)
Definition not_found (V : value -> Prop) (x : value) (c : conn) : Prop :=
  exists_ x c = (Ok false, c, [])
  /\ (forall p, pattern_in V p -> exists l, pattern2edges (VTup p) c = (Ok l, c, []) /\ ~ In x l)
  /\ (forall a, db_atom a = true -> exists l, star a c = (Ok l, c, []) /\ ~ In x l).

Lemma rows_found V x c : noalias V -> edge_in V x -> c_cur c = CNone -> wf_db V (c_work c) ->
  (forall r, is_row (elems x) r -> In r (perms (c_work c))) -> found V x c.
Proof.
  intros HV Hx Ec W F. assert (L : live c) by (unfold live; rewrite Ec; discriminate). pose proof (wf_rows _ _ W) as Ro. split; [|split].
  - destruct (exists_run V (c_work c) c x HV Ro eq_refl L Hx) as (b & G & Hb). assert (b = true) as ->; [|exact G]. apply Hb.
    destruct (row_exists V x Hx) as (r & Hr & Pr). exists r. split; [now apply F|now split].
  - intros p Hp M. pose proof (pattern_in_ok V p Hp) as Hp'.
    destruct (pattern_run V (c_work c) c p HV Ro eq_refl L Hp') as (l & G & _ & I). exists l. split; [exact G|]. apply I.
    split; [exact Hx|]. split; [|exact M]. destruct Hp' as [(a & rest & Ea & _) _ _]. apply (indexed_hit_pattern V); [exact Hx|exact F| |exact M].
    exists a. apply filter_In. rewrite Ea. now left.
  - intros a Ha Ia. destruct (star_run V (c_work c) c a HV Ro eq_refl L Ha) as (l & G & _ & I). exists l. split; [exact G|]. apply I.
    split; [exact Hx|]. now apply indexed_hit_star.
Qed.
Lemma rows_not_found V x c : noalias V -> edge_in V x -> c_cur c = CNone -> wf_db V (c_work c) ->
  (forall r, is_row (elems x) r -> ~ In r (perms (c_work c))) -> not_found V x c.
Proof.
  intros HV Hx Ec W F. assert (L : live c) by (unfold live; rewrite Ec; discriminate). pose proof (wf_rows _ _ W) as Ro. split; [|split].
  - destruct (exists_run V (c_work c) c x HV Ro eq_refl L Hx) as (b & G & Hb). assert (b = false) as ->; [|exact G]. destruct b; [|reflexivity].
    destruct (proj1 Hb eq_refl) as (r & Hr & Rr & _). now destruct (F r Rr).
  - intros p Hp. pose proof (pattern_in_ok V p Hp) as Hp'.
    destruct (pattern_run V (c_work c) c p HV Ro eq_refl L Hp') as (l & G & _ & I). exists l. split; [exact G|]. intros Ix.
    apply I in Ix as (_ & (r & Hr & Rr & _) & _). now apply (F r).
  - intros a Ha. destruct (star_run V (c_work c) c a HV Ro eq_refl L Ha) as (l & G & _ & I). exists l. split; [exact G|]. intros Ix.
    apply I in Ix as (_ & (r & Hr & Rr & _)). now apply (F r).
Qed.

(** C72 (a).  An edge that is there, and that no process takes out, is found at every
    moment of every run, whatever else is done to the database -- also when others are
    adding it again, are refused in the middle of it, or die. *)
Theorem C72_kept_edges_are_found_at_every_moment :
  forall V ops c flt ord calls w c1 x, noalias V -> reached V ops c ->
    (forall l, Permutation (ord l) l) -> (forall j, Forall (op_in V) (calls j)) ->
    edge_in V x -> (forall j o, In o (calls j) -> ~ op_drops o x) -> present (history ops) x ->
    steps flt (c_auto c) ord (start_world (c_comm c) calls) w -> asks (c_auto c) w c1 ->
    found V x c1.
Proof.
  intros V ops c flt ord calls w c1 x HV Hr Hord Hin Hx Hd P St Hc1. pose proof (reached_ready V ops c HV Hr) as R.
  pose proof (Inv_Idx _ _ _ (rd_inv _ _ _ R)) as I.
  assert (W0 : wf_db V (c_comm c)) by (rewrite (rd_sync _ _ _ R); apply I).
  assert (S0 : forall r, is_row (elems x) r -> (In r (perms (c_comm c)) <-> present (history ops) x)).
  { intros r Hr2. rewrite (rd_sync _ _ _ R). now apply (x_rows _ _ _ I). }
  assert (Y : exists j, c_cur c1 = CNone /\ (c_work c1 = wd_disk w \/ c_work c1 = view j w)).
  { destruct Hc1 as [->|(j & ->)]; [exists O|exists j]; cbn; auto. }
  destruct Y as (j & Ec & Ed).
  destruct (kept_rows V x flt (c_auto c) ord calls (c_comm c) (history ops) HV Hx Hord Hin Hd W0 S0 w P St j (c_work c1) Ed) as [W F].
  now apply rows_found.
Qed.
Print Assumptions C72_kept_edges_are_found_at_every_moment.

(** C72 (b).  Several processes, some of which add [x] -- maybe at the same time -- and
    none of which takes it out: whenever every process whose calls are about [x] is
    between two calls, and these returned normally, [x] is found by everything that
    asks if it was there at the start or some process has added it, and by nothing
    otherwise. *)
Theorem C72_concurrent_adds_of_an_edge :
  forall V ops c flt ord calls w c1 x (before later : nat -> list op), noalias V -> reached V ops c ->
    (forall l, Permutation (ord l) l) -> (forall j, Forall (op_in V) (calls j)) ->
    edge_in V x -> (forall j o, In o (calls j) -> ~ op_drops o x) ->
    steps flt (c_auto c) ord (start_world (c_comm c) calls) w -> asks (c_auto c) w c1 ->
    (forall j, calls j = before j ++ later j) -> (forall j, calls_on (calls j) x -> between_calls j (later j) w) ->
    let there := present (history ops) x \/ exists j, calls_on (before j) x in
    (there -> found V x c1) /\ (~ there -> not_found V x c1).
Proof.
  intros V ops c flt ord calls w c1 x before later HV Hr Hord Hin Hx Hd St Hc1 Eb Hb there. pose proof (reached_ready V ops c HV Hr) as R.
  pose proof (Inv_Idx _ _ _ (rd_inv _ _ _ R)) as I.
  assert (W0 : wf_db V (c_comm c)) by (rewrite (rd_sync _ _ _ R); apply I).
  assert (S0 : forall r, is_row (elems x) r -> (In r (perms (c_comm c)) <-> present (history ops) x)).
  { intros r Hr2. rewrite (rd_sync _ _ _ R). now apply (x_rows _ _ _ I). }
  assert (Y : exists j, c_cur c1 = CNone /\ (c_work c1 = wd_disk w \/ c_work c1 = view j w)).
  { destruct Hc1 as [->|(j & ->)]; [exists O|exists j]; cbn; auto. }
  destruct Y as (j & Ec & Ed).
  assert (Hb' : forall j, calls_on (calls j) x -> calls j = before j ++ later j
     /\ pr_now (wd_procs w j) = None /\ pr_todo (wd_procs w j) = later j /\ pr_ok (wd_procs w j) = true) by (intros k Ck; split; [apply Eb|now apply Hb]).
  destruct (added_rows V x flt (c_auto c) ord calls (c_comm c) (history ops) HV Hx Hord Hin (reached_in V ops c Hr) Hd W0 S0 before later w St Hb' j (c_work c1) Ed) as [W F].
  assert (F' : forall r, is_row (elems x) r -> (In r (perms (c_work c1)) <-> there)).
  { intros r Hr2. rewrite (F r Hr2). unfold there. split; (intros [P|H]; [now left|right]).
    - destruct H as (i & o & Io & _ & Oo). exists i, o. now split.
    - destruct H as (i & o & Io & Oo). exists i, o. split; [exact Io|]. split; [|exact Oo]. rewrite Eb. apply in_or_app. now left. }
  split; intros T; [apply rows_found|apply rows_not_found]; auto; intros r Hr2; now rewrite (F' r Hr2).
Qed.
Print Assumptions C72_concurrent_adds_of_an_edge.

(** (b) needs that nobody was stopped in the middle: two processes add the same edge,
    one dies half-way; the other one's add then returns normally, and exists finds the
    edge, but star does not (SQLite). *)
Definition d72 : db := Eval vm_compute in
  some_db (disk_of true false db_empty (two [OAdd c_e 1] [OAdd c_e 2]) (goes 0 41 ++ [Die 0] ++ goes 1 5)).
Theorem C72_stopped_add_refuted :
  exists w, steps true false (fun l => l) (start_world db_empty (two [OAdd c_e 1] [OAdd c_e 2])) w
    /\ between_calls 1 [] w
    /\ let c := reopen false (wd_disk w) in
       exists_ c_e c = (Ok true, c, []) /\ star (VStr (lit "blue")) c = (Ok [], c, []).
Proof.
  set (calls := two [OAdd c_e 1] [OAdd c_e 2]). set (ms := goes 0 41 ++ [Die 0] ++ goes 1 5).
  assert (F : option_map (fun w => (idleb 1 w, wd_disk w)) (performs false (fun l => l) ms (start_world db_empty calls)) = Some (true, d72)) by (vm_compute; reflexivity).
  destruct (performs false (fun l => l) ms (start_world db_empty calls)) as [w|] eqn:E; [|discriminate]. injection F as F1 F2.
  exists w. split; [apply (performs_steps true false _ ms); [reflexivity|exact E]|]. split; [now apply idleb_ok|]. rewrite F2. cbv zeta.
  split; vm_compute; reflexivity.
Qed.
Print Assumptions C72_stopped_add_refuted.

(** ... and where its hypotheses hold: both processes find that the edge is not there,
    then both write it; (b) says that it is found.  (But its atoms are counted twice.) *)
Definition d72b : db := Eval vm_compute in
  some_db (end_of false db_empty (two [OAdd c_e 1] [OAdd c_e 2]) (goes 0 3 ++ goes 1 67 ++ goes 0 42)).
Example C72_nonvacuous :
  exists w, steps false false (fun l => l) (start_world db_empty (two [OAdd c_e 1] [OAdd c_e 2])) w
    /\ reached plain_values [] (start false) /\ edge_in plain_values c_e
    /\ (forall j, Forall (op_in plain_values) (two [OAdd c_e 1] [OAdd c_e 2] j))
    /\ (forall j o, In o (two [OAdd c_e 1] [OAdd c_e 2] j) -> ~ op_drops o c_e)
    /\ (forall j, calls_on (two [OAdd c_e 1] [OAdd c_e 2] j) c_e -> between_calls j [] w)
    /\ calls_on (two [OAdd c_e 1] [OAdd c_e 2] 0) c_e /\ calls_on (two [OAdd c_e 1] [OAdd c_e 2] 1) c_e
    /\ let c := reopen false (wd_disk w) in
       exists_ c_e c = (Ok true, c, []) /\ star (VStr (lit "blue")) c = (Ok [c_e], c, [])
       /\ degree (VStr (lit "blue")) c = (Ok 2%Z, c, []).
Proof.
  destruct (end_of_ok false db_empty (two [OAdd c_e 1] [OAdd c_e 2]) (goes 0 3 ++ goes 1 67 ++ goes 0 42) d72b) as (w & S & O & D);
    [reflexivity|vm_compute; reflexivity|].
  exists w. split; [exact S|].
  split; [exists (fun l => l), false, []; split; [reflexivity|split; [constructor|reflexivity]]|].
  split; [edge_ok|]. split; [|split; [|split; [|split; [|split]]]].
  - intros [|[|j]]; cbn; repeat (apply Forall_cons || apply Forall_nil); cbn; edge_ok.
  - intros [|[|j]] o Ho Od; [| |destruct Ho]; destruct Ho as [<-|[]]; exact Od.
  - intros [|[|j]] (o & Ho & Oo); [apply O|apply O|destruct Ho].
  - exists (OAdd c_e 1). split; [now left|reflexivity].
  - exists (OAdd c_e 2). split; [now left|reflexivity].
  - rewrite D. cbv zeta. split; [|split]; vm_compute; reflexivity.
Qed.
Definition ms72 : list move := goes 0 2 ++ goes 1 23 ++ [Die 1; Refuse 0].
Definition d72c : db := Eval vm_compute in some_db (disk_of true false (c_comm c65) (two [OAdd c_e 2] [OAdd c_e2 3]) ms72).
Example C72_kept_nonvacuous :
  exists w, steps true false (fun l => l) (start_world (c_comm c65) (two [OAdd c_e 2] [OAdd c_e2 3])) w
    /\ reached plain_values [OAdd c_e 1] c65 /\ edge_in plain_values c_e /\ present (history [OAdd c_e 1]) c_e
    /\ (forall j, Forall (op_in plain_values) (two [OAdd c_e 2] [OAdd c_e2 3] j))
    /\ (forall j o, In o (two [OAdd c_e 2] [OAdd c_e2 3] j) -> ~ op_drops o c_e)
    /\ calls_on (two [OAdd c_e 2] [OAdd c_e2 3] 0) c_e.
Proof.
  destruct (disk_of_ok true false (c_comm c65) (two [OAdd c_e 2] [OAdd c_e2 3]) ms72 d72c) as (w & S & D); [easy|vm_compute; reflexivity|].
  exists w. split; [exact S|]. destruct C65_nonvacuous as (_ & _ & R & _). split; [exact R|].
  split; [edge_ok|]. split; [|split; [|split]].
  - exists [], 1%Z, []. split; [reflexivity|]. split; intros [].
  - intros [|[|j]]; cbn; repeat (apply Forall_cons || apply Forall_nil); cbn; edge_ok.
  - intros [|[|j]] o Ho Od; [| |destruct Ho]; destruct Ho as [<-|[]]; exact Od.
  - exists (OAdd c_e 2). split; [now left|reflexivity].
Qed.
