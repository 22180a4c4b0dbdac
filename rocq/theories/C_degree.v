(** * C_degree.v -- property theorems C77- (degrees, several processes on one database) *)

From Verif Require Import Py M_symbol M_edge M_sql M_mysql M_hypergraph P_py Spec P_edge P_perm P_range P_query
  S_history M_driver P_ops P_hist P_graph P_answers P_crash P_rows C_graph C_crash S_steps M_steps P_steps P_owned P_added P_degree C_steps.
From Coq Require Import Permutation Factorial String.
Open Scope list_scope.

(** The processes' calls leave the vertex [v] itself alone, and no two of them work
    on the same edge around [v]; a process that removes a belief in an edge is the
    only one that works on the sources of that edge.  [js]: the processes that work
    on edges around [v]. *)
Record apart_around (v : value) (js : list nat) (calls : nat -> list op) : Prop := {
  aa_nodup : NoDup js;
  aa_js : forall j, ~ In j js -> ~ calls_touch (calls j) v;
  aa_self : forall j, ~ calls_on (calls j) v;
  aa_one : forall i j x, In v (elems x) -> calls_on (calls i) x -> calls_on (calls j) x -> i = j;
  aa_belief : forall i j s s' e, In (ORemoveBelief s e) (calls i) -> calls_on (calls j) (link_edge s' e) -> i = j }.
(** Each of the processes [js] has made the calls [before j], and they returned
    normally; what the other processes are doing does not matter. *)
Definition have_made (js : list nat) (calls before : nat -> list op) (w : world) : Prop :=
  forall j, In j js -> exists later, calls j = before j ++ later /\ between_calls j later w.

Definition sole (calls : nat -> list op) (i : nat) (x : value) : Prop := forall j, j <> i -> ~ calls_on (calls j) x.
Lemma sole_own v js calls : apart_around v js calls -> forall i x, calls_on (calls i) x -> In v (elems x) -> sole calls i x.
Proof. intros A i x Ci Iv j N Cj. apply N. symmetry. now apply (aa_one _ _ _ A i j x). Qed.
Lemma sole_links v js calls : apart_around v js calls -> forall i s e, In (ORemoveBelief s e) (calls i) -> sole calls i e -> forall y, is_link_of e y = true -> sole calls i y.
Proof.
  intros A i s e He _ y Hy j N Cj. apply (link_is s) in Hy as [s' ->]. apply N. symmetry. now apply (aa_belief _ _ _ A i j s s' e).
Qed.

(** C77.  The degree changes by what each process's own calls change, and the
    timestamp does not change. *)
Theorem C77_degree_adds_up :
  forall V ops c flt ord calls before w c1 v js, noalias V -> reached V ops c ->
    (forall l, Permutation (ord l) l) -> (forall j, Forall (op_in V) (calls j)) ->
    db_vertex v = true -> born v (history ops) <> None ->
    apart_around v js calls ->
    steps flt (c_auto c) ord (start_world (c_comm c) calls) w -> asks (c_auto c) w c1 ->
    have_made js calls before w ->
    exists n t, degree v c = (Ok n, c, []) /\ timestamp v c = (Ok t, c, [])
      /\ degree v c1 = (Ok (n + total (fun j => occ_change v ops (before j)) js)%Z, c1, [])
      /\ timestamp v c1 = (Ok t, c1, []).
Proof.
  intros V ops c flt ord calls before w c1 v js HV Hr Hord Hin Hv Hb A St Hc1 Hm. pose proof (reached_ready V ops c HV Hr) as R.
  pose proof (Inv_Idx _ _ _ (rd_inv _ _ _ R)) as I. pose proof (reached_in V ops c Hr) as Hh.
  assert (W0 : wf_db V (c_comm c)) by (rewrite (rd_sync _ _ _ R); apply I).
  assert (S0 : forall x r, edge_in V x -> is_row (elems x) r -> (In r (perms (c_comm c)) <-> present (history ops) x)).
  { intros x r Hx Hr2. rewrite (rd_sync _ _ _ R). now apply (x_rows _ _ _ I). }
  assert (Rv : exists n t, row v (c_comm c) = Some (n, t)).
  { rewrite (rd_sync _ _ _ R). unfold row. rewrite (i_vert _ _ _ (rd_inv _ _ _ R) v Hv), (vrow_born V _ v Hh).
    destruct (born v (history ops)) as [[t h]|]; [|easy]. eexists _, _. reflexivity. }
  destruct Rv as (n & t & Rv).
  assert (Hok : allok js w) by (intros j Hj; destruct (Hm j Hj) as (later & _ & _ & _ & Eo); exact Eo).
  assert (Hjs : forall j, ~ In j js -> apart (calls_on (calls j)) v).
  { intros j Nj. pose proof (aa_js _ _ _ A j Nj) as T. unfold calls_touch in T. split; [tauto|]. intros e He Ie. apply T. right. now exists e. }
  destruct (ginv_steps V (sole calls) flt (c_auto c) ord calls (c_comm c) (history ops) v t js HV Hord Hin Hh W0 S0 Hv
     (ex_intro _ n Rv) (aa_nodup _ _ _ A) Hjs (aa_self _ _ _ A) (fun i x j Hs => Hs j) (sole_own v js calls A) (sole_links v js calls A) w St Hok) as [g G].
  destruct (run_safe V flt (c_auto c) ord calls (c_comm c) w HV Hord W0 Hin St) as [S _].
  (* what each process has contributed *)
  assert (Eg : forall j, In j js -> holds j w = false /\ g j = occ_change v ops (before j)).
  { intros j Hj. pose proof (gi_mine _ _ _ _ _ _ _ _ _ _ _ _ G j Hj) as M. destruct (Hm j Hj) as (later & Ec & En & Et & _).
    unfold gmine in M. rewrite En, Et in M. destruct M as (_ & Hh' & b & rho & Eb & _ & _ & _ & Egj). split; [exact Hh'|].
    rewrite Ec in Eb. apply app_inv_tail in Eb as <-. rewrite Egj. unfold occ, occ_change, history. now rewrite fold_left_app. }
  (* the writer, if any, is not one of them *)
  assert (Rw : forall j d, wd_writer w = Some (j, d) -> row v d = row v (wd_disk w)).
  { intros j d Ew. apply (k_vert _ _ _ _ (proj2 (sf_writer _ _ _ _ _ S j d Ew)) v Hv). apply Hjs. intros Hj. destruct (Eg j Hj) as [F _].
    unfold holds in F. rewrite Ew, Nat.eqb_refl in F. discriminate. }
  assert (Rt : row v (top w) = row v (wd_disk w)).
  { unfold top. destruct (wd_writer w) as [[j d]|] eqn:Ew; [now apply (Rw j)|reflexivity]. }
  assert (R1 : c_cur c1 = CNone /\ row v (c_work c1) = row v (wd_disk w)).
  { destruct Hc1 as [->|(j & ->)]; cbn; (split; [reflexivity|]); [reflexivity|]. destruct (view_or j w) as [->|(d & Ew & ->)]; [reflexivity|now apply (Rw j)]. }
  destruct R1 as [C1 R1]. destruct (gi_disk _ _ _ _ _ _ _ _ _ _ _ _ G) as [k Rk].
  pose proof (gi_sum _ _ _ _ _ _ _ _ _ _ _ _ G) as Sum. unfold dg in Sum. rewrite Rt, Rk, Rv in Sum.
  rewrite (total_ext g (fun j => occ_change v ops (before j)) js (fun j Hj => proj2 (Eg j Hj))) in Sum.
  exists n, t. pose proof (degree_gives v c (rd_cur _ _ _ R) Hv) as D0. pose proof (timestamp_gives v c (rd_cur _ _ _ R) Hv) as T0.
  pose proof (degree_gives v c1 C1 Hv) as D1. pose proof (timestamp_gives v c1 C1 Hv) as T1. unfold gives, row in *.
  rewrite <- (rd_sync _ _ _ R), Rv in D0, T0. rewrite R1, Rk in D1, T1. rewrite Sum in D1. auto.
Qed.
Print Assumptions C77_degree_adds_up.

(** ** degree and star *)
Lemma present_other_bop b h x : ~ bop_on b x -> (present (after_bop h b) x <-> present h x).
Proof.
  intros N. destruct b; cbn [bop_on after_bop] in *; try reflexivity.
  - rewrite present_add. tauto.
  - rewrite present_rem. tauto.
  - rewrite present_rems. tauto.
  - easy.
Qed.
Lemma present_other o h x : ~ op_on o x -> (present (after h o) x <-> present h x).
Proof.
  intros N. destruct o as [e t|es t|e|es| |s e t|s es t|s e|p|fs|q|]; cbn [op_on after] in *; try reflexivity.
  - rewrite present_add. tauto.
  - rewrite present_adds. tauto.
  - rewrite present_rem. tauto.
  - rewrite present_rems. tauto.
  - easy.
  - rewrite !present_add. tauto.
  - rewrite present_beliefs. split; [|auto]. intros [H|H]; [|exact H]. exfalso. apply N. exact H.
  - destruct (existsb _ _); rewrite !present_rem; tauto.
  - rewrite present_rems, filter_In, matchb_spec. tauto.
  - assert (H : forall bs h, (forall b, In b bs -> ~ bop_on b x) -> (present (fold_left after_bop bs h) x <-> present h x)).
    { induction bs as [|b bs IH]; intros h' H; cbn [fold_left]; [reflexivity|]. rewrite IH by (intros b' Hb'; apply H; now right).
      apply present_other_bop, H. now left. }
    apply H. intros b Hb Hx. apply N. now exists b.
Qed.
Lemma present_others os : forall h x, ~ calls_on os x -> (present (fold_left after os h) x <-> present h x).
Proof.
  induction os as [|o os IH]; intros h x N; cbn [fold_left]; [reflexivity|].
  rewrite IH by (intros (o' & Ho & Hx); apply N; exists o'; split; [now right|exact Hx]). apply present_other. intros Hx. apply N. exists o. split; [now left|exact Hx].
Qed.

(** C77, in terms of the answers only: by how much the degree of an atom is off from
    its occurrences in the answer of star does not change. *)
Theorem C77_degree_keeps_up_with_star :
  forall V ops c flt ord calls before w c1 a js, noalias V -> reached V ops c ->
    (forall l, Permutation (ord l) l) -> (forall j, Forall (op_in V) (calls j)) ->
    db_atom a = true -> born a (history ops) <> None ->
    apart_around a js calls ->
    steps flt (c_auto c) ord (start_world (c_comm c) calls) w -> asks (c_auto c) w c1 ->
    have_made js calls before w ->
    exists n l n1 l1, degree a c = (Ok n, c, []) /\ star a c = (Ok l, c, []) /\ NoDup l
      /\ degree a c1 = (Ok n1, c1, []) /\ star a c1 = (Ok l1, c1, []) /\ NoDup l1
      /\ (n1 - Z.of_nat (occurrences a l1) = n - Z.of_nat (occurrences a l))%Z.
Proof.
  intros V ops c flt ord calls before w c1 a js HV Hr Hord Hin Ha Hb A St Hc1 Hm.
  destruct (C77_degree_adds_up V ops c flt ord calls before w c1 a js HV Hr Hord Hin (db_atom_vertex a Ha) Hb A St Hc1 Hm) as (n & t & D0 & _ & D1 & _).
  pose proof (reached_ready V ops c HV Hr) as R. pose proof (Inv_Idx _ _ _ (rd_inv _ _ _ R)) as I.
  assert (W0 : wf_db V (c_comm c)) by (rewrite (rd_sync _ _ _ R); apply I).
  destruct (run_safe V flt (c_auto c) ord calls (c_comm c) w HV Hord W0 Hin St) as [S _].
  assert (W1 : c_cur c1 = CNone /\ wf_db V (c_work c1)).
  { destruct Hc1 as [->|(j & ->)]; cbn; (split; [reflexivity|]); [apply S|]. apply (safe_view V (c_auto c) ord _ (fun i => keeps_refl V _) j w S). }
  destruct W1 as [C1 W1]. assert (L1 : live c1) by (unfold live; rewrite C1; discriminate).
  destruct (star_run V (c_work c1) c1 a HV (wf_rows _ _ W1) eq_refl L1 Ha) as (l1 & G1 & N1 & I1).
  destruct (an_star _ _ _ (Idx_answers V c _ HV (ready_live _ _ _ R) I) a Ha) as (l & G0 & Nl & Il).
  exists n, l. eexists. exists l1. split; [exact D0|]. split; [exact G0|]. split; [exact Nl|]. split; [exact D1|]. split; [exact G1|]. split; [exact N1|].
  assert (Al1 : forall x, In x l1 -> edge_in V x /\ In a (elems x)).
  { intros x Hx. apply I1 in Hx as [He Hh]. split; [exact He|]. now apply (hit_star_elem V (c_work c1)). }
  (* the answers of C65 and C66 *)
  assert (Kown : forall j x, In j js -> sole calls j x -> edge_in V x -> In a (elems x) -> (In x l1 <-> present (history (ops ++ before j)) x)).
  { intros j x Hj Hs Hx Ix. destruct (Hm j Hj) as (later & Ec & Hb').
    destruct (C66_own_edges_follow_own_calls V ops c flt ord calls w c1 j (before j) later (sole calls j) HV Hr Hord Hin) as (_ & _ & K); auto.
    - intros s e He Hse s'. apply (sole_links a js calls A j s e He Hse). apply (link_is s). now exists s'.
    - destruct (K a Ha) as (l2 & E2 & _ & _ & H2). rewrite G1 in E2. injection E2 as <-. rewrite (H2 x Hs Hx). tauto. }
  assert (Kfree : forall x, ~ (exists i, calls_on (calls i) x) -> (In x l1 <-> In x l)).
  { intros x Nb. destruct (C65_untouched_edges_under_any_schedule V ops c flt ord calls w c1 HV Hr Hord Hin St Hc1) as (_ & _ & K & _).
    destruct (K a Ha) as (l2 & l3 & E2 & E3 & _ & H). rewrite G0 in E2. injection E2 as <-. rewrite G1 in E3. injection E3 as <-. now apply H. }
  assert (Kjs : forall i x, calls_on (calls i) x -> In a (elems x) -> In i js).
  { intros i x Ci Ix. destruct (in_dec Nat.eq_dec i js) as [H|H]; [exact H|]. exfalso. apply (aa_js _ _ _ A i H). right. now exists x. }
  set (has := filter (fun x => memb a (elems x))).
  set (E0 := has (stored (history ops))). set (E := fun j => has (stored (history (ops ++ before j)))).
  assert (In_has : forall x h, In x (has (stored h)) <-> present h x /\ In a (elems x)).
  { intros x h. unfold has. rewrite filter_In, memb_in, stored_present. reflexivity. }
  assert (Hh : forall j, In j js -> Forall (ev_in V) (history (ops ++ before j))).
  { intros j Hj. apply history_in. apply Forall_app. split; [destruct Hr as (? & ? & ? & _ & H & _); exact H|].
    destruct (Hm j Hj) as (later & Ec & _). specialize (Hin j). rewrite Ec in Hin. now apply Forall_app in Hin. }
  (* an edge whose presence a process has changed is one it works on *)
  assert (Kdiff : forall j x, In j js -> In x (new E0 E j) \/ In x (old E0 E j) -> In a (elems x) /\ edge_in V x /\ calls_on (calls j) x).
  { intros j x Hj H.
    assert (Ix : In a (elems x)) by (destruct H as [H|H]; [apply in_new in H as [H _]|apply in_old in H as [H _]]; now apply In_has in H).
    assert (Ex : edge_in V x).
    { destruct H as [H|H]; [apply in_new in H as [H _]; apply In_has in H as [H _]; exact (present_in V _ x (Hh j Hj) H)|
        apply in_old in H as [H _]; apply In_has in H as [H _]; exact (present_in V _ x (reached_in V ops c Hr) H)]. }
    split; [exact Ix|]. split; [exact Ex|]. destruct (Hm j Hj) as (later & Ec & _).
    destruct (calls_on_dec V x Ex (before j)) as [(o & Ho & Ox)|N]; [exists o; split; [rewrite Ec; apply in_or_app; now left|exact Ox]|]. exfalso.
    pose proof (present_others (before j) (history ops) x N) as Q.
    assert (Q' : present (history (ops ++ before j)) x <-> present (history ops) x) by (unfold history in *; rewrite fold_left_app; exact Q).
    destruct H as [H|H]; [apply in_new in H as [H1 H2]|apply in_old in H as [H1 H2]]; unfold E0, E in *; rewrite In_has in *; tauto. }
  assert (P : Z.of_nat (occurrences a l1) = (Z.of_nat (occurrences a E0) + total (fun j => Z.of_nat (occurrences a (E j)) - Z.of_nat (occurrences a E0))%Z js)%Z).
  { apply occ_parts.
    - apply NoDup_filter, stored_nodup.
    - intros j. apply NoDup_filter, stored_nodup.
    - apply A.
    - intros i j x Hi Hj Di Dj. destruct (Kdiff i x Hi Di) as (Ix & _ & Ci). destruct (Kdiff j x Hj Dj) as (_ & _ & Cj). now apply (aa_one _ _ _ A i j x).
    - exact N1.
    - intros x.
      assert (Own : forall j, In j js -> In x (new E0 E j) \/ In x (old E0 E j) -> (In x l1 <-> In x (E j))).
      { intros j Hj D. destruct (Kdiff j x Hj D) as (Ix & Ex & Cj). rewrite (Kown j x Hj (sole_own a js calls A j x Cj Ix) Ex Ix). unfold E. rewrite In_has. tauto. }
      assert (Free : edge_in V x -> In a (elems x) -> (forall j, In j js -> ~ In x (new E0 E j) /\ ~ In x (old E0 E j)) -> (In x l1 <-> In x E0)).
      { intros Ex Ix N.
        assert (St1 : forall i, calls_on (calls i) x -> (In x l1 <-> In x E0)).
        { intros i Ci. pose proof (Kjs i x Ci Ix) as Hi. rewrite (Kown i x Hi (sole_own a js calls A i x Ci Ix) Ex Ix).
          destruct (N i Hi) as [N2 N3]. rewrite in_new in N2. rewrite in_old in N3. assert (In x (E i) <-> present (history (ops ++ before i)) x) as <- by (unfold E; rewrite In_has; tauto).
          destruct (in_or x E0), (in_or x (E i)); tauto. }
        assert (St2 : ~ (exists i, calls_on (calls i) x) -> (In x l1 <-> In x E0)).
        { intros Nb. rewrite (Kfree x Nb), (Il x). unfold E0. now rewrite In_has. }
        destruct (in_or x l1) as [P1|P1], (in_or x E0) as [P2|P2]; try tauto; exfalso;
          (assert (Nb : ~ (exists i, calls_on (calls i) x)) by (intros [i Ci]; specialize (St1 i Ci); tauto)); specialize (St2 Nb); tauto. }
      assert (Dec : (exists j, In j js /\ (In x (new E0 E j) \/ In x (old E0 E j))) \/ forall j, In j js -> ~ In x (new E0 E j) /\ ~ In x (old E0 E j)).
      { clear -js. induction js as [|j js' IH]; [right; easy|]. destruct IH as [(i & Hi & D)|N]; [left; exists i; split; [now right|exact D]|].
        destruct (in_or x (new E0 E j)) as [H|H]; [left; exists j; split; [now left|now left]|].
        destruct (in_or x (old E0 E j)) as [H'|H']; [left; exists j; split; [now left|now right]|].
        right. intros i [<-|Hi]; [now split|now apply N]. }
      destruct Dec as [(j & Hj & D)|N].
      + rewrite (Own j Hj D). split.
        * intros Hx. destruct D as [D|D]; [left; now exists j|apply in_old in D; tauto].
        * intros [(i & Hi & Hn)|[Hx Ho]].
          -- apply in_new in Hn as Hn'. destruct (Kdiff i x Hi (or_introl Hn)) as (Ix & _ & Ci). destruct (Kdiff j x Hj D) as (_ & _ & Cj).
             rewrite <- (aa_one _ _ _ A i j x Ix Ci Cj). apply Hn'.
          -- destruct D as [D|D]; [now apply in_new in D|]. now destruct (Ho j Hj).
      + split.
        * intros Hx. right. destruct (Al1 x Hx) as [Ex Ix]. split; [now apply (Free Ex Ix N)|]. intros j Hj. now apply N.
        * intros [(j & Hj & Hn)|[Hx _]]; [now destruct (N j Hj)|].
          assert (present (history ops) x /\ In a (elems x)) as [Px Ix] by (now apply In_has). apply (Free (present_in V _ x (reached_in V ops c Hr) Px) Ix N). exact Hx. }
  assert (P0 : occurrences a l = occurrences a E0).
  { apply occ_perm, NoDup_Permutation; [exact Nl|apply NoDup_filter, stored_nodup|]. intros x. rewrite (Il x). unfold E0. now rewrite In_has. }
  rewrite (total_ext (fun j => Z.of_nat (occurrences a (E j)) - Z.of_nat (occurrences a E0))%Z (fun j => occ_change a ops (before j)) js) in P.
  - lia.
  - intros j _. unfold occ_change, E, E0, has. now rewrite !occ_has.
Qed.
Print Assumptions C77_degree_keeps_up_with_star.

(** ** concrete runs *)

(** C77 on a concrete run: the database holds (is sky blue); process 0 adds (is sky
    red) and removes (is sky blue), process 1 adds (is sky up) in the middle of the
    first of these calls -- both count the occurrences of the atoms "is" and "sky" *)
Definition c_e4 : value := VTup [VStr (lit "is"); VStr (lit "sky"); VStr (lit "up")].
Definition calls77 : nat -> list op := two [OAdd c_e2 2; ORemove c_e] [OAdd c_e4 3].
Definition ms77 : list move := goes 0 12 ++ goes 1 57 ++ goes 0 78.
Definition d77 : db := Eval vm_compute in some_db (end_of false (c_comm c65) calls77 ms77).
Example C77_nonvacuous :
  exists w, steps false false (fun l => l) (start_world (c_comm c65) calls77) w
    /\ reached plain_values [OAdd c_e 1] c65
    /\ (forall j, Forall (op_in plain_values) (calls77 j))
    /\ db_atom (VStr (lit "is")) = true /\ born (VStr (lit "is")) (history [OAdd c_e 1]) <> None
    /\ apart_around (VStr (lit "is")) [0; 1]%nat calls77
    /\ have_made [0; 1]%nat calls77 calls77 w
    /\ (occ_change (VStr (lit "is")) [OAdd c_e 1] (calls77 0) = 0 /\ occ_change (VStr (lit "is")) [OAdd c_e 1] (calls77 1) = 1)%Z
    /\ degree (VStr (lit "is")) c65 = (Ok 1%Z, c65, [])
    /\ let c := reopen false (wd_disk w) in
       degree (VStr (lit "is")) c = (Ok 2%Z, c, []) /\ degree (VStr (lit "sky")) c = (Ok 2%Z, c, []).
Proof.
  destruct (end_of_ok false (c_comm c65) calls77 ms77 d77) as (w & S & [O0 O1] & D); [reflexivity|vm_compute; reflexivity|].
  exists w. split; [exact S|]. split; [|split; [|split; [|split; [|split; [|split; [|split; [|split]]]]]]].
  - exists (fun l => l), false. eexists. split; [intros l; apply Permutation_refl|]. split; [apply Forall_cons; [cbn; edge_ok|apply Forall_nil]|].
    vm_compute. reflexivity.
  - intros [|[|j]]; cbn; repeat (apply Forall_cons || apply Forall_nil); cbn; edge_ok.
  - reflexivity.
  - vm_compute. discriminate.
  - constructor.
    + apply NoDup_cons; [intros [H|[]]; discriminate|]. apply NoDup_cons; [intros []|apply NoDup_nil].
    + intros [|[|j]] N T; [apply N; now left|apply N; right; now left|]. destruct T as [(o & [] & _)|(e & (o & [] & _) & _)].
    + intros [|[|j]] (o & Ho & Ox); [destruct Ho as [<-|[<-|[]]]; discriminate Ox|destruct Ho as [<-|[]]; discriminate Ox|destruct Ho].
    + intros i j x _ (o & Ho & Ox) (o' & Ho' & Ox').
      destruct i as [|[|i]]; [destruct Ho as [<-|[<-|[]]]|destruct Ho as [<-|[]]|destruct Ho]; cbn in Ox; subst x;
        (destruct j as [|[|j]]; [destruct Ho' as [<-|[<-|[]]]|destruct Ho' as [<-|[]]|destruct Ho']); cbn in Ox'; try reflexivity; discriminate Ox'.
    + intros i j s s' e He _. destruct i as [|[|i]]; cbn in He; [destruct He as [He|[He|[]]]|destruct He as [He|[]]|destruct He]; discriminate He.
  - intros j [<-|[<-|[]]]; exists []; rewrite app_nil_r; split; [reflexivity|exact O0|reflexivity|exact O1].
  - split; vm_compute; reflexivity.
  - vm_compute. reflexivity.
  - rewrite D. cbv zeta. split; vm_compute; reflexivity.
Qed.

(** C77 needs [born]: two processes whose edges share an atom the database does not
    know yet (SQLite).  Both calls return normally, star finds both edges, and the
    degree of the atom is 1. *)
Theorem C77_new_vertex_refuted :
  exists w, steps false false (fun l => l) (start_world db_empty (two [OAdd c_e 1] [OAdd c_e2 2])) w /\ ok2 w
    /\ let c := reopen false (wd_disk w) in
       degree (VStr (lit "is")) c = (Ok 1%Z, c, [])
       /\ exists l, star (VStr (lit "is")) c = (Ok l, c, []) /\ Permutation l [c_e; c_e2].
Proof.
  destruct (end_of_ok false db_empty (two [OAdd c_e 1] [OAdd c_e2 2]) (goes 0 8 ++ goes 1 67 ++ goes 0 53) d66b) as (w & S & O & D);
    [reflexivity|vm_compute; reflexivity|].
  exists w. split; [exact S|]. split; [exact O|]. rewrite D. cbv zeta. split; [vm_compute; reflexivity|].
  exists [c_e2; c_e]. split; [vm_compute; reflexivity|apply perm_swap].
Qed.
Print Assumptions C77_new_vertex_refuted.

(** C77 needs [aa_one]: two processes that add the same edge (SQLite).  Both calls
    return normally, and the degree of each of its atoms is 2. *)
Definition d77b : db := Eval vm_compute in
  some_db (end_of false db_empty (two [OAdd c_e 1] [OAdd c_e 2]) (goes 0 3 ++ goes 1 67 ++ goes 0 42)).
Theorem C77_shared_edge_refuted :
  exists w, steps false false (fun l => l) (start_world db_empty (two [OAdd c_e 1] [OAdd c_e 2])) w /\ ok2 w
    /\ let c := reopen false (wd_disk w) in
       degree (VStr (lit "is")) c = (Ok 2%Z, c, []) /\ star (VStr (lit "is")) c = (Ok [c_e], c, []).
Proof.
  destruct (end_of_ok false db_empty (two [OAdd c_e 1] [OAdd c_e 2]) (goes 0 3 ++ goes 1 67 ++ goes 0 42) d77b) as (w & S & O & D);
    [reflexivity|vm_compute; reflexivity|].
  exists w. split; [exact S|]. split; [exact O|]. rewrite D. cbv zeta. split; vm_compute; reflexivity.
Qed.
Print Assumptions C77_shared_edge_refuted.
