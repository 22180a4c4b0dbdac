(** * C_crash.v -- property theorems C23-C28 (crashes, commits, batches) *)

From Verif Require Import Py M_symbol M_edge M_sql M_hypergraph P_py Spec P_edge P_perm P_range P_query
  S_history M_driver P_ops P_hist P_graph P_answers P_crash P_stuck C_graph.
From Coq Require Import Permutation Factorial String.
Open Scope list_scope.

(** Reading guide.  A run [m c = (r, c', tr)] lists in [tr] the contents of the
    disk after every statement and commit.  If the process dies during the call
    [m], the disk holds what it held before, or one of these. *)
Definition died {A} (m : M A) (c : conn) (d : db) : Prop := d = c_comm c \/ In d (snd (m c)).

(** two edges that are not in the example state [ex_c] of C_graph *)
Definition new_e5 : value := VTup [VStr (lit "is"); VStr (lit "sky"); VStr (lit "blue")].
Definition new_e6 : value := VTup [VStr (lit "says"); VStr (lit "bob"); new_e5].

(** C23, for arbitrary arguments, including ones that make the call fail
    half-way: on SQLite (no autocommit), outside a batch. *)
Theorem C23_multi_add_any_arguments :
  forall es t c x r c' tr, index0 es = Ok x -> is_tup x = true ->
    c_auto c = false -> c_cur c = CNone -> add es t c = (r, c', tr) ->
    (forall d, died (add es t) c d -> d = c_comm c \/ (r = Ok es /\ d = c_comm c'))
    /\ (r = Ok es /\ reopen false (c_comm c') = c' \/ (exists y, r = Err y) /\ c_comm c' = c_comm c).
Proof.
  intros es t c x r c' tr E T Ha Hc H. pose proof (auto_add es t c) as A. unfold Rauto, st_of in A. rewrite H in A. cbn in A.
  destruct (add_many_crash es t c x r c' tr E T Ha Hc H) as [K1 K2]. split.
  - intros d [->|Hd]; [now left|]. rewrite H in Hd. now apply K1.
  - destruct K2 as [(-> & K3 & K4)|K2]; [left|now right]. split; [reflexivity|].
    rewrite <- Ha, <- A. apply synced_reopen. now split.
Qed.
Print Assumptions C23_multi_add_any_arguments.

(** C23 on reachable states: after the crash the database is exactly as before
    the call, or exactly as after it. *)
Theorem C23_multi_add_atomic :
  forall V ops c, noalias V -> reached V ops c -> c_auto c = false ->
    (forall es t, es <> [] -> Forall (edge_in V) es -> int64 t = true ->
       exists c' tr, add (VTup es) t c = (Ok (VTup es), c', tr)
         /\ (forall e, In e es -> exists_ e c' = (Ok true, c', []))
         /\ forall d, died (add (VTup es) t) c d -> reopen false d = c \/ reopen false d = c')
    /\ (forall s e t, edge_in V e -> edge_in V (link_edge s e) -> int64 t = true ->
       exists c' tr, add_belief s e t c = (Ok tt, c', tr)
         /\ exists_ e c' = (Ok true, c', []) /\ exists_ (link_edge s e) c' = (Ok true, c', [])
         /\ forall d, died (add_belief s e t) c d -> reopen false d = c \/ reopen false d = c')
    /\ (forall s es t, es <> [] -> Forall (fun e => edge_in V e /\ edge_in V (link_edge s e)) es -> int64 t = true ->
       exists c' tr, add_belief s (VTup es) t c = (Ok tt, c', tr)
         /\ (forall e, In e es -> exists_ e c' = (Ok true, c', []) /\ exists_ (link_edge s e) c' = (Ok true, c', []))
         /\ forall d, died (add_belief s (VTup es) t) c d -> reopen false d = c \/ reopen false d = c').
Proof.
  intros V ops c HV Hr Ha. pose proof (reached_ready V ops c HV Hr) as R.
  assert (Sc : reopen false (c_comm c) = c) by (rewrite <- Ha; apply synced_reopen; split; apply R).
  assert (K : forall es t c' tr, (exists x, index0 es = Ok x /\ is_tup x = true) -> add es t c = (Ok es, c', tr) ->
            forall d, d = c_comm c \/ In d tr -> reopen false d = c \/ reopen false d = c').
  { intros es t c' tr (x & E & T) H d Hd.
    destruct (C23_multi_add_any_arguments es t c x _ c' tr E T Ha (rd_cur _ _ _ R) H) as [K1 K2].
    assert (Dd : died (add es t) c d) by (unfold died; rewrite H; exact Hd).
    destruct (K1 d Dd) as [->|[_ ->]]; [now left|right]. now destruct K2 as [[_ K2]|[[y K2] _]]. }
  (* add_belief is an add of the edges with their links *)
  assert (B : forall s v items t u, add_belief s v t c = bind (add (VTup items) t) (fun _ => ret u) c ->
            (exists x, index0 (VTup items) = Ok x /\ is_tup x = true) ->
            forall c' tr, add_belief s v t c = (Ok u, c', tr) ->
            forall d, died (add_belief s v t) c d -> reopen false d = c \/ reopen false d = c').
  { intros s v items t u Es Hx c' tr Eb d Hd. unfold died in Hd. rewrite Eb in Hd. cbn [snd] in Hd. rewrite Es in Eb.
    unfold bind in Eb. destruct (add (VTup items) t c) as [[[a|y] c1] t1] eqn:Ea; [|discriminate].
    injection Eb as <- <-. rewrite app_nil_r in Hd.
    destruct Hx as (x & E & T).
    destruct (add_many_crash (VTup items) t c x _ _ _ E T Ha (rd_cur _ _ _ R) Ea) as [_ [(Hok & _)|((y & Hy) & _)]]; [|discriminate].
    injection Hok as ->. apply (K (VTup items) t c1 t1); [now exists x|exact Ea|exact Hd]. }
  split; [|split].
  - intros es t Hn Hes Ht. destruct (index0_edges V es Hn Hes) as (x & E & T).
    destruct (op_top (fun l => l) V _ (OAddMany es t) c HV (fun l => Permutation_refl l) (conj (conj Hn Hes) Ht) R) as (us & c' & tr & [Er _ R' _ _]).
    cbn [after run_op] in *. unfold bind in Er. destruct (add (VTup es) t c) as [[[a|y] c1] t1] eqn:Ea; [|discriminate].
    injection Er as <- _. destruct (add_many_crash (VTup es) t c x _ _ _ E T Ha (rd_cur _ _ _ R) Ea) as [_ [(Hok & _)|((y & Hy) & _)]]; [|discriminate].
    injection Hok as ->. exists c1, t1. split; [reflexivity|]. split.
    + intros e He. rewrite Forall_forall in Hes. apply (ready_exists_true V c1 _ e HV R' (Hes e He)). apply present_adds. now left.
    + intros d Hd. unfold died in Hd. rewrite Ea in Hd. apply (K (VTup es) t c1 t1); [now exists x|exact Ea|exact Hd].
  - intros s e t He Hl Ht.
    destruct (op_top (fun l => l) V _ (OAddBelief s e t) c HV (fun l => Permutation_refl l) (conj (conj He Hl) Ht) R) as (us & c' & tr & [Er _ R' _ _]).
    cbn [after run_op] in *. exists c', tr. split; [exact Er|]. split; [|split].
    + apply (ready_exists_true V c' _ e HV R' He). rewrite !present_add. tauto.
    + apply (ready_exists_true V c' _ _ HV R' Hl). rewrite !present_add. tauto.
    + destruct (index0_edge e (edge_in_db _ _ He)) as (a & E0 & Ea).
      apply (B s e [e; link s e] t tt) with (tr := tr); [| |exact Er].
      * unfold add_belief. rewrite E0. unfold lift. rewrite bind_ret_l, Ea. reflexivity.
      * exists e. split; [reflexivity|]. destruct (db_edge_elems e (edge_in_db _ _ He)) as [-> _]. reflexivity.
  - intros s es t Hn Hes Ht.
    destruct (op_top (fun l => l) V _ (OAddBeliefs s es t) c HV (fun l => Permutation_refl l) (conj (conj Hn Hes) Ht) R) as (us & c' & tr & [Er _ R' _ _]).
    cbn [after run_op] in *. exists c', tr. split; [exact Er|]. pose proof Hes as Hes'. rewrite Forall_forall in Hes. split.
    + intros e Hi. destruct (Hes e Hi) as [He Hl]. split.
      * apply (ready_exists_true V c' _ e HV R' He). rewrite present_beliefs. left. exists e. tauto.
      * apply (ready_exists_true V c' _ _ HV R' Hl). rewrite present_beliefs. left. exists e. tauto.
    + assert (Fe : Forall (edge_in V) es) by (eapply Forall_impl; [|exact Hes']; now intros x [H _]).
      destruct (index0_edges V es Hn Fe) as (a & E0 & Ea).
      apply (B s (VTup es) (flat_map (fun edge => [edge; link s edge]) es) t tt) with (tr := tr); [| |exact Er].
      * unfold add_belief. rewrite E0. unfold lift. rewrite bind_ret_l, Ea. cbn [as_seq]. now rewrite bind_ret_l.
      * destruct es as [|e es]; [easy|]. exists e. split; [reflexivity|]. cbn in E0. now injection E0 as ->.
Qed.
Print Assumptions C23_multi_add_atomic.
(** the hypotheses are met, there are many crash points, and both outcomes occur *)
Example C23_nonvacuous : reached plain_values ex_ops ex_c /\ c_auto ex_c = false
  /\ Forall (edge_in plain_values) [new_e5; new_e6]
  /\ (10 < List.length (snd (add (VTup [new_e5; new_e6]) 7 ex_c)))%nat
  /\ reopen false (c_comm ex_c) = ex_c /\ fst (fst (exists_ new_e6 ex_c)) = Ok false.
Proof.
  split; [exact ex_reached|]. split; [reflexivity|].
  split; [repeat (apply Forall_cons || apply Forall_nil); edge_ok|].
  split; [apply Nat.ltb_lt; vm_compute; reflexivity|]. split; vm_compute; reflexivity.
Qed.
(** a multi-edge add that raises half-way (the second edge holds a lone surrogate) *)
Example C23_failing : exists c' tr, add (VTup [new_e5; VTup [VStr (lit "a"); VStr [55296%N]]]) 7 ex_c = (Err UnicodeEncodeError, c', tr)
  /\ c_comm c' = c_comm ex_c /\ fst (fst (exists_ new_e5 c')) = Ok true.
Proof. ran (add (VTup [new_e5; VTup [VStr (lit "a"); VStr [55296%N]]]) 7) ex_c. repeat apply conj; vm_compute; reflexivity. Qed.

(** C24 is false: (a) a crash during a single add can leave the edge found by
    exists but not by star; (b) a crash during remove can leave it not found by
    exists but found by star.  On both commit modes. *)
Theorem C24_single_not_atomic_refuted :
  forall auto, let e := VTup [VStr (lit "is"); VStr (lit "sky"); VStr (lit "blue")] in let a := VStr (lit "blue") in
    (exists d, died (add e 1) (start auto) d /\
       let c1 := reopen auto d in exists_ e c1 = (Ok true, c1, []) /\ star a c1 = (Ok [], c1, []))
    /\ (exists c tr d, add e 1 (start auto) = (Ok e, c, tr) /\ died (remove e) c d /\
       let c1 := reopen auto d in exists_ e c1 = (Ok false, c1, []) /\ star a c1 = (Ok [e], c1, [])).
Proof.
  intros auto e a. split.
  - exists (nth 24 (snd (add e 1 (start auto))) db_empty). split.
    + right. apply nth_In. apply Nat.ltb_lt. destruct auto; vm_compute; reflexivity.
    + destruct auto; split; vm_compute; reflexivity.
  - exists (snd (fst (add e 1 (start auto)))), (snd (add e 1 (start auto))).
    exists (nth 8 (snd (remove e (snd (fst (add e 1 (start auto)))))) db_empty). split; [destruct auto; vm_compute; reflexivity|]. split.
    + right. apply nth_In. apply Nat.ltb_lt. destruct auto; vm_compute; reflexivity.
    + destruct auto; split; vm_compute; reflexivity.
Qed.
Print Assumptions C24_single_not_atomic_refuted.

(** The queries answer exactly as for the set [P] of edges. *)
Record answers (V : value -> Prop) (c : conn) (P : value -> Prop) : Prop := {
  an_exists : forall x, edge_in V x -> exists b, exists_ x c = (Ok b, c, []) /\ (b = true <-> P x);
  an_pattern : forall p, pattern_in V p ->
    exists l, pattern2edges (VTup p) c = (Ok l, c, []) /\ NoDup l /\ forall x, In x l <-> P x /\ matches p (elems x);
  an_star : forall a, db_atom a = true ->
    exists l, star a c = (Ok l, c, []) /\ NoDup l /\ forall x, In x l <-> P x /\ In a (elems x) }.

Lemma Idx_answers V c P : noalias V -> live c -> Idx V (c_work c) P -> answers V c P.
Proof.
  intros HV L I. pose proof (idx_others _ _ _ I) as O. constructor.
  - intros x Hx. apply (others_exists V (c_work c) P (fun _ => False) c x HV (x_wf _ _ _ I) eq_refl L Hx); auto.
  - intros p Hp. destruct (others_pattern V (c_work c) P (fun _ => False) p c HV (x_wf _ _ _ I) eq_refl L Hp (x_edges _ _ _ I) O) as (l & G & N & _ & H).
    exists l. split; [exact G|]. split; [exact N|]. intros x. apply H. tauto.
  - intros a Hp. destruct (others_star V (c_work c) P (fun _ => False) a c HV (x_wf _ _ _ I) eq_refl L Hp (x_edges _ _ _ I) O) as (l & G & N & _ & H).
    exists l. split; [exact G|]. split; [exact N|]. intros x. apply H. tauto.
Qed.

(** C24, what holds: the crash is never fatal.  Whatever the crash point,
    removing and adding the edge again brings back an exact index with the
    edge; adding and removing it again, an exact index without it.  (The degrees
    are not restored: C24_degree_not_repaired.) *)
Theorem C24_repair :
  forall V ops c e t0 o ord d, noalias V -> reached V ops c -> edge_in V e -> int64 t0 = true -> (o = OAdd e t0 \/ o = ORemove e) ->
    died (run_op ord o) c d -> let c1 := reopen (c_auto c) d in forall t, int64 t = true ->
    (exists c2 tr, (remove e;; add e t) c1 = (Ok e, c2, tr)
       /\ answers V c2 (fun x => x = e \/ present (history ops) x))
    /\ (exists c3 tr, (add e t;; remove e) c1 = (Ok tt, c3, tr)
       /\ answers V c3 (fun x => x <> e /\ present (history ops) x)).
Proof.
  intros V ops c e t0 o ord d HV Hr He Ht0 Ho Hd c1 t Ht. pose proof (reached_ready V ops c HV Hr) as R.
  pose proof (Inv_Idx _ _ _ (rd_inv _ _ _ R)) as I. set (P := present (history ops)) in *.
  assert (H1 : hurt V P e c1).
  { assert (X : wf_db V d /\ othersT V P (fun x => x = e) d).
    { assert (O0 : othersT V P (fun x => x = e) (c_work c)) by (intros x Hx _ r Hx2; now apply (x_rows _ _ _ I)).
      destruct Hd as [->|Hd]; [rewrite (rd_sync _ _ _ R); split; [apply I|exact O0]|].
      assert (Ho1 : op_in V o) by (destruct Ho as [->| ->]; [exact (conj He Ht0)|exact He]).
      assert (Ho2 : targets o = Some [e]) by (now destruct Ho as [->| ->]).
      destruct (crash_states ord V _ o [e] c HV R Ho1 Ho2) as (fs & F & S).
      assert (F' : Forall (upd_on V (fun x => x = e)) fs).
      { eapply Forall_impl; [|exact F]. intros f (y & [->|[]] & Hy). now exists y. }
      apply (states_on V P (fun x => x = e) fs (c_work c) d F' (x_wf _ _ _ I) O0). now apply S. }
    destruct X as [W O]. constructor; [reflexivity|exact W|apply I|exact O]. }
  split.
  - destruct (repair_add V P e t c1 HV He Ht H1) as (c2 & tr & E & H2 & N). exists c2, tr. split; [exact E|].
    apply Idx_answers; [exact HV|now apply (hurt_live V P e)|]. apply (hurt_Idx V P _ e c2 He H2). left. split; [exact N|tauto].
  - destruct (repair_remove V P e t c1 HV He Ht H1) as (c2 & tr & E & H2 & N). exists c2, tr. split; [exact E|].
    apply Idx_answers; [exact HV|now apply (hurt_live V P e)|]. apply (hurt_Idx V P _ e c2 He H2). right. split; [exact N|tauto].
Qed.
Print Assumptions C24_repair.
(** Degrees and timestamps after the crash: of every vertex (the edge itself
    included) the degree is between that before and that after the completed
    call, and the timestamp is one of these two. *)
Theorem C24_degrees_after_crash :
  forall V ops c e t0 o ord d c2 tr v, noalias V -> reached V ops c -> edge_in V e -> int64 t0 = true -> (o = OAdd e t0 \/ o = ORemove e) ->
    run_op ord o c = (Ok tt, c2, tr) -> died (run_op ord o) c d -> db_vertex v = true -> let c1 := reopen (c_auto c) d in
    exists n n1 n2 t t1 t2,
      degree v c = (Ok n, c, []) /\ degree v c1 = (Ok n1, c1, []) /\ degree v c2 = (Ok n2, c2, [])
      /\ timestamp v c = (Ok t, c, []) /\ timestamp v c1 = (Ok t1, c1, []) /\ timestamp v c2 = (Ok t2, c2, [])
      /\ ((n <= n1 <= n2)%Z \/ (n2 <= n1 <= n)%Z) /\ (t1 = t \/ t1 = t2).
Proof.
  intros V ops c e t0 o ord d c2 tr v HV Hr He Ht0 Ho Hrun Hd Hv c1. pose proof (reached_ready V ops c HV Hr) as R.
  pose proof (edge_in_db _ _ He) as Hdb. set (h := history ops) in *.
  assert (X : c_cur c2 = CNone /\ between (row v (c_work c)) (row v d) (row v (c_work c2))).
  { assert (Y : exists fs, (forall d, In d (states fs (c_work c)) -> between (row v (c_work c)) (row v d) (row v (runs fs (c_work c))))
              /\ c_work c2 = runs fs (c_work c) /\ c_cur c2 = c_cur c /\ forall d, In d tr -> In d (states fs (c_work c))).
    { destruct Ho as [->| ->]; cbn [run_op] in Hrun.
      - exists (add_fs h e t0). split; [intros d' Hd'; now apply add_fs_between|].
        pose proof (goesf_add V h e t0 HV He Ht0) as G. destruct (G c (ready_live _ _ _ R) (rd_inv _ _ _ R)) as [(c' & tr' & E & S) _].
        unfold bind in Hrun. rewrite E in Hrun. cbn in Hrun. injection Hrun as -> <-. rewrite app_nil_r.
        split; [apply (st_work _ _ _ _ _ S)|]. split; [apply (st_cur _ _ _ _ _ S)|].
        apply (st_sync _ _ _ _ _ S (or_introl (rd_cur _ _ _ R)) (rd_sync _ _ _ R)).
      - exists (rem_fs h e). split; [intros d' Hd'; now apply rem_fs_between|].
        pose proof (goesf_remove V h e HV He) as G. destruct (G c (ready_live _ _ _ R) (rd_inv _ _ _ R)) as [(c' & tr' & E & S) _].
        rewrite E in Hrun. injection Hrun as -> <-.
        split; [apply (st_work _ _ _ _ _ S)|]. split; [apply (st_cur _ _ _ _ _ S)|].
        apply (st_sync _ _ _ _ _ S (or_introl (rd_cur _ _ _ R)) (rd_sync _ _ _ R)). }
    destruct Y as (fs & F & W & C & T). split; [rewrite C; apply R|]. rewrite W.
    apply F. destruct Hd as [->|Hd]; [rewrite (rd_sync _ _ _ R); apply states_hd|]. apply T. now rewrite Hrun in Hd. }
  destruct X as [C2 B].
  pose proof (degree_gives v c (rd_cur _ _ _ R) Hv) as D0. pose proof (degree_gives v c1 eq_refl Hv) as D1. pose proof (degree_gives v c2 C2 Hv) as D2.
  pose proof (timestamp_gives v c (rd_cur _ _ _ R) Hv) as T0. pose proof (timestamp_gives v c1 eq_refl Hv) as T1. pose proof (timestamp_gives v c2 C2 Hv) as T2.
  unfold gives in *. change (c_work c1) with d in *. unfold row in B.
  eexists _, _, _, _, _, _. split; [exact D0|]. split; [exact D1|]. split; [exact D2|]. split; [exact T0|]. split; [exact T1|]. split; [exact T2|].
  clear - B. destruct (vlook (edge2str v) (c_work c)) as [[n s]|], (vlook (edge2str v) d) as [[n1 s1]|], (vlook (edge2str v) (c_work c2)) as [[n2 s2]|];
    unfold between in B; cbn in B; destruct B as [[A B]|[[A B]|[B|B]]]; try easy;
    try (injection B as -> ->); repeat match goal with H : _ /\ _ |- _ => destruct H end; subst;
    (split; [lia|tauto]).
Qed.
Print Assumptions C24_degrees_after_crash.
(** a crash point in the middle, where exists says True and star misses the edge *)
Example C24_nonvacuous : reached plain_values ex_ops ex_c /\ edge_in plain_values new_e5
  /\ exists d, died (run_op (fun l => l) (OAdd new_e5 9)) ex_c d /\ d <> c_comm ex_c
       /\ d <> c_comm (snd (fst (add new_e5 9 ex_c))).
Proof.
  split; [exact ex_reached|]. split; [edge_ok|].
  exists (nth 24 (snd (run_op (fun l => l) (OAdd new_e5 9) ex_c)) db_empty). split; [right; apply nth_In; apply Nat.ltb_lt; vm_compute; reflexivity|].
  split; vm_compute; discriminate.
Qed.

(** what repair does not bring back: the degree of "is" is 2 although only one edge contains it *)
Example C24_degree_not_repaired : let e := new_e5 in
  exists d, died (add e 1) (start false) d /\ exists c tr, (remove e;; add e 2) (reopen false d) = (Ok e, c, tr)
    /\ star (VStr (lit "is")) c = (Ok [e], c, []) /\ degree (VStr (lit "is")) c = (Ok 2%Z, c, []).
Proof.
  intros e. exists (nth 8 (snd (add e 1 (start false))) db_empty). split; [right; apply nth_In; apply Nat.ltb_lt; vm_compute; reflexivity|].
  set (r := (remove e;; add e 2) (reopen false (nth 8 (snd (add e 1 (start false))) db_empty))).
  exists (snd (fst r)), (snd r). split; [vm_compute; reflexivity|]. split; vm_compute; reflexivity.
Qed.

(** C25.  [es]: the edges the interrupted call was to add or remove. *)
Theorem C25_crash_keeps_other_edges :
  forall V ops c o es ord d, noalias V -> reached V ops c -> op_in V o ->
    (exists e t, o = OAdd e t /\ es = [e]) \/ (exists e, o = ORemove e /\ es = [e])
    \/ (exists t, o = OAddMany es t) \/ o = ORemoveMany es ->
    died (run_op ord o) c d -> let c1 := reopen (c_auto c) d in
    (forall x, edge_in V x -> ~ In x es ->
       exists b, exists_ x c = (Ok b, c, []) /\ exists_ x c1 = (Ok b, c1, []))
    /\ (forall p, pattern_in V p ->
       exists l l1, pattern2edges (VTup p) c = (Ok l, c, []) /\ pattern2edges (VTup p) c1 = (Ok l1, c1, [])
         /\ (forall x, In x l1 -> matches p (elems x)) /\ forall x, ~ In x es -> (In x l1 <-> In x l))
    /\ (forall a, db_atom a = true ->
       exists l l1, star a c = (Ok l, c, []) /\ star a c1 = (Ok l1, c1, [])
         /\ (forall x, In x l1 -> In a (elems x)) /\ forall x, ~ In x es -> (In x l1 <-> In x l))
    /\ (forall v, db_vertex v = true -> ~ In v es -> (forall e, In e es -> ~ In v (elems e)) ->
       exists n t, degree v c = (Ok n, c, []) /\ degree v c1 = (Ok n, c1, [])
         /\ timestamp v c = (Ok t, c, []) /\ timestamp v c1 = (Ok t, c1, [])).
Proof.
  intros V ops c o es ord d HV Hr Ho Hes Hd c1. pose proof (reached_ready V ops c HV Hr) as R.
  pose proof (Inv_Idx _ _ _ (rd_inv _ _ _ R)) as I. set (P := present (history ops)) in *.
  pose proof (Idx_answers V c P HV (ready_live _ _ _ R) I) as A.
  assert (X : wf_db V d /\ othersT V P (fun x => In x es) d
     /\ forall v, db_vertex v = true -> ~ In v es -> (forall e, In e es -> ~ In v (elems e)) -> row v (c_work c) = row v d).
  { assert (O0 : othersT V P (fun x => In x es) (c_work c)) by (intros x Hx _ r Hx2; now apply (x_rows _ _ _ I)).
    destruct Hd as [->|Hd]; [rewrite (rd_sync _ _ _ R); split; [apply I|]; split; [exact O0|reflexivity]|].
    assert (Ho2 : targets o = Some es) by (destruct Hes as [(e & t & -> & ->)|[(e & -> & ->)|[[t ->]| ->]]]; reflexivity).
    destruct (crash_states ord V _ o es c HV R Ho Ho2) as (fs & F & S).
    destruct (states_on V P (fun x => In x es) fs (c_work c) d F (x_wf _ _ _ I) O0 (S d Hd)) as [X1 X2].
    split; [exact X1|]. split; [exact X2|]. intros v Hv N1 N2. rewrite Forall_forall in F.
    refine (proj1 (states_between eq v fs _ _ _ _ _ (S d Hd))); [reflexivity|congruence|].
    intros f u Hf. symmetry. apply (upd_on_row V (fun x => In x es)); [now apply F|exact Hv|exact N1|exact N2]. }
  destruct X as (W & O & Rw). assert (L1 : live c1) by easy. split; [|split; [|split]].
  - intros x Hx Nx. destruct (an_exists _ _ _ A x Hx) as (b & E & Hb).
    destruct (others_exists V d P (fun x => In x es) c1 x HV W eq_refl L1 Hx Nx O) as (b' & E' & Hb').
    exists b. split; [exact E|]. rewrite E'. assert (b' = b) as ->; [|reflexivity].
    destruct b, b'; try reflexivity; exfalso; intuition discriminate.
  - intros p Hp. destruct (an_pattern _ _ _ A p Hp) as (l & E & _ & Hl).
    destruct (others_pattern V d P (fun x => In x es) p c1 HV W eq_refl L1 Hp (x_edges _ _ _ I) O) as (l1 & E1 & _ & M1 & H1).
    exists l, l1. split; [exact E|]. split; [exact E1|]. split; [exact M1|]. intros x Nx. rewrite H1 by exact Nx. symmetry. apply Hl.
  - intros a Hp. destruct (an_star _ _ _ A a Hp) as (l & E & _ & Hl).
    destruct (others_star V d P (fun x => In x es) a c1 HV W eq_refl L1 Hp (x_edges _ _ _ I) O) as (l1 & E1 & _ & M1 & H1).
    exists l, l1. split; [exact E|]. split; [exact E1|]. split; [exact M1|]. intros x Nx. rewrite H1 by exact Nx. symmetry. apply Hl.
  - intros v Hv N1 N2. specialize (Rw v Hv N1 N2). unfold row in Rw.
    pose proof (degree_gives v c (rd_cur _ _ _ R) Hv) as D0. pose proof (degree_gives v c1 eq_refl Hv) as D1.
    pose proof (timestamp_gives v c (rd_cur _ _ _ R) Hv) as T0. pose proof (timestamp_gives v c1 eq_refl Hv) as T1.
    unfold gives in *. change (c_work c1) with d in *. rewrite <- Rw in *.
    eexists _, _. split; [exact D0|]. split; [exact D1|]. split; [exact T0|exact T1].
Qed.
Print Assumptions C25_crash_keeps_other_edges.
Example C25_nonvacuous : reached plain_values ex_ops ex_c /\ op_in plain_values (ORemoveMany [ex_e1; ex_e2])
  /\ (10 < List.length (snd (run_op (fun l => l) (ORemoveMany [ex_e1; ex_e2]) ex_c)))%nat
  /\ fst (fst (exists_ ex_e3 ex_c)) = Ok true /\ ~ In ex_e3 [ex_e1; ex_e2].
Proof.
  split; [exact ex_reached|]. split.
  { split; [discriminate|]. repeat (apply Forall_cons || apply Forall_nil); edge_ok. }
  split; [apply Nat.ltb_lt; vm_compute; reflexivity|]. split; [vm_compute; reflexivity|]. cbn. intuition discriminate.
Qed.

(** C26: for arbitrary arguments.  [run_ops] is a sequence of calls outside a
    batch that all returned normally. *)
Theorem C26_completed_calls_are_durable :
  (forall ord ops auto c tr, run_ops ord ops (start auto) = (Ok tt, c, tr) ->
     c_auto c = auto /\ reopen auto (c_comm c) = c)
  /\ (forall funs c c' tr, batch_exec funs c = (Ok tt, c', tr) -> reopen (c_auto c') (c_comm c') = c').
Proof.
  split.
  - intros ord ops auto c tr H.
    assert (K : forall ops c0 c tr, synced c0 -> run_ops ord ops c0 = (Ok tt, c, tr) -> synced c /\ c_auto c = c_auto c0).
    { clear. induction ops as [|o ops IH]; intros c0 c tr S H.
      - injection H as <- _. now split.
      - unfold run_ops in H. cbn [mfor] in H. unfold bind in H. destruct (run_op ord o c0) as [[[u|y] c1] t1] eqn:E; [|discriminate].
        destruct (mfor ops (run_op ord) c1) as [[r2 c2] t2] eqn:E2. injection H as -> -> _.
        destruct (op_sync ord o c0 _ c1 t1 S E) as [S1 A1]; [intros _; now destruct u|].
        destruct (IH c1 c t2 S1 E2) as [S2 A2]. split; [exact S2|congruence]. }
    destruct (K ops (start auto) c tr) as [S A]; [now split|exact H|]. cbn in A. split; [exact A|].
    rewrite <- A. now apply synced_reopen.
  - intros funs c c' tr H. apply shared_ok in H. now apply synced_reopen.
Qed.
Print Assumptions C26_completed_calls_are_durable.
Example C26_nonvacuous : exists tr, run_ops (fun l => l) ex_ops (start false) = (Ok tt, ex_c, tr) /\ ex_c <> start false.
Proof.
  exists (snd (run_ops (fun l => l) ex_ops (start false))). split; [vm_compute; reflexivity|]. vm_compute. discriminate.
Qed.

(** C27 is false: after a multi-edge add that raised, a later successful add is
    visible to this process but not on the disk; the same after a batch. *)
Theorem C27_durable_after_failure_refuted :
  let e := VTup [VStr (lit "is"); VStr (lit "sky"); VStr (lit "blue")] in
  let bad := VTup [VTup [VStr (lit "a"); VStr (lit "b")]; VTup [VStr (lit "a"); VStr [55296%N]]] in
  (exists c1 t1 c2 t2, add bad 1 (start false) = (Err UnicodeEncodeError, c1, t1)
     /\ add e 2 c1 = (Ok e, c2, t2) /\ exists_ e c2 = (Ok true, c2, [])
     /\ let c3 := reopen false (c_comm c2) in exists_ e c3 = (Ok false, c3, []))
  /\ (exists c1 t1 c2 t2, batch_exec [raise ValueError] (start false) = (Err ValueError, c1, t1)
     /\ add e 2 c1 = (Ok e, c2, t2) /\ exists_ e c2 = (Ok true, c2, [])
     /\ let c3 := reopen false (c_comm c2) in exists_ e c3 = (Ok false, c3, [])).
Proof.
  intros e bad. split.
  - exists (snd (fst (add bad 1 (start false)))), (snd (add bad 1 (start false))).
    exists (snd (fst (add e 2 (snd (fst (add bad 1 (start false))))))), (snd (add e 2 (snd (fst (add bad 1 (start false)))))).
    repeat apply conj; vm_compute; reflexivity.
  - set (b := batch_exec [raise ValueError] (start false)).
    exists (snd (fst b)), (snd b), (snd (fst (add e 2 (snd (fst b))))), (snd (add e 2 (snd (fst b)))).
    repeat apply conj; vm_compute; reflexivity.
Qed.
Print Assumptions C27_durable_after_failure_refuted.

(** What holds: calls that do not use the shared cursor may fail as they like.
    [attempts]: the calls are made one after the other, exceptions are caught by
    the client; [log] tells which ones raised. *)
Fixpoint attempts (ord : list value -> list value) (ops : list op) (c : conn) : list (res unit) * conn :=
  match ops with
  | [] => ([], c)
  | o :: ops' => let '(r, c1, _) := run_op ord o c in
                 let '(log, c2) := attempts ord ops' c1 in (r :: log, c2)
  end.
Definition multi (o : op) : bool :=
  match o with
  | OAdd (VTup (VTup _ :: _)) _ | OAddMany _ _ | OAddBelief _ _ _ | OAddBeliefs _ _ _ | OBatch _ => true
  | _ => false
  end.
(** The calls that use one cursor for all they do and commit at their end:
    add with a list of edges, add_belief, batch_exec; and opening the file again. *)
Definition commits_all (o : op) : Prop :=
  match o with
  | OReopen | OBatch _ | OAddBelief _ (VTup _) _ | OAddBeliefs _ _ _ => True
  | OAdd (VTup (VTup _ :: _)) _ | OAddMany (VTup _ :: _) _ => True
  | _ => False
  end.
(** C27.  For arbitrary arguments and any pattern of failures: if after every
    multi-edge call or batch that raised a later one returned normally, nothing
    is lost: opening the file again gives the state the process sees. *)
Theorem C27_durable_after_failure :
  forall ord ops auto log c, attempts ord ops (start auto) = (log, c) ->
    (forall before o y later, combine ops log = before ++ (o, Err y) :: later -> multi o = true ->
       exists o', In (o', Ok tt) later /\ commits_all o') ->
    reopen auto (c_comm c) = c.
Proof.
  intros ord ops auto log c H Ho.
  assert (Q : forall o, commits_all o -> rescue o = true).
  { intros o. destruct o; cbn; try easy.
    - destruct e as [| | | |[|[]]]; cbn; easy.
    - destruct es as [|[]]; cbn; easy.
    - destruct e; easy. }
  assert (A : forall ops c0 log c, attempts ord ops c0 = (log, c) -> c_auto c = c_auto c0).
  { clear. induction ops as [|o ops IH]; intros c0 log c H; cbn in H; [now injection H as _ <-|].
    destruct (run_op ord o c0) as [[r c1] t1] eqn:E. destruct (attempts ord ops c1) as [log1 c2] eqn:E2. injection H as _ <-.
    rewrite (IH _ _ _ E2). pose proof (auto_op ord o c0) as A. unfold Rauto, st_of in A. now rewrite E in A. }
  assert (K : forall ops c0 log c, attempts ord ops c0 = (log, c) ->
     (forall before o y later, combine ops log = before ++ (o, Err y) :: later -> multi o = true ->
        exists o', In (o', Ok tt) later /\ commits_all o') ->
     synced c0 \/ (exists o', In (o', Ok tt) (combine ops log) /\ commits_all o') -> synced c).
  { clear - Q. induction ops as [|o ops IH]; intros c0 log c H Ho S; cbn in H.
    - injection H as <- <-. destruct S as [S|(o' & [] & _)]. exact S.
    - destruct (run_op ord o c0) as [[r c1] t1] eqn:E. destruct (attempts ord ops c1) as [log1 c2] eqn:E2. injection H as <- <-.
      apply (IH c1 log1 c2 E2).
      { intros before o1 y later Hc. apply (Ho ((o, r) :: before) o1 y later). cbn [combine app]. now rewrite Hc. }
      destruct S as [S|(o' & Hi & Hc)].
      + destruct r as [[]|y].
        * left. now apply (op_sync ord o c0 (Ok tt) c1 t1 S E).
        * destruct (multi o) eqn:Em; [right; apply (Ho [] o y (combine ops log1)); [reflexivity|exact Em]|].
          left. apply (op_sync ord o c0 (Err y) c1 t1 S E). change (multi o = true -> Err y = Ok tt). now rewrite Em.
      + cbn [combine] in Hi. destruct Hi as [Hi|Hi]; [|right; now exists o'].
        injection Hi as -> ->. left. apply (rescue_commits ord o' c0 c1 t1); [now apply Q|exact E]. }
  pose proof (A _ _ _ _ H) as Ha. cbn in Ha. rewrite <- Ha. apply synced_reopen.
  apply (K ops (start auto) log c H Ho). left. now split.
Qed.
Print Assumptions C27_durable_after_failure.

(** Otherwise they are lost: on SQLite, after a multi-edge add that raised, or a
    batch (of single-edge calls) that raised, nothing that adds of single
    edges, destroy and queries do reaches the disk: after reopening, the
    database is as the failed call left it, whatever those calls returned. *)
Theorem C27_lost_after_failure :
  forall c0 x c tr,
    (exists es t, multi (OAdd (VTup es) t) = true /\ add (VTup es) t c0 = (Err x, c, tr))
    \/ (exists fs, (forall b, In b (List.concat fs) -> forall e t, b = BAdd e t -> multi (OAdd e t) = false)
                    /\ run_op (fun l => l) (OBatch fs) c0 = (Err x, c, tr)) ->
    c_auto c = false ->
    forall ord ops log c', attempts ord ops c = (log, c') ->
      (forall o, In o ops -> (exists e t, o = OAdd e t /\ multi o = false) \/ o = ODestroy \/ exists q, o = OAsk q) ->
      reopen false (c_comm c') = reopen false (c_comm c).
Proof.
  intros c0 x c tr F Ha ord ops log c' H Ho.
  assert (O : forall e t, multi (OAdd e t) = negb (one_edge e)) by (intros [| | | |[|[]]] t; reflexivity).
  assert (Hc : c_cur c <> CNone).
  { destruct F as [(es & t & Hm & E)|(fs & Hb & E)].
    - apply (add_many_raises _ _ _ _ _ _ E). rewrite O in Hm. now apply negb_true_iff in Hm.
    - refine (batch_raises fs _ _ _ _ _ E). apply forallb_forall. intros b Hi. destruct b; cbn; try reflexivity.
      specialize (Hb _ Hi e t eq_refl). rewrite O in Hb. now apply negb_false_iff in Hb. }
  clear F tr. assert (K : c_comm c' = c_comm c); [|now rewrite K].
  revert c log c' Ha Hc H. induction ops as [|o ops IH]; intros c log c' Ha Hc H; cbn in H; [now injection H as _ <-|].
  destruct (run_op ord o c) as [[r c1] t1] eqn:E. destruct (attempts ord ops c1) as [log1 c2] eqn:E2. injection H as _ <-.
  assert (S : always Rstuck (run_op ord o)).
  { pose proof comp_stuck as C. destruct (Ho o (or_introl eq_refl)) as [(e & t & -> & Hm)|[->|[q ->]]]; cbn [run_op].
    - apply al_bind; [exact C| |intros _; now apply al_ret].
      apply (b_add_single Rstuck C stuck_exec (stuck_open true) stuck_close). intros y. apply one_edge_index.
      rewrite O in Hm. now apply negb_false_iff in Hm.
    - apply stuck_destroy.
    - apply stuck_ask. }
  specialize (S c Ha Hc). unfold st_of in S. rewrite E in S. cbn [fst snd] in S. destruct S as (A1 & C1 & D1 & _).
  rewrite <- D1. apply (IH (fun o' Hi => Ho o' (or_intror Hi)) c1 log1 c2 A1 C1 E2).
Qed.
Print Assumptions C27_lost_after_failure.
(** the second and third calls raise, the fourth is committed by the fifth *)
Example C27_nonvacuous : let bad := VTup [VStr (lit "a"); VStr [55296%N]] in
  let r := attempts (fun l => l) [OAdd ex_e1 1; OAdd bad 2; OAddMany [ex_e2; bad] 2; OAdd ex_e3 3; OBatch []] (start false) in
  fst r = [Ok tt; Err UnicodeEncodeError; Err UnicodeEncodeError; Ok tt; Ok tt]
  /\ let c3 := reopen false (c_comm (snd r)) in exists_ ex_e3 c3 = (Ok true, c3, []).
Proof. split; vm_compute; reflexivity. Qed.
(** the add after the failed one returns, is seen, and is lost *)
Example C27_lost_example : let bad := VTup [VStr (lit "a"); VStr [55296%N]] in
  let c := snd (fst (add (VTup [ex_e2; bad]) 2 (start false))) in let r := attempts (fun l => l) [OAdd ex_e3 3] c in
  fst (fst (add (VTup [ex_e2; bad]) 2 (start false))) = Err UnicodeEncodeError /\ c_auto c = false /\ fst r = [Ok tt]
  /\ fst (fst (exists_ ex_e3 (snd r))) = Ok true /\ fst (fst (exists_ ex_e3 (reopen false (c_comm (snd r))))) = Ok false.
Proof. repeat apply conj; vm_compute; reflexivity. Qed.

(** C28 is false for degree and timestamp: after asking for the degree (or the
    timestamp) of a known vertex inside a batch, the next statement of the batch
    raises, although the same calls outside a batch succeed. *)
Theorem C28_degree_in_batch_refuted :
  let e := VTup [VStr (lit "is"); VStr (lit "sky"); VStr (lit "blue")] in let a := VStr (lit "sky") in
  exists c tr, add e 1 (start false) = (Ok e, c, tr)
    /\ degree a c = (Ok 1%Z, c, []) /\ timestamp a c = (Ok 1%Z, c, []) /\ exists_ e c = (Ok true, c, [])
    /\ fst (fst (batch_exec [degree a;; ret tt; exists_ e;; ret tt] c)) = Err ProgrammingError
    /\ fst (fst (batch_exec [timestamp a;; ret tt; exists_ e;; ret tt] c)) = Err ProgrammingError.
Proof.
  intros e a. ran (add e 1) (start false). repeat apply conj; vm_compute; reflexivity.
Qed.
Print Assumptions C28_degree_in_batch_refuted.

(** What holds, for arbitrary arguments: in a batch (shared cursor open,
    whatever was written so far) every query answers as outside of it, and all
    but degree and timestamp leave everything as it is; degree and timestamp do
    so too if they do not find the vertex, otherwise they close the shared
    cursor; and with the cursor closed every call raises and changes nothing. *)
Definition in_batch (c : conn) : conn := Conn (c_auto c) (c_comm c) (c_work c) COpen.
Definition cursor_closed (c : conn) : conn := Conn (c_auto c) (c_comm c) (c_work c) CClosed.
Definition same_answer {A} (q : M A) (c : conn) : Prop :=
  exists r, q c = (r, c, []) /\ q (in_batch c) = (r, in_batch c, []).
Definition same_answer_but_closes {A} (q : M A) (c : conn) : Prop :=
  exists r, q c = (r, c, []) /\ q (in_batch c) = (r, cursor_closed c, []).
Theorem C28_queries_in_batch :
  forall c, c_cur c = CNone ->
    (forall e, same_answer (exists_ e) c) /\ (forall p, same_answer (pattern2edges p) c)
    /\ (forall v, same_answer (star v) c) /\ (forall r, same_answer (symbols_with_root r) c)
    /\ (forall e, same_answer (sources e) c) /\ (forall B (f : value * Z -> B), same_answer (f_all f) c)
    /\ (forall v, (forall d t, ~ In (edge2str v, (d, t)) (vertices (c_work c))) ->
          same_answer (degree v) c /\ same_answer (timestamp v) c)
    /\ (forall v d t, In (edge2str v, (d, t)) (vertices (c_work c)) -> bindable (edge2str v) = true ->
          same_answer_but_closes (degree v) c /\ same_answer_but_closes (timestamp v) c).
Proof.
  intros c Hc. assert (K : compat c (in_batch c)) by (split; [reflexivity|cbn; rewrite Hc; split; discriminate]).
  split; [intros; now apply qq_exists|]. split; [intros; now apply qq_pattern|]. split; [intros; now apply qq_star|].
  split; [intros; now apply qq_symbols|]. split; [intros; now apply qq_sources|]. split; [intros; now apply qq_f_all|].
  destruct c as [au cm wk cu]. cbn in Hc. subst cu. cbn [c_work]. unfold same_answer, same_answer_but_closes, in_batch, cursor_closed.
  cbn [c_auto c_comm c_work]. split.
  - intros v H. assert (N : vlook (edge2str v) wk = None).
    { unfold vlook. destruct (find (vkey (edge2str v)) (vertices wk)) as [[i [d t]]|] eqn:E; [|reflexivity].
      apply find_some in E as [E1 E2]. unfold vkey in E2. apply str_eqb_eq in E2. cbn in E2. subst i. now apply H in E1. }
    split.
    + unfold degree, bind. rewrite !open_true. unfold hd_of, query, usable. cbn [c_cur c_work negb].
      destruct (forallb bindable [edge2str v]); cbn [negb]; [|now exists (Err UnicodeEncodeError)]. rewrite N. now exists (Ok 0%Z).
    + unfold timestamp, bind. rewrite !open_true. unfold hd_of, query, usable. cbn [c_cur c_work negb].
      destruct (forallb bindable [edge2str v]); cbn [negb]; [|now exists (Err UnicodeEncodeError)]. rewrite N. now exists (Ok (-1)%Z).
  - intros v d t H B. assert (N : exists p, vlook (edge2str v) wk = Some p).
    { unfold vlook. destruct (find (vkey (edge2str v)) (vertices wk)) as [[i p]|] eqn:E; [now exists p|].
      apply (find_none _ _ E) in H. unfold vkey in H. cbn in H. now rewrite str_eqb_refl in H. }
    destruct N as [[d0 t0] N]. assert (Hb : forallb bindable [edge2str v] = true) by (cbn [forallb]; now rewrite B). split.
    + unfold degree, bind. rewrite !open_true. unfold hd_of, query, usable. cbn [c_cur c_work negb]. rewrite Hb. cbn [negb].
      rewrite N. now exists (Ok d0).
    + unfold timestamp, bind. rewrite !open_true. unfold hd_of, query, usable. cbn [c_cur c_work negb]. rewrite Hb. cbn [negb].
      rewrite N. now exists (Ok t0).
Qed.
Print Assumptions C28_queries_in_batch.
Theorem C28_closed_cursor :
  forall c, c_cur c = CClosed ->
    (forall ord o, o <> OReopen -> (forall fs, o <> OBatch fs) -> exists x, run_op ord o c = (Err x, c, []))
    /\ (forall r, exists x, symbols_with_root r c = (Err x, c, []))
    /\ (forall B (f : value * Z -> B), exists x, f_all f c = (Err x, c, [])).
Proof.
  intros c Hc. split; [intros ord o N1 N2; now apply closed_op|]. split; [intros r; now apply closed_symbols|].
  intros B f. now apply closed_f_all.
Qed.
Print Assumptions C28_closed_cursor.
Example C28_nonvacuous : c_cur ex_c = CNone /\ fst (fst (exists_ ex_e1 (in_batch ex_c))) = Ok true
  /\ fst (fst (degree (VStr (lit "mary")) (in_batch ex_c))) <> Ok 0%Z
  /\ c_cur (snd (fst (degree (VStr (lit "mary")) (in_batch ex_c)))) = CClosed
  /\ c_cur (snd (fst (degree (VStr (lit "unknown")) (in_batch ex_c)))) = COpen.
Proof. split; [vm_compute; reflexivity|]. split; [vm_compute; reflexivity|]. split; [vm_compute; discriminate|]. split; vm_compute; reflexivity. Qed.
