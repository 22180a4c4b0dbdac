(** * C_within.v -- property theorems C81-C82 (what functions do within a batch) *)

From Verif Require Import Py M_symbol M_edge M_sql M_hypergraph P_py Spec P_edge P_perm P_range P_query
  S_history M_driver P_ops P_hist P_graph P_answers P_rows P_crash P_stuck C_graph C_crash.
From Coq Require Import Permutation Factorial String.
Open Scope list_scope.

(** queries do not change the connection (cf. C78) *)
Lemma exists_same e c : exists r, exists_ e c = (r, c, []).
Proof. destruct (qq_exists e c c (compat_refl c)) as (r & E & _). now exists r. Qed.
Lemma star_same v c : exists r, star v c = (r, c, []).
Proof. destruct (qq_star v c c (compat_refl c)) as (r & E & _). now exists r. Qed.

(** ** C81: all or nothing *)

(** The calls a function of the batch makes: adds of single edges, destroy and
    queries (all but removals and adds of lists of edges). *)
Definition keeps_batch (o : op) : Prop :=
  (exists e t, o = OAdd e t /\ multi o = false) \/ o = ODestroy \/ exists q, o = OAsk q.
Definition funs_of (ord : list value -> list value) (fs : list (list op)) : list (M unit) :=
  List.map (fun f => mfor f (run_op ord)) fs.

Lemma keeps_stuck ord o : keeps_batch o -> always Rstuck (run_op ord o).
Proof.
  pose proof comp_stuck as C.
  assert (O : forall e t, multi (OAdd e t) = negb (one_edge e)) by (intros [| | | |[|[]]] t; reflexivity).
  intros [(e & t & -> & Hm)|[->|[q ->]]]; cbn [run_op].
  - apply al_bind; [exact C| |intros _; now apply al_ret].
    apply (b_add_single Rstuck C stuck_exec (stuck_open true) stuck_close). intros y. apply one_edge_index.
    rewrite O in Hm. now apply negb_false_iff in Hm.
  - apply stuck_destroy.
  - apply stuck_ask.
Qed.
Lemma mfor_stuck {A} (l : list A) (f : A -> M unit) : (forall x, In x l -> always Rstuck (f x)) -> always Rstuck (mfor l f).
Proof.
  pose proof comp_stuck as C. induction l as [|x l IH]; intros H; cbn [mfor]; [now apply al_ret|].
  apply al_bind; [exact C|apply H; now left|]. intros _. apply IH. intros y Hy. apply H. now right.
Qed.

(** C81, for arbitrary arguments, including ones that make a call raise half-way
    or a query in the batch that closes its cursor (C28): on SQLite, outside a batch. *)
Theorem C81_batch_atomic :
  forall ord fs c r c' tr, (forall o, In o (List.concat fs) -> keeps_batch o) ->
    c_auto c = false -> c_cur c = CNone -> batch_exec (funs_of ord fs) c = (r, c', tr) ->
    (forall d, died (batch_exec (funs_of ord fs)) c d -> d = c_comm c \/ (r = Ok tt /\ d = c_comm c'))
    /\ (r = Ok tt /\ reopen false (c_comm c') = c' \/ (exists y, r = Err y) /\ c_comm c' = c_comm c).
Proof.
  intros ord fs c r c' tr H Ha Hc E.
  assert (S : always Rstuck (mfor (funs_of ord fs) (fun f => f))).
  { apply mfor_stuck. intros m Hm. apply in_map_iff in Hm as (f & <- & Hf). apply mfor_stuck. intros o Ho. apply keeps_stuck, H.
    apply in_concat. now exists f. }
  assert (K : (forall d, In d tr -> d = c_comm c \/ (r = Ok tt /\ d = c_comm c'))
    /\ (r = Ok tt /\ reopen false (c_comm c') = c' \/ (exists y, r = Err y) /\ c_comm c' = c_comm c)).
  { unfold batch_exec, bind in E. rewrite (open_false c Hc) in E. specialize (S (opened c) Ha). unfold st_of, tr_of in S.
    destruct (mfor (funs_of ord fs) (fun f => f) (opened c)) as [[[u|y] c1] t1] eqn:L; cbn [fst snd] in S;
      destruct S as (A1 & C1 & D1 & T1); try (cbn; discriminate); cbn [opened c_comm] in D1, T1.
    - rewrite close_false in E. destruct (c_cur c1) eqn:Cu; [now elim C1| |]; injection E as <- <- <-; cbn [c_comm app];
        (split; [|left; split; [reflexivity|unfold reopen; now rewrite A1]]);
        intros d Hd; (apply in_app_iff in Hd as [Hd|[<-|[]]]; [left; now apply T1|right; now split]).
    - injection E as <- <- <-. cbn [app]. split; [|right; split; [now exists y|exact D1]]. intros d Hd. left. now apply T1. }
  destruct K as [K1 K2]. split; [|exact K2]. intros d [->|Hd]; [now left|]. rewrite E in Hd. now apply K1.
Qed.
Print Assumptions C81_batch_atomic.
(** one batch that returns normally and one that raises in its second function *)
Definition fs81 : list (list op) := [[OAdd new_e5 1; OAsk (QExists new_e5); OAsk (QDegree (VStr (lit "nobody")))]; [OAdd new_e6 2; OAsk (QDegree (VStr (lit "mary")))]].
Definition fs81_bad : list (list op) := [[OAdd new_e5 1]; [OAdd (VTup [VStr (lit "a"); VStr [55296%N]]) 2]].
Example C81_nonvacuous : let id := fun l : list value => l in
  (forall o, In o (List.concat fs81 ++ List.concat fs81_bad) -> keeps_batch o)
  /\ reached plain_values ex_ops ex_c /\ c_auto ex_c = false /\ c_cur ex_c = CNone
  /\ fst (fst (batch_exec (funs_of id fs81) ex_c)) = Ok tt
  /\ fst (fst (exists_ new_e6 (snd (fst (batch_exec (funs_of id fs81) ex_c))))) = Ok true
  /\ fst (fst (batch_exec (funs_of id fs81_bad) ex_c)) = Err UnicodeEncodeError
  /\ (10 < List.length (snd (batch_exec (funs_of id fs81_bad) ex_c)))%nat.
Proof.
  split.
  { intros o Ho. unfold fs81, fs81_bad in Ho. cbn [List.concat app In] in Ho. unfold keeps_batch. repeat (destruct Ho as [<-|Ho]; [first [left; eexists; eexists; split; [reflexivity|reflexivity]|right; right; eexists; reflexivity]|]). easy. }
  split; [exact ex_reached|]. split; [vm_compute; reflexivity|]. split; [vm_compute; reflexivity|]. split; [vm_compute; reflexivity|].
  split; [vm_compute; reflexivity|]. split; [vm_compute; reflexivity|]. apply Nat.ltb_lt. vm_compute. reflexivity.
Qed.
(** With a removal in the batch it is false: the process may die when the first
    function's edge is on the disk and the removal has happened by half. *)
Theorem C81_remove_in_batch_refuted :
  reached plain_values ex_ops ex_c /\ c_auto ex_c = false
  /\ exists d, died (batch_exec [add new_e5 1;; ret tt; remove ex_e3]) ex_c d
    /\ let c := reopen false d in
       exists_ new_e5 c = (Ok true, c, []) /\ exists_ ex_e3 c = (Ok false, c, [])
       /\ exists l, star (VStr (lit "mary")) c = (Ok l, c, []) /\ In ex_e3 l.
Proof.
  split; [exact ex_reached|]. split; [vm_compute; reflexivity|].
  set (tr := snd (batch_exec [add new_e5 1;; ret tt; remove ex_e3] ex_c)).
  set (good := fun d => let c := reopen false d in
    match fst (fst (exists_ new_e5 c)), fst (fst (exists_ ex_e3 c)), fst (fst (star (VStr (lit "mary")) c)) with
    | Ok true, Ok false, Ok l => memb ex_e3 l | _, _, _ => false end).
  assert (F : exists d, In d tr /\ good d = true).
  { destruct (find good tr) as [d|] eqn:E; [exists d; exact (find_some _ _ E)|]. exfalso. revert E.
    assert (X : match find good tr with Some _ => true | None => false end = true) by (vm_compute; reflexivity). destruct (find good tr); discriminate. }
  destruct F as (d & Hd & G). exists d. split; [exact (or_intror Hd)|]. cbv zeta. unfold good in G. cbv zeta in G.
  destruct (exists_same new_e5 (reopen false d)) as (r1 & E1). rewrite E1 in *. cbn [fst] in G.
  destruct (exists_same ex_e3 (reopen false d)) as (r2 & E2). rewrite E2 in *. cbn [fst] in G.
  destruct (star_same (VStr (lit "mary")) (reopen false d)) as (r3 & E3). rewrite E3 in *. cbn [fst] in G.
  destruct r1 as [[|]|]; [|discriminate G|discriminate G]. destruct r2 as [[|]|]; [discriminate G| |discriminate G]. destruct r3 as [l|]; [|discriminate G].
  split; [reflexivity|]. split; [reflexivity|]. exists l. split; [reflexivity|]. apply memb_in. exact G.
Qed.
Print Assumptions C81_remove_in_batch_refuted.

(** ** C82: adding a list of edges within a batch *)

(** What a function of the batch does, now also adds of lists of edges. *)
Inductive bstep := One (b : bop) | Many (es : list value) (t : Z).
Definition run_bstep (s : bstep) : M unit := match s with One b => run_bop b | Many es t => add (VTup es) t;; ret tt end.
Definition bstep_in (V : value -> Prop) (s : bstep) : Prop :=
  match s with One b => bop_in V b | Many es t => (es <> [] /\ Forall (edge_in V) es) /\ int64 t = true end.
Definition is_many (s : bstep) : bool := match s with One _ => false | Many _ _ => true end.
Definition after_bstep (h : list ev) (s : bstep) : list ev :=
  match s with One b => after_bop h b | Many es t => fold_left (fun h e => EAdd e t :: h) es h end.

Lemma shared_live V h h' (body : M unit) c fs : goesf V h h' body tt fs -> live c -> Inv V (c_work c) h ->
  exists tr, (do cur <- open_cursor false; body;; close_cursor cur false true) c
     = (Ok tt, Conn (c_auto c) (runs fs (c_work c)) (runs fs (c_work c)) CNone, tr)
  /\ Inv V (runs fs (c_work c)) h'.
Proof.
  intros G L I. set (c0 := Conn (c_auto c) (c_comm c) (c_work c) COpen).
  destruct (G c0) as ((c1 & tr & E & S) & I'); [easy|exact I|].
  assert (O : open_cursor false c = (Ok HShared, c0, [])).
  { unfold open_cursor, bind, get_cur, set_cur, ret, c0. destruct c as [au cm wk cu]. cbn [c_cur c_auto c_comm c_work].
    destruct cu; [reflexivity|reflexivity|now elim L]. }
  pose proof (st_cur _ _ _ _ _ S) as Hc1. cbn in Hc1.
  pose proof (st_work _ _ _ _ _ S) as Hw1. pose proof (st_auto _ _ _ _ _ S) as Ha1. cbn in Hw1, Ha1.
  eexists. split; [|exact I']. unfold bind. rewrite O, E, close_false, Hc1, Hw1, Ha1. reflexivity.
Qed.
Lemma many_live V h es t c : noalias V -> es <> [] -> Forall (edge_in V) es -> int64 t = true -> live c -> Inv V (c_work c) h ->
  exists tr w, (add (VTup es) t;; ret tt) c = (Ok tt, Conn (c_auto c) w w CNone, tr)
    /\ w = runs (loop_fs (fun h e => EAdd e t :: h) (fun h e => add_fs h e t) es h) (c_work c)
    /\ Inv V w (fold_left (fun h e => EAdd e t :: h) es h).
Proof.
  intros HV Hn Hes Ht L I. destruct (index0_edges V es Hn Hes) as (a & E0 & Ea).
  assert (G : goesf V h (fold_left (fun h e => EAdd e t :: h) es h) (many_loop (VTup es) t) tt
                 (loop_fs (fun h e => EAdd e t :: h) (fun h e => add_fs h e t) es h)).
  { unfold many_loop. apply (goesf_lift V h _ _ _ es); [reflexivity|]. apply goesf_mfor. intros x h' Hx. apply (goesf_bind_ret V h' _ _ x).
    apply goesf_add_raw; [exact HV| |exact Ht]. rewrite Forall_forall in Hes. now apply Hes. }
  destruct (shared_live V h _ _ c _ G L I) as (tr & E & I'). eexists. eexists. split; [|split; [reflexivity|exact I']].
  rewrite (bind_ext_l _ _ _ _ (add_many_shape (VTup es) t c a E0 Ea)). unfold bind at 1 2. rewrite E. reflexivity.
Qed.

(** a connection with the batch still on, and one outside that made the same calls *)
Record pair (V : value -> Prop) (h : list ev) (c1 c2 : conn) : Prop := {
  pr_live : live c1; pr_auto : c_auto c1 = c_auto c2; pr_work : c_work c1 = c_work c2;
  pr_out : ready V c2 h; pr_on : c_cur c1 = COpen \/ c1 = c2 }.
Lemma pair_step V h c1 c2 s : noalias V -> bstep_in V s -> pair V h c1 c2 ->
  exists c1' c2' t1 t2, run_bstep s c1 = (Ok tt, c1', t1) /\ run_bstep s c2 = (Ok tt, c2', t2)
    /\ pair V (after_bstep h s) c1' c2' /\ (is_many s = true -> c1' = c2') /\ (is_many s = false -> c_cur c1' = c_cur c1) /\ (c1 = c2 -> c1' = c2').
Proof.
  intros HV Hs [L A W R On]. pose proof (rd_inv _ _ _ R) as I. destruct s as [b|es t]; cbn [run_bstep bstep_in is_many after_bstep] in *.
  - pose proof (goesf_bop V h b HV Hs) as G. destruct (goesf_top V h _ _ _ c2 _ G R) as (t2 & E2).
    assert (I1 : Inv V (c_work c1) h) by (now rewrite W).
    destruct (G c1 L I1) as ((c1' & t1 & E1 & S1) & I'). rewrite W in I'.
    pose proof (st_cur _ _ _ _ _ S1) as Cu. pose proof (st_work _ _ _ _ _ S1) as Wk. pose proof (st_auto _ _ _ _ _ S1) as Au. rewrite W in Wk.
    assert (X : c1 = c2 -> c1' = Conn (c_auto c2) (runs (bop_fs h b) (c_work c2)) (runs (bop_fs h b) (c_work c2)) CNone).
    { intros ->. rewrite E1 in E2. now injection E2. }
    eexists. eexists. exists t1, t2. split; [exact E1|]. split; [exact E2|]. split.
    { constructor; cbn [c_auto c_work c_cur].
      - unfold live. now rewrite Cu.
      - congruence.
      - exact Wk.
      - constructor; [reflexivity|reflexivity|exact I'].
      - destruct On as [On|On]; [left; congruence|right; now apply X]. }
    split; [discriminate|]. split; [intros; exact Cu|exact X].
  - destruct Hs as [[Hn Hes] Ht]. destruct (many_live V h es t c1 HV Hn Hes Ht L) as (t1 & w1 & E1 & W1 & _); [now rewrite W|].
    destruct (many_live V h es t c2 HV Hn Hes Ht (ready_live _ _ _ R) I) as (t2 & w2 & E2 & W2 & I2).
    assert (w1 = w2) as -> by (rewrite W1, W2; now rewrite W). rewrite A in E1.
    eexists. eexists. exists t1, t2. split; [exact E1|]. split; [exact E2|]. split.
    { constructor; cbn [c_auto c_work c_cur]; try reflexivity; [discriminate| |now right]. constructor; [reflexivity|reflexivity|exact I2]. }
    split; [reflexivity|]. split; [discriminate|reflexivity].
Qed.
Lemma pair_steps V ss : noalias V -> Forall (bstep_in V) ss -> forall h c1 c2, pair V h c1 c2 ->
  exists c1' c2' t1 t2, mfor ss run_bstep c1 = (Ok tt, c1', t1) /\ mfor ss run_bstep c2 = (Ok tt, c2', t2)
    /\ pair V (fold_left after_bstep ss h) c1' c2'
    /\ (existsb is_many ss = true \/ c1 = c2 -> c1' = c2') /\ (existsb is_many ss = false -> c_cur c1' = c_cur c1).
Proof.
  intros HV. induction 1 as [|s ss Hs Hss IH]; intros h c1 c2 P.
  - exists c1, c2, [], []. split; [reflexivity|]. split; [reflexivity|]. split; [exact P|]. cbn [existsb]. split; [intros [X|X]; [discriminate|exact X]|reflexivity].
  - destruct (pair_step V h c1 c2 s HV Hs P) as (a1 & a2 & t1 & t2 & E1 & E2 & P1 & M1 & N1 & Q1).
    destruct (IH _ a1 a2 P1) as (b1 & b2 & u1 & u2 & F1 & F2 & P2 & M2 & N2).
    exists b1, b2, (t1 ++ u1), (t2 ++ u2). cbn [mfor fold_left existsb]. unfold bind. rewrite E1, E2, F1, F2.
    split; [reflexivity|]. split; [reflexivity|]. split; [exact P2|]. split.
    + intros X. apply M2. destruct (is_many s) eqn:K; [right; now apply M1|]. destruct X as [X|X]; [now left|right; now apply Q1].
    + intros X. apply orb_false_iff in X as [X1 X2]. rewrite (N2 X2). now apply N1.
Qed.

(** C82.  If any of the functions adds a list of edges, batch_exec raises
    AttributeError when all of them are done; yet everything they did is there and
    on the disk, exactly as if they had been run outside a batch, and the
    connection is as after a call that returned normally.  If none does, it
    returns normally. *)
Theorem C82_list_of_edges_in_a_batch :
  forall V ops c fs, noalias V -> reached V ops c -> Forall (bstep_in V) (List.concat fs) ->
    let funs := List.map (fun f => mfor f run_bstep) fs in
    exists c' tr tr', mfor funs (fun f => f) c = (Ok tt, c', tr')
      /\ batch_exec funs c = (if existsb is_many (List.concat fs) then Err AttributeError else Ok tt, c', tr)
      /\ reopen (c_auto c') (c_comm c') = c'
      /\ (forall es t e, In (Many es t) (List.concat fs) -> In e es ->
            (forall s, In s (List.concat fs) -> s <> One (BRemove e) /\ s <> One BDestroy /\ forall l, s = One (BRemoveMany l) -> ~ In e l) ->
            exists_ e c' = (Ok true, c', [])).
Proof.
  intros V ops c fs HV Hr Hfs funs. pose proof (reached_ready V ops c HV Hr) as R. set (h := history ops) in *. set (ss := List.concat fs) in *.
  set (c0 := Conn (c_auto c) (c_comm c) (c_work c) COpen).
  assert (P : pair V h c0 c). { constructor; [discriminate|reflexivity|reflexivity|exact R|now left]. }
  destruct (pair_steps V ss HV Hfs h c0 c P) as (c1 & c' & t1 & t2 & E1 & E2 & [L A W R' On] & M & N).
  assert (N1 : mfor funs (fun f => f) c0 = (Ok tt, c1, t1)) by (unfold funs; rewrite mfor_nested; exact E1).
  assert (N2 : mfor funs (fun f => f) c = (Ok tt, c', t2)) by (unfold funs; rewrite mfor_nested; exact E2).
  assert (Z : Conn (c_auto c1) (c_work c1) (c_work c1) CNone = c').
  { rewrite A, W. destruct R' as [X1 X2 _]. destruct c' as [au cm wk cu]. cbn in *. now subst. }
  exists c', ([] ++ t1 ++ [c_work c1]), t2. split; [exact N2|]. split; [|split].
  - unfold batch_exec, bind. rewrite (open_false c (rd_cur _ _ _ R)). change (opened c) with c0. rewrite N1, close_false, Z.
    destruct (existsb is_many ss) eqn:K.
    + assert (c_cur c1 = CNone) as -> by (rewrite (M (or_introl eq_refl)); apply R'). reflexivity.
    + rewrite (N eq_refl). reflexivity.
  - apply synced_reopen. split; apply R'.
  - intros es t e Hm He Hno.
    assert (Ed : edge_in V e). { rewrite Forall_forall in Hfs. destruct (Hfs _ Hm) as [[_ X] _]. rewrite Forall_forall in X. now apply X. }
    apply (ready_exists_true V c' _ e HV R' Ed). clear - Hm He Hno. generalize h. clear h. induction ss as [|s ss IH]; intros h; [easy|]. cbn [fold_left].
    destruct Hm as [->|Hm]; [|apply IH; [exact Hm|intros x Hx; apply Hno; now right]].
    assert (P : present (after_bstep h (Many es t)) e). { cbn [after_bstep]. apply present_adds. now left. }
    revert P. generalize (after_bstep h (Many es t)).
    assert (Hno' : forall s, In s ss -> s <> One (BRemove e) /\ s <> One BDestroy /\ forall l, s = One (BRemoveMany l) -> ~ In e l) by (intros s Hs; apply Hno; now right).
    clear - Hno'. induction ss as [|s ss IH]; intros h P; cbn [fold_left]; [exact P|]. apply IH; [intros x Hx; apply Hno'; now right|].
    destruct (Hno' s (or_introl eq_refl)) as (N1 & N2 & N3). destruct s as [[a u|a|as_| |a|p|a|r|]|es u]; cbn [after_bstep after_bop]; try exact P.
    + apply present_add. now right.
    + apply present_rem. split; [|exact P]. intros ->. now apply N1.
    + apply present_rems. split; [now apply N3|exact P].
    + now elim N2.
    + apply present_adds. now right.
Qed.
Print Assumptions C82_list_of_edges_in_a_batch.

(** the second function adds a list of two edges: the call raises, all is stored *)
Definition fs82 : list (list bstep) := [[One (BAdd new_e5 1)]; [Many [ex_e1; new_e6] 2; One (BRemove ex_e3)]; [One (BExists ex_e2)]].
Example C82_nonvacuous : reached plain_values ex_ops ex_c /\ Forall (bstep_in plain_values) (List.concat fs82)
  /\ fst (fst (batch_exec (List.map (fun f => mfor f run_bstep) fs82) ex_c)) = Err AttributeError
  /\ fst (fst (exists_ new_e6 (snd (fst (batch_exec (List.map (fun f => mfor f run_bstep) fs82) ex_c))))) = Ok true.
Proof.
  split; [exact ex_reached|]. split.
  { cbn [fs82 List.concat app]. apply Forall_cons; [edge_ok|]. apply Forall_cons.
    { split; [|reflexivity]. split; [discriminate|]. apply Forall_cons; [edge_ok|]. apply Forall_cons; [edge_ok|apply Forall_nil]. }
    apply Forall_cons; [edge_ok|]. apply Forall_cons; [edge_ok|apply Forall_nil]. }
  split; vm_compute; reflexivity.
Qed.
