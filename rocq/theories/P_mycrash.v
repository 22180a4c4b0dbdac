(** * P_mycrash.v -- MySQL: adding an edge to tables that an interrupted call left *)

From Verif Require Import Py M_symbol M_edge M_sql M_mysql M_hypergraph P_py Spec P_edge P_perm P_range P_query
  S_history M_driver P_ops P_hist P_graph P_rows P_answers P_crash S_steps M_steps P_steps P_mysql.
From Coq Require Import Permutation Factorial String.
Open Scope list_scope.

(** ** the tables at the crash points *)

Lemma states_firstn fs w d : In d (states fs w) <-> exists j, d = runs (firstn j fs) w.
Proof.
  revert w. induction fs as [|f fs IH]; intros w; cbn [states].
  - split; [intros [<-|[]]; now exists O|]. intros (j & ->). left. now rewrite firstn_nil.
  - cbn [In]. rewrite IH. split.
    + intros [<-|(j & ->)]; [now exists O|]. now exists (S j).
    + intros ([|j] & ->); [now left|]. right. now exists j.
Qed.
Lemma states_prefix fs gs w : In (runs fs w) (states (fs ++ gs) w).
Proof. apply P_ops.states_app. left. apply states_last. Qed.

(** at a crash point of add, a first part of the edge's rows is there *)
Lemma add_states_rows V e t w d : edge_in V e -> (forall r, is_row (elems e) r -> ~ In r (perms w)) -> In d (states (add_upds e t) w) ->
  exists j, forall r, is_row (elems e) r -> (In r (perms d) <-> In r (firstn j (rows_of (elems e)))).
Proof.
  intros He N Hd. unfold add_upds in Hd. rewrite app_assoc in Hd. apply P_ops.states_app in Hd as [Hd|Hd].
  - exists O. intros r Hr. cbn. split; [|easy]. intros Hi. apply (N r Hr). revert Hi.
    assert (P : perms d = perms w); [|now rewrite P].
    revert d Hd. apply states_inv; [reflexivity|]. intros f d Hf <-. apply in_app_iff in Hf as [Hf|[<-|[]]].
    + apply in_map_iff in Hf as (x & <- & _). apply perms_touch.
    + apply perms_set.
  - apply states_firstn in Hd as (j & ->). exists j. intros r Hr. rewrite firstn_map, perms_ins_runs, runs_app. cbn [runs fold_left].
    rewrite perms_set. change (fold_left (fun w0 f => f w0) ?a ?b) with (runs a b). rewrite touch_perms_runs. pose proof (N r Hr). tauto.
Qed.
(** at a crash point of remove, a last part *)
Lemma nodup_skip {A} (l : list A) j r : NoDup l -> (In r l /\ ~ In r (firstn j l) <-> In r (skipn j l)).
Proof.
  intros N. rewrite <- (firstn_skipn j l) in N. pose proof (firstn_skipn j l) as E. split.
  - intros [H1 H2]. rewrite <- E in H1. apply in_app_iff in H1. tauto.
  - intros H. split; [rewrite <- E; apply in_app_iff; tauto|]. intros H1. apply in_split in H1 as (a & b & E1). rewrite E1, <- app_assoc in N. cbn [app] in N.
    apply NoDup_remove_2 in N. apply N. rewrite !in_app_iff. tauto.
Qed.
Lemma rem_states_rows V e w d : edge_in V e -> (forall r, is_row (elems e) r -> In r (perms w)) -> In d (states (rem_upds e) w) ->
  exists j, forall r, is_row (elems e) r -> (In r (perms d) <-> In r (skipn j (rows_of (elems e)))).
Proof.
  intros He N Hd. pose proof (rows_nodup e (edge_in_db _ _ He)) as Nd. unfold rem_upds in Hd. apply P_ops.states_app in Hd as [Hd|Hd].
  - exists O. intros r Hr. cbn [skipn]. assert (P : perms d = perms w).
    { revert d Hd. apply states_inv; [reflexivity|]. intros f d Hf <-. apply in_map_iff in Hf as (x & <- & _). reflexivity. }
    rewrite P, rows_of_spec by now apply (elems_nonnil V). pose proof (N r Hr). tauto.
  - apply P_ops.states_app in Hd as [Hd|Hd].
    + apply states_firstn in Hd as (j & ->). exists j. intros r Hr. rewrite <- (nodup_skip _ _ _ Nd), firstn_map, perms_del_runs, inc_perms_runs.
      rewrite rows_of_spec by now apply (elems_nonnil V). pose proof (N r Hr). tauto.
    + exists (List.length (rows_of (elems e))). intros r Hr. rewrite skipn_all2 by lia.
      assert (P : perms d = perms (runs (List.map del_perm (rows_of (elems e))) (runs (List.map (fun x => inc_row (edge2str x) (-1)) (elems e)) w))).
      { destruct Hd as [<-|[<-|[]]]; [reflexivity|]. apply perms_del. }
      rewrite P, perms_del_runs, rows_of_spec by now apply (elems_nonnil V). cbn. tauto.
Qed.

(** ** one add on MySQL *)

Lemma pfor_app {A} (l1 l2 : list A) (f : A -> prog unit) c :
  run_on (pfor (l1 ++ l2) f) c = bind (run_on (pfor l1 f)) (fun _ => run_on (pfor l2 f)) c.
Proof.
  revert c. induction l1 as [|x l1 IH]; intros c; cbn [app pfor].
  - unfold bind. change (run_on (pret tt) c) with (@Ok unit tt, c, @nil db). cbv iota beta. destruct (run_on (pfor l2 f) c) as [[r c1] t1]. reflexivity.
  - rewrite run_on_bind. unfold bind at 2. rewrite run_on_bind. unfold bind. destruct (run_on (f x) c) as [[[a|y] c1] t1]; [|reflexivity].
    rewrite IH. unfold bind. destruct (run_on (pfor l1 f) c1) as [[[b|y] c2] t2]; [|reflexivity].
    destruct (run_on (pfor l2 f) c2) as [[r c3] t3]. now rewrite app_assoc.
Qed.

Lemma perm_repeat r c : c_auto c = true -> c_cur c = CNone -> bindable r = true -> In r (perms (c_work c)) ->
  run_on (p_write_edge_permutation r) c = (Err IntegrityError, Conn true (c_work c) (c_work c) CNone, [c_work c]).
Proof.
  intros Ha Hc B Hi. destruct c as [au cm wk cu]. cbn [c_auto c_cur c_work] in *. subst au cu.
  assert (X1 : execute_on HLocal (UpdPerm r) (Conn true cm wk CNone) = (Ok O, Conn true wk wk CNone, [wk])).
  { unfold execute_on. change (usable HLocal (Conn true cm wk CNone)) with true. rewrite (binds_text (UpdPerm r) B I). reflexivity. }
  assert (X2 : execute_on HLocal (InsPerm r) (Conn true wk wk CNone) = (Err IntegrityError, Conn true wk wk CNone, [])).
  { unfold execute_on. change (usable HLocal (Conn true wk wk CNone)) with true. rewrite (binds_text (InsPerm r) B I).
    cbn [negb c_auto c_work c_cur]. unfold engine. cbn [sql_run_my].
    assert (E : existsb (fun r0 => str_eqb (my_key r) (my_key r0)) (perms wk) = true) by (apply existsb_exists; exists r; split; [exact Hi|apply str_eqb_refl]).
    rewrite E. reflexivity. }
  unfold p_write_edge_permutation, p_update_or_insert. rewrite run_on_bind. unfold bind.
  change (run_on (p_open_cursor true) (Conn true cm wk CNone)) with (@Ok handle HLocal, Conn true cm wk CNone, @nil db). cbv iota beta zeta.
  rewrite run_on_bind. unfold bind. change (run_on (pact (AExec HLocal (UpdPerm r)))) with (bind (execute_on HLocal (UpdPerm r)) (fun x => lift (Ok x))).
  unfold bind. rewrite X1. unfold lift, ret. cbv iota beta zeta. rewrite run_on_bind. unfold bind. change (Nat.eqb 0 0) with true. cbv iota beta zeta.
  rewrite run_on_bind. unfold bind. change (run_on (pact (AExec HLocal (InsPerm r)))) with (bind (execute_on HLocal (InsPerm r)) (fun x => lift (Ok x))).
  unfold bind. rewrite X2. reflexivity.
Qed.

(** Adding an edge that exists does not find, in any tables: the rows [a] are
    written until one is met that is there. *)
Definition part_upds (e : value) (t : Z) (a : list str) : list upd :=
  List.map (fun x => touch (edge2str x) t) (elems e) ++ [set_row (edge2str e) (0%Z, t)] ++ List.map ins_perm a.
Lemma add_on V e t c a b : edge_in V e -> int64 t = true -> short_texts e ->
  c_auto c = true -> c_cur c = CNone -> c_comm c = c_work c -> NoDup (keys (c_work c)) -> gives (exists_ e) c false ->
  vlook (edge2str e) (c_work c) <> Some (0%Z, t) ->
  rows_of (elems e) = a ++ b -> (forall r, In r a -> ~ In r (perms (c_work c))) -> (forall r b', b = r :: b' -> In r (perms (c_work c))) ->
  exists c' tr, run_on (p_add e t) c = (match b with [] => Ok e | _ => Err IntegrityError end, c', tr)
    /\ c_auto c' = true /\ c_cur c' = CNone /\ c_comm c' = c_work c' /\ c_work c' = runs (part_upds e t a) (c_work c).
Proof.
  intros He Ht Hs Ha Hc Hy Hk G Hv Er Hna Hb. pose proof (edge_in_db _ _ He) as De. destruct (db_edge_elems e De) as (Ee & Ae & Le).
  assert (L : live c) by (unfold live; now rewrite Hc).
  assert (Hn : elems e <> []) by (intros E; rewrite E in Le; cbn in Le; lia). destruct (short_vertex e De Hs) as [Hse Hsx].
  assert (Hx : forall x, In x (elems e) -> db_vertex x = true) by (intros x; apply (elems_db V); exact He).
  set (us := List.map (fun x => touch (edge2str x) t) (elems e)).
  assert (Kk : forall l1 l2, elems e = l1 ++ l2 -> NoDup (keys (runs (List.map (fun x => touch (edge2str x) t) l1) (c_work c)))).
  { intros l1 l2 _. apply runs_inv; [exact Hk|]. intros f d Hf. apply in_map_iff in Hf as (x & <- & _). apply nodup_touch. }
  assert (Lp : run_on (pfor (elems e) (p_add_vertex t)) c = run (pfor (elems e) (p_add_vertex t)) c).
  { apply (same_for _ _ (fun x => touch (edge2str x) t) (fun x w => NoDup (keys w))); [| |exact L].
    - intros x c1 Hi L1 K1. split; [now apply add_vertex_same; auto|].
      destruct (touch_does x t c1 L1 (Hx x Hi) Ht) as (c2 & t2 & E2 & S2). exists c2, t2. split; [|exact S2]. now rewrite run_add_vertex.
    - intros l1 x l2 E. now apply (Kk l1 (x :: l2)). }
  assert (D : does true (run (pfor (elems e) (p_add_vertex t))) c tt us).
  { unfold us. rewrite <- flat_map_single. unfold does.
    assert (Rr : run (pfor (elems e) (p_add_vertex t)) c = mfor (elems e) (fun x => do found <- inc_degree (edge2str x); if found then ret tt else add_str (edge2str x) 1 t) c)
      by (apply ir_for; intros x c0; apply run_add_vertex).
    rewrite Rr. apply (mfor_does true _ _ (fun x => [touch (edge2str x) t])); [exact L|]. intros x c' Hi L'. apply touch_does; [exact L'|now apply Hx|exact Ht]. }
  destruct D as (c1 & t1 & E1 & S1). pose proof (st_work _ _ _ _ _ S1) as W1.
  assert (L1 : live c1) by (unfold live; now rewrite (st_cur _ _ _ _ _ S1)).
  assert (X1 : run_on (p_add_str (edge2str e) 0 t) c1 = run (p_add_str (edge2str e) 0 t) c1).
  { apply add_str_same; [exact Hse|rewrite W1; apply (Kk (elems e) []); now rewrite app_nil_r|].
    rewrite W1. unfold us. rewrite (touch_runs _ _ _ e Ae (db_edge_vertex _ De)), (count_0 e (elems e) (elems_not_self e)). 
    destruct (vlook (edge2str e) (c_work c)) as [[d0 s0]|]; [|discriminate]. intros E. apply Hv. injection E as E ->. f_equal. f_equal. lia. }
  destruct (add_str_does (edge2str e) 0 t c1 L1 (vertex_bindable e (db_edge_vertex _ De)) Ht) as (c2 & t2 & E2 & S2).
  pose proof (st_work _ _ _ _ _ S2) as W2. assert (L2 : live c2) by (unfold live; now rewrite (st_cur _ _ _ _ _ S2)).
  assert (Pw : perms (c_work c2) = perms (c_work c)).
  { rewrite W2. cbn [runs fold_left]. rewrite perms_set, W1. apply touch_perms_runs. }
  set (rw := fun k => match perm_str (elems e) k with Ok s => s | Err _ => [] end). unfold rows_of in Er. fold rw in Er.
  assert (Hrow : forall k, In k (seq 0 (fact (List.length (elems e)))) -> is_row (elems e) (rw k) /\ perm_str (elems e) k = Ok (rw k)).
  { intros k Hi. split; [apply rows_of_spec; [exact Hn|]; now apply (in_map rw)|]. apply in_seq in Hi. apply perm_str_ok. lia. }
  pose proof (rows_nodup e De) as Nd. unfold rows_of in Nd. fold rw in Nd.
  apply map_eq_app in Er as (k1 & k2 & Ek & <- & <-).
  set (body := fun k => pbind (PRet (perm_str (elems e) k)) p_write_edge_permutation).
  assert (B1 : forall k c3, In k k1 -> live c3 -> does true (run (body k)) c3 tt [ins_perm (rw k)]).
  { intros k c3 Hi L3. assert (Hi' : In k (seq 0 (fact (List.length (elems e))))) by (rewrite Ek; apply in_app_iff; now left).
    destruct (Hrow k Hi') as [R1 R2]. unfold body. rewrite R2. cbn [pbind].
    destruct (write_perm_does (rw k) c3 L3 (row_bindable (elems e) (rw k) Ae R1)) as (c4 & t4 & E4 & S4).
    exists c4, t4. split; [|exact S4]. etransitivity; [exact (ir_uoi _ _ c3)|exact E4]. }
  assert (X2 : run_on (pfor k1 body) c2 = run (pfor k1 body) c2).
  { apply (same_for _ _ (fun k => ins_perm (rw k)) (fun k w => ~ In (rw k) (perms w))); [| |exact L2].
    - intros k c3 Hi L3 K3. split; [|now apply B1]. assert (Hi' : In k (seq 0 (fact (List.length (elems e))))) by (rewrite Ek; apply in_app_iff; now left).
      destruct (Hrow k Hi') as [R1 R2]. unfold body. rewrite R2. cbn [pbind]. apply perm_same; [now apply (short_rows e)|exact K3].
    - intros l1 k l2 E Hi. assert (Hm : @List.map nat upd (fun k => ins_perm (rw k)) l1 = @List.map str upd ins_perm (List.map rw l1)) by now rewrite map_map.
      rewrite Hm in Hi. apply perms_ins_runs in Hi as [Hi|Hi].
      + rewrite Ek, E, <- app_assoc, map_app in Nd. cbn [List.map app] in Nd. apply NoDup_remove_2 in Nd. apply Nd. apply in_app_iff. now left.
      + rewrite Pw in Hi. apply (Hna (rw k)); [|exact Hi]. apply in_map. rewrite E. apply in_app_iff. right. now left. }
  assert (D2 : does true (run (pfor k1 body)) c2 tt (List.map (fun k => ins_perm (rw k)) k1)).
  { rewrite <- flat_map_single. unfold does.
    assert (Rr : run (pfor k1 body) c2 = mfor k1 (fun k => run (body k)) c2) by (apply ir_for; intros k c0; reflexivity).
    rewrite Rr. apply (mfor_does true _ _ (fun k => [ins_perm (rw k)])); [exact L2|]. intros k c' Hi L'. now apply B1. }
  destruct D2 as (c3 & t3 & E3 & S3). pose proof (st_work _ _ _ _ _ S3) as W3.
  assert (Hm : @List.map nat upd (fun k => ins_perm (rw k)) k1 = @List.map str upd ins_perm (List.map rw k1)) by now rewrite map_map.
  assert (W3' : c_work c3 = runs (List.map ins_perm (List.map rw k1)) (c_work c2)) by (rewrite W3; f_equal; exact Hm).
  assert (W : c_work c3 = runs (part_upds e t (List.map rw k1)) (c_work c)).
  { unfold part_upds. fold us. rewrite !runs_app, <- W1. rewrite <- W2. exact W3'. }
  assert (A3 : c_auto c3 = true) by now rewrite (st_auto _ _ _ _ _ S3), (st_auto _ _ _ _ _ S2), (st_auto _ _ _ _ _ S1).
  assert (C3 : c_cur c3 = CNone) by now rewrite (st_cur _ _ _ _ _ S3), (st_cur _ _ _ _ _ S2), (st_cur _ _ _ _ _ S1).
  assert (Y3 : c_comm c3 = c_work c3).
  { destruct (st_sync _ _ _ _ _ S1 (or_introl Hc) Hy) as [Y1 _].
    assert (C1 : c_cur c1 = CNone) by now rewrite (st_cur _ _ _ _ _ S1). destruct (st_sync _ _ _ _ _ S2 (or_introl C1) Y1) as [Y2 _].
    assert (C2 : c_cur c2 = CNone) by now rewrite (st_cur _ _ _ _ _ S2). exact (proj1 (st_sync _ _ _ _ _ S3 (or_introl C2) Y2)). }
  (* the rest of the loop *)
  assert (Rest : exists tr c', run_on (pfor k2 body) c3 = (match List.map rw k2 with [] => Ok tt | _ => Err IntegrityError end, c', tr)
    /\ c_auto c' = true /\ c_cur c' = CNone /\ c_comm c' = c_work c' /\ c_work c' = c_work c3).
  { destruct k2 as [|k k2]; [exists [], c3; split; [reflexivity|auto]|].
    assert (Hi : In k (seq 0 (fact (List.length (elems e))))) by (rewrite Ek; apply in_app_iff; right; now left).
    destruct (Hrow k Hi) as [R1 R2].
    assert (F : run_on (body k) c3 = (Err IntegrityError, Conn true (c_work c3) (c_work c3) CNone, [c_work c3])).
    { unfold body. rewrite R2. cbn [pbind]. apply perm_repeat; [exact A3|exact C3|now apply (row_bindable (elems e))|].
      rewrite W3'. apply perms_ins_runs. right. rewrite Pw. apply (Hb (rw k) (List.map rw k2) eq_refl). }
    exists [c_work c3], (Conn true (c_work c3) (c_work c3) CNone). split; [|auto]. cbn [pfor List.map]. rewrite run_on_bind. unfold bind. rewrite F. reflexivity. }
  destruct Rest as (t4 & c4 & E4 & A4 & C4 & Y4 & W4).
  destruct (index0_edge e De) as (a0 & E0 & Ea).
  exists c4. 
  assert (Raw : exists tr, run_on (p_add_raw e t) c = (match List.map rw k2 with [] => Ok e | _ => Err IntegrityError end, c4, tr)).
  { clear Hb Nd; destruct (List.map rw k2); eexists; unfold p_add_raw; rewrite run_on_bind; unfold bind at 1; rewrite (blind_exists e c), (ir_exists e c), G; cbv iota;
    rewrite run_on_bind; unfold bind at 1; rewrite (as_seq_edge e De); cbn [pbind];
    rewrite run_on_bind; unfold bind at 1; rewrite Lp, E1; rewrite run_on_bind; unfold bind at 1; rewrite X1, (ir_add_str _ _ _ c1), E2;
    change (p_do_with_edge_permutations (elems e) p_write_edge_permutation) with (pfor (seq 0 (fact (List.length (elems e)))) body); rewrite Ek, pfor_app; unfold bind at 1; rewrite X2, E3, E4; reflexivity. }
  destruct Raw as (tr & Raw). exists tr. split; [|split; [exact A4|split; [exact C4|split; [exact Y4|now rewrite W4]]]].
  unfold p_add. rewrite E0. cbn [pbind]. rewrite Ea. rewrite !run_on_bind. unfold bind. rewrite run_on_bind. unfold bind. rewrite Raw.
  destruct (List.map rw k2); cbn; rewrite ?app_nil_r; reflexivity.
Qed.

(** the rows of [e] that are there are the last ones *)
Definition tail_rows (e : value) (w : db) : Prop :=
  exists j, forall r, is_row (elems e) r -> (In r (perms w) <-> In r (skipn j (rows_of (elems e)))).
Lemma no_rows_tail V e c : edge_in V e -> no_rows e c -> tail_rows e (c_work c).
Proof.
  intros He N. exists (List.length (rows_of (elems e))). intros r Hr. rewrite skipn_all2 by lia. cbn. split; [|easy]. intros H. now apply (N r Hr).
Qed.
Lemma part_on (V : value -> Prop) e t a b : edge_in V e -> rows_of (elems e) = a ++ b -> Forall (upd_on V (fun x => x = e)) (part_upds e t a).
Proof.
  intros He E. rewrite Forall_forall. intros f Hf. exists e. split; [reflexivity|]. split; [exact He|]. left. exists t.
  unfold part_upds in Hf. unfold add_upds. rewrite E, map_app, !in_app_iff in *. tauto.
Qed.
Lemma hurt_after V P e c c' fs : hurt V P e c -> Forall (upd_on V (fun x => x = e)) fs -> c_cur c' = CNone -> c_work c' = runs fs (c_work c) -> hurt V P e c'.
Proof.
  intros H F C W. destruct (states_on V P (fun x => x = e) fs (c_work c) (runs fs (c_work c)) F (hu_wf _ _ _ _ H) (hu_others _ _ _ _ H) (states_last _ _)) as [W1 O].
  constructor; [exact C|now rewrite W|apply H|now rewrite W].
Qed.
Lemma hurt_add_on V P e t c : noalias V -> edge_in V e -> int64 t = true -> short_texts e -> c_auto c = true -> c_comm c = c_work c ->
  hurt V P e c -> gives (exists_ e) c false -> vlook (edge2str e) (c_work c) <> Some (0%Z, t) -> tail_rows e (c_work c) ->
  exists r c' tr, run_on (p_add e t) c = (r, c', tr) /\ (r = Ok e \/ r = Err IntegrityError) /\ (no_rows e c -> r = Ok e)
    /\ c_auto c' = true /\ c_comm c' = c_work c' /\ hurt V P e c' /\ indexed (c_work c') e.
Proof.
  intros HV He Ht Hs Ha Hy H G Hv (j & Hj). pose proof (edge_in_db _ _ He) as De. pose proof (rows_nodup e De) as Nd.
  assert (Er : rows_of (elems e) = firstn j (rows_of (elems e)) ++ skipn j (rows_of (elems e))) by now rewrite firstn_skipn.
  assert (Sp : forall r, In r (rows_of (elems e)) <-> is_row (elems e) r) by (intros r; apply rows_of_spec; now apply (elems_nonnil V)).
  set (a := firstn j (rows_of (elems e))) in *. set (b := skipn j (rows_of (elems e))) in *.
  assert (Hb : forall r, In r b -> is_row (elems e) r) by (intros r Hr; apply Sp; rewrite Er; apply in_app_iff; now right).
  destruct (add_on V e t c a b) as (c' & tr & E & A' & C' & Y' & W'); auto.
  - apply H.
  - apply (hu_wf _ _ _ _ H).
  - intros r Hr Hp. assert (R : is_row (elems e) r) by (apply Sp; rewrite Er; apply in_app_iff; now left). apply (Hj r R) in Hp.
    apply (nodup_skip (rows_of (elems e)) j r Nd) in Hp. now apply (proj2 Hp).
  - intros r b' E. assert (Hr : In r b) by (rewrite E; now left). apply (Hj r (Hb r Hr)). exact Hr.
  - exists (match b with [] => Ok e | _ => Err IntegrityError end), c', tr. split; [exact E|]. split; [destruct b; [now left|now right]|].
    split; [|split; [exact A'|split; [exact Y'|split]]].
    + intros N. destruct b as [|r b]; [reflexivity|]. exfalso. apply (N r (Hb r (or_introl eq_refl))). apply (Hj r (Hb r (or_introl eq_refl))). now left.
    + apply (hurt_after V P e c c' (part_upds e t a)); auto. now apply (part_on V e t a b).
    + intros r Hr. rewrite W'. unfold part_upds. rewrite !runs_app, perms_ins_runs. cbn [runs fold_left]. rewrite perms_set.
      change (fold_left (fun w0 f => f w0) ?a ?b) with (runs a b). rewrite touch_perms_runs. rewrite (Hj r Hr). apply Sp in Hr. rewrite Er in Hr. apply in_app_iff in Hr. exact Hr.
Qed.

(** removing on MySQL *)
Lemma hurt_remove_on V P e c : noalias V -> edge_in V e -> c_auto c = true -> c_comm c = c_work c -> hurt V P e c -> gives (exists_ e) c true ->
  exists c' tr, run_on (p_remove e) c = (Ok tt, c', tr) /\ c_auto c' = true /\ c_comm c' = c_work c' /\ hurt V P e c' /\ no_rows e c'
    /\ vlook (edge2str e) (c_work c') = None.
Proof.
  intros HV He Ha Hy H G. pose proof (edge_in_db _ _ He) as D.
  destruct (remove_old_does e c (hurt_live _ _ _ _ H) D G) as (c' & tr & E & S).
  assert (F : Forall (upd_on V (fun x => x = e)) (rem_upds e)).
  { rewrite Forall_forall. intros f Hf. exists e. split; [reflexivity|]. split; [exact He|]. now right. }
  destruct (hurt_next V P e c c' _ tr false HV He H F S) as [H' W']. exists c', tr.
  split; [rewrite (blind_remove e c), (ir_remove e c); now rewrite (remove_shape e c D)|].
  split; [now rewrite (st_auto _ _ _ _ _ S)|]. split; [exact (proj1 (st_sync _ _ _ _ _ S (or_intror Ha) Hy))|]. split; [exact H'|]. split.
  - intros r Hr. rewrite W'. rewrite (rem_upds_rows V) by exact He. tauto.
  - rewrite W'. unfold rem_upds. rewrite !runs_app. cbn [runs fold_left]. change (fold_left (fun w0 f => f w0) ?a ?b) with (runs a b).
    rewrite vlook_del, str_eqb_refl. reflexivity.
Qed.
Lemma remove_absent_on e c : db_edge e = true -> gives (exists_ e) c false -> run_on (p_remove e) c = (Ok tt, c, []).
Proof. intros D G. rewrite (blind_remove e c), (ir_remove e c). now apply remove_absent_run. Qed.
Lemma add_present_on e t c : db_edge e = true -> gives (exists_ e) c true -> run_on (p_add e t) c = (Ok e, c, []).
Proof.
  intros D G. destruct (index0_edge e D) as (a & E0 & Ea). unfold p_add. rewrite E0. cbn [pbind]. rewrite Ea.
  rewrite !run_on_bind. unfold bind. rewrite run_on_bind. unfold bind. unfold p_add_raw. rewrite run_on_bind. unfold bind. rewrite (blind_exists e c), (ir_exists e c), G. reflexivity.
Qed.

(** both orders *)
Lemma repair_add_on V P e t c : noalias V -> edge_in V e -> int64 t = true -> short_texts e -> c_auto c = true -> c_comm c = c_work c ->
  hurt V P e c -> (gives (exists_ e) c true \/ gives (exists_ e) c false /\ vlook (edge2str e) (c_work c) <> Some (0%Z, t) /\ tail_rows e (c_work c)) ->
  exists c2 t2 r c3 t3, run_on (p_remove e) c = (Ok tt, c2, t2) /\ run_on (p_add e t) c2 = (r, c3, t3)
    /\ (r = Ok e \/ r = Err IntegrityError) /\ (gives (exists_ e) c true \/ no_rows e c -> r = Ok e) /\ hurt V P e c3 /\ indexed (c_work c3) e.
Proof.
  intros HV He Ht Hs Ha Hy H K. pose proof (edge_in_db _ _ He) as D. destruct K as [G|(G & Hv & Tl)].
  - destruct (hurt_remove_on V P e c HV He Ha Hy H G) as (c1 & t1 & E1 & A1 & Y1 & H1 & N1 & V1).
    destruct (hurt_exists V P e c1 HV He H1) as (b & G1 & B & _). rewrite (B N1) in G1.
    destruct (hurt_add_on V P e t c1 HV He Ht Hs A1 Y1 H1 G1) as (r & c2 & t2 & E2 & R2 & N2 & _ & _ & H2 & I2); [now rewrite V1|now apply (no_rows_tail V)|].
    exists c1, t1, r, c2, t2. split; [exact E1|]. split; [exact E2|]. split; [exact R2|]. split; [intros _; now apply N2|]. now split.
  - destruct (hurt_add_on V P e t c HV He Ht Hs Ha Hy H G Hv Tl) as (r & c2 & t2 & E2 & R2 & N2 & _ & _ & H2 & I2).
    exists c, [], r, c2, t2. split; [now apply remove_absent_on|]. split; [exact E2|]. split; [exact R2|]. split; [|now split].
    intros [G1|N]; [unfold gives in G, G1; congruence|now apply N2].
Qed.
Lemma repair_remove_on V P e t c : noalias V -> edge_in V e -> int64 t = true -> short_texts e -> c_auto c = true -> c_comm c = c_work c ->
  hurt V P e c -> (gives (exists_ e) c true \/ gives (exists_ e) c false /\ vlook (edge2str e) (c_work c) <> Some (0%Z, t) /\ tail_rows e (c_work c)) ->
  exists r c2 t2 c3 t3, run_on (p_add e t) c = (r, c2, t2) /\ run_on (p_remove e) c2 = (Ok tt, c3, t3)
    /\ (r = Ok e \/ r = Err IntegrityError) /\ (gives (exists_ e) c true \/ no_rows e c -> r = Ok e) /\ hurt V P e c3 /\ no_rows e c3.
Proof.
  intros HV He Ht Hs Ha Hy H K. pose proof (edge_in_db _ _ He) as D. destruct K as [G|(G & Hv & Tl)].
  - destruct (hurt_remove_on V P e c HV He Ha Hy H G) as (c1 & t1 & E1 & A1 & Y1 & H1 & N1 & V1).
    exists (Ok e), c, [], c1, t1. split; [now apply add_present_on|]. split; [exact E1|]. split; [now left|]. now split.
  - destruct (hurt_add_on V P e t c HV He Ht Hs Ha Hy H G Hv Tl) as (r & c2 & t2 & E2 & R2 & N2 & A2 & Y2 & H2 & I2).
    destruct (hurt_exists V P e c2 HV He H2) as (b & G2 & _ & B). rewrite (B I2) in G2.
    destruct (hurt_remove_on V P e c2 HV He A2 Y2 H2 G2) as (c3 & t3 & E3 & A3 & Y3 & H3 & N3 & V3).
    exists r, c2, t2, c3, t3. split; [exact E2|]. split; [exact E3|]. split; [exact R2|]. split; [|now split].
    intros [G1|N]; [unfold gives in G, G1; congruence|now apply N2].
Qed.

(** ** a crash after which repeating the add does not help *)

Lemma bind_ok1 {A B} (m : M A) (k : A -> M B) c a c1 t1 : m c = (Ok a, c1, t1) -> bind m k c = let '(r, c2, t2) := k a c1 in (r, c2, t1 ++ t2).
Proof. intros E. unfold bind. now rewrite E. Qed.
Lemma uoi_seen u i c c' tr : c_cur c = CNone -> update_or_insert u i c = (Ok tt, c', tr) -> In (c_work c') tr.
Proof.
  intros Hc. unfold update_or_insert, bind, open_cursor, get_cur, bind, ret. rewrite Hc. unfold execute, usable. cbn [negb].
  destruct (bind_error u); [discriminate|]. destruct (sql_run u (c_work c)) as [[w1 n]|]; [|discriminate].
  destruct (Nat.eqb n 0).
  - cbn [c_cur c_work]. destruct (bind_error i); [discriminate|]. destruct (sql_run i w1) as [[w2 n2]|]; [|discriminate].
    unfold close_cursor, bind, get_cur, close_handle, commit, ret. cbn [c_cur c_work c_auto c_comm]. rewrite Hc. cbn.
    intros [= <- <-]. cbn. tauto.
  - unfold close_cursor, bind, get_cur, close_handle, commit, ret. cbn [c_cur c_work c_auto c_comm]. rewrite Hc. cbn.
    intros [= <- <-]. cbn. tauto.
Qed.

(** the record of [e] is written: the point where the trouble starts *)
Definition half_add (e : value) (t : Z) (w : db) : db := runs (part_upds e t []) w.
Lemma half_add_seen V e t c : edge_in V e -> int64 t = true -> c_cur c = CNone -> gives (exists_ e) c false ->
  exists r c' tr, run (p_add e t) c = (r, c', tr) /\ In (half_add e t (c_work c)) tr.
Proof.
  intros He Ht Hc G. pose proof (edge_in_db _ _ He) as De. assert (L : live c) by (unfold live; now rewrite Hc).
  assert (Hx : forall x, In x (elems e) -> db_vertex x = true) by (intros x; apply (elems_db V); exact He).
  assert (D : does true (mfor (elems e) (fun x => do found <- inc_degree (edge2str x); if found then ret tt else add_str (edge2str x) 1 t)) c tt (List.map (fun x => touch (edge2str x) t) (elems e))).
  { rewrite <- flat_map_single. apply (mfor_does true _ _ (fun x => [touch (edge2str x) t])); [exact L|]. intros x c' Hi L'. apply touch_does; [exact L'|now apply Hx|exact Ht]. }
  destruct D as (c1 & t1 & E1 & S1). assert (C1 : c_cur c1 = CNone) by now rewrite (st_cur _ _ _ _ _ S1).
  assert (L1 : live c1) by (unfold live; now rewrite C1).
  destruct (add_str_does (edge2str e) 0 t c1 L1 (vertex_bindable e (db_edge_vertex _ De)) Ht) as (c2 & t2 & E2 & S2).
  pose proof (uoi_seen _ _ _ _ _ C1 E2) as Seen.
  assert (W : c_work c2 = half_add e t (c_work c)).
  { rewrite (st_work _ _ _ _ _ S2), (st_work _ _ _ _ _ S1). unfold half_add, part_upds. now rewrite !runs_app. }
  rewrite W in Seen. destruct (add e t c) as [[r c'] tr] eqn:E. exists r, c', tr. split; [now rewrite (ir_add e t c)|].
  rewrite (add_shape e t c De) in E.
  assert (E' : exists r c' tr, add_raw e t c = (r, c', tr) /\ In (half_add e t (c_work c)) tr).
  { unfold add_raw. rewrite (bind_gives _ _ c false G), (as_seq_edge e De). unfold lift. rewrite bind_assoc, bind_ret_l, bind_assoc.
    rewrite (bind_ok1 _ _ c tt c1 t1 E1), bind_assoc, (bind_ok1 _ _ c1 tt c2 t2 E2).
    destruct ((write_edge_permutations (elems e);; ret e) c2) as [[r3 c3] t3]. exists r3, c3, (t1 ++ t2 ++ t3). split; [reflexivity|]. rewrite !in_app_iff. tauto. }
  destruct E' as (r1 & c3 & tr1 & E' & Hin). unfold bind in E. rewrite E' in E. destruct r1; cbn in E; injection E as _ _ <-; rewrite ?app_nil_r; exact Hin.
Qed.

Lemma add_stuck V e t c : edge_in V e -> int64 t = true -> short_texts e ->
  c_auto c = true -> c_cur c = CNone -> NoDup (keys (c_work c)) -> gives (exists_ e) c false ->
  vlook (edge2str e) (c_work c) = Some (0%Z, t) ->
  let w := runs (List.map (fun x => touch (edge2str x) t) (elems e)) (c_work c) in
  exists tr, run_on (p_add e t) c = (Err IntegrityError, Conn true w w CNone, tr).
Proof.
  intros He Ht Hs Ha Hc Hk G Hv w. pose proof (edge_in_db _ _ He) as De. assert (L : live c) by (unfold live; now rewrite Hc).
  destruct (db_edge_elems e De) as (Ee & Ae & Le). destruct (short_vertex e De Hs) as [Hse Hsx].
  assert (Hx : forall x, In x (elems e) -> db_vertex x = true) by (intros x; apply (elems_db V); exact He).
  assert (Kk : forall l1 l2, elems e = l1 ++ l2 -> NoDup (keys (runs (List.map (fun x => touch (edge2str x) t) l1) (c_work c)))).
  { intros l1 l2 _. apply runs_inv; [exact Hk|]. intros f d Hf. apply in_map_iff in Hf as (x & <- & _). apply nodup_touch. }
  assert (Lp : run_on (pfor (elems e) (p_add_vertex t)) c = run (pfor (elems e) (p_add_vertex t)) c).
  { apply (same_for _ _ (fun x => touch (edge2str x) t) (fun x w => NoDup (keys w))); [| |exact L].
    - intros x c1 Hi L1 K1. split; [now apply add_vertex_same; auto|].
      destruct (touch_does x t c1 L1 (Hx x Hi) Ht) as (c2 & t2 & E2 & S2). exists c2, t2. split; [|exact S2]. now rewrite run_add_vertex.
    - intros l1 x l2 E. now apply (Kk l1 (x :: l2)). }
  assert (D : does true (run (pfor (elems e) (p_add_vertex t))) c tt (List.map (fun x => touch (edge2str x) t) (elems e))).
  { rewrite <- flat_map_single. unfold does.
    assert (Rr : run (pfor (elems e) (p_add_vertex t)) c = mfor (elems e) (fun x => do found <- inc_degree (edge2str x); if found then ret tt else add_str (edge2str x) 1 t) c)
      by (apply ir_for; intros x c0; apply run_add_vertex).
    rewrite Rr. apply (mfor_does true _ _ (fun x => [touch (edge2str x) t])); [exact L|]. intros x c' Hi L'. apply touch_does; [exact L'|now apply Hx|exact Ht]. }
  destruct D as (c1 & t1 & E1 & S1). pose proof (st_work _ _ _ _ _ S1) as W1. fold w in W1.
  assert (C1 : c_cur c1 = CNone) by now rewrite (st_cur _ _ _ _ _ S1). assert (A1 : c_auto c1 = true) by now rewrite (st_auto _ _ _ _ _ S1).
  assert (Er : run_on (p_add_str (edge2str e) 0 t) c1 = (Err IntegrityError, Conn true w w CNone, [w])).
  { rewrite <- W1. apply add_str_repeat; [exact A1|exact C1|now apply vertex_bindable, db_edge_vertex|exact Ht|rewrite W1; apply (Kk (elems e) []); now rewrite app_nil_r|].
    rewrite W1. unfold w. rewrite (touch_runs _ _ _ e Ae (db_edge_vertex _ De)), (count_0 e (elems e) (elems_not_self e)), Hv. reflexivity. }
  destruct (index0_edge e De) as (a & E0 & Ea).
  assert (Raw : exists tr, run_on (p_add_raw e t) c = (Err IntegrityError, Conn true w w CNone, tr)).
  { eexists. unfold p_add_raw. rewrite run_on_bind. unfold bind at 1. rewrite (blind_exists e c), (ir_exists e c), G.
    rewrite run_on_bind. unfold bind at 1. rewrite (as_seq_edge e De). cbn [pbind].
    rewrite run_on_bind. unfold bind at 1. rewrite Lp, E1. rewrite run_on_bind. unfold bind at 1. rewrite Er. reflexivity. }
  destruct Raw as (tr & Raw). exists tr. unfold p_add. rewrite E0. cbn [pbind]. rewrite Ea. rewrite !run_on_bind. unfold bind. rewrite run_on_bind. unfold bind. now rewrite Raw.
Qed.
