(** * P_mysql.v -- on MySQL's engine the calls run as in M_sql, as long as no add
    repeats a vertex record and the texts are short *)

From Verif Require Import Py M_symbol M_edge M_sql M_mysql M_hypergraph P_py Spec P_edge P_perm P_range P_query
  S_history M_driver P_ops P_hist P_graph P_rows P_answers P_crash S_steps M_steps P_steps.
From Coq Require Import Permutation Factorial String.
Open Scope list_scope.

(** ** programs for which the engine makes no difference *)

Definition blind {A} (p : prog A) : Prop := forall c, run_on p c = run p c.
Lemma run_on_bind {A B} (p : prog A) (k : A -> prog B) c : run_on (pbind p k) c = bind (run_on p) (fun a => run_on (k a)) c.
Proof.
  revert c. induction p as [[a|e]|X a f IH]; intros c; cbn [pbind run_on].
  - unfold bind, lift, ret. destruct (run_on (k a) c) as [[r c1] t1]. reflexivity.
  - reflexivity.
  - unfold bind at 1 2. destruct (run_act_on a c) as [[[x|e] c1] t1] eqn:E.
    + unfold bind. rewrite E, IH. unfold bind. destruct (run_on (f x) c1) as [[[y|e] c2] t2].
      * destruct (run_on (k y) c2) as [[r c3] t3]. now rewrite app_assoc.
      * reflexivity.
    + unfold bind. now rewrite E.
Qed.
(** the two runs agree step by step *)
Lemma same_bind {A B} (p : prog A) (k : A -> prog B) c : run_on p c = run p c ->
  (forall a c1 t1, run p c = (Ok a, c1, t1) -> run_on (k a) c1 = run (k a) c1) -> run_on (pbind p k) c = run (pbind p k) c.
Proof.
  intros H1 H2. rewrite run_on_bind, run_bind. unfold bind. rewrite H1. destruct (run p c) as [[[a|e] c1] t1]; [|reflexivity].
  now rewrite (H2 a c1 t1 eq_refl).
Qed.
Lemma blind_bind {A B} (p : prog A) (k : A -> prog B) : blind p -> (forall a, blind (k a)) -> blind (pbind p k).
Proof. intros H1 H2 c. apply same_bind; [apply H1|]. intros a c1 t1 _. apply H2. Qed.
Lemma blind_ret {A} (r : res A) : blind (PRet r).
Proof. intros c. reflexivity. Qed.
Lemma blind_act {X} (a : act X) : (forall c, run_act_on a c = run_act a c) -> blind (pact a).
Proof. intros H c. cbn. unfold bind. rewrite H. reflexivity. Qed.
Lemma blind_get : blind (pact AGetCur). Proof. now apply blind_act. Qed.
Lemma blind_set s : blind (pact (ASetCur s)). Proof. now apply blind_act. Qed.
Lemma blind_commit : blind (pact ACommit). Proof. now apply blind_act. Qed.
Lemma blind_query {A} h (q : sel A) : blind (pact (AQuery h q)). Proof. now apply blind_act. Qed.
Lemma exec_same h s c : sql_run_my s (c_work c) = sql_run s (c_work c) -> run_on (pact (AExec h s)) c = run (pact (AExec h s)) c.
Proof.
  intros H. cbn. unfold bind, execute_on, execute, engine. destruct (negb (usable h c)); [reflexivity|].
  destruct (bind_error s); [reflexivity|]. destruct (c_auto c); [rewrite H|]; reflexivity.
Qed.
Lemma blind_exec h s : (forall w, sql_run_my s w = sql_run s w) -> blind (pact (AExec h s)).
Proof. intros H c. apply exec_same. apply H. Qed.
Lemma blind_for {A} (l : list A) f : (forall x, In x l -> blind (f x)) -> blind (pfor l f).
Proof.
  induction l as [|x l IH]; intros H; cbn [pfor]; [apply blind_ret|]. apply blind_bind; [apply H; now left|]. intros _. apply IH.
  intros y Hy. apply H. now right.
Qed.
Lemma inc_same id k w : k <> 0%Z -> sql_run_my (IncDegree id k) w = sql_run (IncDegree id k) w.
Proof. intros K. cbn. apply Z.eqb_neq in K. now rewrite K. Qed.

Ltac blinds := repeat (first [apply blind_ret | apply blind_get | apply blind_set | apply blind_commit | apply blind_query
  | apply blind_bind; [|intros ?] | match goal with |- blind (if ?b then _ else _) => destruct b | |- blind (match ?x with _ => _ end) => destruct x end]).
Lemma blind_open b : blind (p_open_cursor b).
Proof. unfold p_open_cursor. blinds. Qed.
Lemma blind_close_handle h : blind (p_close_handle h).
Proof. unfold p_close_handle. blinds. Qed.
Lemma blind_close h l b : blind (p_close_cursor h l b).
Proof. unfold p_close_cursor. destruct l, b; blinds; apply blind_close_handle. Qed.
Lemma blind_pattern p : blind (p_pattern2edges p).
Proof.
  unfold p_pattern2edges. apply blind_bind; [apply blind_ret|]. intros items. cbv zeta. apply blind_bind; [apply blind_ret|]. intros hi.
  apply blind_bind; [apply blind_open|]. intros h. apply blind_bind; [apply blind_query|]. intros rows. apply blind_bind; [apply blind_ret|].
  intros es. apply blind_bind; [apply blind_close|]. intros _. blinds.
Qed.
Lemma blind_star a : blind (p_star a).
Proof.
  unfold p_star, p_str2perms. cbv zeta. apply blind_bind; [apply blind_ret|]. intros hi.
  apply blind_bind; [apply blind_open|]. intros h. apply blind_bind; [apply blind_query|]. intros rows. apply blind_bind; [apply blind_ret|].
  intros es. apply blind_bind; [apply blind_close|]. intros _. blinds.
Qed.
Lemma blind_exists e : blind (p_exists e).
Proof. unfold p_exists. apply blind_bind; [apply blind_pattern|]. intros l. blinds. Qed.
Lemma blind_degree v : blind (p_degree v).
Proof.
  unfold p_degree. cbv zeta. apply blind_bind; [apply blind_open|]. intros h. apply blind_bind; [apply blind_query|]. intros [[d t]|].
  - apply blind_bind; [apply blind_close_handle|]. intros _. blinds.
  - apply blind_bind; [apply blind_close|]. intros _. blinds.
Qed.
Lemma blind_timestamp v : blind (p_timestamp v).
Proof.
  unfold p_timestamp. cbv zeta. apply blind_bind; [apply blind_open|]. intros h. apply blind_bind; [apply blind_query|]. intros [[d t]|].
  - apply blind_bind; [apply blind_close_handle|]. intros _. blinds.
  - apply blind_bind; [apply blind_close|]. intros _. blinds.
Qed.
Lemma blind_sources e : blind (p_sources e).
Proof. unfold p_sources. apply blind_bind; [apply blind_pattern|]. intros l. blinds. Qed.
Lemma blind_symbols r : blind (p_symbols_with_root r).
Proof.
  unfold p_symbols_with_root. cbv zeta. apply blind_bind; [apply blind_ret|]. intros hi.
  apply blind_bind; [apply blind_open|]. intros h. apply blind_bind; [apply blind_query|]. intros rows. apply blind_bind; [apply blind_ret|].
  intros es. apply blind_bind; [apply blind_close|]. intros _. blinds.
Qed.
Lemma blind_f_all {B} (f : value * Z -> B) : blind (p_f_all f).
Proof.
  unfold p_f_all. apply blind_bind; [apply blind_open|]. intros h. apply blind_bind; [apply blind_query|]. intros rows. apply blind_bind; [apply blind_ret|].
  intros es. apply blind_bind; [apply blind_close|]. intros _. blinds.
Qed.
Lemma blind_change v k : k <> 0%Z -> blind (p_change_degree v k).
Proof.
  intros K. unfold p_change_degree. apply blind_bind; [apply blind_open|]. intros h.
  apply blind_bind; [apply blind_exec; intros w; now apply inc_same|]. intros n. apply blind_bind; [apply blind_close|]. intros _. blinds.
Qed.
Lemma blind_remove_raw e : blind (p_remove_raw e).
Proof.
  unfold p_remove_raw. apply blind_bind; [apply blind_exists|]. intros [|]; [|apply blind_ret]. apply blind_bind; [apply blind_ret|]. intros items.
  apply blind_bind. { apply blind_for. intros x _. apply blind_bind; [now apply blind_change|]. intros _. blinds. }
  intros _. apply blind_bind.
  { unfold p_do_with_edge_permutations. apply blind_for. intros k _. apply blind_bind; [apply blind_ret|]. intros r. unfold p_remove_edge_permutation.
    apply blind_bind; [now apply blind_exec|]. intros _. apply blind_commit. }
  intros _. unfold p_remove_str. apply blind_bind; [apply blind_open|]. intros h. apply blind_bind; [now apply blind_exec|]. intros _. apply blind_close.
Qed.
Lemma blind_remove e : blind (p_remove e).
Proof.
  unfold p_remove. apply blind_bind; [apply blind_ret|]. intros x. destruct (is_tup x); [|apply blind_remove_raw].
  apply blind_bind; [apply blind_ret|]. intros items. apply blind_for. intros y _. apply blind_remove_raw.
Qed.
Lemma blind_destroy : blind p_destroy.
Proof.
  unfold p_destroy. apply blind_bind; [apply blind_open|]. intros h. apply blind_bind; [now apply blind_exec|]. intros _.
  apply blind_bind; [now apply blind_exec|]. intros _. apply blind_close.
Qed.

(** ** update_or_insert *)

Lemma uoi_same u i c w1 n m : sql_run u (c_work c) = Ok (w1, n) -> sql_run_my u (c_work c) = Ok (w1, m) -> Nat.eqb m 0 = Nat.eqb n 0 ->
  (n = O -> sql_run_my i w1 = sql_run i w1) ->
  run_on (p_update_or_insert u i) c = run (p_update_or_insert u i) c.
Proof.
  intros E1 E2 E3 E4. unfold p_update_or_insert. apply same_bind; [apply blind_open|]. intros h c1 t1 Eo.
  assert (c_work c1 = c_work c) as Ew.
  { destruct c as [a cm wk cu]. unfold p_open_cursor in Eo. cbn in Eo. destruct cu; cbn in Eo; now injection Eo as _ <- _. }
  clear Eo. rewrite <- Ew in *. clear c Ew t1. rename c1 into c.
  rewrite run_on_bind, run_bind. unfold bind.
  change (run_on (pact (AExec h u)) c) with (bind (execute_on h u) (fun x => lift (Ok x)) c).
  change (run (pact (AExec h u)) c) with (bind (execute h u) (fun x => lift (Ok x)) c).
  unfold bind, execute_on, execute, engine.
  destruct (negb (usable h c)); [reflexivity|]. destruct (bind_error u); [reflexivity|]. rewrite E1.
  assert (K : forall k c1, Nat.eqb k 0 = Nat.eqb n 0 -> c_work c1 = w1 ->
     run_on ((if Nat.eqb k 0 then pact (AExec h i);p pret tt else pret tt);p p_close_cursor h true true) c1
     = run ((if Nat.eqb n 0 then pact (AExec h i);p pret tt else pret tt);p p_close_cursor h true true) c1).
  { intros k c1 -> W.
    apply same_bind; [|intros a c2 t2 _; apply blind_close]. destruct (Nat.eqb_spec n 0) as [->|N]; [|reflexivity].
    apply same_bind; [|intros a c2 t2 _; reflexivity]. apply exec_same. rewrite W. now apply E4. }
  destruct (c_auto c).
  - rewrite E2. unfold lift, ret. now rewrite (K m) by easy.
  - rewrite ?E1. unfold lift, ret. now rewrite (K n) by easy.
Qed.

Lemma key_short s : (List.length s < 250)%nat -> my_key s = s.
Proof. intros H. apply firstn_all2. lia. Qed.
Lemma key_eq s t : (List.length s < 250)%nat -> my_key s = my_key t -> s = t.
Proof.
  intros H. rewrite (key_short s H). unfold my_key. intros E. assert (L : List.length s = List.length (firstn 250 t)) by now rewrite <- E.
  rewrite firstn_length in L. rewrite firstn_all2 in E by lia. exact E.
Qed.
Lemma ins_perm_same r w : (List.length r < 250)%nat -> sql_run_my (InsPerm r) w = sql_run (InsPerm r) w.
Proof.
  intros H. cbn [sql_run_my sql_run]. assert (E : existsb (fun r0 => str_eqb (my_key r) (my_key r0)) (perms w) = existsb (str_eqb r) (perms w)); [|now rewrite E].
  induction (perms w) as [|x l IH]; [reflexivity|]. cbn [existsb]. rewrite IH. f_equal. destruct (str_eqb r x) eqn:E.
  - apply str_eqb_eq in E as ->. apply str_eqb_refl.
  - destruct (str_eqb (my_key r) (my_key x)) eqn:E'; [|reflexivity]. apply str_eqb_eq in E'. apply (key_eq r x H) in E'. subst x. now rewrite str_eqb_refl in E.
Qed.
Lemma ins_vertex_same id d t w : (List.length id < 250)%nat -> sql_run_my (InsVertex id d t) w = sql_run (InsVertex id d t) w.
Proof.
  intros H. cbn [sql_run_my sql_run]. assert (E : existsb (fun r0 => str_eqb (my_key id) (my_key (fst r0))) (vertices w) = existsb (vkey id) (vertices w)); [|now rewrite E].
  induction (vertices w) as [|x l IH]; [reflexivity|]. cbn [existsb]. rewrite IH. f_equal. unfold vkey. destruct (str_eqb id (fst x)) eqn:E.
  - apply str_eqb_eq in E as ->. apply str_eqb_refl.
  - destruct (str_eqb (my_key id) (my_key (fst x))) eqn:E'; [|reflexivity]. apply str_eqb_eq in E'. apply (key_eq id _ H) in E'. rewrite E' in E. now rewrite str_eqb_refl in E.
Qed.

(** the record that is written is not there already *)
Lemma add_str_same id d t c : (List.length id < 250)%nat -> NoDup (keys (c_work c)) -> vlook id (c_work c) <> Some (d, t) ->
  run_on (p_add_str id d t) c = run (p_add_str id d t) c.
Proof.
  intros Hs Hk Hl. unfold p_add_str. eapply uoi_same; [reflexivity|reflexivity| |intros _; now apply ins_vertex_same].
  assert (F : forall l, NoDup (List.map fst l) -> vlook id (Db l (perms (c_work c))) <> Some (d, t) ->
    Nat.eqb (List.length (filter (fun r => vkey id r && negb ((fst (snd r) =? d)%Z && (snd (snd r) =? t)%Z)) l)) 0
    = Nat.eqb (List.length (filter (vkey id) l)) 0).
  { clear. induction l as [|[k [d' t']] l IH]; intros N L; [reflexivity|]. cbn [filter fst snd] in *. unfold vlook in L. cbn [vertices find] in L.
    change (vkey id (k, (d', t'))) with (str_eqb id k) in *. destruct (str_eqb id k) eqn:E; cbn [andb].
    - destruct (((d' =? d) && (t' =? t))%Z) eqn:E2; cbn [negb]; [|reflexivity]. exfalso. apply L. apply andb_true_iff in E2 as [A B].
      apply Z.eqb_eq in A, B. now subst.
    - apply IH; [now inversion N|exact L]. }
  specialize (F (vertices (c_work c))). rewrite db_eta in F. now apply F.
Qed.
Lemma perm_same r c : (List.length r < 250)%nat -> ~ In r (perms (c_work c)) ->
  run_on (p_write_edge_permutation r) c = run (p_write_edge_permutation r) c.
Proof.
  intros Hs Hn. unfold p_write_edge_permutation. eapply uoi_same; [reflexivity|reflexivity| |intros _; now apply ins_perm_same].
  cbn. assert (existsb (str_eqb r) (perms (c_work c)) = false) as E.
  { destruct (existsb (str_eqb r) (perms (c_work c))) eqn:E; [|reflexivity]. apply existsb_exists in E as (x & Hx & Ex). apply str_eqb_eq in Ex as ->. contradiction. }
  rewrite existsb_filter in E. now destruct (Nat.eqb (List.length (filter (str_eqb r) (perms (c_work c)))) 0).
Qed.

(** ** loops *)

Lemma same_for {A} (l : list A) (f : A -> prog unit) (g : A -> upd) (Q : A -> db -> Prop) c :
  (forall x c, In x l -> live c -> Q x (c_work c) -> run_on (f x) c = run (f x) c /\ does true (run (f x)) c tt [g x]) ->
  (forall l1 x l2, l = l1 ++ x :: l2 -> Q x (runs (List.map g l1) (c_work c))) -> live c ->
  run_on (pfor l f) c = run (pfor l f) c.
Proof.
  revert c. induction l as [|x l IH]; intros c H HQ L; cbn [pfor]; [reflexivity|].
  destruct (H x c (or_introl eq_refl) L (HQ [] x l eq_refl)) as [E (c1 & t1 & E1 & S1)]. apply same_bind; [exact E|].
  intros a c2 t2 E2. rewrite E1 in E2. injection E2 as <- <- <-. apply IH.
  - intros y c2 Hy. apply H. now right.
  - intros l1 y l2 ->. rewrite (st_work _ _ _ _ _ S1). apply (HQ (x :: l1) y l2 eq_refl).
  - unfold live. now rewrite (st_cur _ _ _ _ _ S1).
Qed.

Lemma run_add_vertex t x c : run (p_add_vertex t x) c
  = (do found <- inc_degree (edge2str x); if found then ret tt else add_str (edge2str x) 1 t) c.
Proof.
  unfold p_add_vertex, inc_degree. cbv zeta. revert c. change (is_run (pbind (p_change_degree (edge2str x) 1) (fun found => if found then pret tt else p_add_str (edge2str x) 1 t)) (bind (change_degree (edge2str x) 1) (fun found => if found then ret tt else add_str (edge2str x) 1 t))).
  apply ir_bind; [apply ir_change|]. intros [|]; [apply ir_ret|apply ir_add_str].
Qed.
Lemma add_vertex_same t x c : live c -> db_vertex x = true -> (List.length (edge2str x) < 250)%nat -> NoDup (keys (c_work c)) ->
  run_on (p_add_vertex t x) c = run (p_add_vertex t x) c.
Proof.
  intros L Hx Hs Hk. unfold p_add_vertex. cbv zeta. apply same_bind; [now apply blind_change|]. intros b c1 t1 E.
  destruct b; [reflexivity|]. destruct (change_degree_does (edge2str x) 1 c L (vertex_bindable x Hx)) as (c2 & t2 & E2 & S).
  rewrite (ir_change (edge2str x) 1 c) in E. rewrite E in E2. injection E2 as Eb <- <-.
  assert (N : vlook (edge2str x) (c_work c) = None) by (destruct (vlook (edge2str x) (c_work c)); [discriminate Eb|reflexivity]).
  pose proof (st_work _ _ _ _ _ S) as W. cbn [runs fold_left] in W. rewrite (inc_row_absent _ _ _ N) in W.
  apply add_str_same; [exact Hs| |]; rewrite W; [exact Hk|]. now rewrite N.
Qed.

Lemma nodup_map_in {A B} (f : A -> B) l : NoDup l -> (forall x y, In x l -> In y l -> f x = f y -> x = y) -> NoDup (List.map f l).
Proof.
  induction 1 as [|x l Hx _ IH]; intros H; cbn; [constructor|]. constructor.
  - intros Hi. apply in_map_iff in Hi as (y & E & Hy). assert (y = x) by (apply H; [now right|now left|exact E]). now subst y.
  - apply IH. intros y z Hy Hz. apply H; now right.
Qed.
Lemma rows_nodup e : db_edge e = true -> NoDup (rows_of (elems e)).
Proof.
  intros De. destruct (db_edge_elems e De) as (Ee & Ae & Le). unfold rows_of.
  assert (Hn : elems e <> []) by (intros E; rewrite E in Le; cbn in Le; lia).
  apply nodup_map_in; [apply seq_NoDup|]. intros i j Hi Hj E. apply in_seq in Hi, Hj.
  destruct (perm_str_row (elems e) i Hn ltac:(lia)) as (p & _ & Pp & Rp). destruct (perm_str_row (elems e) j Hn ltac:(lia)) as (q & _ & Pq & Rq).
  rewrite Rp, Rq in E. apply row_list_inj in E.
  - apply app_inj_tail in E as [_ [= E]]. lia.
  - rewrite app_length, <- (Permutation_length Pp). cbn. lia.
  - rewrite app_length, <- (Permutation_length Pq). cbn. lia.
  - apply Forall_app. split; [now apply (all_db_perm (elems e))|now repeat constructor].
  - apply Forall_app. split; [now apply (all_db_perm (elems e))|now repeat constructor].
Qed.
Lemma short_rows e r : short_texts e -> is_row (elems e) r -> (List.length r < 250)%nat.
Proof.
  intros H (k & p & Hk & E & ->). destruct (nthperm_ok (elems e) k Hk) as (q & _ & E' & P). rewrite E in E'. injection E' as <-.
  apply H; [now apply Permutation_sym|exact Hk].
Qed.
Lemma join_longer sep l (s : str) : In s l -> (List.length s <= List.length (join sep l))%nat.
Proof.
  induction l as [|x [|y l] IH]; [easy|intros [->|[]]; reflexivity|]. rewrite join_cons, !app_length. intros [->|H]; [lia|]. apply IH in H. lia.
Qed.
Lemma short_vertex e : db_edge e = true -> short_texts e ->
  (List.length (edge2str e) < 250)%nat /\ forall x, In x (elems e) -> (List.length (edge2str x) < 250)%nat.
Proof.
  intros De H. destruct (db_edge_elems e De) as (Ee & Ae & Le).
  assert (Hn : elems e <> []) by (intros E; rewrite E in Le; cbn in Le; lia).
  pose proof (lt_O_fact (List.length (elems e))) as F. specialize (H (elems e) 0%Z (Permutation_refl _) ltac:(lia)).
  change (join [c_space] (List.map edge2str (elems e ++ [VInt 0]))) with (nodes2str (elems e ++ [VInt 0])) in H.
  rewrite nodes2str_app in H by easy. rewrite !app_length in H. cbn [List.length] in H. change (List.length (nodes2str [VInt 0])) with 1%nat in H.
  split.
  - rewrite Ee. cbn [edge2str List.length]. rewrite app_length. cbn [List.length]. unfold nodes2str in H. lia.
  - intros x Hx. assert (In (edge2str x) (List.map edge2str (elems e))) as Hi by now apply in_map.
    apply (join_longer [c_space]) in Hi. unfold nodes2str in H. lia.
Qed.

(** ** one edge *)

Lemma add_raw_same V h e t c : noalias V -> live c -> Inv V (c_work c) h -> Forall (ev_in V) h -> edge_in V e -> int64 t = true ->
  (~ present h e -> short_texts e /\ ~ same_record e t h) ->
  run_on (p_add_raw e t) c = run (p_add_raw e t) c.
Proof.
  intros HV L I Hh He Ht Hf. pose proof (edge_in_db _ _ He) as De. pose proof (Inv_exists V _ h c e HV I eq_refl L He) as G.
  destruct (db_edge_elems e De) as (Ee & Ae & Le).
  assert (Hn : elems e <> []) by (intros E; rewrite E in Le; cbn in Le; lia).
  unfold p_add_raw. apply same_bind; [apply blind_exists|]. intros b c1 t1 E. rewrite (ir_exists e c), G in E. injection E as <- <- <-.
  apply same_bind; [|intros a c2 t2 _; reflexivity]. destruct (memb e (stored h)) eqn:M; [reflexivity|].
  assert (Np : ~ present h e) by (rewrite <- stored_present; now apply memb_nin). destruct (Hf Np) as [Hs Hr]. clear Hf.
  destruct (short_vertex e De Hs) as [Hse Hsx].
  apply same_bind; [reflexivity|]. intros items c1 t1 E. cbn in E. rewrite (as_seq_edge e De) in E. injection E as <- <- <-.
  set (us := List.map (fun x => touch (edge2str x) t) (elems e)).
  assert (Hx : forall x, In x (elems e) -> db_vertex x = true) by (intros x; apply (elems_db V); exact He).
  assert (Kk : forall l1 l2, elems e = l1 ++ l2 -> NoDup (keys (runs (List.map (fun x => touch (edge2str x) t) l1) (c_work c)))).
  { intros l1 l2 _. apply runs_inv; [apply I|]. intros f d Hf. apply in_map_iff in Hf as (x & <- & _). apply nodup_touch. }
  assert (Lp : run_on (pfor (elems e) (p_add_vertex t)) c = run (pfor (elems e) (p_add_vertex t)) c).
  { apply (same_for _ _ (fun x => touch (edge2str x) t) (fun x w => NoDup (keys w))); [| |exact L].
    - intros x c1 Hi L1 K1. split; [now apply add_vertex_same; auto|].
      destruct (touch_does x t c1 L1 (Hx x Hi) Ht) as (c2 & t2 & E2 & S2). exists c2, t2. split; [|exact S2]. now rewrite run_add_vertex.
    - intros l1 x l2 E. now apply (Kk l1 (x :: l2)). }
  apply same_bind; [exact Lp|]. intros [] c1 t1 E1.
  assert (D : does true (run (pfor (elems e) (p_add_vertex t))) c tt us).
  { unfold us. rewrite <- flat_map_single. unfold does.
    assert (R : run (pfor (elems e) (p_add_vertex t)) c = mfor (elems e) (fun x => do found <- inc_degree (edge2str x); if found then ret tt else add_str (edge2str x) 1 t) c)
      by (apply ir_for; intros x c0; apply run_add_vertex).
    rewrite R. apply (mfor_does true _ _ (fun x => [touch (edge2str x) t])); [exact L|]. intros x c' Hi L'. apply touch_does; [exact L'|now apply Hx|exact Ht]. }
  destruct D as (c1' & t1' & E1' & S1). rewrite E1 in E1'. injection E1' as <- <-.
  pose proof (st_work _ _ _ _ _ S1) as W1. assert (L1 : live c1) by (unfold live; now rewrite (st_cur _ _ _ _ _ S1)).
  apply same_bind.
  - apply add_str_same; [exact Hse|rewrite W1; apply (Kk (elems e) []); now rewrite app_nil_r|].
    rewrite W1. unfold us. rewrite (touch_runs _ _ _ e Ae (db_edge_vertex _ De)), (count_0 e (elems e) (elems_not_self e)).
    rewrite (i_vert _ _ _ I e (db_edge_vertex _ De)), (vrow_born V h e Hh). intros E. apply Hr. split; [exact Np|].
    destruct (born e h) as [[t0 h0]|]; [|discriminate E]. cbn in E. injection E as E ->. exists h0. split; [reflexivity|]. lia.
  - intros [] c2 t2 E2. rewrite (ir_add_str _ _ _ c1) in E2. destruct (add_str_does (edge2str e) 0 t c1 L1 (vertex_bindable e (db_edge_vertex _ De)) Ht) as (c2' & t2' & E2' & S2).
    rewrite E2 in E2'. injection E2' as <- <-. pose proof (st_work _ _ _ _ _ S2) as W2. assert (L2 : live c2) by (unfold live; now rewrite (st_cur _ _ _ _ _ S2)).
    assert (Pw : perms (c_work c2) = perms (c_work c)).
    { rewrite W2. cbn [runs fold_left]. rewrite perms_set, W1. apply perms_same_runs. intros f d Hf. apply in_map_iff in Hf as (x & <- & _). apply perms_touch. }
    unfold p_do_with_edge_permutations. set (row := fun k => match perm_str (elems e) k with Ok s => s | Err _ => [] end).
    assert (Hrow : forall k, In k (seq 0 (fact (List.length (elems e)))) -> is_row (elems e) (row k) /\ perm_str (elems e) k = Ok (row k)).
    { intros k Hk. split; [apply rows_of_spec; [exact Hn|]; now apply (in_map row)|]. apply in_seq in Hk. apply perm_str_ok. lia. }
    apply (same_for _ _ (fun k => ins_perm (row k)) (fun k w => ~ In (row k) (perms w))); [| |exact L2].
    + intros k c3 Hk L3 K3. destruct (Hrow k Hk) as [R1 R2]. rewrite R2. cbn [pbind]. split.
      * apply perm_same; [now apply (short_rows e)|exact K3].
      * destruct (write_perm_does (row k) c3 L3 (row_bindable (elems e) (row k) Ae R1)) as (c4 & t4 & E4 & S4).
        exists c4, t4. split; [|exact S4]. etransitivity; [exact (ir_uoi _ _ c3)|exact E4].
    + intros l1 k l2 E Hi. assert (Hm : @List.map nat upd (fun k => ins_perm (row k)) l1 = @List.map str upd ins_perm (List.map row l1)) by now rewrite map_map.
      cbv beta in Hi. rewrite Hm in Hi. apply perms_ins_runs in Hi as [Hi|Hi].
      * pose proof (rows_nodup e De) as Nd. unfold rows_of in Nd. fold row in Nd. rewrite E, map_app in Nd. cbn [List.map] in Nd.
        apply NoDup_remove_2 in Nd. apply Nd. apply in_app_iff. now left.
      * rewrite Pw in Hi. apply (i_rows _ _ _ I e (row k) He) in Hi; [apply Np; now apply stored_present|].
        apply Hrow. rewrite E. apply in_app_iff. right. now left.
Qed.

(** ** the calls *)

Lemma fine_tail l h : my_fine (l ++ h) -> my_fine h.
Proof. intros H later e t earlier E. apply (H (l ++ later)). now rewrite E, app_assoc. Qed.
Lemma fine_add e t h : my_fine (EAdd e t :: h) -> ~ present h e -> short_texts e /\ ~ same_record e t h.
Proof. intros H. now apply (H [] e t h). Qed.

Definition extends {A} (g : list ev -> A -> list ev) : Prop := forall h x, exists l, g h x = l ++ h.
Lemma extends_fold {A} (g : list ev -> A -> list ev) l h : extends g -> exists k, fold_left g l h = k ++ h.
Proof.
  intros H. revert h. induction l as [|x l IH]; intros h; [now exists []|]. cbn [fold_left]. destruct (IH (g h x)) as (k & ->). destruct (H h x) as (j & ->).
  exists (k ++ j). now rewrite app_assoc.
Qed.
Lemma fine_fold {A} (g : list ev -> A -> list ev) l h : extends g -> my_fine (fold_left g l h) -> my_fine h.
Proof. intros X H. destruct (extends_fold g l h X) as (k & E). rewrite E in H. now apply fine_tail in H. Qed.

Lemma same_loop {A} V (l : list A) (f : A -> prog unit) (g : list ev -> A -> list ev) : extends g ->
  (forall x h, In x l -> goes false V h (g h x) (run (f x)) tt) ->
  (forall x h, In x l -> Forall (ev_in V) h -> Forall (ev_in V) (g h x)) ->
  (forall x h c, In x l -> Forall (ev_in V) h -> my_fine (g h x) -> live c -> Inv V (c_work c) h -> run_on (f x) c = run (f x) c) ->
  forall h c, Forall (ev_in V) h -> my_fine (fold_left g l h) -> live c -> Inv V (c_work c) h -> run_on (pfor l f) c = run (pfor l f) c.
Proof.
  intros X. induction l as [|x l IH]; intros H1 H2 H3 h c Hh Hf L I; cbn [pfor]; [reflexivity|].
  cbn [fold_left] in Hf. apply same_bind; [apply (H3 x h); auto; [now left|now apply (fine_fold g l)]|].
  intros [] c1 t1 E. destruct (H1 x h (or_introl eq_refl) c L I) as (fs & (c2 & t2 & E2 & S) & I2). rewrite E in E2. injection E2 as <- <-.
  apply (IH (fun y h' Hy => H1 y h' (or_intror Hy)) (fun y h' Hy => H2 y h' (or_intror Hy)) (fun y h' c' Hy => H3 y h' c' (or_intror Hy)) (g h x)).
  - apply H2; [now left|exact Hh].
  - exact Hf.
  - unfold live. now rewrite (st_cur _ _ _ _ _ S).
  - now rewrite (st_work _ _ _ _ _ S).
Qed.

Lemma add_same V h e t c : noalias V -> live c -> Inv V (c_work c) h -> Forall (ev_in V) h -> edge_in V e -> int64 t = true ->
  my_fine (EAdd e t :: h) -> run_on (p_add e t) c = run (p_add e t) c.
Proof.
  intros HV L I Hh He Ht Hf. destruct (index0_edge e (edge_in_db _ _ He)) as (a & E0 & Ea). unfold p_add. rewrite E0.
  apply same_bind; [reflexivity|]. intros x c1 t1 E. cbn in E. injection E as <- <- <-. rewrite Ea. apply same_bind; [|intros ? ? ? _; reflexivity].
  apply same_bind; [|intros ? ? ? _; reflexivity]. apply (add_raw_same V h); auto. now apply fine_add.
Qed.
Lemma ready_open V c h h1 c1 t1 : ready V c h -> run (p_open_cursor false) c = (Ok h1, c1, t1) -> live c1 /\ Inv V (c_work c1) h.
Proof.
  intros R. rewrite (ir_open false c). unfold open_cursor, bind, get_cur, set_cur, ret. rewrite (rd_cur _ _ _ R). intros [= _ <- _].
  split; [easy|]. apply (rd_inv _ _ _ R).
Qed.
Lemma add_many_same V h es t c : noalias V -> es <> [] -> Forall (edge_in V) es -> int64 t = true -> ready V c h -> Forall (ev_in V) h ->
  my_fine (fold_left (fun h e => EAdd e t :: h) es h) -> run_on (p_add (VTup es) t) c = run (p_add (VTup es) t) c.
Proof.
  intros HV Hn Hes Ht R Hh Hf. destruct (index0_edges V es Hn Hes) as (a & E0 & Ea). unfold p_add. rewrite E0.
  apply same_bind; [reflexivity|]. intros x c1 t1 E. cbn in E. injection E as <- <- <-. rewrite Ea. apply same_bind; [|intros ? ? ? _; reflexivity].
  apply same_bind; [apply blind_open|]. intros hd c1 t1 E1. destruct (ready_open _ _ _ _ _ _ R E1) as [L1 I1].
  apply same_bind; [reflexivity|]. intros l c2 t2 E. cbn in E. injection E as <- <- <-. apply same_bind; [|intros ? c2 t2 _; apply blind_close].
  rewrite Forall_forall in Hes. apply (same_loop V es _ (fun h e => EAdd e t :: h)) with (h := h); auto.
  - intros h' x. now exists [EAdd x t].
  - intros x h' Hx c0 L0 I0. destruct (goes_weaken _ _ _ _ _ (goes_add_raw V h' x t HV (Hes x Hx) Ht) c0 L0 I0) as (fs & (c4 & t4 & E4 & S4) & I4).
    exists fs. split; [|exact I4]. exists c4, t4. split; [|exact S4]. rewrite run_bind. unfold bind. rewrite (ir_add_raw x t c0), E4. cbn. now rewrite app_nil_r.
  - intros x h' Hx Hh'. constructor; [now apply Hes|exact Hh'].
  - intros x h' c0 Hx Hh' Hf' L0 I0. apply same_bind; [|intros ? ? ? _; reflexivity]. apply (add_raw_same V h'); auto. now apply fine_add.
Qed.
Lemma extends_bop : extends after_bop.
Proof.
  intros h b. destruct b as [e t|e|es| |e|p|a|r|]; cbn [after_bop]; try (now exists []).
  - now exists [EAdd e t].
  - now exists [ERem e].
  - apply extends_fold. intros h' x. now exists [ERem x].
  - now exists [EDestroy].
Qed.
Lemma extends_after : extends after.
Proof.
  intros h o. destruct o as [e t|es t|e|es| |s e t|s es t|s e|p|fs|q|]; cbn [after]; try (now exists []).
  - now exists [EAdd e t].
  - apply extends_fold. intros h' x. now exists [EAdd x t].
  - now exists [ERem e].
  - apply extends_fold. intros h' x. now exists [ERem x].
  - now exists [EDestroy].
  - now exists [EAdd (link_edge s e) t; EAdd e t].
  - apply extends_fold. intros h' x. now exists [EAdd (link_edge s x) t; EAdd x t].
  - destruct (existsb _ _); [now exists [ERem (link_edge s e)]|now exists [ERem e; ERem (link_edge s e)]].
  - apply extends_fold. intros h' x. now exists [ERem x].
  - apply extends_fold, extends_bop.
Qed.
Lemma bop_in_hist V b h : bop_in V b -> Forall (ev_in V) h -> Forall (ev_in V) (after_bop h b).
Proof.
  intros Hb Hh. change (after_bop h b) with (after h (OBatch [[b]])). apply after_in; [|exact Hh]. cbn. now constructor.
Qed.
Lemma bop_same V h b c : noalias V -> bop_in V b -> Forall (ev_in V) h -> my_fine (after_bop h b) -> live c -> Inv V (c_work c) h ->
  run_on (p_bop b) c = run (p_bop b) c.
Proof.
  intros HV Hb Hh Hf L I. destruct b as [e t|e|es| |e|p|a|r|]; cbn [p_bop bop_in] in *.
  - apply same_bind; [now apply (add_same V h)|intros ? ? ? _; reflexivity].
  - apply blind_remove.
  - apply blind_remove.
  - apply blind_destroy.
  - apply blind_bind; [apply blind_exists|intros ?; apply blind_ret].
  - apply blind_bind; [apply blind_pattern|intros ?; apply blind_ret].
  - apply blind_bind; [apply blind_star|intros ?; apply blind_ret].
  - apply blind_bind; [apply blind_symbols|intros ?; apply blind_ret].
  - apply blind_bind; [apply blind_f_all|intros ?; apply blind_ret].
Qed.
Lemma pfor_map {A} (l : list A) (F : A -> prog unit) : pfor (List.map F l) (fun f => f) = pfor l F.
Proof. induction l as [|x l IH]; cbn [List.map pfor]; [reflexivity|now rewrite IH]. Qed.
Lemma goes_run {A} b V h h' (p : prog A) m a : is_run p m -> goes b V h h' m a -> goes b V h h' (run p) a.
Proof. intros R G c L I. unfold does. rewrite (R c). now apply G. Qed.

Lemma op_same ord V h o c : noalias V -> op_in V o -> Forall (ev_in V) h -> ready V c h -> my_fine (after h o) ->
  run_on (p_op ord o) c = run (p_op ord o) c.
Proof.
  intros HV Hi Hh R Hf. pose proof (ready_live _ _ _ R) as L. pose proof (rd_inv _ _ _ R) as I.
  destruct o as [e t|es t|e|es| |s e t|s es t|s e|p|fs|q|]; cbn [p_op after op_in] in *.
  - apply same_bind; [now apply (add_same V h)|intros ? ? ? _; reflexivity].
  - apply same_bind; [now apply (add_many_same V h)|intros ? ? ? _; reflexivity].
  - apply blind_remove.
  - apply blind_remove.
  - apply blind_destroy.
  - destruct Hi as [[He Hl] Ht]. destruct (index0_edge e (edge_in_db _ _ He)) as (a & E0 & Ea). unfold p_add_belief. rewrite E0.
    apply same_bind; [reflexivity|]. intros x c1 t1 E. cbn in E. injection E as <- <- <-. rewrite Ea. apply same_bind; [|intros ? ? ? _; reflexivity].
    apply (add_many_same V h); [exact HV|discriminate| |exact Ht|exact R|exact Hh|exact Hf]. apply Forall_cons; [exact He|]. apply Forall_cons; [exact Hl|constructor].
  - destruct Hi as [[Hn Hes] Ht]. destruct (index0_edges V es Hn) as (a & E0 & Ea).
    { eapply Forall_impl; [|exact Hes]. now intros x [H _]. }
    unfold p_add_belief. rewrite E0.
    apply same_bind; [reflexivity|]. intros x c1 t1 E. cbn in E. injection E as <- <- <-. rewrite Ea.
    apply same_bind; [reflexivity|]. intros x c1 t1 E. cbn in E. injection E as <- <- <-. apply same_bind; [|intros ? ? ? _; reflexivity].
    apply (add_many_same V h); auto.
    + destruct es; [easy|discriminate].
    + rewrite Forall_forall in *. intros x Hx. apply in_flat_map in Hx as (e & He & [<-|[<-|[]]]); now apply (Hes e).
    + rewrite fold_flat. exact Hf.
  - unfold p_remove_belief. apply blind_bind; [apply blind_remove|intros ?]. apply blind_bind; [apply blind_sources|]. intros ss.
    destruct (Nat.eqb (List.length ss) 0); [apply blind_remove|apply blind_ret].
  - unfold p_remove_by_pattern. apply blind_bind; [apply blind_pattern|]. intros l. apply blind_for. intros x _. apply blind_remove.
  - unfold p_batch_exec. apply same_bind; [apply blind_open|]. intros hd c1 t1 E1. destruct (ready_open _ _ _ _ _ _ R E1) as [L1 I1].
    apply same_bind; [|intros ? c2 t2 _; apply blind_close]. rewrite pfor_map. rewrite Forall_forall in Hi.
    assert (Hb : forall bs b, In bs fs -> In b bs -> bop_in V b) by (intros bs b H1 H2; apply Hi, in_concat; now exists bs).
    assert (Gb : forall bs h, In bs fs -> goes false V h (fold_left after_bop bs h) (run (pfor bs p_bop)) tt).
    { intros bs h' Hbs. apply (goes_run _ _ _ _ _ (mfor bs run_bop)); [apply ir_for, ir_bop|]. apply goes_mfor. intros b h2 Hb2. apply goes_bop; [exact HV|now apply (Hb bs)]. }
    apply (same_loop V fs _ (fun h bs => fold_left after_bop bs h)) with (h := h); auto.
    + intros h' bs. apply extends_fold, extends_bop.
    + intros bs h' Hbs Hh'. apply (fold_in V (bop_in V)); [|rewrite Forall_forall; intros b; now apply Hb|exact Hh']. intros h2 b. apply bop_in_hist.
    + intros bs h' c0 Hbs Hh' Hf' L0 I0. apply (same_loop V bs _ after_bop) with (h := h'); auto.
      * apply extends_bop.
      * intros b h2 Hb2. apply (goes_run _ _ _ _ _ (run_bop b)); [apply ir_bop|]. apply goes_bop; [exact HV|now apply (Hb bs)].
      * intros b h2 Hb2. apply bop_in_hist. now apply (Hb bs).
      * intros b h2 c2 Hb2 Hh2 Hf2 L2 I2. apply (bop_same V h2); auto. now apply (Hb bs).
    + clear - Hf. revert h Hf. induction fs as [|bs fs IH]; intros h Hf; [exact Hf|]. cbn [List.concat fold_left] in *.
      rewrite fold_left_app in Hf. now apply IH.
  - destruct q; cbn [p_ask]; (apply blind_bind; [|intros ?; apply blind_ret]);
      auto using blind_exists, blind_pattern, blind_star, blind_degree, blind_timestamp, blind_sources, blind_symbols, (@blind_f_all (value * Z)).
  - reflexivity.
Qed.

Lemma ops_same ord V ops h c : noalias V -> (forall l, Permutation (ord l) l) -> Forall (op_in V) ops -> Forall (ev_in V) h -> ready V c h ->
  my_fine (fold_left after ops h) -> run_ops_on ord ops c = run_ops ord ops c.
Proof.
  intros HV Ho H. revert h c. induction H as [|o ops Hi _ IH]; intros h c Hh R Hf; [reflexivity|].
  cbn [fold_left] in Hf. unfold run_ops_on, run_ops. cbn [mfor]. unfold bind.
  assert (E : run_op_on ord o c = run_op ord o c).
  { destruct o; try reflexivity; cbn [run_op_on]; rewrite (op_same ord V h) by (auto; now apply (fine_fold after ops _ extends_after)); now apply run_p_op. }
  rewrite E. destruct (op_top ord V h o c HV Ho Hi R) as (us & c1 & t1 & [E1 A1 R1 _ _]). rewrite E1.
  change (mfor ops (run_op_on ord) c1) with (run_ops_on ord ops c1). change (mfor ops (run_op ord) c1) with (run_ops ord ops c1).
  rewrite (IH (after h o) c1 (after_in V h o Hi Hh) R1 Hf). reflexivity.
Qed.

(** ** an add that repeats the edge's vertex record *)

Lemma upd_same id d t w : NoDup (keys w) -> vlook id w = Some (d, t) ->
  sql_run_my (UpdVertex id d t) w = Ok (w, O) /\ existsb (fun r => str_eqb (my_key id) (my_key (fst r))) (vertices w) = true.
Proof.
  intros N E. destruct w as [vs ps]. unfold keys in N. unfold vlook in E. cbn [sql_run_my vertices perms] in *.
  assert (F : List.map (fun r => if vkey id r then (id, (d, t)) else r) vs = vs
    /\ List.length (filter (fun r => vkey id r && negb (Z.eqb (fst (snd r)) d && Z.eqb (snd (snd r)) t)) vs) = O
    /\ existsb (fun r => str_eqb (my_key id) (my_key (fst r))) vs = true); [|destruct F as (-> & -> & ->); split; reflexivity].
  induction vs as [|[k [d' t']] vs IH]; [discriminate E|]. cbn [find] in E. cbn [List.map filter existsb fst snd] in *.
  change (vkey id (k, (d', t'))) with (str_eqb id k) in *. inversion N as [|? ? Hk Nt]; subst. destruct (str_eqb id k) eqn:Ek.
  - apply str_eqb_eq in Ek as <-. injection E as -> ->. rewrite !Z.eqb_refl, str_eqb_refl. cbn [andb negb orb].
    assert (Z0 : forall r, In r vs -> vkey id r = false).
    { intros r Hr. destruct (vkey id r) eqn:Er; [|reflexivity]. apply vkey_eq in Er. exfalso. apply Hk. rewrite <- Er. now apply in_map. }
    split; [f_equal; transitivity (List.map (fun r => r) vs); [apply map_ext_in; intros r Hr; now rewrite (Z0 r Hr)|apply map_id]|].
    split; [|reflexivity]. clear - Z0. induction vs as [|r vs IH2]; [reflexivity|]. cbn [filter]. rewrite (Z0 r (or_introl eq_refl)).
    apply IH2. intros r' Hr'. apply Z0. now right.
  - cbn [andb]. destruct (IH Nt E) as (F1 & F2 & F3). rewrite F1, F2, F3. split; [reflexivity|]. split; [reflexivity|]. apply orb_true_r.
Qed.
Lemma add_str_repeat id d t c : c_auto c = true -> c_cur c = CNone -> bindable id = true -> int64 t = true -> NoDup (keys (c_work c)) ->
  vlook id (c_work c) = Some (d, t) ->
  run_on (p_add_str id d t) c = (Err IntegrityError, Conn true (c_work c) (c_work c) CNone, [c_work c]).
Proof.
  intros Ha Hc B Ht N E. destruct (upd_same id d t _ N E) as [E1 E2]. destruct c as [au cm wk cu]. cbn [c_auto c_cur c_work] in *. subst au cu.
  assert (X1 : execute_on HLocal (UpdVertex id d t) (Conn true cm wk CNone) = (Ok O, Conn true wk wk CNone, [wk])).
  { unfold execute_on. change (usable HLocal (Conn true cm wk CNone)) with true. rewrite (binds_upd id d t B Ht).
    cbn [negb c_auto c_work c_cur]. unfold engine. rewrite E1. reflexivity. }
  assert (X2 : execute_on HLocal (InsVertex id d t) (Conn true wk wk CNone) = (Err IntegrityError, Conn true wk wk CNone, [])).
  { unfold execute_on. change (usable HLocal (Conn true wk wk CNone)) with true. rewrite (binds_ins id d t B Ht).
    cbn [negb c_auto c_work c_cur]. unfold engine. cbn [sql_run_my]. rewrite E2. reflexivity. }
  unfold p_add_str, p_update_or_insert. rewrite run_on_bind. unfold bind.
  change (run_on (p_open_cursor true) (Conn true cm wk CNone)) with (@Ok handle HLocal, Conn true cm wk CNone, @nil db). cbv iota beta zeta.
  rewrite run_on_bind. unfold bind. change (run_on (pact (AExec HLocal (UpdVertex id d t)))) with (bind (execute_on HLocal (UpdVertex id d t)) (fun x => lift (Ok x))).
  unfold bind. rewrite X1. unfold lift, ret. cbv iota beta zeta. rewrite run_on_bind. unfold bind. change (Nat.eqb 0 0) with true. cbv iota beta zeta.
  rewrite run_on_bind. unfold bind. change (run_on (pact (AExec HLocal (InsVertex id d t)))) with (bind (execute_on HLocal (InsVertex id d t)) (fun x => lift (Ok x))).
  unfold bind. rewrite X2. reflexivity.
Qed.

Lemma add_repeat V h e t c : noalias V -> c_auto c = true -> ready V c h -> Forall (ev_in V) h -> edge_in V e -> int64 t = true -> short_texts e ->
  same_record e t h ->
  let w := runs (List.map (fun x => touch (edge2str x) t) (elems e)) (c_work c) in
  exists tr, run_on (p_add e t) c = (Err IntegrityError, Conn true w w CNone, tr).
Proof.
  intros HV Ha R Hh He Ht Hs [Np (h0 & Eb & Eo)] w. pose proof (edge_in_db _ _ He) as De. pose proof (rd_inv _ _ _ R) as I. pose proof (ready_live _ _ _ R) as L.
  pose proof (Inv_exists V _ h c e HV I eq_refl L He) as G. destruct (db_edge_elems e De) as (Ee & Ae & Le). destruct (short_vertex e De Hs) as [Hse Hsx].
  assert (Gm : memb e (stored h) = false) by (apply memb_nin; now rewrite stored_present). rewrite Gm in G.
  assert (Hx : forall x, In x (elems e) -> db_vertex x = true) by (intros x; apply (elems_db V); exact He).
  assert (Kk : forall l1 l2, elems e = l1 ++ l2 -> NoDup (keys (runs (List.map (fun x => touch (edge2str x) t) l1) (c_work c)))).
  { intros l1 l2 _. apply runs_inv; [apply I|]. intros f d Hf. apply in_map_iff in Hf as (x & <- & _). apply nodup_touch. }
  assert (Lp : run_on (pfor (elems e) (p_add_vertex t)) c = run (pfor (elems e) (p_add_vertex t)) c).
  { apply (same_for _ _ (fun x => touch (edge2str x) t) (fun x w => NoDup (keys w))); [| |exact L].
    - intros x c1 Hi L1 K1. split; [now apply add_vertex_same; auto|].
      destruct (touch_does x t c1 L1 (Hx x Hi) Ht) as (c2 & t2 & E2 & S2). exists c2, t2. split; [|exact S2]. now rewrite run_add_vertex.
    - intros l1 x l2 E. now apply (Kk l1 (x :: l2)). }
  assert (D : does true (run (pfor (elems e) (p_add_vertex t))) c tt (List.map (fun x => touch (edge2str x) t) (elems e))).
  { rewrite <- flat_map_single. unfold does.
    assert (Rr : run (pfor (elems e) (p_add_vertex t)) c = mfor (elems e) (fun x => do found <- inc_degree (edge2str x); if found then ret tt else add_str (edge2str x) 1 t) c)
      by (apply ir_for; intros x c0; apply run_add_vertex).
    rewrite Rr. apply (mfor_does true _ _ (fun x => [touch (edge2str x) t])); [exact L|]. intros x c' Hi L'. apply touch_does; [exact L'|now apply Hx|exact Ht]. }
  destruct D as (c1 & t1 & E1 & S1). pose proof (st_work _ _ _ _ _ S1) as W1. fold w in W1.
  assert (C1 : c_cur c1 = CNone) by (rewrite (st_cur _ _ _ _ _ S1); apply R). assert (A1 : c_auto c1 = true) by now rewrite (st_auto _ _ _ _ _ S1).
  assert (Er : run_on (p_add_str (edge2str e) 0 t) c1 = (Err IntegrityError, Conn true w w CNone, [w])).
  { rewrite <- W1. apply add_str_repeat; [exact A1|exact C1|now apply vertex_bindable, db_edge_vertex|exact Ht|rewrite W1; apply (Kk (elems e) []); now rewrite app_nil_r|].
    rewrite W1. unfold w. rewrite (touch_runs _ _ _ e Ae (db_edge_vertex _ De)), (count_0 e (elems e) (elems_not_self e)).
    rewrite (i_vert _ _ _ I e (db_edge_vertex _ De)), (vrow_born V h e Hh), Eb. cbn [option_map fst snd]. rewrite Eo. f_equal. f_equal. lia. }
  destruct (index0_edge e De) as (a & E0 & Ea).
  assert (Raw : exists tr, run_on (p_add_raw e t) c = (Err IntegrityError, Conn true w w CNone, tr)).
  { eexists. unfold p_add_raw. rewrite run_on_bind. unfold bind at 1. rewrite (blind_exists e c), (ir_exists e c), G.
    rewrite run_on_bind. unfold bind at 1. rewrite (as_seq_edge e De). cbn [pbind].
    rewrite run_on_bind. unfold bind at 1. rewrite Lp, E1. rewrite run_on_bind. unfold bind at 1. rewrite Er. reflexivity. }
  destruct Raw as (tr & Raw). exists tr. unfold p_add. rewrite E0. cbn [pbind]. rewrite Ea. rewrite !run_on_bind. unfold bind. rewrite run_on_bind. unfold bind. now rewrite Raw.
Qed.
