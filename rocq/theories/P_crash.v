(** * P_crash.v -- commits, crashes and the shared cursor, for arbitrary arguments *)

From Verif Require Import Py M_symbol M_edge M_sql M_hypergraph P_py Spec P_edge P_perm P_range P_query
  S_history M_driver P_ops P_hist P_graph P_answers.
From Coq Require Import Permutation Factorial String.
Open Scope list_scope.

Definition res_of {A} (x : res A * conn * list db) : res A := fst (fst x).
Definition st_of {A} (x : res A * conn * list db) : conn := snd (fst x).
Definition tr_of {A} (x : res A * conn * list db) : list db := snd x.

(** ** queries: no effect, and the same answer in and out of a batch *)

Definition compat (c1 c2 : conn) : Prop :=
  c_work c1 = c_work c2 /\ (c_cur c1 = CClosed <-> c_cur c2 = CClosed).
Lemma compat_refl c : compat c c.
Proof. split; [reflexivity|tauto]. Qed.

Definition qq {A} (m1 : M A) (c1 : conn) (m2 : M A) (c2 : conn) : Prop :=
  exists r, m1 c1 = (r, c1, []) /\ m2 c2 = (r, c2, []).

Lemma qq_bind {A B} (m1 m2 : M A) (k1 k2 : A -> M B) c1 c2 :
  qq m1 c1 m2 c2 -> (forall a, qq (k1 a) c1 (k2 a) c2) -> qq (bind m1 k1) c1 (bind m2 k2) c2.
Proof.
  intros ([a|e] & E1 & E2) H; unfold qq, bind; rewrite E1, E2.
  - destruct (H a) as (r & F1 & F2). rewrite F1, F2. now exists r.
  - now exists (Err e).
Qed.
Lemma qq_lift {A} (r : res A) c1 c2 : qq (lift r) c1 (lift r) c2.
Proof. exists r. now destruct r. Qed.
Lemma qq_ret {A} (a : A) c1 c2 : qq (ret a) c1 (ret a) c2.
Proof. now exists (Ok a). Qed.

Definition hd_of (c : conn) : handle := match c_cur c with CNone => HLocal | _ => HShared end.
Lemma open_true c : open_cursor true c = (Ok (hd_of c), c, []).
Proof. unfold open_cursor, bind, get_cur, ret, hd_of. now destruct (c_cur c). Qed.
Lemma close_true c : close_cursor (hd_of c) true false c = (Ok tt, c, []).
Proof. unfold close_cursor, bind, get_cur, ret, hd_of, close_handle. destruct (c_cur c); reflexivity. Qed.
Lemma bind_open {B} (k : handle -> M B) c : bind (open_cursor true) k c = k (hd_of c) c.
Proof. unfold bind. rewrite open_true. destruct (k (hd_of c) c) as [[r c'] t]. reflexivity. Qed.

Lemma qq_open {B} (k : handle -> M B) c1 c2 :
  qq (k (hd_of c1)) c1 (k (hd_of c2)) c2 -> qq (bind (open_cursor true) k) c1 (bind (open_cursor true) k) c2.
Proof. unfold qq. now rewrite !bind_open. Qed.
Lemma qq_query {A} texts (f : db -> A) c1 c2 : compat c1 c2 -> qq (query (hd_of c1) texts f) c1 (query (hd_of c2) texts f) c2.
Proof.
  intros [Hw Hc]. unfold qq, query, usable, hd_of. rewrite Hw.
  destruct (c_cur c1) eqn:E1, (c_cur c2) eqn:E2; cbn [negb];
    try (exfalso; destruct Hc; (assert (CClosed = CClosed) by reflexivity); intuition discriminate);
    try (now eexists); destruct (negb (forallb bindable texts)); now eexists.
Qed.
Lemma qq_close c1 c2 : qq (close_cursor (hd_of c1) true false) c1 (close_cursor (hd_of c2) true false) c2.
Proof. exists (Ok tt). now rewrite !close_true. Qed.

Ltac qq_tac := repeat first
  [ apply qq_ret | apply qq_lift | assumption
  | apply qq_open | apply qq_query; assumption | apply qq_close
  | apply qq_bind; [|intros ?] ].

Lemma qq_pattern p c1 c2 : compat c1 c2 -> qq (pattern2edges p) c1 (pattern2edges p) c2.
Proof. intros H. unfold pattern2edges. qq_tac. Qed.
Lemma qq_exists e c1 c2 : compat c1 c2 -> qq (exists_ e) c1 (exists_ e) c2.
Proof. intros H. unfold exists_. apply qq_bind; [now apply qq_pattern|intros l; apply qq_ret]. Qed.
Lemma qq_star e c1 c2 : compat c1 c2 -> qq (star e) c1 (star e) c2.
Proof. intros H. unfold star, str2perms. qq_tac. Qed.
Lemma qq_symbols r c1 c2 : compat c1 c2 -> qq (symbols_with_root r) c1 (symbols_with_root r) c2.
Proof. intros H. unfold symbols_with_root. qq_tac. Qed.
Lemma qq_sources e c1 c2 : compat c1 c2 -> qq (sources e) c1 (sources e) c2.
Proof. intros H. unfold sources. apply qq_bind; [now apply qq_pattern|intros l]. qq_tac. Qed.
Lemma qq_f_all {B} (f : value * Z -> B) c1 c2 : compat c1 c2 -> qq (f_all f) c1 (f_all f) c2.
Proof. intros H. unfold f_all. qq_tac. Qed.

(** ** relations that hold along any run *)

Definition rel := conn -> conn -> list db -> Prop.
Record comp (R : rel) : Prop := {
  co_refl : forall c, R c c [];
  co_trans : forall c c1 c2 t1 t2, R c c1 t1 -> R c1 c2 t2 -> R c c2 (t1 ++ t2) }.
Definition always {A} (R : rel) (m : M A) : Prop := forall c, R c (st_of (m c)) (tr_of (m c)).

Lemma al_bind {A B} R (m : M A) (k : A -> M B) : comp R -> always R m -> (forall a, always R (k a)) -> always R (bind m k).
Proof.
  intros HR Hm Hk c. specialize (Hm c). unfold bind. destruct (m c) as [[[a|e] c1] t1]; cbn in *; [|exact Hm].
  specialize (Hk a c1). destruct (k a c1) as [[r c2] t2]. cbn in *. now apply (co_trans _ HR c c1).
Qed.
Lemma al_pure {A} R (m : M A) : comp R -> (forall c, qq m c m c) -> always R m.
Proof. intros HR H c. destruct (H c) as (r & E & _). rewrite E. apply (co_refl _ HR). Qed.
Lemma al_ret {A} R (a : A) : comp R -> always R (ret a).
Proof. intros HR. apply al_pure; [exact HR|intros c; apply qq_ret]. Qed.
Lemma al_raise {A} R e : comp R -> always R (@raise A e).
Proof. intros HR c. apply (co_refl _ HR). Qed.
Lemma al_lift {A} R (r : res A) : comp R -> always R (lift r).
Proof. intros HR. apply al_pure; [exact HR|intros c; apply qq_lift]. Qed.
Lemma al_mfor {A} R (l : list A) f : comp R -> (forall x, always R (f x)) -> always R (mfor l f).
Proof. intros HR H. induction l as [|x l IH]; [now apply al_ret|]. cbn. now apply al_bind. Qed.
Lemma al_exists R e : comp R -> always R (exists_ e).
Proof. intros HR. apply al_pure; [exact HR|]. intros c. apply qq_exists, compat_refl. Qed.
Lemma al_pattern R p : comp R -> always R (pattern2edges p).
Proof. intros HR. apply al_pure; [exact HR|]. intros c. apply qq_pattern, compat_refl. Qed.
Lemma al_sources R e : comp R -> always R (sources e).
Proof. intros HR. apply al_pure; [exact HR|]. intros c. apply qq_sources, compat_refl. Qed.

(** (1) with the shared cursor open nothing reaches the disk *)
Definition Rkeep : rel := fun c c' tr =>
  c_auto c = false -> c_cur c = COpen ->
  c_auto c' = false /\ c_cur c' = COpen /\ c_comm c' = c_comm c /\ forall d, In d tr -> d = c_comm c.
(** (2) outside a batch, everything that happened is on the disk *)
Definition Rsync : rel := fun c c' tr =>
  c_cur c = CNone -> c_comm c = c_work c ->
  c_auto c' = c_auto c /\ c_cur c' = CNone /\ c_comm c' = c_work c'.
(** (3) the commit mode never changes *)
Definition Rauto : rel := fun c c' tr => c_auto c' = c_auto c.

Lemma comp_keep : comp Rkeep.
Proof.
  constructor; unfold Rkeep.
  - intros c A C. repeat split; auto. easy.
  - intros c c1 c2 t1 t2 H1 H2 A C. destruct (H1 A C) as (A1 & C1 & D1 & T1).
    destruct (H2 A1 C1) as (A2 & C2 & D2 & T2). repeat split; try congruence.
    intros d Hd. apply in_app_iff in Hd as [Hd|Hd]; [now apply T1|]. rewrite <- D1. now apply T2.
Qed.
Lemma comp_sync : comp Rsync.
Proof.
  constructor; unfold Rsync; [tauto|]. intros c c1 c2 t1 t2 H1 H2 A C. destruct (H1 A C) as (A1 & C1 & D1).
  destruct (H2 C1 D1) as (A2 & C2 & D2). repeat split; congruence.
Qed.
Lemma comp_auto : comp Rauto.
Proof. constructor; unfold Rauto; congruence. Qed.

(** the writing blocks *)
Lemma rows0 (k : str * (Z * Z) -> bool) f l : Nat.eqb (List.length (filter k l)) 0 = true ->
  List.map (fun r => if k r then f r else r) l = l.
Proof.
  intros H. apply Nat.eqb_eq in H. induction l as [|r l IH]; [reflexivity|]. cbn in *.
  destruct (k r); [cbn in H; lia|]. now rewrite IH.
Qed.

Ltac block := unfold st_of, tr_of, bind; rewrite open_true; unfold hd_of, execute, close_cursor, bind, get_cur, close_handle, commit, set_cur, ret, usable.

Definition blank (s : stmt) : Prop := forall w w' n, sql_run s w = Ok (w', n) -> Nat.eqb n 0 = true -> w' = w.

Lemma sync_uoi u i : blank u -> always Rsync (update_or_insert u i).
Proof.
  intros B [au cm wk cu]. unfold Rsync. cbn [c_cur c_comm c_work c_auto]. intros -> ->.
  unfold update_or_insert. block. cbn [c_cur negb c_work c_auto c_comm].
  destruct (bind_error u) eqn:Bu; [cbn; auto|].
  destruct (sql_run u wk) as [[w1 n]|x] eqn:E1; [|cbn; auto]. cbn [fst snd c_cur c_work c_auto c_comm].
  destruct (Nat.eqb n 0) eqn:En; [|cbn; auto]. pose proof (B _ _ _ E1 En) as ->.
  destruct (bind_error i) eqn:Bi; cbn; [destruct au; auto|].
  destruct (sql_run i wk) as [[w2 n2]|x] eqn:E2; cbn; [auto|destruct au; auto].
Qed.
Lemma sync_block s {A} (g : nat -> A) : always Rsync (do cur <- open_cursor true; do n <- execute cur s; close_cursor cur true true;; ret (g n)).
Proof.
  intros [au cm wk cu]. unfold Rsync. cbn [c_cur c_comm c_work c_auto]. intros -> ->. block. cbn [c_cur negb c_work c_auto c_comm].
  destruct (bind_error s); [cbn; auto|].
  destruct (sql_run s wk) as [[w1 n]|x] eqn:E1; cbn; auto.
Qed.
Lemma sync_block' s : always Rsync (do cur <- open_cursor true; execute cur s;; close_cursor cur true true).
Proof.
  intros [au cm wk cu]. unfold Rsync. cbn [c_cur c_comm c_work c_auto]. intros -> ->. block. cbn [c_cur negb c_work c_auto c_comm].
  destruct (bind_error s); [cbn; auto|].
  destruct (sql_run s wk) as [[w1 n]|x] eqn:E1; cbn; auto.
Qed.
Lemma sync_delperm s : always Rsync (remove_edge_permutation s).
Proof.
  intros [au cm wk cu]. unfold Rsync. cbn [c_cur c_comm c_work c_auto]. intros -> ->.
  unfold remove_edge_permutation, st_of, tr_of, bind, execute, commit, usable. cbn [negb c_cur].
  destruct (bind_error (DelPerm s)); cbn; auto.
Qed.
Lemma blank_vertex id d t : blank (UpdVertex id d t).
Proof.
  intros w w' n H Hn. cbn in H. injection H as <- <-. rewrite (rows0 (vkey id) (fun r => (id, (d, t)))); [|exact Hn].
  now destruct w.
Qed.
Lemma blank_perm id : blank (UpdPerm id).
Proof. intros w w' n H Hn. cbn in H. now injection H as <- <-. Qed.

Lemma keep_uoi u i : always Rkeep (update_or_insert u i).
Proof.
  intros [au cm wk cu]. unfold Rkeep. cbn [c_cur c_comm c_work c_auto]. intros -> ->.
  unfold update_or_insert. block. cbn [c_cur negb c_work c_auto c_comm].
  destruct (bind_error u) eqn:Bu; [cbn; tauto|].
  destruct (sql_run u wk) as [[w1 n]|x] eqn:E1; [|cbn; tauto]. cbn [fst snd c_cur c_work c_auto c_comm].
  destruct (Nat.eqb n 0) eqn:En; [|cbn; intuition auto].
  destruct (bind_error i) eqn:Bi; cbn; [intuition auto|].
  destruct (sql_run i w1) as [[w2 n2]|x] eqn:E2; cbn; intuition auto.
Qed.
Lemma keep_block s {A} (g : nat -> A) : always Rkeep (do cur <- open_cursor true; do n <- execute cur s; close_cursor cur true true;; ret (g n)).
Proof.
  intros [au cm wk cu]. unfold Rkeep. cbn [c_cur c_comm c_work c_auto]. intros -> ->. block. cbn [c_cur negb c_work c_auto c_comm].
  destruct (bind_error s); [cbn; tauto|].
  destruct (sql_run s wk) as [[w1 n]|x] eqn:E1; cbn; intuition auto.
Qed.

(** ** the methods *)

Lemma keep_add_raw e t : always Rkeep (add_raw e t).
Proof.
  pose proof comp_keep as C. unfold add_raw. apply al_bind; [exact C|now apply al_exists|]. intros b.
  apply al_bind; [exact C| |intros _; now apply al_ret]. destruct b; [now apply al_ret|].
  apply al_bind; [exact C|now apply al_lift|]. intros items. apply al_bind; [exact C| |intros _].
  { apply al_mfor; [exact C|]. intros x. apply al_bind; [exact C|apply keep_block|]. intros [|]; [now apply al_ret|apply keep_uoi]. }
  apply al_bind; [exact C|apply keep_uoi|intros _]. unfold write_edge_permutations, do_with_edge_permutations.
  apply al_mfor; [exact C|]. intros n. apply al_bind; [exact C|now apply al_lift|]. intros s. apply keep_uoi.
Qed.
Lemma sync_add_raw e t : always Rsync (add_raw e t).
Proof.
  pose proof comp_sync as C. unfold add_raw. apply al_bind; [exact C|now apply al_exists|]. intros b.
  apply al_bind; [exact C| |intros _; now apply al_ret]. destruct b; [now apply al_ret|].
  apply al_bind; [exact C|now apply al_lift|]. intros items. apply al_bind; [exact C| |intros _].
  { apply al_mfor; [exact C|]. intros x. apply al_bind; [exact C|apply sync_block|]. intros [|]; [now apply al_ret|].
    apply sync_uoi, blank_vertex. }
  apply al_bind; [exact C|apply sync_uoi, blank_vertex|intros _]. unfold write_edge_permutations, do_with_edge_permutations.
  apply al_mfor; [exact C|]. intros n. apply al_bind; [exact C|now apply al_lift|]. intros s. apply sync_uoi, blank_perm.
Qed.
Lemma sync_remove_raw e : always Rsync (remove_raw e).
Proof.
  pose proof comp_sync as C. unfold remove_raw. apply al_bind; [exact C|now apply al_exists|]. intros [|]; [|now apply al_ret].
  apply al_bind; [exact C|now apply al_lift|]. intros items. apply al_bind; [exact C| |intros _].
  { apply al_mfor; [exact C|]. intros x. apply al_bind; [exact C|apply sync_block|]. intros b. now apply al_ret. }
  apply al_bind; [exact C| |intros _; apply sync_block'].
  unfold remove_edge_permutations, do_with_edge_permutations. apply al_mfor; [exact C|]. intros n.
  apply al_bind; [exact C|now apply al_lift|]. intros s. apply sync_delperm.
Qed.
Lemma sync_remove e : always Rsync (remove e).
Proof.
  pose proof comp_sync as C. unfold remove. apply al_bind; [exact C|now apply al_lift|]. intros x.
  destruct (is_tup x); [|apply sync_remove_raw]. apply al_bind; [exact C|now apply al_lift|]. intros items.
  apply al_mfor; [exact C|]. apply sync_remove_raw.
Qed.
Lemma sync_destroy : always Rsync destroy.
Proof.
  intros [au cm wk cu]. unfold Rsync. cbn [c_cur c_comm c_work c_auto]. intros -> ->. unfold destroy. block. cbn. auto.
Qed.
Lemma sync_degree v : always Rsync (degree v).
Proof.
  intros [au cm wk cu]. unfold Rsync. cbn [c_cur c_comm c_work c_auto]. intros -> ->. unfold degree. block. unfold query, usable. cbn [c_cur negb].
  destruct (forallb bindable [edge2str v]); cbn [negb c_work]; [|cbn; auto].
  destruct (vlook (edge2str v) wk) as [[d t]|]; cbn; auto.
Qed.
Lemma sync_timestamp v : always Rsync (timestamp v).
Proof.
  intros [au cm wk cu]. unfold Rsync. cbn [c_cur c_comm c_work c_auto]. intros -> ->. unfold timestamp. block. unfold query, usable. cbn [c_cur negb].
  destruct (forallb bindable [edge2str v]); cbn [negb c_work]; [|cbn; auto].
  destruct (vlook (edge2str v) wk) as [[d t]|]; cbn; auto.
Qed.
Lemma sync_ask q : always Rsync (run_ask q).
Proof.
  pose proof comp_sync as C. destruct q; cbn [run_ask]; (apply al_bind; [exact C| |intros _; now apply al_ret]).
  - now apply al_exists.
  - now apply al_pattern.
  - apply al_pure; [exact C|]. intros c. apply qq_star, compat_refl.
  - apply sync_degree.
  - apply sync_timestamp.
  - now apply al_sources.
  - apply al_pure; [exact C|]. intros c. apply qq_symbols, compat_refl.
  - apply al_pure; [exact C|]. intros c. apply qq_f_all, compat_refl.
Qed.
Lemma sync_remove_by_pattern ord p : always Rsync (remove_by_pattern ord p).
Proof.
  pose proof comp_sync as C. unfold remove_by_pattern. apply al_bind; [exact C|now apply al_pattern|]. intros l.
  apply al_mfor; [exact C|]. apply sync_remove.
Qed.
Lemma sync_remove_belief s e : always Rsync (remove_belief s e).
Proof.
  pose proof comp_sync as C. unfold remove_belief. apply al_bind; [exact C|apply sync_remove|intros _].
  apply al_bind; [exact C|now apply al_sources|]. intros l. destruct (Nat.eqb (List.length l) 0); [apply sync_remove|now apply al_ret].
Qed.

(** ** the shared cursor: multi-edge add and batch_exec *)

Definition opened (c : conn) : conn := Conn (c_auto c) (c_comm c) (c_work c) COpen.
Lemma open_false c : c_cur c = CNone -> open_cursor false c = (Ok HShared, opened c, []).
Proof. intros H. unfold open_cursor, bind, get_cur, set_cur, ret, opened. now rewrite H. Qed.

Lemma close_false h c : close_cursor h false true c =
  match c_cur c with
  | CNone => (Err AttributeError, Conn (c_auto c) (c_work c) (c_work c) CNone, [c_work c])
  | _ => (Ok tt, Conn (c_auto c) (c_work c) (c_work c) CNone, [c_work c])
  end.
Proof. unfold close_cursor, bind, commit, get_cur, set_cur, raise. cbn. now destruct (c_cur c). Qed.

(** a run of the form open; body; close, whatever the body is *)
Lemma shared_ok (body : M unit) c c' tr : 
  (do cur <- open_cursor false; body;; close_cursor cur false true) c = (Ok tt, c', tr) ->
  c_cur c' = CNone /\ c_comm c' = c_work c'.
Proof.
  intros E. unfold bind in E. destruct (open_cursor false c) as [[[h|x] c0] t0]; [|discriminate].
  destruct (body c0) as [[[u|x] c1] t1]; [|discriminate]. rewrite close_false in E.
  destruct (c_cur c1); [discriminate| |]; injection E as <- _; auto.
Qed.

Lemma auto_keep_shared (body : M unit) : always Rauto body ->
  always Rauto (do cur <- open_cursor false; body;; close_cursor cur false true).
Proof.
  intros H. pose proof comp_auto as C. apply al_bind; [exact C| |].
  { intros c. unfold Rauto, st_of, open_cursor, bind, get_cur, set_cur, ret. now destruct (c_cur c). }
  intros h. apply al_bind; [exact C|exact H|]. intros _ c. unfold Rauto, st_of. rewrite close_false. now destruct (c_cur c).
Qed.

(** the commit mode is never changed *)
Lemma auto_exec h s : always Rauto (execute h s).
Proof.
  intros c. unfold Rauto, st_of, execute. destruct (negb (usable h c)); [reflexivity|]. destruct (bind_error s); [reflexivity|].
  destruct (sql_run s (c_work c)) as [[w n]|x]; reflexivity.
Qed.
Lemma auto_close h b : always Rauto (close_cursor h true b).
Proof.
  intros [au cm wk cu]. unfold Rauto, st_of, close_cursor, bind, get_cur. cbn [c_cur]. destruct cu; try reflexivity. destruct h, b; reflexivity.
Qed.
Lemma auto_open b : always Rauto (open_cursor b).
Proof. intros [au cm wk cu]. unfold Rauto, st_of, open_cursor, bind, get_cur. cbn. now destruct b, cu. Qed.
Lemma auto_uoi u i : always Rauto (update_or_insert u i).
Proof.
  pose proof comp_auto as C. unfold update_or_insert. apply al_bind; [exact C|apply auto_open|]. intros h.
  apply al_bind; [exact C|apply auto_exec|]. intros n. apply al_bind; [exact C| |intros _; apply auto_close].
  destruct (Nat.eqb n 0); [|now apply al_ret]. apply al_bind; [exact C|apply auto_exec|intros _; now apply al_ret].
Qed.
Lemma auto_block s {A} (g : nat -> A) : always Rauto (do cur <- open_cursor true; do n <- execute cur s; close_cursor cur true true;; ret (g n)).
Proof.
  pose proof comp_auto as C. apply al_bind; [exact C|apply auto_open|]. intros h.
  apply al_bind; [exact C|apply auto_exec|]. intros n. apply al_bind; [exact C|apply auto_close|]. intros _. now apply al_ret.
Qed.
Lemma auto_delperm s : always Rauto (remove_edge_permutation s).
Proof. apply al_bind; [exact comp_auto|apply auto_exec|intros _ c; reflexivity]. Qed.
Lemma auto_add_raw e t : always Rauto (add_raw e t).
Proof.
  pose proof comp_auto as C. unfold add_raw. apply al_bind; [exact C|now apply al_exists|]. intros b.
  apply al_bind; [exact C| |intros _; now apply al_ret]. destruct b; [now apply al_ret|].
  apply al_bind; [exact C|now apply al_lift|]. intros items. apply al_bind; [exact C| |intros _].
  { apply al_mfor; [exact C|]. intros x. apply al_bind; [exact C|apply auto_block|]. intros [|]; [now apply al_ret|apply auto_uoi]. }
  apply al_bind; [exact C|apply auto_uoi|intros _]. unfold write_edge_permutations, do_with_edge_permutations.
  apply al_mfor; [exact C|]. intros n. apply al_bind; [exact C|now apply al_lift|]. intros s. apply auto_uoi.
Qed.
Lemma auto_add es t : always Rauto (add es t).
Proof.
  pose proof comp_auto as C. unfold add. apply al_bind; [exact C|now apply al_lift|]. intros x.
  apply al_bind; [exact C| |intros _; now apply al_ret]. destruct (is_tup x).
  - apply al_bind; [exact C|apply auto_open|]. intros h. apply al_bind; [exact C|now apply al_lift|]. intros items.
    apply al_bind; [exact C| |intros _ c; unfold Rauto, st_of; rewrite close_false; now destruct (c_cur c)].
    apply al_mfor; [exact C|]. intros e. apply al_bind; [exact C|apply auto_add_raw|intros _; now apply al_ret].
  - apply al_bind; [exact C|apply auto_add_raw|intros _; now apply al_ret].
Qed.
Lemma auto_remove_raw e : always Rauto (remove_raw e).
Proof.
  pose proof comp_auto as C. unfold remove_raw. apply al_bind; [exact C|now apply al_exists|]. intros [|]; [|now apply al_ret].
  apply al_bind; [exact C|now apply al_lift|]. intros items. apply al_bind; [exact C| |intros _].
  { apply al_mfor; [exact C|]. intros x. apply al_bind; [exact C|apply auto_block|]. intros b. now apply al_ret. }
  apply al_bind; [exact C| |intros _].
  - unfold remove_edge_permutations, do_with_edge_permutations. apply al_mfor; [exact C|]. intros n.
    apply al_bind; [exact C|now apply al_lift|]. intros s. apply auto_delperm.
  - unfold remove_str. apply al_bind; [exact C|apply auto_open|]. intros h. apply al_bind; [exact C|apply auto_exec|].
    intros _. apply auto_close.
Qed.
Lemma auto_remove e : always Rauto (remove e).
Proof.
  pose proof comp_auto as C. unfold remove. apply al_bind; [exact C|now apply al_lift|]. intros x.
  destruct (is_tup x); [|apply auto_remove_raw]. apply al_bind; [exact C|now apply al_lift|]. intros items.
  apply al_mfor; [exact C|]. apply auto_remove_raw.
Qed.
Lemma auto_destroy : always Rauto destroy.
Proof.
  pose proof comp_auto as C. unfold destroy. apply al_bind; [exact C|apply auto_open|]. intros h.
  apply al_bind; [exact C|apply auto_exec|intros _]. apply al_bind; [exact C|apply auto_exec|intros _]. apply auto_close.
Qed.
Lemma auto_bop b : always Rauto (run_bop b).
Proof.
  pose proof comp_auto as C. destruct b; cbn [run_bop]; try apply auto_remove; try apply auto_destroy;
    (apply al_bind; [exact C| |intros _; now apply al_ret]).
  - apply auto_add.
  - now apply al_exists.
  - now apply al_pattern.
  - apply al_pure; [exact C|]. intros c. apply qq_star, compat_refl.
  - apply al_pure; [exact C|]. intros c. apply qq_symbols, compat_refl.
  - apply al_pure; [exact C|]. intros c. apply qq_f_all, compat_refl.
Qed.

(** multi-edge add: the body *)
Definition many_loop (es : value) (t : Z) : M unit :=
  do items <- lift (as_seq es); mfor items (fun edge => add_raw edge t;; ret tt).
Lemma keep_many_loop es t : always Rkeep (many_loop es t).
Proof.
  pose proof comp_keep as C. unfold many_loop. apply al_bind; [exact C|now apply al_lift|]. intros items.
  apply al_mfor; [exact C|]. intros e. apply al_bind; [exact C|apply keep_add_raw|intros _; now apply al_ret].
Qed.
Lemma bind_assoc {A B C} (m : M A) (k : A -> M B) (l : B -> M C) c :
  bind (bind m k) l c = bind m (fun a => bind (k a) l) c.
Proof.
  unfold bind. destruct (m c) as [[[a|e] c1] t1]; [|reflexivity]. destruct (k a c1) as [[[b|e] c2] t2]; [|reflexivity].
  destruct (l b c2) as [[r c3] t3]. now rewrite app_assoc.
Qed.

Lemma add_many_shape es t c x : index0 es = Ok x -> is_tup x = true ->
  add es t c = ((do h <- open_cursor false; many_loop es t;; close_cursor h false true);; ret es) c.
Proof.
  intros E T. unfold add. rewrite E. cbn [lift]. rewrite bind_ret_l. rewrite T. apply bind_ext_l. apply bind_ext.
  intros h c1. symmetry. unfold many_loop. rewrite bind_assoc. reflexivity.
Qed.

(** all or nothing, for arbitrary arguments *)
Lemma add_many_crash es t c x r c' tr : index0 es = Ok x -> is_tup x = true ->
  c_auto c = false -> c_cur c = CNone -> add es t c = (r, c', tr) ->
  (forall d, In d tr -> d = c_comm c \/ (r = Ok es /\ d = c_comm c'))
  /\ (r = Ok es /\ c_cur c' = CNone /\ c_comm c' = c_work c' \/ (exists y, r = Err y) /\ c_comm c' = c_comm c).
Proof.
  intros E T Ha Hc. rewrite (add_many_shape es t c x E T). unfold bind at 1 2. rewrite (open_false c Hc).
  pose proof (keep_many_loop es t (opened c)) as K. specialize (K Ha eq_refl). unfold bind.
  destruct (many_loop es t (opened c)) as [[[u|y] c1] t1] eqn:L; cbn [st_of tr_of fst snd] in K;
    destruct K as (K1 & K2 & K3 & K4); cbn [opened c_comm] in *.
  - rewrite close_false, K2. cbn. intros H. injection H as <- <- <-. rewrite app_nil_r. cbn. split; [|left; auto].
    intros d Hd. apply in_app_iff in Hd as [Hd|[<-|[]]]; [left; now apply K4|right; auto].
  - intros H. injection H as <- <- <-. split; [intros d Hd; left; now apply K4|]. right. split; [now exists y|exact K3].
Qed.
Lemma add_sync_ok es t c c' a tr : c_cur c = CNone -> c_comm c = c_work c -> add es t c = (Ok a, c', tr) ->
  c_auto c' = c_auto c /\ c_cur c' = CNone /\ c_comm c' = c_work c'.
Proof.
  intros Hc Hs H. split.
  { pose proof (auto_add es t c) as X. unfold Rauto, st_of in X. now rewrite H in X. }
  destruct (index0 es) as [x|y] eqn:E; [|unfold add in H; rewrite E in H; discriminate].
  destruct (is_tup x) eqn:T.
  - rewrite (add_many_shape es t c x E T) in H. unfold bind at 1 in H.
    destruct ((do h <- open_cursor false; many_loop es t;; close_cursor h false true) c) as [[[u|y] c1] t1] eqn:L; [|discriminate].
    injection H as _ <- _. destruct u. now apply shared_ok in L.
  - unfold add in H. rewrite E in H. cbn [lift] in H. rewrite bind_ret_l, T in H.
    pose proof (al_bind Rsync (add_raw es t) (fun _ => ret tt) comp_sync (sync_add_raw es t) (fun _ => al_ret Rsync tt comp_sync)) as X.
    specialize (X c Hc Hs). unfold bind at 1 in H. destruct ((add_raw es t;; ret tt) c) as [[[u|y] c1] t1]; [|discriminate].
    injection H as _ <- _. cbn in X. tauto.
Qed.

(** ** any operation *)

(** the calls that use the shared cursor *)
Definition shares (o : op) : bool :=
  match o with OAdd (VTup (VTup _ :: _)) _ | OAddMany _ _ | OAddBelief _ _ _ | OAddBeliefs _ _ _ | OBatch _ => true | _ => false end.

Definition synced (c : conn) : Prop := c_cur c = CNone /\ c_comm c = c_work c.
Lemma synced_reopen c : synced c -> reopen (c_auto c) (c_comm c) = c.
Proof. intros [H1 H2]. destruct c as [a m w u]; cbn in *. subst. reflexivity. Qed.

Lemma add_single_sync e t : (forall x, index0 e = Ok x -> is_tup x = false) -> always Rsync (add e t).
Proof.
  intros H c. pose proof comp_sync as C. unfold add. destruct (index0 e) as [x|y]; [|apply (co_refl _ C)].
  unfold lift. rewrite bind_ret_l, (H x eq_refl).
  apply al_bind; [exact C| |intros _; now apply al_ret].
  apply al_bind; [exact C|apply sync_add_raw|intros _; now apply al_ret].
Qed.
Lemma add_belief_ok s e t c c' tr : add_belief s e t c = (Ok tt, c', tr) -> exists v a, add v t c = (Ok a, c', tr).
Proof.
  unfold add_belief. destruct (index0 e) as [x|y]; [|discriminate]. unfold lift at 1. rewrite bind_ret_l.
  assert (X : forall v, (add v t;; ret tt) c = (Ok tt, c', tr) -> exists v a, add v t c = (Ok a, c', tr)).
  { intros v H. exists v. unfold bind in H. destruct (add v t c) as [[[a|z] c1] t1]; [|discriminate]. injection H as <- <-.
    rewrite app_nil_r. now exists a. }
  destruct (is_tup x); [|apply X]. destruct (as_seq e) as [items|y]; [|discriminate]. unfold lift. rewrite bind_ret_l. apply X.
Qed.
Lemma auto_batch fs : always Rauto (batch_exec (List.map (fun f => mfor f run_bop) fs)).
Proof.
  pose proof comp_auto as C. apply auto_keep_shared. induction fs as [|f fs IH]; cbn [List.map mfor]; [now apply al_ret|].
  apply al_bind; [exact C| |intros _; exact IH]. apply al_mfor; [exact C|]. apply auto_bop.
Qed.

Lemma op_sync ord o c r c' tr : synced c -> run_op ord o c = (r, c', tr) -> (shares o = true -> r = Ok tt) ->
  synced c' /\ c_auto c' = c_auto c.
Proof.
  intros [Hc Hs] E Ho.
  assert (X : forall m : M unit, always Rsync m -> m c = (r, c', tr) -> synced c' /\ c_auto c' = c_auto c).
  { intros m Hm Em. specialize (Hm c Hc Hs). rewrite Em in Hm. cbn in Hm. unfold synced. tauto. }
  assert (Y : forall v t, (add v t;; ret tt) c = (r, c', tr) -> r = Ok tt -> synced c' /\ c_auto c' = c_auto c).
  { intros v t Em ->. unfold bind in Em. destruct (add v t c) as [[[a|y] c1] t1] eqn:Ea; [|discriminate].
    injection Em as <- _. apply add_sync_ok in Ea; [unfold synced; tauto|exact Hc|exact Hs]. }
  assert (B : forall s e t, add_belief s e t c = (r, c', tr) -> r = Ok tt -> synced c' /\ c_auto c' = c_auto c).
  { intros s e t Em ->. apply add_belief_ok in Em as (v & a & Ea). apply add_sync_ok in Ea; [unfold synced; tauto|exact Hc|exact Hs]. }
  pose proof comp_sync as C.
  destruct o; cbn [run_op] in E.
  - destruct (shares (OAdd e t)) eqn:S; [apply (Y e t); auto|].
    apply X in E; [exact E|]. apply al_bind; [exact C| |intros _; now apply al_ret].
    apply add_single_sync. intros x Hx. destruct e as [|s0| | |[|[]]]; cbn in Hx; try discriminate; try (now injection Hx as <-).
    destruct s0; [discriminate|]. now injection Hx as <-.
  - apply (Y (VTup es) t); auto.
  - apply X in E; [exact E|apply sync_remove].
  - apply X in E; [exact E|apply sync_remove].
  - apply X in E; [exact E|apply sync_destroy].
  - apply (B s e t); auto.
  - apply (B s (VTup es) t); auto.
  - apply X in E; [exact E|apply sync_remove_belief].
  - apply X in E; [exact E|apply sync_remove_by_pattern].
  - pose proof (Ho eq_refl) as ->. split; [now apply shared_ok in E|].
    pose proof (auto_batch fs c) as A. unfold Rauto, st_of in A. now rewrite E in A.
  - apply X in E; [exact E|apply sync_ask].
  - unfold reopen_op in E. injection E as _ <- _. unfold synced. auto.
Qed.

(** ** the index when the degrees are not known to be right *)

(** the index rows of exactly the edges [P] are there *)
Record Idx (V : value -> Prop) (w : db) (P : value -> Prop) : Prop := {
  x_wf : wf_db V w;
  x_edges : forall e, P e -> edge_in V e;
  x_rows : forall e r, edge_in V e -> is_row (elems e) r -> (In r (perms w) <-> P e) }.

Lemma Inv_Idx V w h : Inv V w h -> Idx V w (present h).
Proof.
  intros I. constructor; [apply I| |].
  - intros e He. apply (i_edges _ _ _ I). now apply stored_present.
  - intros e r He Hr. rewrite (i_rows _ _ _ I e r He Hr). apply stored_present.
Qed.

(** the same for the edges not in [T] *)
Definition othersT (V : value -> Prop) (P T : value -> Prop) (w : db) : Prop :=
  forall x, edge_in V x -> ~ T x -> forall r, is_row (elems x) r -> (In r (perms w) <-> P x).

Lemma others_pattern V w (P T : value -> Prop) p c : noalias V -> wf_db V w -> c_work c = w -> live c -> pattern_in V p ->
  (forall x, P x -> edge_in V x) ->
  othersT V P T w ->
  exists l, gives (pattern2edges (VTup p)) c l /\ NoDup l
    /\ (forall x, In x l -> matches p (elems x))
    /\ forall x, ~ T x -> (In x l <-> P x /\ matches p (elems x)).
Proof.
  intros HV W <- L Hp HP H. pose proof (pattern_in_ok V p Hp) as Hp'.
  destruct (pattern_run V (c_work c) c p HV (wf_rows _ _ W) eq_refl L Hp') as (l & G & N & Il).
  exists l. split; [exact G|]. split; [exact N|]. split; [intros x Hx; now apply Il in Hx|]. intros x Nx. rewrite Il. split.
  - intros (He & (r & Hr & Rr & _) & M). split; [|exact M]. now apply (H x He Nx r Rr).
  - intros (Px & M). pose proof (HP x Px) as He. split; [exact He|]. split; [|exact M].
    destruct Hp' as [(a & rest & Ea & _) _ _].
    apply (indexed_hit_pattern V); [exact He| | |exact M].
    + intros r Hr. now apply (H x He Nx r Hr).
    + exists a. apply filter_In. rewrite Ea. now left.
Qed.
Lemma others_star V w (P T : value -> Prop) a c : noalias V -> wf_db V w -> c_work c = w -> live c -> db_atom a = true ->
  (forall x, P x -> edge_in V x) ->
  othersT V P T w ->
  exists l, gives (star a) c l /\ NoDup l
    /\ (forall x, In x l -> In a (elems x))
    /\ forall x, ~ T x -> (In x l <-> P x /\ In a (elems x)).
Proof.
  intros HV W <- L Ha HP H.
  destruct (star_run V (c_work c) c a HV (wf_rows _ _ W) eq_refl L Ha) as (l & G & N & Il).
  exists l. split; [exact G|]. split; [exact N|].
  split; [intros x Hx; apply Il in Hx as [He Hh]; now apply (hit_star_elem V (c_work c))|]. intros x Nx. rewrite Il. split.
  - intros (He & Hh). pose proof Hh as (r & Hr & Rr & _). split; [now apply (H x He Nx r Rr)|]. now apply (hit_star_elem V (c_work c)).
  - intros (Px & M). pose proof (HP x Px) as He. split; [exact He|]. apply indexed_hit_star; [|exact M].
    intros r Hr. now apply (H x He Nx r Hr).
Qed.
Lemma others_exists V w (P T : value -> Prop) c x : noalias V -> wf_db V w -> c_work c = w -> live c -> edge_in V x -> ~ T x ->
  othersT V P T w ->
  exists b, gives (exists_ x) c b /\ (b = true <-> P x).
Proof.
  intros HV W Ew L Hx Nx H. destruct (exists_run V w c x HV (wf_rows _ _ W) Ew L Hx) as (b & G & Hb).
  exists b. split; [exact G|]. rewrite Hb. split.
  - intros (r & Hr & Rr & _). now apply (H x Hx Nx r Rr).
  - intros Px. destruct (row_exists V x Hx) as (r & Hr & Pr). exists r. split; [now apply (H x Hx Nx r Hr)|now split].
Qed.

Lemma idx_others V w P : Idx V w P -> othersT V P (fun _ => False) w.
Proof. intros I x Hx _ r Hr. now apply (x_rows _ _ _ I). Qed.

Definition upd_on (V T : value -> Prop) (f : upd) : Prop :=
  exists e, T e /\ edge_in V e /\ ((exists t, In f (add_upds e t)) \/ In f (rem_upds e)).
Lemma upd_on_wf V T f d : upd_on V T f -> wf_db V d -> wf_db V (f d).
Proof. intros (e & _ & He & [[t Hf]|Hf]); [now apply (add_upds_wf V e t)|now apply (rem_upds_wf V e)]. Qed.
Lemma upd_on_others V P T f d : upd_on V T f -> othersT V P T d -> othersT V P T (f d).
Proof.
  intros (e & Te & He & Hf) Hd x Hx Nx r Hr.
  assert (Nr : forall r', In r' (rows_of (elems e)) -> r <> r').
  { intros r' Hr' ->. apply Nx. assert (x = e) as ->; [|exact Te]. apply (row_other V x e r'); auto.
    apply rows_of_spec; [now apply (elems_nonnil V)|exact Hr']. }
  unfold add_upds, rem_upds in Hf. destruct Hf as [[t Hf]|Hf]; rewrite !in_app_iff, !in_map_iff in Hf.
  - destruct Hf as [(y & <- & Hy)|[[<-|[]]|(r' & <- & Hr')]].
    + rewrite perms_touch. now apply Hd.
    + rewrite perms_set. now apply Hd.
    + rewrite in_ins_perm, (Hd x Hx Nx r Hr). split; [|tauto]. intros [->|H]; [now apply Nr in Hr'|exact H].
  - destruct Hf as [(y & <- & Hy)|[(r' & <- & Hr')|[<-|[]]]].
    + now apply Hd.
    + rewrite in_del_perm, (Hd x Hx Nx r Hr). split; [tauto|]. intros H. split; [|exact H]. now apply Nr.
    + now apply Hd.
Qed.
Lemma states_on V P T fs w d : Forall (upd_on V T) fs -> wf_db V w -> othersT V P T w -> In d (states fs w) ->
  wf_db V d /\ othersT V P T d.
Proof.
  intros F W O Hd. rewrite Forall_forall in F. split.
  - revert d Hd. apply states_inv; [exact W|]. intros f d Hf. now apply (upd_on_wf V T), F.
  - revert d Hd. apply states_inv; [exact O|]. intros f d Hf. now apply (upd_on_others V P T), F.
Qed.

Lemma goesf_crash {A} V h h' (m : M A) a c fs : goesf V h h' m a fs -> ready V c h ->
  forall d, In d (tr_of (m c)) -> In d (states fs (c_work c)).
Proof.
  intros G R d Hd. destruct (G c (ready_live _ _ _ R) (rd_inv _ _ _ R)) as [(c' & tr & E & S) _].
  unfold tr_of in Hd. rewrite E in Hd. cbn in Hd.
  destruct (st_sync _ _ _ _ _ S (or_introl (rd_cur _ _ _ R)) (rd_sync _ _ _ R)) as [_ Tr]. now apply Tr.
Qed.
Lemma goesf_crash_shared V h h' (body : M unit) c fs : goesf V h h' body tt fs -> ready V c h ->
  forall d, In d (tr_of ((do cur <- open_cursor false; body;; close_cursor cur false true) c)) -> In d (states fs (c_work c)).
Proof.
  intros G R d Hd. destruct (G (opened c)) as [(c1 & tr & E & S) _]; [easy|apply R|].
  unfold tr_of, bind in Hd. rewrite (open_false c (rd_cur _ _ _ R)), E, close_false in Hd.
  pose proof (st_cur _ _ _ _ _ S) as Hc1. cbn in Hc1. rewrite Hc1 in Hd. cbn in Hd.
  apply in_app_iff in Hd as [Hd|[<-|[]]].
  - destruct (st_weak _ _ _ _ _ S d (or_intror Hd)) as [->|H]; [|exact H]. cbn. rewrite (rd_sync _ _ _ R). apply states_hd.
  - rewrite (st_work _ _ _ _ _ S). apply states_last.
Qed.

Lemma add_fs_on (V T : value -> Prop) h e t : edge_in V e -> T e -> Forall (upd_on V T) (add_fs h e t).
Proof.
  intros He Te. unfold add_fs. destruct (memb e (stored h)); [constructor|]. rewrite Forall_forall. intros f Hf.
  exists e. split; [exact Te|]. split; [exact He|]. left. now exists t.
Qed.
Lemma rem_fs_on (V T : value -> Prop) h e : edge_in V e -> T e -> Forall (upd_on V T) (rem_fs h e).
Proof.
  intros He Te. unfold rem_fs. destruct (memb e (stored h)); [|constructor]. rewrite Forall_forall. intros f Hf.
  exists e. split; [exact Te|]. split; [exact He|]. now right.
Qed.
Lemma loop_on {A} V T (g : list ev -> A -> list ev) u l : (forall x h, In x l -> Forall (upd_on V T) (u h x)) ->
  forall h, Forall (upd_on V T) (loop_fs g u l h).
Proof.
  induction l as [|x l IH]; intros H h; cbn [loop_fs]; [constructor|]. apply Forall_app. split; [apply H; now left|].
  apply IH. intros y h' Hy. apply H. now right.
Qed.

(** edges an operation may change *)
Definition targets (o : op) : option (list value) :=
  match o with
  | OAdd e _ | ORemove e => Some [e]
  | OAddMany es _ | ORemoveMany es => Some es
  | _ => None
  end.

Lemma tr_bind_ret {A B} (m : M A) (b : B) c : tr_of ((m;; ret b) c) = tr_of (m c).
Proof. unfold tr_of, bind, ret. destruct (m c) as [[[a|e] c1] t1]; cbn; [apply app_nil_r|reflexivity]. Qed.

Lemma crash_states ord V h o es c : noalias V -> ready V c h -> op_in V o -> targets o = Some es ->
  exists fs, Forall (upd_on V (fun x => In x es)) fs /\ forall d, In d (tr_of (run_op ord o c)) -> In d (states fs (c_work c)).
Proof.
  intros HV R Ho Ht. destruct o; try discriminate; cbn [targets] in Ht; injection Ht as <-; cbn [op_in run_op] in *.
  - destruct Ho as [Ho Hb]. exists (add_fs h e t). split; [apply add_fs_on; [exact Ho|now left]|]. intros d Hd. rewrite tr_bind_ret in Hd.
    revert d Hd. now apply (goesf_crash V h _ _ _ c _ (goesf_add V h e t HV Ho Hb)).
  - destruct Ho as [[Hn Hes] Hb]. destruct (index0_edges V es0 Hn Hes) as (a & E0 & Ea).
    exists (loop_fs (fun h e => EAdd e t :: h) (fun h e => add_fs h e t) es0 h). rewrite Forall_forall in Hes. split.
    + apply loop_on. intros x h' Hx. now apply add_fs_on; [apply Hes|].
    + intros d Hd. rewrite tr_bind_ret in Hd. rewrite (add_many_shape _ _ _ a E0 Ea), tr_bind_ret in Hd.
      assert (G : goesf V h (fold_left (fun h e => EAdd e t :: h) es0 h) (many_loop (VTup es0) t) tt
                   (loop_fs (fun h e => EAdd e t :: h) (fun h e => add_fs h e t) es0 h)).
      { unfold many_loop. apply (goesf_lift V h _ _ _ es0); [reflexivity|].
        apply goesf_mfor. intros x h' Hx. apply (goesf_bind_ret V h' _ _ x). apply goesf_add_raw; [exact HV|now apply Hes|exact Hb]. }
      revert d Hd. now apply (goesf_crash_shared V h _ _ c _ G).
  - exists (rem_fs h e). split; [apply rem_fs_on; [exact Ho|now left]|].
    now apply (goesf_crash V h _ _ _ c _ (goesf_remove V h e HV Ho)).
  - destruct Ho as [Hn Hes]. destruct (index0_edges V es0 Hn Hes) as (a & E0 & Ea). rewrite Forall_forall in Hes.
    exists (loop_fs (fun h e => ERem e :: h) rem_fs es0 h). split.
    + apply loop_on. intros x h' Hx. now apply rem_fs_on; [apply Hes|].
    + assert (G : goesf V h (fold_left (fun h e => ERem e :: h) es0 h) (remove (VTup es0)) tt
                   (loop_fs (fun h e => ERem e :: h) rem_fs es0 h)).
      { unfold remove. apply (goesf_lift V h _ _ _ a); [exact E0|]. cbn beta. rewrite Ea. apply (goesf_lift V h _ _ _ es0); [reflexivity|].
        apply goesf_mfor. intros x h' Hx. apply goesf_remove_raw; [exact HV|now apply Hes]. }
      now apply (goesf_crash V h _ _ _ c _ G).
Qed.

(** ** repairing an edge after a crash *)

Lemma others_weaken V (P P' T T' : value -> Prop) w : (forall x, T x -> T' x) -> (forall x, ~ T' x -> (P x <-> P' x)) ->
  othersT V P T w -> othersT V P' T' w.
Proof. intros HT HP H x Hx Nx r Hr. rewrite <- (HP x Nx). apply H; auto. Qed.

Lemma touch_perms_runs l t w : perms (runs (List.map (fun x => touch (edge2str x) t) l) w) = perms w.
Proof. apply perms_same_runs. intros f d Hf. apply in_map_iff in Hf as (x & <- & _). apply perms_touch. Qed.
Lemma inc_perms_runs l k w : perms (runs (List.map (fun x => inc_row (edge2str x) k) l) w) = perms w.
Proof. apply perms_same_runs. intros f d Hf. apply in_map_iff in Hf as (x & <- & _). reflexivity. Qed.
Lemma add_upds_rows V e t w r : edge_in V e -> (In r (perms (runs (add_upds e t) w)) <-> is_row (elems e) r \/ In r (perms w)).
Proof.
  intros He. unfold add_upds. rewrite !runs_app, perms_ins_runs. cbn [runs fold_left]. rewrite perms_set.
  change (fold_left (fun w0 f => f w0) ?a ?b) with (runs a b). rewrite touch_perms_runs, rows_of_spec by (now apply (elems_nonnil V)). tauto.
Qed.
Lemma rem_upds_rows V e w r : edge_in V e -> (In r (perms (runs (rem_upds e) w)) <-> ~ is_row (elems e) r /\ In r (perms w)).
Proof.
  intros He. unfold rem_upds. rewrite !runs_app. cbn [runs fold_left]. rewrite perms_del.
  change (fold_left (fun w0 f => f w0) ?a ?b) with (runs a b). rewrite perms_del_runs, inc_perms_runs, rows_of_spec by (now apply (elems_nonnil V)). tauto.
Qed.

Lemma add_shape e t c : db_edge e = true -> add e t c = (add_raw e t;; ret e) c.
Proof.
  intros D. destruct (index0_edge e D) as (a & E0 & Ea). unfold add. rewrite E0. unfold lift. rewrite bind_ret_l, Ea, bind_assoc.
  apply bind_ext. intros x c'. now rewrite bind_ret_l.
Qed.
Lemma remove_shape e c : db_edge e = true -> remove e c = remove_raw e c.
Proof.
  intros D. destruct (index0_edge e D) as (a & E0 & Ea). unfold remove. rewrite E0. unfold lift. now rewrite bind_ret_l, Ea.
Qed.

(** states with an unclear edge [e] *)
Record hurt (V P : value -> Prop) (e : value) (c : conn) : Prop := {
  hu_cur : c_cur c = CNone;
  hu_wf : wf_db V (c_work c);
  hu_P : forall x, P x -> edge_in V x;
  hu_others : othersT V P (fun x => x = e) (c_work c) }.
Definition no_rows (e : value) (c : conn) : Prop := forall r, is_row (elems e) r -> ~ In r (perms (c_work c)).

Lemma hurt_live V P e c : hurt V P e c -> live c.
Proof. intros H. unfold live. now rewrite (hu_cur _ _ _ _ H). Qed.

Lemma hurt_exists V P e c : noalias V -> edge_in V e -> hurt V P e c ->
  exists b, gives (exists_ e) c b /\ (no_rows e c -> b = false) /\ (indexed (c_work c) e -> b = true).
Proof.
  intros HV He H. destruct (exists_run V (c_work c) c e HV (wf_rows _ _ (hu_wf _ _ _ _ H)) eq_refl (hurt_live _ _ _ _ H) He) as (b & G & Hb).
  exists b. split; [exact G|]. split.
  - intros N. destruct b; [|reflexivity]. destruct (proj1 Hb eq_refl) as (r & Hr & Rr & _). now apply N in Hr.
  - intros X. apply Hb. destruct (row_exists V e He) as (r & Hr & Pr). exists r. split; [now apply X|now split].
Qed.

Lemma hurt_next V P e c c' fs tr b : noalias V -> edge_in V e -> hurt V P e c -> Forall (upd_on V (fun x => x = e)) fs ->
  step b c fs c' tr -> hurt V P e c' /\ c_work c' = runs fs (c_work c).
Proof.
  intros HV He H F S. destruct (states_on V P (fun x => x = e) fs (c_work c) (runs fs (c_work c)) F (hu_wf _ _ _ _ H) (hu_others _ _ _ _ H) (states_last _ _)) as [W O].
  split; [|apply S]. constructor.
  - rewrite (st_cur _ _ _ _ _ S). apply H.
  - now rewrite (st_work _ _ _ _ _ S).
  - apply H.
  - now rewrite (st_work _ _ _ _ _ S).
Qed.

(** after exists = False, add completes the index of e *)
Lemma hurt_add V P e t c : noalias V -> edge_in V e -> int64 t = true -> hurt V P e c -> gives (exists_ e) c false ->
  exists c' tr, add e t c = (Ok e, c', tr) /\ hurt V P e c' /\ indexed (c_work c') e.
Proof.
  intros HV He Ht H G. pose proof (edge_in_db _ _ He) as D.
  destruct (add_new_does e t c (hurt_live _ _ _ _ H) D Ht G) as (c' & tr & E & S).
  assert (F : Forall (upd_on V (fun x => x = e)) (add_upds e t)).
  { rewrite Forall_forall. intros f Hf. exists e. split; [reflexivity|]. split; [exact He|]. left. now exists t. }
  destruct (hurt_next V P e c c' _ tr true HV He H F S) as [H' W']. exists c', tr. split.
  - rewrite (add_shape e t c D). unfold bind. rewrite E. cbn. now rewrite app_nil_r.
  - split; [exact H'|]. intros r Hr. rewrite W'. apply (add_upds_rows V); auto.
Qed.
Lemma hurt_remove V P e c : noalias V -> edge_in V e -> hurt V P e c -> gives (exists_ e) c true ->
  exists c' tr, remove e c = (Ok tt, c', tr) /\ hurt V P e c' /\ no_rows e c'.
Proof.
  intros HV He H G. pose proof (edge_in_db _ _ He) as D.
  destruct (remove_old_does e c (hurt_live _ _ _ _ H) D G) as (c' & tr & E & S).
  assert (F : Forall (upd_on V (fun x => x = e)) (rem_upds e)).
  { rewrite Forall_forall. intros f Hf. exists e. split; [reflexivity|]. split; [exact He|]. now right. }
  destruct (hurt_next V P e c c' _ tr false HV He H F S) as [H' W']. exists c', tr. split; [now rewrite (remove_shape e c D)|].
  split; [exact H'|]. intros r Hr. rewrite W'. rewrite (rem_upds_rows V) by exact He. tauto.
Qed.

Lemma hurt_Idx V P Q e c : edge_in V e -> hurt V P e c ->
  (indexed (c_work c) e /\ (forall x, Q x <-> x = e \/ P x)) \/ (no_rows e c /\ forall x, Q x <-> x <> e /\ P x) ->
  Idx V (c_work c) Q.
Proof.
  intros He H HQ. constructor; [apply H| |].
  - intros x Qx. destruct HQ as [[_ HQ]|[_ HQ]]; apply HQ in Qx.
    + destruct Qx as [->|Px]; [exact He|now apply H].
    + now apply H.
  - intros x r Hx Hr. destruct (veqb x e) eqn:X.
    + apply veqb_eq in X as ->. destruct HQ as [[N HQ]|[N HQ]]; rewrite HQ.
      * split; [tauto|]. intros _. now apply N.
      * split; [intros Hi; now apply N in Hi|tauto].
    + apply veqb_neq in X. rewrite (hu_others _ _ _ _ H x Hx X r Hr). destruct HQ as [[_ HQ]|[_ HQ]]; rewrite HQ; tauto.
Qed.

Lemma remove_absent_run e c : db_edge e = true -> gives (exists_ e) c false -> remove e c = (Ok tt, c, []).
Proof. intros D G. rewrite (remove_shape e c D). now apply remove_absent_does. Qed.
Lemma add_present_run e t c : db_edge e = true -> gives (exists_ e) c true -> add e t c = (Ok e, c, []).
Proof. intros D G. rewrite (add_shape e t c D). unfold bind. now rewrite (add_old_does e t c G). Qed.

Lemma repair_add V P e t c : noalias V -> edge_in V e -> int64 t = true -> hurt V P e c ->
  exists c' tr, (remove e;; add e t) c = (Ok e, c', tr) /\ hurt V P e c' /\ indexed (c_work c') e.
Proof.
  intros HV He Ht H. pose proof (edge_in_db _ _ He) as D. destruct (hurt_exists V P e c HV He H) as ([|] & G & _).
  - destruct (hurt_remove V P e c HV He H G) as (c1 & t1 & E1 & H1 & N1).
    destruct (hurt_exists V P e c1 HV He H1) as (b & G1 & B & _). rewrite (B N1) in G1.
    destruct (hurt_add V P e t c1 HV He Ht H1 G1) as (c2 & t2 & E2 & H2 & N2).
    exists c2, (t1 ++ t2). split; [unfold bind; now rewrite E1, E2|auto].
  - destruct (hurt_add V P e t c HV He Ht H G) as (c2 & t2 & E2 & H2 & N2). exists c2, t2.
    split; [unfold bind; now rewrite (remove_absent_run e c D G), E2|auto].
Qed.
Lemma repair_remove V P e t c : noalias V -> edge_in V e -> int64 t = true -> hurt V P e c ->
  exists c' tr, (add e t;; remove e) c = (Ok tt, c', tr) /\ hurt V P e c' /\ no_rows e c'.
Proof.
  intros HV He Ht H. pose proof (edge_in_db _ _ He) as D. destruct (hurt_exists V P e c HV He H) as ([|] & G & _).
  - destruct (hurt_remove V P e c HV He H G) as (c2 & t2 & E2 & H2 & N2). exists c2, t2.
    split; [unfold bind; now rewrite (add_present_run e t c D G), E2|auto].
  - destruct (hurt_add V P e t c HV He Ht H G) as (c1 & t1 & E1 & H1 & N1).
    destruct (hurt_exists V P e c1 HV He H1) as (b & G1 & _ & B). rewrite (B N1) in G1.
    destruct (hurt_remove V P e c1 HV He H1 G1) as (c2 & t2 & E2 & H2 & N2).
    exists c2, (t1 ++ t2). split; [unfold bind; now rewrite E1, E2|auto].
Qed.

(** ** vertex records at the crash points *)

Definition row (v : value) (w : db) : option (Z * Z) := vlook (edge2str v) w.
(** a record only grows / only shrinks; its timestamp stays *)
Definition up (r r' : option (Z * Z)) : Prop :=
  match r, r' with
  | None, None => True | None, Some (d, _) => (0 <= d)%Z
  | Some (d, t), Some (d', t') => (d <= d')%Z /\ t' = t | Some _, None => False
  end.
Definition down (r r' : option (Z * Z)) : Prop :=
  match r, r' with None, None => True | Some (d, t), Some (d', t') => (d' <= d)%Z /\ t' = t | _, _ => False end.
Lemma up_refl r : up r r.
Proof. destruct r as [[d t]|]; cbn; [split; [lia|reflexivity]|exact I]. Qed.
Lemma down_refl r : down r r.
Proof. destruct r as [[d t]|]; cbn; [split; [lia|reflexivity]|exact I]. Qed.
Lemma up_trans r s t : up r s -> up s t -> up r t.
Proof. destruct r as [[? ?]|], s as [[? ?]|], t as [[? ?]|]; cbn; intuition (lia || congruence). Qed.
Lemma down_trans r s t : down r s -> down s t -> down r t.
Proof. destruct r as [[? ?]|], s as [[? ?]|], t as [[? ?]|]; cbn; intuition (lia || congruence). Qed.

(** along a list of updates that all go one way, every state is between *)
Lemma states_between (R : option (Z * Z) -> option (Z * Z) -> Prop) v fs :
  (forall r, R r r) -> (forall r s t, R r s -> R s t -> R r t) ->
  (forall f w, In f fs -> R (row v w) (row v (f w))) ->
  forall w d, In d (states fs w) -> R (row v w) (row v d) /\ R (row v d) (row v (runs fs w)).
Proof.
  intros Rr Rt. induction fs as [|f fs IH]; intros H w d Hd; cbn [states In] in Hd.
  - destruct Hd as [<-|[]]. split; apply Rr.
  - assert (H' : forall g u, In g fs -> R (row v u) (row v (g u))) by (intros g u Hg; apply H; now right).
    change (runs (f :: fs) w) with (runs fs (f w)). destruct Hd as [<-|Hd].
    + split; [apply Rr|]. apply (Rt _ (row v (f w))); [apply H; now left|].
      now apply (IH H' (f w) (f w)), states_hd.
    + destruct (IH H' (f w) d Hd) as [A B]. split; [|exact B]. apply (Rt _ (row v (f w))); [apply H; now left|exact A].
Qed.
Lemma states_app fs gs w d : In d (states (fs ++ gs) w) -> In d (states fs w) \/ In d (states gs (runs fs w)).
Proof.
  revert w. induction fs as [|f fs IH]; intros w Hd; [now right|]. cbn [states app In] in *.
  destruct Hd as [<-|Hd]; [left; now left|]. destruct (IH _ Hd) as [A|A]; [left; now right|now right].
Qed.

Lemma row_touch v x t w : db_vertex v = true -> db_vertex x = true ->
  row v (touch (edge2str x) t w) = if veqb v x then match row v w with Some (d, s) => Some (d + 1, s)%Z | None => Some (1%Z, t) end else row v w.
Proof.
  intros Hv Hx. unfold row. rewrite vlook_touch, (id_eqb v x Hv Hx). destruct (veqb v x) eqn:E; [|reflexivity].
  now apply veqb_eq in E as ->.
Qed.
Lemma row_inc v x k w : db_vertex v = true -> db_vertex x = true ->
  row v (inc_row (edge2str x) k w) = if veqb v x then option_map (fun x => (fst x + k, snd x)%Z) (row v w) else row v w.
Proof. intros Hv Hx. unfold row. rewrite vlook_inc, (id_eqb v x Hv Hx). reflexivity. Qed.

(** updates of an edge leave the records of other vertices alone *)
Lemma add_upds_else e t f v w : db_edge e = true -> db_vertex v = true -> v <> e -> ~ In v (elems e) ->
  In f (add_upds e t) -> row v (f w) = row v w.
Proof.
  intros He Hv Ne Ni Hf. destruct (db_edge_elems e He) as (_ & Hd & _). unfold all_db in Hd. rewrite Forall_forall in Hd.
  unfold add_upds in Hf. rewrite !in_app_iff, !in_map_iff in Hf.
  destruct Hf as [(x & <- & Hx)|[[<-|[]]|(r & <- & _)]].
  - rewrite row_touch by auto. destruct (veqb v x) eqn:E; [|reflexivity]. apply veqb_eq in E as ->. easy.
  - unfold row. rewrite vlook_set, (id_eqb v e Hv) by now apply db_edge_vertex. apply veqb_neq in Ne. now rewrite Ne.
  - apply vlook_ins_perm.
Qed.
Lemma rem_upds_else e f v w : db_edge e = true -> db_vertex v = true -> v <> e -> ~ In v (elems e) ->
  In f (rem_upds e) -> row v (f w) = row v w.
Proof.
  intros He Hv Ne Ni Hf. destruct (db_edge_elems e He) as (_ & Hd & _). unfold all_db in Hd. rewrite Forall_forall in Hd.
  unfold rem_upds in Hf. rewrite !in_app_iff, !in_map_iff in Hf.
  destruct Hf as [(x & <- & Hx)|[(r & <- & _)|[<-|[]]]].
  - rewrite row_inc by auto. destruct (veqb v x) eqn:E; [|reflexivity]. apply veqb_eq in E as ->. easy.
  - apply vlook_del_perm.
  - unfold row. rewrite vlook_del, (id_eqb v e Hv) by now apply db_edge_vertex. apply veqb_neq in Ne. now rewrite Ne.
Qed.

Definition between (r r1 r2 : option (Z * Z)) : Prop :=
  (up r r1 /\ up r1 r2) \/ (down r r1 /\ down r1 r2) \/ r1 = r \/ r1 = r2.
Lemma elems_not_self e : ~ In e (elems e).
Proof.
  destruct e as [| | | |l]; try easy. cbn [elems]. intros H. apply vsize_in in H. cbn in H. lia.
Qed.
Lemma add_between e t v w d : db_edge e = true -> db_vertex v = true -> In d (states (add_upds e t) w) ->
  between (row v w) (row v d) (row v (runs (add_upds e t) w)).
Proof.
  intros He Hv Hd. destruct (db_edge_elems e He) as (_ & Hdb & _). unfold all_db in Hdb. rewrite Forall_forall in Hdb.
  destruct (veqb v e) eqn:Eve.
  - apply veqb_eq in Eve as ->. unfold add_upds in *. apply states_app in Hd.
    set (A := List.map (fun x => touch (edge2str x) t) (elems e)) in *.
    assert (KA : forall f u, In f A -> row e u = row e (f u)).
    { intros f u Hf. apply in_map_iff in Hf as (x & <- & Hx). rewrite row_touch by auto.
      destruct (veqb e x) eqn:E; [|reflexivity]. apply veqb_eq in E as <-. now apply elems_not_self in Hx. }
    destruct Hd as [Hd|Hd].
    + right; right; left. symmetry. refine (proj1 (states_between eq e A _ _ KA _ _ Hd)); [reflexivity|congruence].
    + cbn [app states In] in Hd. destruct Hd as [<-|Hd].
      * right; right; left. symmetry. refine (proj1 (states_between eq e A _ _ KA _ _ (states_last A w))); [reflexivity|congruence].
      * right; right; right. rewrite runs_app. cbn [app runs fold_left].
        change (fold_left (fun w0 f => f w0) ?a ?b) with (runs a b).
        refine (proj2 (states_between eq e (List.map ins_perm (rows_of (elems e))) _ _ _ _ _ Hd)); [reflexivity|congruence|].
        intros f u Hf. apply in_map_iff in Hf as (r & <- & _). symmetry. apply vlook_ins_perm.
  - left. apply (states_between up v (add_upds e t)); [apply up_refl|apply up_trans| |exact Hd].
    intros f u Hf. unfold add_upds in Hf. rewrite !in_app_iff, !in_map_iff in Hf.
    destruct Hf as [(x & <- & Hx)|[[<-|[]]|(r & <- & _)]].
    + rewrite row_touch by auto. destruct (veqb v x); [|apply up_refl]. destruct (row v u) as [[n s]|]; cbn; [split; [lia|reflexivity]|lia].
    + unfold row at 2. rewrite vlook_set, (id_eqb v e Hv) by now apply db_edge_vertex. rewrite Eve. apply up_refl.
    + unfold row at 2. rewrite vlook_ins_perm. apply up_refl.
Qed.
Lemma rem_between e v w d : db_edge e = true -> db_vertex v = true -> In d (states (rem_upds e) w) ->
  between (row v w) (row v d) (row v (runs (rem_upds e) w)).
Proof.
  intros He Hv Hd. destruct (db_edge_elems e He) as (_ & Hdb & _). unfold all_db in Hdb. rewrite Forall_forall in Hdb.
  destruct (veqb v e) eqn:Eve.
  - apply veqb_eq in Eve as ->. unfold rem_upds in *. rewrite app_assoc in *. apply states_app in Hd. rewrite runs_app.
    set (A := _ ++ _) in *.
    assert (KA : forall f u, In f A -> row e u = row e (f u)).
    { intros f u Hf. unfold A in Hf. rewrite in_app_iff, !in_map_iff in Hf. destruct Hf as [(x & <- & Hx)|(r & <- & _)]; [|reflexivity].
      rewrite row_inc by auto. destruct (veqb e x) eqn:E; [|reflexivity]. apply veqb_eq in E as <-. now apply elems_not_self in Hx. }
    destruct Hd as [Hd|Hd].
    + right; right; left. symmetry. refine (proj1 (states_between eq e A _ _ KA _ _ Hd)); [reflexivity|congruence].
    + cbn [app states In] in Hd. destruct Hd as [<-|[<-|[]]].
      * right; right; left. symmetry. refine (proj1 (states_between eq e A _ _ KA _ _ (states_last A w))); [reflexivity|congruence].
      * right; right; right. reflexivity.
  - right; left. apply (states_between down v (rem_upds e)); [apply down_refl|apply down_trans| |exact Hd].
    intros f u Hf. unfold rem_upds in Hf. rewrite !in_app_iff, !in_map_iff in Hf.
    destruct Hf as [(x & <- & Hx)|[(r & <- & _)|[<-|[]]]].
    + rewrite row_inc by auto. destruct (veqb v x); [|apply down_refl]. destruct (row v u) as [[n s]|]; cbn; [split; [lia|reflexivity]|exact I].
    + apply down_refl.
    + unfold row at 2. rewrite vlook_del, (id_eqb v e Hv) by now apply db_edge_vertex. rewrite Eve. apply down_refl.
Qed.
Lemma add_fs_between h e t v w d : db_edge e = true -> db_vertex v = true -> In d (states (add_fs h e t) w) ->
  between (row v w) (row v d) (row v (runs (add_fs h e t) w)).
Proof.
  intros He Hv. unfold add_fs. destruct (memb e (stored h)); [|now apply add_between].
  intros [<-|[]]. right; right; now left.
Qed.
Lemma rem_fs_between h e v w d : db_edge e = true -> db_vertex v = true -> In d (states (rem_fs h e) w) ->
  between (row v w) (row v d) (row v (runs (rem_fs h e) w)).
Proof.
  intros He Hv. unfold rem_fs. destruct (memb e (stored h)); [now apply rem_between|].
  intros [<-|[]]. right; right; now left.
Qed.
Lemma upd_on_row V (T : value -> Prop) f v w : upd_on V T f -> db_vertex v = true -> ~ T v -> (forall e, T e -> ~ In v (elems e)) ->
  row v (f w) = row v w.
Proof.
  intros (e & Te & He & Hf) Hv Nv Ne. pose proof (edge_in_db _ _ He) as Hd.
  assert (v <> e) by (intros ->; now apply Nv). destruct Hf as [[t Hf]|Hf].
  - apply (add_upds_else e t); auto.
  - apply (rem_upds_else e); auto.
Qed.
