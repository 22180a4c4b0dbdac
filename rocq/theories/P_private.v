(** * P_private.v -- one process among others, whose new vertices nobody else uses *)

From Verif Require Import Py M_symbol M_edge M_sql M_mysql M_hypergraph P_py Spec P_edge P_perm P_range P_query
  S_history M_driver P_ops P_hist P_graph P_answers P_rows P_crash S_steps M_steps P_steps P_owned P_mysql.
From Coq Require Import Permutation Factorial String.
Open Scope list_scope.

(** ** statements that cannot fail *)

Lemma upd_count id k t l : NoDup (List.map fst l) ->
  filter (fun r => vkey id r && negb (Z.eqb (fst (snd r)) k && Z.eqb (snd (snd r)) t)) l = [] ->
  vlook id (Db l []) = None \/ vlook id (Db l []) = Some (k, t).
Proof.
  induction l as [|[u [a b]] l IH]; intros N F; [now left|]. cbn [filter fst snd] in F. unfold vlook. cbn [vertices find].
  change (vkey id (u, (a, b))) with (str_eqb id u) in *. destruct (str_eqb id u) eqn:E; cbn [andb] in F.
  - destruct (Z.eqb a k && Z.eqb b t) eqn:E2; cbn [negb] in F; [|discriminate]. apply andb_true_iff in E2 as [A B]. apply Z.eqb_eq in A, B. subst. now right.
  - apply IH; [now inversion N|exact F].
Qed.
Lemma map_none id (x : Z * Z) l : existsb (vkey id) l = false -> List.map (fun r : str * (Z * Z) => if vkey id r then (id, x) else r) l = l.
Proof. induction l as [|r l IH]; [reflexivity|]. cbn. destruct (vkey id r); [discriminate|]. cbn. intros H. now rewrite IH. Qed.
(** an UPDATE of a record that counts nothing: there was none, or it was there already *)
Lemma upd_0 auto id k t w w' : NoDup (keys w) -> engine auto (UpdVertex id k t) w = Ok (w', O) ->
  (vlook id w = None /\ w' = w) \/ (auto = true /\ vlook id w = Some (k, t)).
Proof.
  intros N E. destruct auto; cbn [engine sql_run_my sql_run] in E.
  - injection E as <- E. apply length_zero_iff_nil in E. destruct (upd_count id k t (vertices w) N E) as [H|H].
    + left. split; [exact H|]. rewrite map_none by (apply vlook_none; exact H). apply db_eta.
    + right. split; [reflexivity|exact H].
  - apply (sql_effect (UpdVertex id k t) w w' O) in E. destruct E as [(_ & A & B)|(H & _)]; [left; now split|now elim H].
Qed.
Lemma ins_vertex_ok auto id k t w : (auto = true -> (List.length id < 250)%nat) -> vlook id w = None ->
  engine auto (InsVertex id k t) w = Ok (set_row id (k, t) w, 1%nat).
Proof.
  intros Hs Hv. assert (E : engine auto (InsVertex id k t) w = sql_run (InsVertex id k t) w).
  { destruct auto; [|reflexivity]. apply ins_vertex_same. now apply Hs. }
  rewrite E. cbn [sql_run]. apply vlook_none in Hv. rewrite Hv. unfold set_row. now rewrite Hv.
Qed.
Lemma ins_perm_ok auto r w : (auto = true -> (List.length r < 250)%nat) -> ~ In r (perms w) ->
  engine auto (InsPerm r) w = Ok (ins_perm r w, 1%nat).
Proof.
  intros Hs Hv. assert (E : engine auto (InsPerm r) w = sql_run (InsPerm r) w).
  { destruct auto; [|reflexivity]. apply ins_perm_same. now apply Hs. }
  rewrite E. cbn [sql_run]. assert (F : existsb (str_eqb r) (perms w) = false).
  { destruct (existsb (str_eqb r) (perms w)) eqn:F; [|reflexivity]. apply existsb_exists in F as (x & Hx & Ex). apply str_eqb_eq in Ex as ->. contradiction. }
  rewrite F. unfold ins_perm. now rewrite F.
Qed.

(** ** records of vertices, as a function *)

Definition recs := value -> option (Z * Z).
Definition fset (x : value) (r : Z * Z) (f : recs) : recs := fun v => if veqb v x then Some r else f v.
Definition finc (x : value) (k : Z) (f : recs) : recs := fun v => if veqb v x then option_map (fun r => (fst r + k, snd r)%Z) (f v) else f v.
Definition fdel (x : value) (f : recs) : recs := fun v => if veqb v x then None else f v.
Definition ftouch (n : nat) (t : Z) (r : option (Z * Z)) : option (Z * Z) :=
  match n, r with
  | O, r => r
  | S n, Some (d, s) => Some (d + Z.of_nat (S n), s)%Z
  | S n, None => Some (Z.of_nat (S n), t)
  end.

Section Own.
Variables (V X U K : value -> Prop) (auto : bool).
Hypothesis HV : noalias V.

(** what the others may do: nothing to the index rows of X, to the records of U;
    the records of K stay, with any contents *)
Definition Rp (d d' : db) : Prop :=
  Rx V X d d' /\ (forall v, U v -> db_vertex v = true -> row v d' = row v d)
  /\ (forall v, K v -> db_vertex v = true -> row v d <> None -> row v d' <> None).
Lemma Rp_refl d : Rp d d.
Proof. split; [apply Rx_refl|]. split; [reflexivity|auto]. Qed.
Lemma Rp_trans a b c : Rp a b -> Rp b c -> Rp a c.
Proof.
  intros (A & B & C) (A' & B' & C'). split; [now apply (Rx_trans V X a b)|]. split.
  - intros v Hu Hv. now rewrite (B' v Hu Hv), (B v Hu Hv).
  - intros v Hk Hv Hr. apply C'; auto.
Qed.

Definition sp (rho : str -> Prop) (f : recs) (d : db) : Prop :=
  st V X rho d /\ (forall v, U v -> db_vertex v = true -> row v d = f v) /\ (forall v, K v -> db_vertex v = true -> row v d <> None).
Lemma sp_R rho f d d' : Rp d d' -> sp rho f d -> sp rho f d'.
Proof.
  intros (A & B & C) (D & E & F). split; [now apply (st_R V X rho d)|]. split.
  - intros v Hu Hv. now rewrite (B v Hu Hv), (E v Hu Hv).
  - intros v Hk Hv. apply C; auto.
Qed.
Lemma sp_env rho f dirty d d' : env Rp dirty d d' -> sp rho f d -> sp rho f d'.
Proof. unfold env. destruct dirty; [now intros ->|apply sp_R]. Qed.
(** changes of records *)
Lemma sp_set rho f d x r : db_vertex x = true -> sp rho f d -> sp rho (fset x r f) (set_row (edge2str x) r d).
Proof.
  intros Hx (A & B & C). split; [apply (st_perms V X rho d); [now apply wf_set, A|apply perms_set|exact A]|]. split.
  - intros v Hu Hv. unfold row, fset. rewrite vlook_set, (id_eqb v x Hv Hx). destruct (veqb v x); [reflexivity|now apply B].
  - intros v Hk Hv. unfold row. rewrite vlook_set. destruct (str_eqb (edge2str v) (edge2str x)); [discriminate|now apply C].
Qed.
Lemma sp_inc rho f d x k : db_vertex x = true -> sp rho f d -> sp rho (finc x k f) (inc_row (edge2str x) k d).
Proof.
  intros Hx (A & B & C). split; [apply (st_perms V X rho d); [now apply wf_inc, A|apply perms_inc|exact A]|]. split.
  - intros v Hu Hv. unfold row, finc. rewrite vlook_inc, (id_eqb v x Hv Hx). specialize (B v Hu Hv). unfold row in B. rewrite B. reflexivity.
  - intros v Hk Hv. unfold row. rewrite vlook_inc. specialize (C v Hk Hv). unfold row in C. destruct (str_eqb (edge2str v) (edge2str x)); [|exact C].
    now destruct (vlook (edge2str v) d).
Qed.
Lemma sp_del rho f d x : db_vertex x = true -> ~ K x -> sp rho f d -> sp rho (fdel x f) (del_row (edge2str x) d).
Proof.
  intros Hx Nk (A & B & C). split; [apply (st_perms V X rho d); [now apply wf_del, A|apply perms_del|exact A]|]. split.
  - intros v Hu Hv. unfold row, fdel. rewrite vlook_del, (id_eqb v x Hv Hx). destruct (veqb v x); [reflexivity|now apply B].
  - intros v Hk Hv. unfold row. rewrite vlook_del, (id_eqb v x Hv Hx). destruct (veqb v x) eqn:E; [apply veqb_eq in E as ->; contradiction|now apply C].
Qed.

Definition trp {A} (rho : str -> Prop) (f : recs) (p : prog A) (post : A -> (str -> Prop) -> recs -> Prop) : Prop :=
  forall d cur dirty, sp rho f d -> okst cur dirty ->
    wp auto true Rp p (fun a d' cur' dirty' => exists rho' f', sp rho' f' d' /\ post a rho' f' /\ cur' = cur /\ okst cur' dirty') d cur dirty.

Lemma trp_bind {A B} rho f (p : prog A) (k : A -> prog B) post post' :
  trp rho f p post -> (forall a rho' f', post a rho' f' -> trp rho' f' (k a) post') -> trp rho f (pbind p k) post'.
Proof.
  intros H1 H2 d cur dirty S O. apply wp_bind. eapply wp_mono; [|now apply H1].
  cbn. intros a d' cur' dirty' (rho' & f' & S' & Hp & -> & O'). apply (H2 a rho' f' Hp d' cur dirty' S' O').
Qed.
Lemma trp_mono {A} rho f (p : prog A) (post post' : A -> (str -> Prop) -> recs -> Prop) : (forall a r g, post a r g -> post' a r g) -> trp rho f p post -> trp rho f p post'.
Proof.
  intros H1 H2 d cur dirty S O. eapply wp_mono; [|now apply H2]. cbn. intros a d' cur' dirty' (rho' & f' & S' & Hp & E). exists rho', f'. auto.
Qed.
Lemma trp_ret {A} rho f (a : A) (post : A -> (str -> Prop) -> recs -> Prop) : post a rho f -> trp rho f (pret a) post.
Proof. intros H d cur dirty S O. cbn. exists rho, f. auto. Qed.

(** *** the pieces *)

Lemma wpp_open {Q : handle -> db -> curstate -> bool -> Prop} d cur dirty :
  okst cur dirty -> Q (match cur with CNone => HLocal | _ => HShared end) d cur dirty -> wp auto true Rp (p_open_cursor true) Q d cur dirty.
Proof. intros [->|[-> ->]] H; exact H. Qed.
Lemma wpp_close (Q : unit -> db -> curstate -> bool -> Prop) d cur dirty : cur = COpen \/ cur = CNone ->
  (forall dirty', okst cur dirty' -> Q tt d cur dirty') ->
  wp auto true Rp (p_close_cursor (match cur with CNone => HLocal | _ => HShared end) true true) Q d cur dirty.
Proof. intros [->| ->] H; cbn; apply H; [now left|right; auto]. Qed.
Lemma wpp_close_keep (Q : unit -> db -> curstate -> bool -> Prop) d cur dirty : okst cur dirty -> Q tt d cur dirty ->
  wp auto true Rp (p_close_cursor (match cur with CNone => HLocal | _ => HShared end) true false) Q d cur dirty.
Proof. intros [->|[-> ->]] H; exact H. Qed.
Lemma wpp_exec h s (Q : nat -> db -> curstate -> bool -> Prop) d cur dirty : closed h cur = false -> bind_error s = None ->
  (forall d1, env Rp dirty d d1 -> exists d2 n, engine auto s d1 = Ok (d2, n) /\ Q n d2 cur (negb auto)) ->
  wp auto true Rp (pact (AExec h s)) Q d cur dirty.
Proof. intros Hc Hb H. cbn. rewrite Hc, Hb. intros d1 E1. destruct (H d1 E1) as (d2 & n & -> & G). exact G. Qed.
Lemma wpp_query {A} h (q : sel A) (Q : A -> db -> curstate -> bool -> Prop) d cur dirty : closed h cur = false -> forallb bindable (sel_texts q) = true ->
  (forall d1, env Rp dirty d d1 -> Q (sel_run q d1) d1 cur dirty) -> wp auto true Rp (pact (AQuery h q)) Q d cur dirty.
Proof. intros Hc Hb H. cbn. rewrite Hc, Hb. exact H. Qed.

(** a vertex record is written *)
Lemma trp_add_str rho f v n t : db_vertex v = true -> U v -> int64 t = true -> (auto = true -> (List.length (edge2str v) < 250)%nat) ->
  (auto = true -> f v <> Some (n, t)) ->
  trp rho f (p_add_str (edge2str v) n t) (fun _ r g => r = rho /\ g = fset v (n, t) f).
Proof.
  intros Hv Uv Ht Hs Hn d cur dirty S O. pose proof (vertex_bindable v Hv) as B. unfold p_add_str, p_update_or_insert.
  apply wp_bind, wpp_open; [exact O|]. apply wp_bind. apply wpp_exec; [now apply (not_closed cur dirty)|now apply binds_upd|].
  intros d1 E1. apply (sp_env rho f) in E1; [|exact S].
  destruct (engine auto (UpdVertex (edge2str v) n t) d1) as [[d2 k]|e] eqn:E; [|apply eng_fails in E; destruct E].
  exists d2, k. split; [reflexivity|]. apply wp_bind.
  assert (Fin : forall d3 dirty', sp rho (fset v (n, t) f) d3 -> wp auto true Rp (p_close_cursor (match cur with CNone => HLocal | _ => HShared end) true true)
     (fun (_ : unit) d' cur' dirty' => exists rho' f', sp rho' f' d' /\ (rho' = rho /\ f' = fset v (n, t) f) /\ cur' = cur /\ okst cur' dirty') d3 cur dirty').
  { intros d3 dirty' S3. apply wpp_close; [now apply (okst_cur cur dirty)|]. intros b Ob. exists rho, (fset v (n, t) f). auto. }
  pose proof (proj1 (proj2 E1) v Uv Hv) as Rv. unfold row in Rv.
  destruct (Nat.eqb_spec k 0) as [->|Nk].
  - apply upd_0 in E; [|apply (wf_ndv _ _ (proj1 (proj1 E1)))]. destruct E as [[E0 ->]|[Ea E0]]; [|exfalso; apply (Hn Ea); now rewrite <- Rv].
    apply wp_bind, wpp_exec; [now apply (not_closed cur dirty)|now apply binds_ins|]. intros d2 E2. apply (sp_env rho f) in E2; [|exact E1].
    pose proof (proj1 (proj2 E2) v Uv Hv) as Rv2. unfold row in Rv2. rewrite E0 in Rv.
    exists (set_row (edge2str v) (n, t) d2), 1%nat. split; [apply ins_vertex_ok; [exact Hs|congruence]|]. cbn. apply Fin. now apply sp_set.
  - apply eng_effect in E. destruct E as [(-> & _)|(_ & _ & ->)]; [now elim Nk|]. cbn. apply Fin. now apply sp_set.
Qed.
(** a degree is changed *)
Lemma trp_change rho f v k : db_vertex v = true -> k <> 0%Z -> trp rho f (p_change_degree (edge2str v) k)
  (fun b r g => r = rho /\ g = finc v k f /\ (U v -> (b = true <-> f v <> None)) /\ (K v -> b = true)).
Proof.
  intros Hv Nk d cur dirty S O. pose proof (vertex_bindable v Hv) as B. unfold p_change_degree.
  apply wp_bind, wpp_open; [exact O|]. apply wp_bind. apply wpp_exec; [now apply (not_closed cur dirty)|now apply binds_text|].
  intros d1 E1. apply (sp_env rho f) in E1; [|exact S].
  destruct (engine auto (IncDegree (edge2str v) k) d1) as [[d2 n]|e] eqn:E; [|apply eng_fails in E; destruct E].
  exists d2, n. split; [reflexivity|]. apply eng_effect in E as [En ->]. specialize (En Nk).
  apply wp_bind. apply wpp_close; [now apply (okst_cur cur dirty)|]. intros b Ob. cbn [wp pret]. exists rho, (finc v k f).
  split; [now apply sp_inc|]. split; [|auto]. split; [reflexivity|]. split; [reflexivity|].
  assert (Nn : Nat.ltb 0 n = true <-> vlook (edge2str v) d1 <> None).
  { rewrite Nat.ltb_lt. rewrite <- En. lia. }
  split; [intros Uv|intros Kv]; [rewrite Nn; pose proof (proj1 (proj2 E1) v Uv Hv) as Rv; unfold row in Rv; now rewrite Rv|apply Nn; exact (proj2 (proj2 E1) v Kv Hv)].
Qed.
Lemma trp_remove_str rho f v : db_vertex v = true -> ~ K v -> trp rho f (p_remove_str (edge2str v)) (fun _ r g => r = rho /\ g = fdel v f).
Proof.
  intros Hv Nk d cur dirty S O. pose proof (vertex_bindable v Hv) as B. unfold p_remove_str.
  apply wp_bind, wpp_open; [exact O|]. apply wp_bind. apply wpp_exec; [now apply (not_closed cur dirty)|now apply binds_text|].
  intros d1 E1. apply (sp_env rho f) in E1; [|exact S].
  destruct (engine auto (DelVertex (edge2str v)) d1) as [[d2 n]|e] eqn:E; [|apply eng_fails in E; destruct E].
  exists d2, n. split; [reflexivity|]. apply eng_effect in E as ->. apply wpp_close; [now apply (okst_cur cur dirty)|]. intros b Ob. exists rho, (fdel v f).
  split; [now apply sp_del|auto].
Qed.
(** an index row is written, removed *)
Lemma trp_write rho f e r : edge_in V e -> X e -> is_row (elems e) r -> ~ rho r -> (auto = true -> (List.length r < 250)%nat) ->
  trp rho f (p_write_edge_permutation r) (fun _ rho' g => (forall s, rho' s <-> s = r \/ rho s) /\ g = f).
Proof.
  intros He Xe Hr Nr Hs d cur dirty S O. pose proof (row_bindable (elems e) r (proj1 (proj2 (db_edge_elems e (edge_in_db _ _ He)))) Hr) as B.
  unfold p_write_edge_permutation, p_update_or_insert.
  apply wp_bind, wpp_open; [exact O|]. apply wp_bind. apply wpp_exec; [now apply (not_closed cur dirty)|now apply binds_text|].
  intros d1 E1. apply (sp_env rho f) in E1; [|exact S].
  destruct (engine auto (UpdPerm r) d1) as [[d2 k]|y] eqn:E; [|apply eng_fails in E; destruct E].
  exists d2, k. split; [reflexivity|]. apply eng_effect in E as (Hk1 & _ & ->). apply wp_bind.
  assert (N1 : ~ In r (perms d1)) by (rewrite (proj2 (proj1 E1) e r Xe He Hr); exact Nr).
  destruct (Nat.eqb_spec k 0) as [->|Nk]; [|exfalso; apply N1; now apply Hk1].
  apply wp_bind, wpp_exec; [now apply (not_closed cur dirty)|now apply binds_text|]. intros d2 E2. apply (sp_env rho f) in E2; [|exact E1].
  assert (N2 : ~ In r (perms d2)) by (rewrite (proj2 (proj1 E2) e r Xe He Hr); exact Nr).
  exists (ins_perm r d2), 1%nat. split; [now apply ins_perm_ok|]. cbn.
  apply wpp_close; [now apply (okst_cur cur dirty)|]. intros b Ob. exists (fun s => s = r \/ rho s), f. split; [|split; [split; reflexivity|auto]].
  destruct E2 as ((W & T) & A & C). split; [split|split].
  - apply (wf_ins V e); [exact He|exact Hr|exact W].
  - intros x s Xx Hx Hxs. rewrite in_ins_perm, (T x s Xx Hx Hxs). tauto.
  - intros v Uv Hv. unfold row. rewrite vlook_ins_perm. now apply A.
  - intros v Kv Hv. unfold row. rewrite vlook_ins_perm. now apply C.
Qed.
Lemma trp_unwrite rho f e r : edge_in V e -> is_row (elems e) r -> trp rho f (p_remove_edge_permutation r) (fun _ rho' g => (forall s, rho' s <-> s <> r /\ rho s) /\ g = f).
Proof.
  intros He Hr d cur dirty S O. pose proof (row_bindable (elems e) r (proj1 (proj2 (db_edge_elems e (edge_in_db _ _ He)))) Hr) as B.
  unfold p_remove_edge_permutation. apply wp_bind, wpp_exec; [reflexivity|now apply binds_text|].
  intros d1 E1. apply (sp_env rho f) in E1; [|exact S].
  destruct (engine auto (DelPerm r) d1) as [[d2 n]|y] eqn:E; [|apply eng_fails in E; destruct E].
  exists d2, n. split; [reflexivity|]. apply eng_effect in E as ->. cbn. exists (fun s => s <> r /\ rho s), f.
  split; [|split; [split; reflexivity|split; [reflexivity|destruct O as [->|[-> _]]; [now left|right; auto]]]].
  destruct E1 as ((W & T) & A & C). split; [split|split].
  - now apply wf_delp.
  - intros x s Xx Hx Hxs. rewrite in_del_perm, (T x s Xx Hx Hxs). tauto.
  - intros v Uv Hv. unfold row. rewrite vlook_del_perm. now apply A.
  - intros v Kv Hv. unfold row. rewrite vlook_del_perm. now apply C.
Qed.

(** *** queries *)

Lemma trp_pattern rho f items : pattern_ok V items ->
  trp rho f (p_pattern2edges (VTup items)) (fun l rho' g => rho' = rho /\ g = f /\ exists d1, st V X rho d1 /\ pat_ans V items d1 l).
Proof.
  intros Hp d cur dirty S O. unfold p_pattern2edges. cbn [as_seq pbind].
  change (nodes2str (filter not_none items)) with (pat_text items).
  destruct (pattern_pure V db_empty items HV) as (hi & _ & _ & E & B & _); [easy|exact Hp|]. rewrite E. cbn [pbind].
  apply wp_bind, wpp_open; [exact O|]. apply wp_bind, wpp_query; [now apply (not_closed cur dirty)|exact B|].
  intros d1 E1. cbn [sel_run]. apply (sp_env rho f) in E1; [|exact S].
  destruct (pattern_pure V d1 items HV (wf_rows _ _ (proj1 (proj1 E1))) Hp) as (hi' & es & flags & E' & _ & Ec & Ef & A).
  rewrite E in E'. injection E' as <-. rewrite Ec. cbn [pbind]. apply wp_bind, wpp_close_keep; [exact O|]. rewrite Ef. cbn [pbind].
  cbn. exists rho, f. split; [exact E1|]. split; [split; [reflexivity|split; [reflexivity|exists d1; split; [apply E1|exact A]]]|auto].
Qed.
Lemma trp_star rho f a : db_atom a = true -> trp rho f (p_star a) (fun l rho' g => rho' = rho /\ g = f).
Proof.
  intros Hp d cur dirty S O. unfold p_star, p_str2perms. cbv zeta.
  destruct (star_pure V db_empty a HV) as (hi & _ & E & B & _); [easy|exact Hp|]. rewrite E. cbn [pbind].
  apply wp_bind, wpp_open; [exact O|]. apply wp_bind, wpp_query; [now apply (not_closed cur dirty)|exact B|].
  intros d1 E1. cbn [sel_run]. apply (sp_env rho f) in E1; [|exact S].
  destruct (star_pure V d1 a HV (wf_rows _ _ (proj1 (proj1 E1))) Hp) as (hi' & es & E' & _ & Ec & A).
  rewrite E in E'. injection E' as <-. rewrite Ec. cbn [pbind]. apply wp_bind, wpp_close_keep; [exact O|].
  cbn. exists rho, f. split; [exact E1|]. auto.
Qed.
Lemma trp_symbols rho f r : root_in r -> trp rho f (p_symbols_with_root (VStr r)) (fun l rho' g => rho' = rho /\ g = f).
Proof.
  intros Hr d cur dirty S O. unfold p_symbols_with_root. cbn [show_atom]. cbv zeta. rewrite root_plus. cbn [pbind].
  apply wp_bind, wpp_open; [exact O|]. apply wp_bind, wpp_query; [now apply (not_closed cur dirty)|now apply root_binds|].
  intros d1 E1. cbn [sel_run]. apply (sp_env rho f) in E1; [|exact S]. destruct (root_pure V d1 r Hr (proj1 (proj1 E1))) as (ss & Es). unfold first_tokens in Es. rewrite Es.
  cbn [pbind]. apply wp_bind, wpp_close_keep; [exact O|]. cbn. exists rho, f. split; [exact E1|]. auto.
Qed.
Lemma trp_all {B} (q : value * Z -> B) rho f : trp rho f (p_f_all q) (fun l rho' g => rho' = rho /\ g = f).
Proof.
  intros d cur dirty S O. unfold p_f_all.
  apply wp_bind, wpp_open; [exact O|]. apply wp_bind, wpp_query; [now apply (not_closed cur dirty)|reflexivity|].
  intros d1 E1. cbn [sel_run]. apply (sp_env rho f) in E1; [|exact S]. destruct (all_pure q V d1 (proj1 (proj1 E1))) as (ps & Es & _). rewrite Es.
  cbn [pbind]. apply wp_bind, wpp_close_keep; [exact O|]. cbn. exists rho, f. split; [exact E1|]. auto.
Qed.
Lemma trp_exists rho f e : edge_in V e ->
  trp rho f (p_exists e) (fun b rho' g => rho' = rho /\ g = f /\ exists d1, st V X rho d1 /\ (b = true <-> hit d1 (nodes2str (elems e)) e)).
Proof.
  intros He. unfold p_exists. destruct (db_edge_elems e (edge_in_db _ _ He)) as (Ee & Ae & _). rewrite Ee at 1.
  apply (trp_bind rho f _ _ _ _ (trp_pattern rho f (elems e) (edge_pattern_ok V e He))).
  intros l rho' f' (-> & -> & d1 & S1 & N & I). apply trp_ret. split; [reflexivity|]. split; [reflexivity|]. exists d1. split; [exact S1|].
  rewrite Nat.ltb_lt. unfold pat_text in I. rewrite (filter_all_db _ Ae) in I. split.
  - intros L. destruct l as [|e' l]; [cbn in L; lia|]. destruct (proj1 (I e') ltac:(now left)) as (He' & Hh & M).
    apply matches_all_db in M; [|exact Ae]. destruct (db_edge_elems e' (edge_in_db _ _ He')) as (Ee' & _ & _).
    assert (e = e') by congruence. now subst e'.
  - intros Hh. assert (In e l) by (apply I; split; [exact He|]; split; [exact Hh|apply matches_refl]). destruct l; [easy|cbn; lia].
Qed.

(** *** one vertex of an edge is counted *)

Definition anew (f g : recs) (F : value -> option (Z * Z) -> option (Z * Z)) : Prop := forall v, U v -> db_vertex v = true -> g v = F v (f v).
Lemma trp_touch rho f t x : db_vertex x = true -> int64 t = true -> U x \/ K x -> (auto = true -> (List.length (edge2str x) < 250)%nat) ->
  trp rho f (p_add_vertex t x) (fun _ r g => r = rho /\ anew f g (fun v => ftouch (if veqb v x then 1 else 0) t)).
Proof.
  intros Hx Ht HUK Hs. unfold p_add_vertex. eapply trp_bind; [apply trp_change; [exact Hx|discriminate]|]. cbn beta.
  intros b r g (-> & -> & Hu & Hk). destruct b.
  - apply trp_ret. split; [reflexivity|]. intros v Uv Dv. unfold finc. destruct (veqb v x) eqn:E; [|reflexivity]. apply veqb_eq in E as ->.
    destruct (f x) as [[d s]|] eqn:Ef; [reflexivity|]. exfalso. now apply (proj1 (Hu Uv) eq_refl).
  - assert (Ux : U x) by (destruct HUK as [H|H]; [exact H|specialize (Hk H); discriminate Hk]).
    assert (Fx : f x = None).
    { destruct (f x) eqn:E; [|reflexivity]. assert (false = true) by (apply (Hu Ux); discriminate). discriminate. }
    eapply trp_mono; [|apply trp_add_str; auto].
    + cbn beta. intros _ r g [-> ->]. split; [reflexivity|]. intros v Uv Dv. unfold fset, finc. destruct (veqb v x) eqn:E; [|reflexivity].
      apply veqb_eq in E as ->. now rewrite Fx.
    + intros _. unfold finc. rewrite veqb_refl, Fx. discriminate.
Qed.
Lemma ftouch_add n m t r : ftouch n t (ftouch m t r) = ftouch (m + n) t r.
Proof. destruct m, n, r as [[d s]|]; cbn [ftouch Nat.add]; rewrite ?Nat.add_0_r; try reflexivity; f_equal; f_equal; lia. Qed.
Lemma trp_touches t : int64 t = true -> forall l rho f,
  (forall x, In x l -> db_vertex x = true /\ (U x \/ K x) /\ (auto = true -> (List.length (edge2str x) < 250)%nat)) ->
  trp rho f (pfor l (p_add_vertex t)) (fun _ r g => r = rho /\ anew f g (fun v => ftouch (count v l) t)).
Proof.
  intros Ht. induction l as [|x l IH]; intros rho f H; cbn [pfor]; [apply trp_ret; now split|].
  destruct (H x (or_introl eq_refl)) as (A & B & C). eapply trp_bind; [now apply trp_touch|]. cbn beta. intros _ r g (-> & Hg).
  eapply trp_mono; [|apply IH; intros y Hy; apply H; now right]. cbn beta. intros _ r g' (-> & Hg'). split; [reflexivity|].
  intros v Uv Dv. rewrite (Hg' v Uv Dv), (Hg v Uv Dv), ftouch_add. reflexivity.
Qed.
Lemma trp_untouches : forall l rho f, (forall x, In x l -> db_vertex x = true) ->
  trp rho f (pfor l (fun vert => p_change_degree (edge2str vert) (-1);p pret tt))
    (fun _ r g => r = rho /\ anew f g (fun v => option_map (fun p => (fst p - Z.of_nat (count v l), snd p)%Z))).
Proof.
  induction l as [|x l IH]; intros rho f H; cbn [pfor].
  { apply trp_ret. split; [reflexivity|]. intros v _ _. destruct (f v) as [[d s]|]; [|reflexivity]. cbn. now rewrite Z.sub_0_r. }
  apply (trp_bind rho f _ _ (fun _ r g => r = rho /\ g = finc x (-1) f)); [eapply trp_bind; [apply trp_change; [apply H; now left|discriminate]|]|].
  - cbn beta. intros b r g Hb. apply trp_ret. exact (conj (proj1 Hb) (proj1 (proj2 Hb))).
  - cbn beta. intros _ r g [-> ->]. eapply trp_mono; [|apply IH; intros y Hy; apply H; now right]. cbn beta. intros _ r g' (-> & Hg'). split; [reflexivity|].
    intros v Uv Dv. rewrite (Hg' v Uv Dv). unfold finc. cbn [count]. destruct (veqb v x); destruct (f v) as [[d s]|]; cbn [option_map fst snd]; try reflexivity.
    f_equal. f_equal. lia.
Qed.
(** *** the index rows of an edge *)

Lemma trp_write_rows e : edge_in V e -> X e -> forall l rho f, NoDup l -> (forall r, In r l -> is_row (elems e) r /\ ~ rho r /\ (auto = true -> (List.length r < 250)%nat)) ->
  trp rho f (pfor l p_write_edge_permutation) (fun _ rho' g => (forall s, rho' s <-> In s l \/ rho s) /\ g = f).
Proof.
  intros He Xe. induction l as [|r l IH]; intros rho f N H; cbn [pfor].
  { apply trp_ret. split; [|reflexivity]. intros s. cbn. tauto. }
  inversion N as [|? ? N1 N2]; subst. destruct (H r (or_introl eq_refl)) as (A & B & C).
  eapply trp_bind; [now apply (trp_write rho f e r)|]. cbn beta. intros _ rho' g [H' ->].
  eapply trp_mono; [|apply IH; [exact N2|]].
  - cbn beta. intros _ rho2 g [H2 ->]. split; [|reflexivity]. intros s. rewrite (H2 s), (H' s). cbn [In]. intuition congruence.
  - intros q Hq. destruct (H q (or_intror Hq)) as (A' & B' & C'). split; [exact A'|]. split; [|exact C']. rewrite (H' q). intros [->|Hr]; contradiction.
Qed.
Lemma trp_unwrite_rows e : edge_in V e -> forall l rho f, (forall r, In r l -> is_row (elems e) r) ->
  trp rho f (pfor l p_remove_edge_permutation) (fun _ rho' g => (forall s, rho' s <-> ~ In s l /\ rho s) /\ g = f).
Proof.
  intros He. induction l as [|r l IH]; intros rho f H; cbn [pfor].
  { apply trp_ret. split; [|reflexivity]. intros s. cbn. tauto. }
  eapply trp_bind; [apply (trp_unwrite rho f e r He); apply H; now left|]. cbn beta. intros _ rho' g [H' ->].
  eapply trp_mono; [|apply IH; intros q Hq; apply H; now right].
  cbn beta. intros _ rho2 g [H2 ->]. split; [|reflexivity]. intros s. rewrite (H2 s), (H' s). cbn [In]. intuition congruence.
Qed.

(** *** one edge *)

Record priv (e : value) : Prop := {
  pv_in : edge_in V e; pv_x : X e; pv_u : U e; pv_k : ~ K e; pv_el : forall x, In x (elems e) -> U x \/ K x }.
Record good (h : list ev) (rho : str -> Prop) (f : recs) : Prop := {
  gd_rows : tracks V X rho (present h);
  gd_recs : forall v, U v -> db_vertex v = true -> f v = vrow h v }.
Definition fine (h : list ev) : Prop := auto = true -> my_fine h.

Lemma trp_add_raw rho f h e t : Forall (ev_in V) h -> priv e -> int64 t = true -> fine (EAdd e t :: h) -> good h rho f ->
  trp rho f (p_add_raw e t) (fun _ => good (EAdd e t :: h)).
Proof.
  intros Hh [He Xe Ue Ke Le] Ht Hf [T G]. pose proof (edge_in_db _ _ He) as De. pose proof (db_edge_vertex _ De) as Dv. unfold p_add_raw.
  eapply trp_bind; [now apply trp_exists|]. cbn beta. intros b r g (-> & -> & d1 & S1 & Hb). rewrite (hit_tracks V X rho (present h) d1 e S1 T Xe He) in Hb.
  apply (trp_bind rho f _ _ (fun _ => good (EAdd e t :: h))); [|intros _ r g Hr; now apply trp_ret].
  destruct b.
  - assert (Pe : present h e) by (now apply Hb). pose proof (proj2 (memb_present e h) Pe) as M. apply trp_ret. split.
    + apply (tracks_ext V X rho (present h)); [|exact T]. intros x Xx Hx. rewrite present_add. split; [auto|]. now intros [->|Hp].
    + intros v Uv Hv. cbn [vrow]. rewrite M. now apply G.
  - assert (Np : ~ present h e) by (intros Pe; apply Hb in Pe; discriminate). pose proof (proj2 (memb_absent e h) Np) as M.
    assert (Hs : auto = true -> short_texts e /\ ~ same_record e t h) by (intros Ha; apply fine_add; [now apply Hf|exact Np]).
    assert (Hsv : auto = true -> (List.length (edge2str e) < 250)%nat /\ forall x, In x (elems e) -> (List.length (edge2str x) < 250)%nat)
      by (intros Ha; apply short_vertex; [exact De|now apply Hs]).
    rewrite (as_seq_edge e De). cbn [pbind]. eapply trp_bind; [apply (trp_touches t Ht (elems e))|].
    { intros x Hx. split; [now apply (elems_vertices V e)|]. split; [now apply Le|]. intros Ha. now apply (proj2 (Hsv Ha)). }
    cbn beta. intros _ r g (-> & Hg).
    assert (Ge : g e = vrow h e) by (rewrite (Hg e Ue Dv), (count_0 e (elems e) (elems_not_self e)); now apply G).
    eapply trp_bind; [apply trp_add_str; [exact Dv|exact Ue|exact Ht|intros Ha; exact (proj1 (Hsv Ha))|]|].
    { intros Ha. destruct (Hs Ha) as [_ Hr]. rewrite Ge, (vrow_born V h e Hh). intros E. apply Hr. split; [exact Np|].
      destruct (born e h) as [[t0 h0]|]; [|discriminate E]. cbn in E. injection E as E ->. exists h0. split; [reflexivity|]. lia. }
    cbn beta. intros _ r g' (-> & ->). rewrite dow_rows.
    assert (Ne : elems e <> []) by (now apply (elems_nonnil V)).
    eapply trp_mono; [|apply (trp_write_rows e He Xe)].
    + cbn beta. intros _ rho' g' [H ->]. split.
      * intros x q Xx Hx Hq. rewrite (H q), (rows_of_spec _ _ Ne), (T x q Xx Hx Hq), present_add. split; [|intros [->|Hp]; auto].
        intros [Re|Hp]; [left; now apply (row_other V x e q)|auto].
      * intros v Uv Hv. cbn [vrow]. rewrite M. unfold fset. destruct (veqb v e) eqn:E; [reflexivity|]. rewrite (Hg v Uv Hv), (G v Uv Hv). unfold ftouch.
        destruct (count v (elems e)); [reflexivity|]. now destruct (vrow h v) as [[d s]|].
    + now apply rows_nodup.
    + intros q Hq. apply (rows_of_spec _ _ Ne) in Hq. split; [exact Hq|]. split; [rewrite (T e q Xe He Hq); exact Np|].
      intros Ha. apply (short_rows e); [now apply Hs|exact Hq].
Qed.
Lemma trp_remove_raw rho f h e : priv e -> good h rho f -> trp rho f (p_remove_raw e) (fun _ => good (ERem e :: h)).
Proof.
  intros [He Xe Ue Ke Le] [T G]. pose proof (edge_in_db _ _ He) as De. pose proof (db_edge_vertex _ De) as Dv. unfold p_remove_raw.
  eapply trp_bind; [now apply trp_exists|]. cbn beta. intros b r g (-> & -> & d1 & S1 & Hb). rewrite (hit_tracks V X rho (present h) d1 e S1 T Xe He) in Hb.
  destruct b.
  - assert (Pe : present h e) by (now apply Hb). pose proof (proj2 (memb_present e h) Pe) as M.
    rewrite (as_seq_edge e De). cbn [pbind]. eapply trp_bind; [apply trp_untouches; intros x Hx; now apply (elems_vertices V e)|].
    cbn beta. intros _ r g (-> & Hg). rewrite dow_rows. assert (Ne : elems e <> []) by (now apply (elems_nonnil V)).
    eapply trp_bind; [apply (trp_unwrite_rows e He); intros q Hq; now apply rows_of_spec|]. cbn beta. intros _ rho' g' [H ->].
    eapply trp_mono; [|now apply trp_remove_str]. cbn beta. intros _ r g' [-> ->]. split.
    + intros x q Xx Hx Hq. rewrite (H q), (rows_of_spec _ _ Ne), (T x q Xx Hx Hq), present_rem. split; [|intros [N Hp]].
      * intros [Nq Hp]. split; [|exact Hp]. intros ->. now apply Nq.
      * split; [|exact Hp]. intros Hq'. apply N. now apply (row_other V x e q).
    + intros v Uv Hv. cbn [vrow]. rewrite M. unfold fdel. destruct (veqb v e); [reflexivity|]. now rewrite (Hg v Uv Hv), (G v Uv Hv).
  - assert (Np : ~ present h e) by (intros Pe; apply Hb in Pe; discriminate). pose proof (proj2 (memb_absent e h) Np) as M. apply trp_ret. split.
    + apply (tracks_ext V X rho (present h)); [|exact T]. intros x Xx Hx. rewrite present_rem. split; [|tauto]. intros Hp. split; [|exact Hp]. now intros ->.
    + intros v Uv Hv. cbn [vrow]. rewrite M. now apply G.
Qed.

Lemma good_same h h' rho f : same_graph h h' -> good h rho f -> good h' rho f.
Proof.
  intros [S R] [T G]. split.
  - apply (tracks_ext V X rho (present h)); [|exact T]. intros x _ _. rewrite <- !stored_present. apply S.
  - intros v Uv Hv. rewrite <- R. now apply G.
Qed.
Lemma fine_of {A} (g : list ev -> A -> list ev) l h : extends g -> fine (fold_left g l h) -> fine h.
Proof. intros Hg Hf Ha. apply (fine_fold g l h Hg). now apply Hf. Qed.

(** *** loops over edges *)

Lemma trp_loop {A} (P : A -> Prop) (p : A -> prog unit) (g : list ev -> A -> list ev) : extends g ->
  (forall x h, P x -> Forall (ev_in V) h -> Forall (ev_in V) (g h x)) ->
  (forall x rho f h, P x -> Forall (ev_in V) h -> fine (g h x) -> good h rho f -> trp rho f (p x) (fun _ => good (g h x))) ->
  forall l rho f h, Forall P l -> Forall (ev_in V) h -> fine (fold_left g l h) -> good h rho f ->
    trp rho f (pfor l p) (fun _ => good (fold_left g l h)).
Proof.
  intros Eg Hi Hp. induction l as [|x l IH]; intros rho f h Fl Hh Hf G; cbn [pfor fold_left]; [now apply trp_ret|].
  inversion Fl as [|? ? Px Pl]; subst. cbn [fold_left] in Hf. eapply trp_bind; [apply (Hp x rho f h); auto; now apply (fine_of g l)|].
  cbn beta. intros _ rho' f' G'. apply IH; auto.
Qed.
Lemma ext_add t : extends (fun h e => EAdd e t :: h).
Proof. intros h x. now exists [EAdd x t]. Qed.
Lemma ext_rem : extends (fun h e => ERem e :: h).
Proof. intros h x. now exists [ERem x]. Qed.

Lemma trp_add rho f h e t : Forall (ev_in V) h -> priv e -> int64 t = true -> fine (EAdd e t :: h) -> good h rho f ->
  trp rho f (p_add e t;p pret tt) (fun _ => good (EAdd e t :: h)).
Proof.
  intros Hh Pe Ht Hf G. destruct (index0_edge e (edge_in_db _ _ (pv_in e Pe))) as (a & E0 & Ea). unfold p_add. rewrite E0. cbn [pbind]. rewrite Ea.
  apply (trp_bind rho f _ _ (fun _ => good (EAdd e t :: h))); [|intros _ r g H; now apply trp_ret].
  apply (trp_bind rho f _ _ (fun _ => good (EAdd e t :: h))); [|intros _ r g H; now apply trp_ret].
  apply (trp_bind rho f _ _ (fun _ => good (EAdd e t :: h))); [|intros _ r g H; now apply trp_ret].
  now apply trp_add_raw.
Qed.
Lemma trp_remove rho f h e : priv e -> good h rho f -> trp rho f (p_remove e) (fun _ => good (ERem e :: h)).
Proof.
  intros Pe G. destruct (index0_edge e (edge_in_db _ _ (pv_in e Pe))) as (a & E0 & Ea). unfold p_remove. rewrite E0. cbn [pbind]. rewrite Ea.
  now apply trp_remove_raw.
Qed.
Lemma trp_removes (p : value -> prog unit) : (forall rho f h e, priv e -> good h rho f -> trp rho f (p e) (fun _ => good (ERem e :: h))) ->
  forall es rho f h, Forall priv es -> good h rho f -> trp rho f (pfor es p) (fun _ => good (rems es h)).
Proof.
  intros Hp. induction es as [|e es IH]; intros rho f h F G; cbn [pfor]; [now apply trp_ret|]. inversion F as [|? ? Pe Fe]; subst.
  eapply trp_bind; [now apply (Hp rho f h)|]. cbn beta. intros _ rho' f' G'. now apply IH.
Qed.
Lemma priv_in es : Forall priv es -> Forall (edge_in V) es.
Proof. apply Forall_impl. intros e Pe. apply Pe. Qed.
Lemma trp_remove_many rho f h es : es <> [] -> Forall priv es -> good h rho f -> trp rho f (p_remove (VTup es)) (fun _ => good (rems es h)).
Proof.
  intros Hn F G. destruct (index0_edges V es Hn (priv_in es F)) as (a & E0 & Ea). unfold p_remove. rewrite E0. cbn [pbind]. rewrite Ea. cbn [as_seq pbind].
  apply (trp_removes p_remove_raw); auto. intros. now apply trp_remove_raw.
Qed.
Lemma trp_destroy rho f h : (forall v, ~ K v) -> trp rho f p_destroy (fun _ => good (EDestroy :: h)).
Proof.
  intros NK d cur dirty S O. unfold p_destroy. apply wp_bind, wpp_open; [exact O|].
  apply wp_bind, wpp_exec; [now apply (not_closed cur dirty)|reflexivity|]. intros d1 E1. apply (sp_env rho f) in E1; [|exact S].
  destruct (engine auto DelAllVertices d1) as [[d2 n]|y] eqn:E; [|apply eng_fails in E; destruct E]. exists d2, n. split; [reflexivity|]. apply eng_effect in E as ->.
  assert (S1 : sp rho (fun _ => None) (Db [] (perms d1))).
  { destruct E1 as (A & _). split; [apply (st_perms V X rho d1); [apply wf_wipe_v, A|reflexivity|exact A]|]. split; [reflexivity|]. intros v Kv. now elim (NK v). }
  apply wp_bind, wpp_exec; [now apply (not_closed cur dirty)|reflexivity|]. intros d2 E2. apply (sp_env rho (fun _ => None)) in E2; [|exact S1].
  destruct (engine auto DelAllPerms d2) as [[d3 m]|y] eqn:E; [|apply eng_fails in E; destruct E]. exists d3, m. split; [reflexivity|]. apply eng_effect in E as ->.
  apply wpp_close; [now apply (okst_cur cur dirty)|]. intros b Ob. exists (fun _ => False), (fun _ => None).
  destruct E2 as (A & B & C). split; [|split; [|auto]].
  - split; [split; [apply wf_wipe_p, A|]; intros x r _ _ _; cbn; tauto|]. split; [|intros v Kv; now elim (NK v)].
    intros v Uv Hv. now rewrite <- (B v Uv Hv).
  - split; [|reflexivity]. intros x r _ _ _. rewrite <- stored_present. cbn. tauto.
Qed.

(** *** the calls *)

Definition bop_priv (b : bop) : Prop := (forall x, edge_in V x -> bop_on b x -> priv x) /\ forall v, K v -> ~ bop_on b v.
Lemma trp_bop b rho f h : bop_in V b -> bop_priv b -> Forall (ev_in V) h -> fine (after_bop h b) -> good h rho f ->
  trp rho f (p_bop b) (fun _ => good (after_bop h b)).
Proof.
  intros Hb [Pb Kb] Hh Hf G. destruct b as [e t|e|es| |e|p|a|r|]; cbn [bop_in p_bop after_bop bop_on] in *.
  - destruct Hb as [He Ht]. apply trp_add; auto.
  - apply trp_remove; auto.
  - destruct Hb as [Hn He]. apply trp_remove_many; auto. rewrite Forall_forall in *. auto.
  - apply trp_destroy. intros v Kv. now apply (Kb v Kv).
  - eapply trp_bind; [now apply trp_exists|]. cbn beta. intros b r g (-> & -> & _). now apply trp_ret.
  - eapply trp_bind; [now apply trp_pattern, pattern_in_ok|]. cbn beta. intros b r g (-> & -> & _). now apply trp_ret.
  - eapply trp_bind; [now apply trp_star|]. cbn beta. intros b r g (-> & ->). now apply trp_ret.
  - eapply trp_bind; [now apply trp_symbols|]. cbn beta. intros b r' g (-> & ->). now apply trp_ret.
  - eapply trp_bind; [apply trp_all|]. cbn beta. intros b r' g (-> & ->). now apply trp_ret.
Qed.
Lemma trp_bops bs rho f h : Forall (fun b => bop_in V b /\ bop_priv b) bs -> Forall (ev_in V) h -> fine (fold_left after_bop bs h) -> good h rho f ->
  trp rho f (pfor bs p_bop) (fun _ => good (fold_left after_bop bs h)).
Proof.
  intros F Hh Hf G. apply (trp_loop (fun b => bop_in V b /\ bop_priv b) p_bop after_bop extends_bop); auto.
  - intros b h' [Hb _] Hh'. now apply bop_in_hist.
  - intros b r g h' [Hb Pb] Hh' Hf' G'. now apply trp_bop.
Qed.
Lemma trp_funs : forall fs rho f h, Forall (fun b => bop_in V b /\ bop_priv b) (List.concat fs) -> Forall (ev_in V) h ->
  fine (fold_left after_bop (List.concat fs) h) -> good h rho f ->
  trp rho f (pfor (List.map (fun f => pfor f p_bop) fs) (fun f => f)) (fun _ => good (fold_left after_bop (List.concat fs) h)).
Proof.
  induction fs as [|bs fs IH]; intros rho f h F Hh Hf G; cbn [List.map pfor List.concat fold_left]; [now apply trp_ret|].
  cbn [List.concat] in F, Hf. apply Forall_app in F as [F1 F2]. rewrite fold_left_app in *.
  eapply trp_bind; [apply (trp_bops bs rho f h); auto; now apply (fine_of after_bop (List.concat fs) _ extends_bop)|].
  cbn beta. intros _ rho' f' G'. apply IH; auto. clear - F1 Hh. revert h Hh. induction F1 as [|b bs [Hb _] F1 IH]; intros h Hh; cbn [fold_left]; [exact Hh|].
  apply IH. now apply bop_in_hist.
Qed.

(** what is true between the calls *)
Definition rest_call (h : list ev) : unit -> db -> curstate -> bool -> Prop :=
  fun _ d cur dirty => cur = CNone /\ dirty = false /\ exists rho f, sp rho f d /\ good h rho f.
Lemma trp_top rho f h (p : prog unit) d : trp rho f p (fun _ => good h) -> sp rho f d -> wp auto true Rp p (rest_call h) d CNone false.
Proof.
  intros T S. eapply wp_mono; [|apply (T d CNone false S); right; auto]. cbn. intros u d' cur' dirty' (rho' & f' & S' & Hp & -> & [O|[_ ->]]); [discriminate|].
  split; [reflexivity|]. split; [reflexivity|]. exists rho', f'. now split.
Qed.
(** a block with the shared cursor *)
Lemma trp_shared rho f h (body : prog unit) (Q : unit -> db -> curstate -> bool -> Prop) d : trp rho f body (fun _ => good h) -> sp rho f d ->
  (forall d', rest_call h tt d' CNone false -> Q tt d' CNone false) ->
  wp auto true Rp (pdo cur <- p_open_cursor false; body;p p_close_cursor cur false true) Q d CNone false.
Proof.
  intros B S H. cbn. apply wp_bind. eapply wp_mono; [|apply (B d COpen false S); now left]. cbn.
  intros u d' cur' dirty' (rho' & f' & S' & Hp & -> & _). apply H. split; [reflexivity|]. split; [reflexivity|]. exists rho', f'. now split.
Qed.
Lemma wpp_add_many es t rho f h d : es <> [] -> Forall priv es -> int64 t = true -> Forall (ev_in V) h -> fine (fold_left (fun h e => EAdd e t :: h) es h) ->
  sp rho f d -> good h rho f ->
  wp auto true Rp (p_add (VTup es) t;p pret tt) (rest_call (fold_left (fun h e => EAdd e t :: h) es h)) d CNone false.
Proof.
  intros Hn F Ht Hh Hf S G. destruct (index0_edges V es Hn (priv_in es F)) as (a & E0 & Ea). unfold p_add. rewrite E0. cbn [pbind]. rewrite Ea. cbn [as_seq pbind].
  apply wp_bind, wp_bind. apply (trp_shared rho f (fold_left (fun h e => EAdd e t :: h) es h)); [|exact S|].
  - apply (trp_loop priv (fun edge => p_add_raw edge t;p pret tt) (fun h e => EAdd e t :: h) (ext_add t)); auto.
    + intros e h' Pe Hh'. constructor; [exact (pv_in e Pe)|exact Hh'].
    + intros e r g h' Pe Hh' Hf' G'. apply (trp_bind r g _ _ (fun _ => good (EAdd e t :: h'))); [now apply trp_add_raw|]. intros _ r' g' H. now apply trp_ret.
  - intros d' H. exact H.
Qed.

Lemma trp_sources rho f e : db_vertex e = true -> V e -> V const_source ->
  trp rho f (p_sources e) (fun ss rho' g => rho' = rho /\ g = f /\ exists d1 l, st V X rho d1 /\ pat_ans V [const_source; e; VNone] d1 l /\ (ss = [] <-> l = [])).
Proof.
  intros He Ve Vs. unfold p_sources. eapply trp_bind; [apply trp_pattern, pattern_in_ok; now apply sources_pattern_in|].
  cbn beta. intros l r g (-> & -> & d1 & S1 & A).
  assert (Ms : exists ss, mapr (fun x => let? l := as_seq x in nth_res l 2) l = Ok ss /\ (ss = [] <-> l = [])).
  { assert (F : forall x, In x l -> exists s, x = link s e).
    { intros x Hx. apply (pa_in _ _ _ _ A) in Hx as (Hi & _ & M). destruct (db_edge_elems x (edge_in_db _ _ Hi)) as (Ex & _ & _).
      revert M Ex. generalize (elems x). clear -He. intros l0 M Ex. subst x.
      inversion M as [|p1 x1 q1 l1 [E1|E1] M1]; subst; [discriminate|]. inversion M1 as [|p2 x2 q2 l2 [E2|E2] M2]; subst; [easy|].
      inversion M2 as [|p3 x3 q3 l3 _ M3]; subst. inversion M3; subst. now exists x3. }
    clear A. induction l as [|x l IH]; [exists []; now split|]. destruct IH as (ss & E & _); [intros y Hy; apply F; now right|].
    destruct (F x ltac:(now left)) as (s & ->). exists (s :: ss). cbn [mapr]. rewrite E. split; [reflexivity|]. split; discriminate. }
  destruct Ms as (ss & -> & Es). cbn [pbind]. apply trp_ret. split; [reflexivity|]. split; [reflexivity|]. exists d1, l. split; [exact S1|]. split; [exact A|].
  rewrite <- Es. clear. split; [|intros ->; reflexivity]. destruct ss as [|x ss]; [reflexivity|]. discriminate.
Qed.
Lemma trp_remove_belief s e rho f h : priv e -> priv (link_edge s e) -> Forall (ev_in V) h -> (forall y, is_link_of e y = true -> X y) -> good h rho f ->
  trp rho f (p_remove_belief s e) (fun _ => good (after h (ORemoveBelief s e))).
Proof.
  intros Pe Pl Hh Hc G. pose proof (pv_in _ Pe) as He. pose proof (pv_in _ Pl) as Hl. unfold p_remove_belief. cbn [after]. set (h1 := ERem (link_edge s e) :: h).
  eapply trp_bind; [apply (trp_remove rho f h (link_edge s e) Pl G)|]. cbn beta. intros ? rho1 f1 G1. fold h1 in G1.
  assert (V e /\ V const_source) as [Ve Vs] by (split; apply Hl; cbn; tauto).
  eapply trp_bind; [apply trp_sources; [now apply db_edge_vertex, (edge_in_db V)|exact Ve|exact Vs]|]. cbn beta.
  intros ss r g (-> & -> & d1 & l & S1 & A & Es).
  assert (Hp : pattern_ok V [const_source; e; VNone]) by (apply pattern_in_ok, sources_pattern_in; [now apply db_edge_vertex, (edge_in_db V)|exact Ve|exact Vs]).
  assert (Hin : forall x, present h1 x -> edge_in V x) by (intros x; apply (present_in V); constructor; [exact Hl|exact Hh]).
  assert (D : ss = [] <-> existsb (is_link_of e) (stored h1) = false).
  { rewrite Es. split.
    - intros ->. destruct (existsb (is_link_of e) (stored h1)) eqn:E; [|reflexivity]. exfalso.
      apply existsb_exists in E as (x & Hx & Ex). pose proof (Hc x Ex) as Xx. apply stored_present in Hx.
      assert (He' : edge_in V x) by (now apply Hin).
      apply (link_is s) in Ex as [s' ->].
      assert (In (link s' e) []); [|easy]. apply (pat_tracks V X rho1 (present h1) d1 [const_source; e; VNone] [] (link s' e) Hp S1 (gd_rows _ _ _ G1) A Xx He').
      split; [exact Hx|]. cbn. constructor; [now right|]. constructor; [now right|]. constructor; [now left|]. constructor.
    - intros E. destruct l as [|x l]; [reflexivity|]. exfalso.
      destruct (proj1 (pa_in _ _ _ _ A x) ltac:(now left)) as (Hi & _ & M).
      assert (exists s', x = link s' e) as [s' ->].
      { destruct (db_edge_elems x (edge_in_db _ _ Hi)) as (Ex & _ & _). revert M Ex. generalize (elems x). intros l0 M Ex. subst x.
        inversion M as [|p1 x1 q1 l1 [E1|E1] M1]; subst; [discriminate|]. inversion M1 as [|p2 x2 q2 l2 [E2|E2] M2]; subst.
        - pose proof (db_edge_vertex _ (edge_in_db _ _ He)) as F. discriminate F.
        - inversion M2 as [|p3 x3 q3 l3 _ M3]; subst. inversion M3; subst. now exists x3. }
      assert (Lk : is_link_of e (link s' e) = true) by (apply (link_is s); now exists s').
      pose proof (Hc _ Lk) as Xx.
      destruct (proj1 (pat_tracks V X rho1 (present h1) d1 _ _ _ Hp S1 (gd_rows _ _ _ G1) A Xx Hi) ltac:(now left)) as [Px _].
      assert (existsb (is_link_of e) (stored h1) = true); [|congruence]. apply existsb_exists. exists (link s' e).
      split; [now apply stored_present|exact Lk]. }
  destruct ss as [|s' ss]; cbn [List.length Nat.eqb].
  - rewrite (proj1 D eq_refl). now apply trp_remove.
  - destruct (existsb (is_link_of e) (stored h1)); [now apply trp_ret|]. pose proof (proj2 D eq_refl) as F. discriminate F.
Qed.
Lemma trp_remove_by_pattern ord p rho f h : (forall l, Permutation (ord l) l) -> pattern_in V p -> Forall (ev_in V) h ->
  (forall x, edge_in V x -> matches p (elems x) -> priv x) -> good h rho f ->
  trp rho f (p_remove_by_pattern ord (VTup p)) (fun _ => good (after h (ORemovePattern p))).
Proof.
  intros Hord Hp Hh Pp G. pose proof (pattern_in_ok V p Hp) as Hp'. unfold p_remove_by_pattern. cbn [after].
  eapply trp_bind; [now apply trp_pattern|]. cbn beta. intros l r g (-> & -> & d1 & S1 & A).
  assert (Il : forall x, In x l <-> In x (filter (fun e => matchb p (elems e)) (stored h))).
  { intros x. rewrite filter_In, matchb_spec, stored_present.
    assert (Q : edge_in V x -> X x -> (In x l <-> present h x /\ matches p (elems x))) by (intros Hx Xx; apply (pat_tracks V X rho (present h) d1 p l x); auto; apply G).
    split.
    - intros Hx. destruct (proj1 (pa_in _ _ _ _ A x) Hx) as (Hi & _ & M). apply Q; [exact Hi| |exact Hx]. apply (Pp x Hi M).
    - intros [Hx M]. assert (Hi : edge_in V x) by (now apply (present_in V h)). apply Q; [exact Hi| |now split]. apply (Pp x Hi M). }
  assert (P : Permutation (ord l) (filter (fun e => matchb p (elems e)) (stored h))).
  { eapply Permutation_trans; [apply Hord|]. apply NoDup_Permutation; [apply A|apply NoDup_filter, stored_nodup|exact Il]. }
  eapply trp_mono; [|apply (trp_removes p_remove) with (h := h)].
  - cbn beta. intros _ rho' f'. apply good_same. exact (rems_perm _ _ P h h (same_refl h)).
  - intros. now apply trp_remove.
  - apply Forall_forall. intros x Hx. apply (Permutation_in _ (Hord l)), (pa_in _ _ _ _ A) in Hx as (Hi & _ & M). now apply Pp.
  - exact G.
Qed.

Definition op_priv (o : op) : Prop := (forall x, edge_in V x -> op_on o x -> priv x) /\ forall v, K v -> ~ op_on o v.
Theorem wpp_op ord o rho f h d : (forall l, Permutation (ord l) l) -> op_in V o -> o <> OReopen -> op_priv o -> Forall (ev_in V) h -> fine (after h o) ->
  (forall s e, o = ORemoveBelief s e -> forall y, is_link_of e y = true -> X y) ->
  sp rho f d -> good h rho f -> wp auto true Rp (p_op ord o) (rest_call (after h o)) d CNone false.
Proof.
  intros Hord Ho Nr [Po Ko] Hh Hf Hc S G. destruct o as [e t|es t|e|es| |s e t|s es t|s e|p|fs|q|]; cbn [p_op op_in op_on] in *.
  - destruct Ho as [He Ht]. apply (trp_top rho f); [|exact S]. apply trp_add; auto.
  - destruct Ho as [[Hn He] Ht]. apply (wpp_add_many es t rho f); auto. rewrite Forall_forall in *. auto.
  - apply (trp_top rho f); [|exact S]. apply trp_remove; auto.
  - destruct Ho as [Hn He]. apply (trp_top rho f); [|exact S]. apply (trp_remove_many rho f h es); auto. rewrite Forall_forall in *. auto.
  - apply (trp_top rho f); [|exact S]. apply trp_destroy. intros v Kv. now apply (Ko v Kv).
  - destruct Ho as [[He Hl] Ht]. destruct (index0_edge e (edge_in_db _ _ He)) as (a & E0 & Ea).
    unfold p_add_belief. rewrite E0. cbn [pbind]. rewrite Ea. cbn [after] in *.
    apply (wpp_add_many [e; link s e] t rho f h d); [discriminate| |exact Ht|exact Hh|exact Hf|exact S|exact G].
    apply Forall_cons; [apply Po; auto|]. apply Forall_cons; [apply Po; auto|apply Forall_nil].
  - destruct Ho as [[Hn Hes] Ht]. assert (Fes : Forall (edge_in V) es) by (eapply Forall_impl; [|exact Hes]; intros x [A _]; exact A).
    destruct (index0_edges V es Hn Fes) as (a & E0 & Ea).
    unfold p_add_belief. rewrite E0. cbn [pbind]. rewrite Ea. cbn [as_seq pbind after] in *.
    pose proof (wpp_add_many (flat_map (fun edge => [edge; link s edge]) es) t rho f h d) as W. rewrite fold_flat in W. apply W; [| |exact Ht|exact Hh|exact Hf|exact S|exact G].
    + destruct es; [easy|discriminate].
    + rewrite Forall_forall in *. intros x Hx. apply in_flat_map in Hx as (e & He & [<-|[<-|[]]]); apply Po; try apply (Hes e He); exists e; auto.
  - destruct Ho as [He Hl]. apply (trp_top rho f); [|exact S]. apply trp_remove_belief; auto. now apply (Hc s e).
  - apply (trp_top rho f); [|exact S]. apply trp_remove_by_pattern; auto.
  - unfold p_batch_exec. apply (trp_shared rho f (fold_left after_bop (List.concat fs) h)); [|exact S|intros d' H; exact H]. apply trp_funs; auto.
    rewrite Forall_forall in *. intros b Hb. split; [now apply Ho|]. split; [intros x Hx Hbx; apply Po; [exact Hx|now exists b]|].
    intros v Kv Hbv. apply (Ko v Kv). now exists b.
  - cbn [after] in *. destruct q as [e|p|a|v|v|e|r|]; cbn [p_ask ask_in] in *.
    + apply (trp_top rho f); [|exact S]. eapply trp_bind; [now apply trp_exists|]. cbn beta. intros b r g (-> & -> & _). now apply trp_ret.
    + apply (trp_top rho f); [|exact S]. eapply trp_bind; [now apply trp_pattern, pattern_in_ok|]. cbn beta. intros b r g (-> & -> & _). now apply trp_ret.
    + apply (trp_top rho f); [|exact S]. eapply trp_bind; [now apply trp_star|]. cbn beta. intros b r g (-> & ->). now apply trp_ret.
    + unfold p_degree. cbv zeta. apply wp_bind. apply wp_bind, wpp_open; [right; auto|].
      apply wp_bind, wpp_query; [reflexivity|cbn; now rewrite (vertex_bindable v Ho)|]. intros d1 E1. cbn [sel_run]. apply (sp_env rho f) in E1; [|exact S].
      destruct (vlook (edge2str v) d1) as [[k t]|]; cbn; (split; [reflexivity|]; split; [reflexivity|]; exists rho, f; now split).
    + unfold p_timestamp. cbv zeta. apply wp_bind. apply wp_bind, wpp_open; [right; auto|].
      apply wp_bind, wpp_query; [reflexivity|cbn; now rewrite (vertex_bindable v Ho)|]. intros d1 E1. cbn [sel_run]. apply (sp_env rho f) in E1; [|exact S].
      destruct (vlook (edge2str v) d1) as [[k t]|]; cbn; (split; [reflexivity|]; split; [reflexivity|]; exists rho, f; now split).
    + destruct Ho as (De & Ve & Vs). apply (trp_top rho f); [|exact S]. eapply trp_bind; [now apply trp_sources|]. cbn beta. intros b r g (-> & -> & _). now apply trp_ret.
    + apply (trp_top rho f); [|exact S]. eapply trp_bind; [now apply trp_symbols|]. cbn beta. intros b r' g (-> & ->). now apply trp_ret.
    + apply (trp_top rho f); [|exact S]. eapply trp_bind; [apply trp_all|]. cbn beta. intros b r' g (-> & ->). now apply trp_ret.
  - easy.
Qed.
End Own.

(** ** every schedule *)

Section Run.
Variables (V : value -> Prop) (auto : bool) (ord : list value -> list value) (calls : nat -> list op) (i : nat) (ops : list op) (d0 : db).
Hypothesis HV : noalias V.
Hypothesis Hord : forall l, Permutation (ord l) l.
Hypothesis Hin : forall j, Forall (op_in V) (calls j).
Hypothesis Hh0 : Forall (ev_in V) (history ops).
Hypothesis I0 : Inv V d0 (history ops).
Hypothesis Hp : private V ops calls i.
Hypothesis Hf : auto = true -> my_fine (history (ops ++ calls i)).
Let X : value -> Prop := fun x => forall j, j <> i -> ~ calls_on (calls j) x.
Let U : value -> Prop := only calls i.
Let K : value -> Prop := known ops calls.
Definition prv_fin (todo : list op) (d : db) : Prop :=
  exists before rho f, calls i = before ++ todo /\ sp V X U K rho f d /\ good V X U (history (ops ++ before)) rho f.

Lemma history_snoc b o : history (ops ++ b ++ [o]) = after (history (ops ++ b)) o.
Proof. unfold history. rewrite app_assoc, fold_left_app. reflexivity. Qed.
Lemma U_X v : U v -> X v.
Proof. intros H j Nj Hj. apply (H j Nj). now left. Qed.
Lemma prv_op o : In o (calls i) -> op_priv V X U K o.
Proof.
  intros Ho. split.
  - intros x Hx Ox. assert (Cx : calls_on (calls i) x) by (now exists o). destruct (Hp x Hx Cx) as [Ux Ex]. split; auto.
    + now apply U_X.
    + intros [_ Kx]. now apply (Kx i).
  - intros v [_ Kv] Ov. apply (Kv i). now exists o.
Qed.
Theorem prv_mine w : steps false auto ord (start_world d0 calls) w -> mine auto true i (Rp V X U K) prv_fin w.
Proof.
  intros St. pose proof (Inv_Idx _ _ _ I0) as Ix.
  assert (R_others : forall j d d', j <> i -> wf_db V d -> wf_db V d' -> keeps V (calls_on (calls j)) d d' -> Rp V X U K d d').
  { intros j d d' Nj W W' Kp. split; [split|split].
    - auto.
    - intros x r Xx Hx Hr. apply (k_rows _ _ _ _ Kp x r Hx); [|exact Hr]. now apply Xx.
    - intros v Uv Hv. apply (k_vert _ _ _ _ Kp v Hv). split; [now apply U_X|]. intros e He Hve. apply (Uv j Nj). right. now exists e.
    - intros v [_ Kv] Hv. apply (k_know _ _ _ _ Kp v Hv). apply Kv. }
  refine (mine_steps V false auto true ord (fun j => keeps V (calls_on (calls j))) i (Rp V X U K) prv_fin (fun j => keeps_refl V _) (fun j => keeps_trans V _) (Rp_refl V X U K) (Rp_trans V X U K) R_others _ _ _ _ _ w _ _ St).
  - discriminate.
  - intros todo d d' HR (before & rho & f & E & S & T). exists before, rho, f. split; [exact E|]. split; [now apply (sp_R V X U K rho f d)|exact T].
  - intros o todo d Ho (before & rho & f & E & S & T).
    assert (Io : In o (calls i)) by (rewrite E; apply in_or_app; right; now left).
    pose proof (proj1 (Forall_forall _ _) (Hin i)) as Hi.
    eapply wp_mono; [|apply (wpp_op V X U K auto HV) with (rho := rho) (f := f) (h := history (ops ++ before)); auto].
    + cbn. intros u d' cur dirty (-> & -> & rho' & f' & S' & T'). split; [reflexivity|]. split; [reflexivity|]. exists (before ++ [o]), rho', f'.
      split; [rewrite <- app_assoc; exact E|]. split; [exact S'|]. rewrite history_snoc. exact T'.
    + now apply prv_op.
    + unfold history. rewrite fold_left_app. apply hist_in_after; [exact Hh0|]. intros o' Ho'. apply Hi. rewrite E. apply in_or_app. now left.
    + intros Ha. specialize (Hf Ha). rewrite <- history_snoc. rewrite E in Hf. replace (ops ++ before ++ o :: todo) with ((ops ++ before ++ [o]) ++ todo) in Hf by (now rewrite <- !app_assoc).
      unfold history in Hf. rewrite fold_left_app in Hf. now apply (fine_fold after todo _ extends_after) in Hf.
    + intros s e -> y Hy j Nj Hj. assert (He : edge_in V e) by (apply (Hi _ Io)).
      assert (Ce : calls_on (calls i) e) by (exists (ORemoveBelief s e); split; [exact Io|now left]).
      destruct (Hp e He Ce) as [Ue _]. apply (Ue j Nj). right. exists y. split; [exact Hj|].
      apply (link_is s) in Hy as [s' ->]. cbn. tauto.
  - intros todo d (before & rho & f & E & S & T). exists (before ++ [OReopen]), rho, f. split; [rewrite <- app_assoc; exact E|]. split; [exact S|].
    rewrite history_snoc. exact T.
  - apply start_safe; auto. apply Ix.
  - unfold mine. cbn. intros _. split; [reflexivity|]. split; [reflexivity|]. exists [], (fun r => In r (perms d0)), (fun v => row v d0). split; [reflexivity|]. split.
    + split; [split; [apply Ix|reflexivity]|]. split; [reflexivity|]. intros v [Bv _] Hv. unfold row. rewrite (i_vert _ _ _ I0 v Hv), (vrow_born V _ v Hh0).
      destruct (born v (history ops)); [discriminate|now elim Bv].
    + rewrite app_nil_r. split.
      * intros x r _ Hx Hr. now apply (x_rows _ _ _ Ix).
      * intros v _ Hv. unfold row. now apply (i_vert _ _ _ I0).
Qed.
End Run.
