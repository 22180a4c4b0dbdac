(** * P_owned.v -- one process among others, on edges only it works on *)

From Verif Require Import Py M_symbol M_edge M_sql M_mysql M_hypergraph P_py Spec P_edge P_perm P_range P_query
  S_history M_driver P_ops P_hist P_graph P_answers P_crash S_steps M_steps P_steps.
From Coq Require Import Permutation Factorial String.
Open Scope list_scope.

Section Own.
Variables (V X : value -> Prop) (auto strict : bool).
Hypothesis HV : noalias V.
Hypothesis Hstrict : strict = true -> auto = false.

(** what the others may do *)
Definition Rx (d d' : db) : Prop :=
  (wf_db V d -> wf_db V d') /\ forall x r, X x -> edge_in V x -> is_row (elems x) r -> (In r (perms d) <-> In r (perms d')).
Lemma Rx_refl d : Rx d d.
Proof. split; [auto|reflexivity]. Qed.
Lemma Rx_trans a b c : Rx a b -> Rx b c -> Rx a c.
Proof. intros [A B] [C D]. split; [auto|]. intros x r Hx He Hr. now rewrite (B x r Hx He Hr), (D x r Hx He Hr). Qed.

(** the index rows of the edges X are those in rho *)
Definition st (rho : str -> Prop) (d : db) : Prop :=
  wf_db V d /\ forall x r, X x -> edge_in V x -> is_row (elems x) r -> (In r (perms d) <-> rho r).
Lemma st_R rho d d' : Rx d d' -> st rho d -> st rho d'.
Proof. intros [A B] [C D]. split; [auto|]. intros x r Hx He Hr. now rewrite <- (B x r Hx He Hr), (D x r Hx He Hr). Qed.
Lemma st_env rho dirty d d' : env Rx dirty d d' -> st rho d -> st rho d'.
Proof. unfold env. destruct dirty; [now intros ->|apply st_R]. Qed.
Lemma st_perms rho d d' : wf_db V d' -> perms d' = perms d -> st rho d -> st rho d'.
Proof. intros W E [_ B]. split; [exact W|]. now rewrite E. Qed.

Definition okst (cur : curstate) (dirty : bool) : Prop := cur = COpen \/ (cur = CNone /\ dirty = false).
(** from index rows rho, the program ends normally with a value and rows as [post] says,
    leaving self.cur as it was *)
Definition tri {A} (rho : str -> Prop) (p : prog A) (post : A -> (str -> Prop) -> Prop) : Prop :=
  forall d cur dirty, st rho d -> okst cur dirty ->
    wp auto strict Rx p (fun a d' cur' dirty' => exists rho', st rho' d' /\ post a rho' /\ cur' = cur /\ okst cur' dirty') d cur dirty.

Lemma tri_bind {A B} rho (p : prog A) (k : A -> prog B) post post' :
  tri rho p post -> (forall a rho', post a rho' -> tri rho' (k a) post') -> tri rho (pbind p k) post'.
Proof.
  intros H1 H2 d cur dirty S O. apply wp_bind. eapply wp_mono; [|now apply H1].
  cbn. intros a d' cur' dirty' (rho' & S' & Hp & -> & O'). apply (H2 a rho' Hp d' cur dirty' S' O').
Qed.
Lemma tri_mono {A} rho (p : prog A) (post post' : A -> (str -> Prop) -> Prop) : (forall a r, post a r -> post' a r) -> tri rho p post -> tri rho p post'.
Proof.
  intros H1 H2 d cur dirty S O. eapply wp_mono; [|now apply H2]. cbn. intros a d' cur' dirty' (rho' & S' & Hp & E). exists rho'. auto.
Qed.
Lemma tri_ret {A} rho (a : A) (post : A -> (str -> Prop) -> Prop) : post a rho -> tri rho (pret a) post.
Proof. intros H d cur dirty S O. cbn. exists rho. auto. Qed.
Lemma tri_for {A} (f : A -> prog unit) (I : list A -> (str -> Prop) -> Prop) : forall l rho,
  (forall x l' rho', I (x :: l') rho' -> tri rho' (f x) (fun _ => I l')) -> I l rho -> tri rho (pfor l f) (fun _ => I []).
Proof.
  induction l as [|x l IH]; intros rho H Hi; cbn [pfor]; [now apply tri_ret|].
  apply (tri_bind rho _ _ (fun _ => I l)); [now apply H|]. intros _ rho' Hr. now apply IH.
Qed.

(** *** the pieces *)

Lemma wp_open_local {Q : handle -> db -> curstate -> bool -> Prop} d cur dirty :
  okst cur dirty -> Q (match cur with CNone => HLocal | _ => HShared end) d cur dirty -> wp auto strict Rx (p_open_cursor true) Q d cur dirty.
Proof. intros [->|[-> ->]] H; exact H. Qed.
Lemma not_closed cur dirty : okst cur dirty -> closed (match cur with CNone => HLocal | _ => HShared end) cur = false.
Proof. now intros [->|[-> ->]]. Qed.
Lemma not_closed_local cur : closed HLocal cur = false.
Proof. reflexivity. Qed.
(** closing (with commit) after a change *)
Lemma wp_close_commit (Q : unit -> db -> curstate -> bool -> Prop) d cur dirty : cur = COpen \/ cur = CNone ->
  (forall dirty', okst cur dirty' -> Q tt d cur dirty') ->
  wp auto strict Rx (p_close_cursor (match cur with CNone => HLocal | _ => HShared end) true true) Q d cur dirty.
Proof. intros [->| ->] H; cbn; apply H; [now left|right; auto]. Qed.
Lemma wp_close_keep (Q : unit -> db -> curstate -> bool -> Prop) d cur dirty : okst cur dirty -> Q tt d cur dirty ->
  wp auto strict Rx (p_close_cursor (match cur with CNone => HLocal | _ => HShared end) true false) Q d cur dirty.
Proof. intros [->|[-> ->]] H; exact H. Qed.
Lemma wp_exec h s (Q : nat -> db -> curstate -> bool -> Prop) d cur dirty : closed h cur = false -> bind_error s = None ->
  (forall d1, env Rx dirty d d1 -> match engine auto s d1 with Ok (d2, n) => Q n d2 cur (negb auto) | Err _ => strict = false end) ->
  wp auto strict Rx (pact (AExec h s)) Q d cur dirty.
Proof. intros Hc Hb H. cbn. rewrite Hc, Hb. exact H. Qed.
Lemma wp_query {A} h (q : sel A) (Q : A -> db -> curstate -> bool -> Prop) d cur dirty : closed h cur = false -> forallb bindable (sel_texts q) = true ->
  (forall d1, env Rx dirty d d1 -> Q (sel_run q d1) d1 cur dirty) -> wp auto strict Rx (pact (AQuery h q)) Q d cur dirty.
Proof. intros Hc Hb H. cbn. rewrite Hc, Hb. exact H. Qed.
Lemma okst_cur cur dirty : okst cur dirty -> cur = COpen \/ cur = CNone.
Proof. intros [->|[-> _]]; auto. Qed.

(** a vertex record is written *)
Lemma tri_add_str rho v n t : db_vertex v = true -> int64 t = true -> tri rho (p_add_str (edge2str v) n t) (fun _ r => r = rho).
Proof.
  intros Hv Ht d cur dirty S O. pose proof (vertex_bindable v Hv) as B. unfold p_add_str, p_update_or_insert.
  apply wp_bind, wp_open_local; [exact O|]. apply wp_bind. apply wp_exec; [now apply (not_closed cur dirty)|now apply binds_upd|].
  intros d1 E1. apply (st_env rho) in E1; [|exact S].
  destruct (engine auto (UpdVertex (edge2str v) n t) d1) as [[d2 k]|e] eqn:E; [|apply eng_fails in E; destruct E].
  apply eng_effect in E. apply wp_bind.
  assert (Fin : forall d3 dirty', st rho d3 -> wp auto strict Rx (p_close_cursor (match cur with CNone => HLocal | _ => HShared end) true true)
     (fun (_ : unit) d' cur' dirty' => exists rho', st rho' d' /\ rho' = rho /\ cur' = cur /\ okst cur' dirty') d3 cur dirty').
  { intros d3 dirty' S3. apply wp_close_commit; [now apply (okst_cur cur dirty)|]. intros b Ob. exists rho. auto. }
  destruct E as [(-> & Hn & Ed)|(Hk & _ & ->)].
  - assert (S2 : st rho d2) by (destruct Ed as [->| ->]; [exact E1|apply (st_perms rho d1); [now apply wf_set, E1|apply perms_set|exact E1]]).
    assert (Hn2 : auto = false -> vlook (edge2str v) d2 = None).
    { intros Ha. destruct (Hn Ha) as [Hv1 ->]. exact Hv1. }
    cbn [Nat.eqb]. apply wp_bind, wp_exec; [now apply (not_closed cur dirty)|now apply binds_ins|]. intros d2' E2.
    destruct (engine auto (InsVertex (edge2str v) n t) d2') as [[d3 k]|e] eqn:E.
    + apply eng_effect in E as [_ ->]. cbn. apply Fin. apply (st_env rho) in E2; [|exact S2].
      apply (st_perms rho d2'); [now apply wf_set, E2|apply perms_set|exact E2].
    + apply eng_fails in E. destruct strict; [|reflexivity]. rewrite (Hstrict eq_refl) in E2. cbn in E2. subst d2'.
      exfalso. apply (E (Hstrict eq_refl)). now apply Hn2, Hstrict.
  - apply Nat.eqb_neq in Hk. rewrite Hk. cbn. apply Fin. apply (st_perms rho d1); [now apply wf_set, E1|apply perms_set|exact E1].
Qed.
(** a degree is changed *)
Lemma tri_change rho v k : db_vertex v = true -> tri rho (p_change_degree (edge2str v) k) (fun _ r => r = rho).
Proof.
  intros Hv d cur dirty S O. pose proof (vertex_bindable v Hv) as B. unfold p_change_degree.
  apply wp_bind, wp_open_local; [exact O|]. apply wp_bind. apply wp_exec; [now apply (not_closed cur dirty)|now apply binds_text|].
  intros d1 E1. apply (st_env rho) in E1; [|exact S].
  destruct (engine auto (IncDegree (edge2str v) k) d1) as [[d2 n]|e] eqn:E; [|apply eng_fails in E; destruct E].
  apply eng_effect in E as [_ ->]. apply wp_bind. apply wp_close_commit; [now apply (okst_cur cur dirty)|]. intros b Ob. cbn. exists rho.
  split; [|auto]. apply (st_perms rho d1); [now apply wf_inc, E1|apply perms_inc|exact E1].
Qed.
Lemma tri_remove_str rho v : db_vertex v = true -> tri rho (p_remove_str (edge2str v)) (fun _ r => r = rho).
Proof.
  intros Hv d cur dirty S O. pose proof (vertex_bindable v Hv) as B. unfold p_remove_str.
  apply wp_bind, wp_open_local; [exact O|]. apply wp_bind. apply wp_exec; [now apply (not_closed cur dirty)|now apply binds_text|].
  intros d1 E1. apply (st_env rho) in E1; [|exact S].
  destruct (engine auto (DelVertex (edge2str v)) d1) as [[d2 n]|e] eqn:E; [|apply eng_fails in E; destruct E].
  apply eng_effect in E as ->. apply wp_close_commit; [now apply (okst_cur cur dirty)|]. intros b Ob. exists rho.
  split; [|auto]. apply (st_perms rho d1); [now apply wf_del, E1|apply perms_del|exact E1].
Qed.
(** an index row is written, removed *)
Lemma tri_write rho e r : edge_in V e -> is_row (elems e) r -> tri rho (p_write_edge_permutation r) (fun _ rho' => forall s, rho' s <-> s = r \/ rho s).
Proof.
  intros He Hr d cur dirty S O. pose proof (row_bindable (elems e) r (proj1 (proj2 (db_edge_elems e (edge_in_db _ _ He)))) Hr) as B.
  unfold p_write_edge_permutation, p_update_or_insert.
  apply wp_bind, wp_open_local; [exact O|]. apply wp_bind. apply wp_exec; [now apply (not_closed cur dirty)|now apply binds_text|].
  intros d1 E1. apply (st_env rho) in E1; [|exact S].
  destruct (engine auto (UpdPerm r) d1) as [[d2 k]|y] eqn:E; [|apply eng_fails in E; destruct E].
  apply eng_effect in E as (Hk1 & Hk & ->). apply wp_bind.
  assert (Fin : forall d3 dirty', wf_db V d3 -> (forall x s, X x -> edge_in V x -> is_row (elems x) s -> (In s (perms d3) <-> s = r \/ rho s)) ->
     wp auto strict Rx (p_close_cursor (match cur with CNone => HLocal | _ => HShared end) true true)
     (fun (_ : unit) d' cur' dirty' => exists rho', st rho' d' /\ (forall s, rho' s <-> s = r \/ rho s) /\ cur' = cur /\ okst cur' dirty') d3 cur dirty').
  { intros d3 dirty' W3 S3. apply wp_close_commit; [now apply (okst_cur cur dirty)|]. intros b Ob. exists (fun s => s = r \/ rho s).
    split; [split; [exact W3|exact S3]|]. split; [reflexivity|auto]. }
  destruct (Nat.eqb_spec k 0) as [->|Nk].
  - apply wp_bind, wp_exec; [now apply (not_closed cur dirty)|now apply binds_text|]. intros d2 E2.
    destruct (engine auto (InsPerm r) d2) as [[d3 k]|y] eqn:E.
    + apply eng_effect in E as [_ ->]. cbn. apply (st_env rho) in E2; [|exact E1]. apply Fin; [apply (wf_ins V e); [exact He|exact Hr|apply E2]|].
      intros x s Hx Hxe Hs. rewrite in_ins_perm, (proj2 E2 x s Hx Hxe Hs). tauto.
    + apply eng_fails in E. destruct strict; [|reflexivity]. rewrite (Hstrict eq_refl) in E2. cbn in E2. subst d2.
      exfalso. apply (Hk (Hstrict eq_refl) eq_refl). now apply E, Hstrict.
  - cbn. apply Fin; [apply E1|]. intros x s Hx Hxe Hs. rewrite (proj2 E1 x s Hx Hxe Hs). split; [auto|]. intros [->|H]; [|exact H].
    apply (proj2 E1 x r Hx Hxe Hs). now apply Hk1.
Qed.
Lemma tri_unwrite rho e r : edge_in V e -> is_row (elems e) r -> tri rho (p_remove_edge_permutation r) (fun _ rho' => forall s, rho' s <-> s <> r /\ rho s).
Proof.
  intros He Hr d cur dirty S O. pose proof (row_bindable (elems e) r (proj1 (proj2 (db_edge_elems e (edge_in_db _ _ He)))) Hr) as B.
  unfold p_remove_edge_permutation. apply wp_bind, wp_exec; [reflexivity|now apply binds_text|].
  intros d1 E1. apply (st_env rho) in E1; [|exact S].
  destruct (engine auto (DelPerm r) d1) as [[d2 n]|y] eqn:E; [|apply eng_fails in E; destruct E].
  apply eng_effect in E as ->. cbn. exists (fun s => s <> r /\ rho s). split; [|split; [reflexivity|]].
  - split; [apply wf_delp, E1|]. intros x s Hx Hxe Hs. rewrite in_del_perm, (proj2 E1 x s Hx Hxe Hs). tauto.
  - split; [reflexivity|]. destruct O as [->|[-> _]]; [now left|right; auto].
Qed.

(** *** queries: they answer for the database at one moment *)

Lemma tri_pattern rho items : pattern_ok V items ->
  tri rho (p_pattern2edges (VTup items)) (fun l rho' => rho' = rho /\ exists d1, st rho d1 /\ pat_ans V items d1 l).
Proof.
  intros Hp d cur dirty S O. unfold p_pattern2edges. cbn [as_seq pbind].
  change (nodes2str (filter not_none items)) with (pat_text items).
  destruct (pattern_pure V db_empty items HV) as (hi & _ & _ & E & B & _); [easy|exact Hp|]. rewrite E. cbn [pbind].
  apply wp_bind, wp_open_local; [exact O|]. apply wp_bind, wp_query; [now apply (not_closed cur dirty)|exact B|].
  intros d1 E1. cbn [sel_run]. apply (st_env rho) in E1; [|exact S].
  destruct (pattern_pure V d1 items HV (wf_rows _ _ (proj1 E1)) Hp) as (hi' & es & flags & E' & _ & Ec & Ef & A).
  rewrite E in E'. injection E' as <-. rewrite Ec. cbn [pbind]. apply wp_bind, wp_close_keep; [exact O|]. rewrite Ef. cbn [pbind].
  cbn. exists rho. split; [exact E1|]. split; [split; [reflexivity|now exists d1]|auto].
Qed.
Lemma tri_star rho a : db_atom a = true -> tri rho (p_star a) (fun l rho' => rho' = rho).
Proof.
  intros Hp d cur dirty S O. unfold p_star, p_str2perms. cbv zeta.
  destruct (star_pure V db_empty a HV) as (hi & _ & E & B & _); [easy|exact Hp|]. rewrite E. cbn [pbind].
  apply wp_bind, wp_open_local; [exact O|]. apply wp_bind, wp_query; [now apply (not_closed cur dirty)|exact B|].
  intros d1 E1. cbn [sel_run]. apply (st_env rho) in E1; [|exact S].
  destruct (star_pure V d1 a HV (wf_rows _ _ (proj1 E1)) Hp) as (hi' & es & E' & _ & Ec & A).
  rewrite E in E'. injection E' as <-. rewrite Ec. cbn [pbind]. apply wp_bind, wp_close_keep; [exact O|].
  cbn. exists rho. split; [exact E1|]. auto.
Qed.
Lemma tri_symbols rho r : root_in r -> tri rho (p_symbols_with_root (VStr r)) (fun l rho' => rho' = rho).
Proof.
  intros Hr d cur dirty S O. unfold p_symbols_with_root. cbn [show_atom]. cbv zeta. rewrite root_plus. cbn [pbind].
  apply wp_bind, wp_open_local; [exact O|]. apply wp_bind, wp_query; [now apply (not_closed cur dirty)|now apply root_binds|].
  intros d1 E1. cbn [sel_run]. apply (st_env rho) in E1; [|exact S]. destruct (root_pure V d1 r Hr (proj1 E1)) as (ss & Es). unfold first_tokens in Es. rewrite Es.
  cbn [pbind]. apply wp_bind, wp_close_keep; [exact O|]. cbn. exists rho. split; [exact E1|]. auto.
Qed.
Lemma tri_all {B} (f : value * Z -> B) rho : tri rho (p_f_all f) (fun l rho' => rho' = rho).
Proof.
  intros d cur dirty S O. unfold p_f_all.
  apply wp_bind, wp_open_local; [exact O|]. apply wp_bind, wp_query; [now apply (not_closed cur dirty)|reflexivity|].
  intros d1 E1. cbn [sel_run]. apply (st_env rho) in E1; [|exact S]. destruct (all_pure f V d1 (proj1 E1)) as (ps & Es & _). rewrite Es.
  cbn [pbind]. apply wp_bind, wp_close_keep; [exact O|]. cbn. exists rho. split; [exact E1|]. auto.
Qed.
Lemma tri_exists rho e : edge_in V e ->
  tri rho (p_exists e) (fun b rho' => rho' = rho /\ exists d1, st rho d1 /\ (b = true <-> hit d1 (nodes2str (elems e)) e)).
Proof.
  intros He. unfold p_exists. destruct (db_edge_elems e (edge_in_db _ _ He)) as (Ee & Ae & _). rewrite Ee at 1.
  apply (tri_bind rho _ _ _ _ (tri_pattern rho (elems e) (edge_pattern_ok V e He))).
  intros l rho' (-> & d1 & S1 & N & I). apply tri_ret. split; [reflexivity|]. exists d1. split; [exact S1|].
  rewrite Nat.ltb_lt. unfold pat_text in I. rewrite (filter_all_db _ Ae) in I. split.
  - intros L. destruct l as [|e' l]; [cbn in L; lia|]. destruct (proj1 (I e') ltac:(now left)) as (He' & Hh & M).
    apply matches_all_db in M; [|exact Ae]. destruct (db_edge_elems e' (edge_in_db _ _ He')) as (Ee' & _ & _).
    assert (e = e') by congruence. now subst e'.
  - intros Hh. assert (In e l) by (apply I; split; [exact He|]; split; [exact Hh|apply matches_refl]). destruct l; [easy|cbn; lia].
Qed.

(** *** which edges of X are there *)

Definition tracks (rho : str -> Prop) (P : value -> Prop) : Prop :=
  forall x r, X x -> edge_in V x -> is_row (elems x) r -> (rho r <-> P x).
Lemma tracks_ext rho (P Q : value -> Prop) : (forall x, X x -> edge_in V x -> (P x <-> Q x)) -> tracks rho P -> tracks rho Q.
Proof. intros H T x r Hx He Hr. rewrite (T x r Hx He Hr). now apply H. Qed.
(** a query at one moment tells about X what rho tells *)
Lemma hit_tracks rho P d e : st rho d -> tracks rho P -> X e -> edge_in V e -> (hit d (nodes2str (elems e)) e <-> P e).
Proof.
  intros [W S] T Xe He. split.
  - intros (r & Hr & Rr & _). apply (T e r Xe He Rr). now apply (S e r Xe He Rr).
  - intros Pe. destruct (row_exists V e He) as (r & Hr & Pr). exists r. split; [|now split]. apply (S e r Xe He Hr). now apply (T e r Xe He Hr).
Qed.
Lemma pat_tracks rho P d items l x : pattern_ok V items -> st rho d -> tracks rho P -> pat_ans V items d l -> X x -> edge_in V x ->
  (In x l <-> P x /\ matches items (elems x)).
Proof.
  intros Hp [W S] T [_ I] Xx He. rewrite I. split.
  - intros (_ & (r & Hr & Rr & _) & M). split; [|exact M]. apply (T x r Xx He Rr). now apply (S x r Xx He Rr).
  - intros (Px & M). split; [exact He|]. split; [|exact M]. destruct Hp as [(a & rest & Ea & _) _ _].
    apply (indexed_hit_pattern V); [exact He| | |exact M].
    + intros r Hr. apply (S x r Xx He Hr). now apply (T x r Xx He Hr).
    + exists a. apply filter_In. rewrite Ea. now left.
Qed.

Lemma tri_each {A} rho (f : A -> prog unit) l : (forall x, In x l -> tri rho (f x) (fun _ r => r = rho)) -> tri rho (pfor l f) (fun _ r => r = rho).
Proof.
  induction l as [|x l IH]; intros H; cbn [pfor]; [now apply tri_ret|].
  apply (tri_bind rho _ _ (fun _ r => r = rho)); [apply H; now left|]. intros ? r ->. apply IH. intros y Hy. apply H. now right.
Qed.
Lemma tri_write_rows e l : edge_in V e -> (forall r, In r l -> is_row (elems e) r) -> forall rho,
  tri rho (pfor l p_write_edge_permutation) (fun _ rho' => forall s, rho' s <-> In s l \/ rho s).
Proof.
  intros He. induction l as [|r l IH]; intros H rho; cbn [pfor]; [apply tri_ret; intros s; cbn; tauto|].
  eapply tri_bind; [apply (tri_write rho e r He); apply H; now left|]. intros u rho' H'; cbn beta in H'.
  eapply tri_mono; [|apply IH; intros q Hq; apply H; now right]. cbn. intros _ rho2 H2 s. rewrite (H2 s), (H' s). intuition congruence.
Qed.
Lemma tri_unwrite_rows e l : edge_in V e -> (forall r, In r l -> is_row (elems e) r) -> forall rho,
  tri rho (pfor l p_remove_edge_permutation) (fun _ rho' => forall s, rho' s <-> ~ In s l /\ rho s).
Proof.
  intros He. induction l as [|r l IH]; intros H rho; cbn [pfor]; [apply tri_ret; intros s; cbn; tauto|].
  eapply tri_bind; [apply (tri_unwrite rho e r He); apply H; now left|]. intros u rho' H'; cbn beta in H'.
  eapply tri_mono; [|apply IH; intros q Hq; apply H; now right]. cbn. intros _ rho2 H2 s. rewrite (H2 s), (H' s). intuition congruence.
Qed.
Lemma elems_vertices e x : edge_in V e -> In x (elems e) -> db_vertex x = true.
Proof. intros He Hx. apply (elem_vertex V e); auto. Qed.

Lemma tri_add_raw rho P e t : edge_in V e -> int64 t = true -> tracks rho P ->
  tri rho (p_add_raw e t) (fun _ rho' => tracks rho' (fun x => x = e \/ P x)).
Proof.
  intros He Ht T. pose proof (edge_in_db _ _ He) as De. unfold p_add_raw. eapply tri_bind; [now apply tri_exists|].
  intros b r (-> & d1 & S1 & Hb). apply (tri_bind rho _ _ (fun _ rho' => tracks rho' (fun x => x = e \/ P x))); [|intros _ r Hr; now apply tri_ret].
  destruct b.
  - apply tri_ret. eapply tracks_ext; [|exact T]. intros x Hx Hxe. split; [auto|]. intros [->|Hp]; [|exact Hp].
    apply (hit_tracks rho P d1); auto. now apply Hb.
  - rewrite (as_seq_edge e De). cbn [pbind].
    apply (tri_bind rho _ _ (fun _ r => r = rho)).
    { apply tri_each. intros x Hx. pose proof (elems_vertices e x He Hx) as Hv. unfold p_add_vertex.
      eapply tri_bind; [now apply tri_change|]. intros b r ->. destruct b; [now apply tri_ret|now apply tri_add_str]. }
    intros ? r ->. eapply tri_bind; [apply tri_add_str; [now apply db_edge_vertex|exact Ht]|]. intros ? r ->. rewrite dow_rows.
    assert (Ne : elems e <> []) by (now apply (elems_nonnil V)).
    eapply tri_mono; [|apply (tri_write_rows e); [exact He|]; intros r Hr; now apply rows_of_spec]. cbn. intros _ rho' H x r Hx Hxe Hr.
    rewrite (H r), (rows_of_spec _ _ Ne), (T x r Hx Hxe Hr). split; [|intros [->|Hp]; auto].
    intros [Re|Hp]; [left; now apply (row_other V x e r)|auto].
Qed.
Lemma tri_remove_raw rho P e : edge_in V e -> tracks rho P ->
  tri rho (p_remove_raw e) (fun _ rho' => tracks rho' (fun x => x <> e /\ P x)).
Proof.
  intros He T. pose proof (edge_in_db _ _ He) as De. unfold p_remove_raw. eapply tri_bind; [now apply tri_exists|].
  intros b r (-> & d1 & S1 & Hb). destruct b.
  - rewrite (as_seq_edge e De). cbn [pbind].
    apply (tri_bind rho _ _ (fun _ r => r = rho)).
    { apply tri_each. intros x Hx. pose proof (elems_vertices e x He Hx) as Hv.
      eapply tri_bind; [now apply tri_change|]. intros b r ->. now apply tri_ret. }
    intros ? r ->. rewrite dow_rows. assert (Ne : elems e <> []) by (now apply (elems_nonnil V)).
    eapply tri_bind; [apply (tri_unwrite_rows e); [exact He|]; intros r Hr; now apply rows_of_spec|]. cbn. intros _ rho' H.
    eapply tri_mono; [|apply tri_remove_str; now apply db_edge_vertex]. cbn. intros _ r -> x q Hx Hxe Hq.
    rewrite (H q), (rows_of_spec _ _ Ne), (T x q Hx Hxe Hq). split; [|intros [N Hp]].
    + intros [Nq Hp]. split; [|exact Hp]. intros ->. now apply Nq.
    + split; [|exact Hp]. intros Hq'. apply N. now apply (row_other V x e q).
  - apply tri_ret. eapply tracks_ext; [|exact T]. intros x Hx Hxe. split; [|tauto]. intros Hp. split; [|exact Hp]. intros ->.
    apply (hit_tracks rho P d1) in Hp; auto. apply Hb in Hp. discriminate.
Qed.

(** loops over edges *)
Lemma tri_edges (f : value -> prog unit) (g : list ev -> value -> list ev) : (forall e rho h, edge_in V e -> tracks rho (present h) ->
    tri rho (f e) (fun _ rho' => tracks rho' (present (g h e)))) ->
  forall es rho h, Forall (edge_in V) es -> tracks rho (present h) -> tri rho (pfor es f) (fun _ rho' => tracks rho' (present (fold_left g es h))).
Proof.
  intros H. induction es as [|e es IH]; intros rho h F T; cbn [pfor fold_left]; [now apply tri_ret|].
  inversion F as [|? ? He Fe]; subst. eapply tri_bind; [now apply (H e rho h)|]. cbn beta. intros ? rho' T'. now apply IH.
Qed.
Lemma tri_add1 e rho h t : edge_in V e -> int64 t = true -> tracks rho (present h) ->
  tri rho (p_add_raw e t) (fun _ rho' => tracks rho' (present (EAdd e t :: h))).
Proof.
  intros He Ht T. eapply tri_mono; [|now apply (tri_add_raw rho _ e t He Ht T)]. cbn. intros _ rho'. apply tracks_ext.
  intros x _ _. symmetry. apply present_add.
Qed.
Lemma tri_rem1 e rho h : edge_in V e -> tracks rho (present h) ->
  tri rho (p_remove_raw e) (fun _ rho' => tracks rho' (present (ERem e :: h))).
Proof.
  intros He T. eapply tri_mono; [|now apply (tri_remove_raw rho _ e He T)]. cbn. intros _ rho'. apply tracks_ext.
  intros x _ _. symmetry. apply present_rem.
Qed.
Lemma tri_add e rho h t : edge_in V e -> int64 t = true -> tracks rho (present h) ->
  tri rho (p_add e t;p pret tt) (fun _ rho' => tracks rho' (present (EAdd e t :: h))).
Proof.
  intros He Ht T. destruct (index0_edge e (edge_in_db _ _ He)) as (a & E0 & Ea). unfold p_add. rewrite E0. cbn [pbind]. rewrite Ea.
  apply (tri_bind rho _ _ (fun _ rho' => tracks rho' (present (EAdd e t :: h)))); [|intros _ r H; now apply tri_ret].
  apply (tri_bind rho _ _ (fun _ rho' => tracks rho' (present (EAdd e t :: h)))); [|intros _ r H; now apply tri_ret].
  apply (tri_bind rho _ _ (fun _ rho' => tracks rho' (present (EAdd e t :: h)))); [|intros _ r H; now apply tri_ret].
  now apply tri_add1.
Qed.
Lemma tri_remove e rho h : edge_in V e -> tracks rho (present h) ->
  tri rho (p_remove e) (fun _ rho' => tracks rho' (present (ERem e :: h))).
Proof.
  intros He T. destruct (index0_edge e (edge_in_db _ _ He)) as (a & E0 & Ea). unfold p_remove. rewrite E0. cbn [pbind]. rewrite Ea.
  now apply tri_rem1.
Qed.
Lemma tri_remove_many es rho h : es <> [] -> Forall (edge_in V) es -> tracks rho (present h) ->
  tri rho (p_remove (VTup es)) (fun _ rho' => tracks rho' (present (fold_left (fun h e => ERem e :: h) es h))).
Proof.
  intros Hn He T. destruct (index0_edges V es Hn He) as (a & E0 & Ea). unfold p_remove. rewrite E0. cbn [pbind]. rewrite Ea. cbn [as_seq pbind].
  apply (tri_edges p_remove_raw (fun h e => ERem e :: h)); auto. intros e r h'. apply tri_rem1.
Qed.

(** a block with the shared cursor *)
Lemma tri_shared rho (body : prog unit) post (Q : unit -> db -> curstate -> bool -> Prop) d :
  tri rho body post -> st rho d ->
  (forall u d' rho', post u rho' -> st rho' d' -> Q tt d' CNone false) ->
  wp auto strict Rx (pdo cur <- p_open_cursor false; body;p p_close_cursor cur false true) Q d CNone false.
Proof.
  intros B S H. cbn. apply wp_bind. eapply wp_mono; [|apply (B d COpen false S); now left]. cbn.
  intros u d' cur' dirty' (rho' & S' & Hp & -> & _). now apply (H u d' rho').
Qed.
Lemma tri_destroy rho h : tri rho p_destroy (fun _ rho' => tracks rho' (present (EDestroy :: h))).
Proof.
  intros d cur dirty S O. unfold p_destroy. apply wp_bind, wp_open_local; [exact O|].
  apply wp_bind, wp_exec; [now apply (not_closed cur dirty)|reflexivity|]. intros d1 E1. apply (st_env rho) in E1; [|exact S].
  destruct (engine auto DelAllVertices d1) as [[d2 n]|y] eqn:E; [|apply eng_fails in E; destruct E]. apply eng_effect in E as ->.
  apply wp_bind, wp_exec; [now apply (not_closed cur dirty)|reflexivity|]. intros d2 E2.
  assert (S2 : st rho d2).
  { apply (st_env rho) in E2; [exact E2|]. apply (st_perms rho d1); [apply wf_wipe_v, E1|reflexivity|exact E1]. }
  destruct (engine auto DelAllPerms d2) as [[d3 m]|y] eqn:E; [|apply eng_fails in E; destruct E]. apply eng_effect in E as ->.
  apply wp_close_commit; [now apply (okst_cur cur dirty)|]. intros b Ob. exists (fun _ => False). split; [|split; [|auto]].
  - split; [apply wf_wipe_p, S2|]. intros x r _ _ _. cbn. tauto.
  - intros x r _ _ _. rewrite <- stored_present. cbn. tauto.
Qed.

(** *** the calls *)

Definition after_call (h : list ev) : unit -> db -> curstate -> bool -> Prop :=
  fun _ d cur dirty => cur = CNone /\ dirty = false /\ exists rho, st rho d /\ tracks rho (present h).
Lemma tri_top rho h (p : prog unit) d : tri rho p (fun _ rho' => tracks rho' (present h)) -> st rho d ->
  wp auto strict Rx p (after_call h) d CNone false.
Proof.
  intros T S. eapply wp_mono; [|apply (T d CNone false S); right; auto]. cbn. intros u d' cur' dirty' (rho' & S' & Hp & -> & [O|[_ ->]]); [discriminate|].
  split; [reflexivity|]. split; [reflexivity|]. now exists rho'.
Qed.
Lemma wp_add_many es t rho h d : es <> [] -> Forall (edge_in V) es -> int64 t = true -> st rho d -> tracks rho (present h) ->
  wp auto strict Rx (p_add (VTup es) t;p pret tt) (after_call (fold_left (fun h e => EAdd e t :: h) es h)) d CNone false.
Proof.
  intros Hn He Ht S T. destruct (index0_edges V es Hn He) as (a & E0 & Ea). unfold p_add. rewrite E0. cbn [pbind]. rewrite Ea. cbn [as_seq pbind].
  apply wp_bind, wp_bind.
  apply (tri_shared rho _ (fun _ rho' => tracks rho' (present (fold_left (fun h e => EAdd e t :: h) es h)))); [|exact S|].
  - apply (tri_edges (fun edge => p_add_raw edge t;p pret tt) (fun h e => EAdd e t :: h)); auto.
    intros e r h' He' T'. apply (tri_bind r _ _ (fun _ rho' => tracks rho' (present (EAdd e t :: h')))); [now apply tri_add1|]. intros _ r' H. now apply tri_ret.
  - intros u d' rho' H S'. cbn. split; [reflexivity|]. split; [reflexivity|]. now exists rho'.
Qed.
Lemma tri_bop b rho h : bop_in V b -> tracks rho (present h) -> tri rho (p_bop b) (fun _ rho' => tracks rho' (present (after_bop h b))).
Proof.
  intros Hb T. destruct b; cbn [bop_in p_bop after_bop] in *.
  - now apply tri_add.
  - now apply tri_remove.
  - destruct Hb. now apply tri_remove_many.
  - apply tri_destroy.
  - eapply tri_bind; [now apply tri_exists|]. intros b r (-> & _). now apply tri_ret.
  - eapply tri_bind; [now apply tri_pattern, pattern_in_ok|]. intros b r (-> & _). now apply tri_ret.
  - eapply tri_bind; [now apply tri_star|]. intros b r ->. now apply tri_ret.
  - eapply tri_bind; [now apply tri_symbols|]. intros b r' ->. now apply tri_ret.
  - eapply tri_bind; [apply tri_all|]. intros b r' ->. now apply tri_ret.
Qed.
Lemma tri_bops : forall bs rho h, Forall (bop_in V) bs -> tracks rho (present h) ->
  tri rho (pfor bs p_bop) (fun _ rho' => tracks rho' (present (fold_left after_bop bs h))).
Proof.
  induction bs as [|b bs IH]; intros rho h F T; cbn [pfor fold_left]; [now apply tri_ret|]. inversion F as [|? ? Hb Fb]; subst.
  eapply tri_bind; [now apply (tri_bop b rho h)|]. cbn beta. intros ? rho' T'. now apply IH.
Qed.
Lemma tri_funs : forall fs rho h, Forall (bop_in V) (List.concat fs) -> tracks rho (present h) ->
  tri rho (pfor (List.map (fun f => pfor f p_bop) fs) (fun f => f)) (fun _ rho' => tracks rho' (present (fold_left after_bop (List.concat fs) h))).
Proof.
  induction fs as [|f fs IH]; intros rho h F T; cbn [List.map pfor List.concat fold_left]; [now apply tri_ret|].
  cbn [List.concat] in F. apply Forall_app in F as [F1 F2]. rewrite fold_left_app.
  eapply tri_bind; [now apply (tri_bops f rho h)|]. cbn beta. intros ? rho' T'. now apply IH.
Qed.
Lemma tri_sources rho e : db_vertex e = true -> V e -> V const_source ->
  tri rho (p_sources e) (fun ss rho' => rho' = rho /\ exists d1 l, st rho d1 /\ pat_ans V [const_source; e; VNone] d1 l /\ (ss = [] <-> l = [])).
Proof.
  intros He Ve Vs. unfold p_sources. eapply tri_bind; [apply tri_pattern, pattern_in_ok; now apply sources_pattern_in|].
  cbn beta. intros l r (-> & d1 & S1 & A).
  assert (Ms : exists ss, mapr (fun x => let? l := as_seq x in nth_res l 2) l = Ok ss /\ (ss = [] <-> l = [])).
  { assert (F : forall x, In x l -> exists s, x = link s e).
    { intros x Hx. apply (pa_in _ _ _ _ A) in Hx as (Hi & _ & M). destruct (db_edge_elems x (edge_in_db _ _ Hi)) as (Ex & _ & _).
      revert M Ex. generalize (elems x). clear -He. intros l0 M Ex. subst x.
      inversion M as [|p1 x1 q1 l1 [E1|E1] M1]; subst; [discriminate|]. inversion M1 as [|p2 x2 q2 l2 [E2|E2] M2]; subst; [easy|].
      inversion M2 as [|p3 x3 q3 l3 _ M3]; subst. inversion M3; subst. now exists x3. }
    clear A. induction l as [|x l IH]; [exists []; now split|]. destruct IH as (ss & E & _); [intros y Hy; apply F; now right|].
    destruct (F x ltac:(now left)) as (s & ->). exists (s :: ss). cbn [mapr]. rewrite E. split; [reflexivity|]. split; discriminate. }
  destruct Ms as (ss & -> & Es). cbn [pbind]. apply tri_ret. split; [reflexivity|]. exists d1, l. split; [exact S1|]. split; [exact A|].
  rewrite <- Es. clear. split; [|intros ->; reflexivity]. destruct ss as [|x ss]; [reflexivity|]. discriminate.
Qed.
Lemma tri_remove_belief s e rho h : edge_in V e -> edge_in V (link_edge s e) -> tracks rho (present h) ->
  (forall x, present h x -> edge_in V x) -> (X e -> forall y, is_link_of e y = true -> X y) ->
  tri rho (p_remove_belief s e) (fun _ rho' => tracks rho' (present (after h (ORemoveBelief s e)))).
Proof.
  intros He Hl T Hin Hc. unfold p_remove_belief. cbn [after]. set (h1 := ERem (link_edge s e) :: h).
  eapply tri_bind; [apply (tri_remove (link_edge s e) rho h Hl T)|]. cbn beta. intros ? rho1 T1. fold h1 in T1.
  assert (V e /\ V const_source) as [Ve Vs] by (split; apply Hl; cbn; tauto).
  eapply tri_bind; [apply tri_sources; [now apply db_edge_vertex, (edge_in_db V)|exact Ve|exact Vs]|]. cbn beta.
  intros ss r (-> & d1 & l & S1 & A & Es).
  assert (Hp : pattern_ok V [const_source; e; VNone]) by (apply pattern_in_ok, sources_pattern_in; [now apply db_edge_vertex, (edge_in_db V)|exact Ve|exact Vs]).
  (* for an edge of X the decision is the right one *)
  assert (D : X e -> (ss = [] <-> existsb (is_link_of e) (stored h1) = false)).
  { intros Xe. rewrite Es. split.
    - intros ->. destruct (existsb (is_link_of e) (stored h1)) eqn:E; [|reflexivity]. exfalso.
      apply existsb_exists in E as (x & Hx & Ex). pose proof (Hc Xe x Ex) as Xx. apply stored_present in Hx.
      assert (He' : edge_in V x) by (apply Hin; unfold h1 in Hx; rewrite present_rem in Hx; tauto).
      apply (link_is s) in Ex as [s' ->].
      assert (In (link s' e) []); [|easy]. apply (pat_tracks rho1 (present h1) d1 [const_source; e; VNone] [] (link s' e) Hp S1 T1 A Xx He').
      split; [exact Hx|]. cbn. constructor; [now right|]. constructor; [now right|]. constructor; [now left|]. constructor.
    - intros E. destruct l as [|x l]; [reflexivity|]. exfalso.
      destruct (proj1 (pa_in _ _ _ _ A x) ltac:(now left)) as (Hi & _ & M).
      assert (exists s', x = link s' e) as [s' ->].
      { destruct (db_edge_elems x (edge_in_db _ _ Hi)) as (Ex & _ & _). revert M Ex. generalize (elems x). intros l0 M Ex. subst x.
        inversion M as [|p1 x1 q1 l1 [E1|E1] M1]; subst; [discriminate|]. inversion M1 as [|p2 x2 q2 l2 [E2|E2] M2]; subst.
        - pose proof (db_edge_vertex _ (edge_in_db _ _ He)) as F. discriminate F.
        - inversion M2 as [|p3 x3 q3 l3 _ M3]; subst. inversion M3; subst. now exists x3. }
      assert (Lk : is_link_of e (link s' e) = true) by (apply (link_is s); now exists s').
      pose proof (Hc Xe _ Lk) as Xx.
      destruct (proj1 (pat_tracks rho1 (present h1) d1 _ _ _ Hp S1 T1 A Xx Hi) ltac:(now left)) as [Px _].
      assert (existsb (is_link_of e) (stored h1) = true); [|congruence]. apply existsb_exists. exists (link s' e).
      split; [now apply stored_present|exact Lk]. }
  destruct ss as [|s' ss]; cbn [List.length Nat.eqb].
  - eapply tri_mono; [|apply (tri_remove e rho1 h1 He T1)]. cbn beta. intros _ rho2. apply tracks_ext. intros x Xx Hxe.
    destruct (existsb (is_link_of e) (stored h1)) eqn:E; [|reflexivity]. rewrite present_rem. split; [tauto|]. intros Px. split; [|exact Px].
    intros ->. destruct (D Xx) as [D1 _]. specialize (D1 eq_refl). discriminate.
  - apply tri_ret. eapply tracks_ext; [|exact T1]. intros x Xx Hxe.
    destruct (existsb (is_link_of e) (stored h1)) eqn:E; [reflexivity|]. rewrite present_rem. split; [|tauto]. intros Px. split; [|exact Px].
    intros ->. destruct (D Xx) as [_ D2]. specialize (D2 eq_refl). discriminate.
Qed.
Lemma tri_remove_by_pattern ord p rho h : (forall l, Permutation (ord l) l) -> pattern_in V p -> tracks rho (present h) ->
  tri rho (p_remove_by_pattern ord (VTup p)) (fun _ rho' => tracks rho' (present (after h (ORemovePattern p)))).
Proof.
  intros Hord Hp T. pose proof (pattern_in_ok V p Hp) as Hp'. unfold p_remove_by_pattern. cbn [after].
  eapply tri_bind; [now apply tri_pattern|]. cbn beta. intros l r (-> & d1 & S1 & A).
  eapply tri_mono; [|apply (tri_edges p_remove (fun h e => ERem e :: h)) with (h := h)]; cbn beta.
  - intros _ rho'. apply tracks_ext. intros x Xx Hx. rewrite !present_rems, filter_In, matchb_spec, stored_present.
    assert (Hl : In x (ord l) <-> In x l) by (split; apply Permutation_in; [apply Hord|apply Permutation_sym, Hord]).
    rewrite Hl, (pat_tracks rho (present h) d1 p l x Hp' S1 T A Xx Hx). reflexivity.
  - intros e r h' He T'. now apply tri_remove.
  - apply Forall_forall. intros x Hx. apply (Permutation_in _ (Hord l)), (pa_in _ _ _ _ A) in Hx. tauto.
  - exact T.
Qed.

Theorem wp_op ord o rho h d : (forall l, Permutation (ord l) l) -> op_in V o -> o <> OReopen -> st rho d -> tracks rho (present h) ->
  (forall x, present h x -> edge_in V x) -> (forall s e, o = ORemoveBelief s e -> X e -> forall y, is_link_of e y = true -> X y) ->
  wp auto strict Rx (p_op ord o) (after_call (after h o)) d CNone false.
Proof.
  intros Hord Ho Nr S T Hin Hc. destruct o as [e t|es t|e|es| |s e t|s es t|s e|p|fs|q|]; cbn [p_op op_in] in *.
  - apply (tri_top rho); [now apply tri_add|exact S].
  - destruct Ho as [[Hn He] Ht]. now apply (wp_add_many es t rho).
  - apply (tri_top rho); [now apply tri_remove|exact S].
  - destruct Ho. apply (tri_top rho); [now apply tri_remove_many|exact S].
  - apply (tri_top rho); [apply tri_destroy|exact S].
  - destruct Ho as [[He Hl] Ht]. destruct (index0_edge e (edge_in_db _ _ He)) as (a & E0 & Ea).
    unfold p_add_belief. rewrite E0. cbn [pbind]. rewrite Ea. cbn [after].
    apply (wp_add_many [e; link s e] t rho h d); [discriminate|apply Forall_cons; [exact He|apply Forall_cons; [exact Hl|apply Forall_nil]]|exact Ht|exact S|exact T].
  - destruct Ho as [[Hn Hes] Ht]. assert (Fes : Forall (edge_in V) es) by (eapply Forall_impl; [|exact Hes]; intros x [A _]; exact A).
    destruct (index0_edges V es Hn Fes) as (a & E0 & Ea).
    unfold p_add_belief. rewrite E0. cbn [pbind]. rewrite Ea. cbn [as_seq pbind after].
    pose proof (wp_add_many (flat_map (fun edge => [edge; link s edge]) es) t rho h d) as W. rewrite fold_flat in W. apply W; [|  |exact Ht|exact S|exact T].
    + destruct es; [easy|discriminate].
    + rewrite Forall_forall in *. intros x Hx. apply in_flat_map in Hx as (e & He & [<-|[<-|[]]]); now apply (Hes e).
  - destruct Ho as [He Hl]. apply (tri_top rho); [|exact S]. apply tri_remove_belief; auto. now apply (Hc s e).
  - apply (tri_top rho); [|exact S]. now apply tri_remove_by_pattern.
  - unfold p_batch_exec. apply (tri_shared rho _ _ _ _ (tri_funs fs rho h Ho T) S). cbn beta. intros u d' rho' H S'.
    split; [reflexivity|]. split; [reflexivity|]. now exists rho'.
  - cbn [after]. destruct q as [e|p|a|v|v|e|r|]; cbn [p_ask ask_in] in *.
    + apply (tri_top rho); [|exact S]. eapply tri_bind; [now apply tri_exists|]. intros b r (-> & _). now apply tri_ret.
    + apply (tri_top rho); [|exact S]. eapply tri_bind; [now apply tri_pattern, pattern_in_ok|]. intros b r (-> & _). now apply tri_ret.
    + apply (tri_top rho); [|exact S]. eapply tri_bind; [now apply tri_star|]. intros b r ->. now apply tri_ret.
    + unfold p_degree. cbv zeta. apply wp_bind. apply wp_bind, wp_open_local; [right; auto|].
      apply wp_bind, wp_query; [reflexivity|cbn; now rewrite (vertex_bindable v Ho)|]. intros d1 E1. cbn [sel_run]. apply (st_env rho) in E1; [|exact S].
      destruct (vlook (edge2str v) d1) as [[k t]|]; cbn; (split; [reflexivity|]; split; [reflexivity|]; now exists rho).
    + unfold p_timestamp. cbv zeta. apply wp_bind. apply wp_bind, wp_open_local; [right; auto|].
      apply wp_bind, wp_query; [reflexivity|cbn; now rewrite (vertex_bindable v Ho)|]. intros d1 E1. cbn [sel_run]. apply (st_env rho) in E1; [|exact S].
      destruct (vlook (edge2str v) d1) as [[k t]|]; cbn; (split; [reflexivity|]; split; [reflexivity|]; now exists rho).
    + destruct Ho as (De & Ve & Vs). apply (tri_top rho); [|exact S]. eapply tri_bind; [now apply tri_sources|]. intros b r (-> & _). now apply tri_ret.
    + apply (tri_top rho); [|exact S]. eapply tri_bind; [now apply tri_symbols|]. intros b r' ->. now apply tri_ret.
    + apply (tri_top rho); [|exact S]. eapply tri_bind; [apply tri_all|]. intros b r' ->. now apply tri_ret.
  - easy.
Qed.
End Own.

(** ** every schedule: process i, with the edges X that only it works on *)

Section Run.
Variables (V X : value -> Prop) (flt auto : bool) (ord : list value -> list value) (calls : nat -> list op) (i : nat) (d0 : db) (h0 : list ev).
Hypothesis HV : noalias V.
Hypothesis Hord : forall l, Permutation (ord l) l.
Hypothesis Hin : forall j, Forall (op_in V) (calls j).
Hypothesis Hh0 : Forall (ev_in V) h0.
Hypothesis W0 : wf_db V d0.
Hypothesis S0 : forall x r, X x -> edge_in V x -> is_row (elems x) r -> (In r (perms d0) <-> present h0 x).
Hypothesis Xother : forall x j, X x -> j <> i -> ~ calls_on (calls j) x.
Hypothesis Xlinks : forall s e, In (ORemoveBelief s e) (calls i) -> X e -> forall y, is_link_of e y = true -> X y.
Let strict : bool := negb auto && negb flt.
Definition own_fin (todo : list op) (d : db) : Prop :=
  exists before rho, calls i = before ++ todo /\ st V X rho d /\ tracks V X rho (present (fold_left after before h0)).

Lemma hist_in_after before : (forall o, In o before -> op_in V o) -> Forall (ev_in V) (fold_left after before h0).
Proof.
  revert Hh0. generalize h0. induction before as [|o before IH]; intros h Hh Ho; cbn [fold_left]; [exact Hh|].
  apply IH; [|intros o' Ho'; apply Ho; now right]. apply (after_in V); [apply Ho; now left|exact Hh].
Qed.
Theorem own_mine w : steps flt auto ord (start_world d0 calls) w -> mine auto strict i (Rx V X) own_fin w.
Proof.
  intros St.
  assert (R_others : forall j d d', j <> i -> wf_db V d -> wf_db V d' -> keeps V (calls_on (calls j)) d d' -> Rx V X d d').
  { intros j d d' Nj W W' K. split; [auto|]. intros x r Xx Hx Hr. apply (k_rows _ _ _ _ K x r Hx); [|exact Hr]. now apply Xother. }
  refine (mine_steps V flt auto strict ord (fun j => keeps V (calls_on (calls j))) i (Rx V X) own_fin (fun j => keeps_refl V _) (fun j => keeps_trans V _) (Rx_refl V X) (Rx_trans V X) R_others _ _ _ _ _ w _ _ St).
  - unfold strict. intros ->. apply andb_false_r.
  - intros todo d d' HR (before & rho & E & S & T). exists before, rho. split; [exact E|]. split; [now apply (st_R V X rho d)|exact T].
  - intros o todo d Ho (before & rho & E & S & T).
    assert (Hi : forall o', In o' (calls i) -> op_in V o') by (apply Forall_forall, Hin).
    assert (In o (calls i)) as Io by (rewrite E; apply in_or_app; right; now left).
    eapply wp_mono; [|apply (wp_op V X auto strict HV) with (rho := rho) (h := fold_left after before h0); auto].
    + cbn. intros u d' cur dirty (-> & -> & rho' & S' & T'). split; [reflexivity|]. split; [reflexivity|]. exists (before ++ [o]), rho'.
      split; [rewrite <- app_assoc; exact E|]. split; [exact S'|]. rewrite fold_left_app. exact T'.
    + unfold strict. destruct auto; [discriminate|reflexivity].
    + intros x. apply (present_in V). apply hist_in_after. intros o' Ho'. apply Hi. rewrite E. apply in_or_app. now left.
    + intros s e -> Xe. now apply (Xlinks s).
  - intros todo d (before & rho & E & S & T). exists (before ++ [OReopen]), rho. split; [rewrite <- app_assoc; exact E|]. split; [exact S|].
    rewrite fold_left_app. exact T.
  - now apply start_safe.
  - unfold mine. cbn. intros _. split; [reflexivity|]. split; [reflexivity|]. exists [], (fun r => In r (perms d0)). split; [reflexivity|]. split.
    + split; [exact W0|reflexivity].
    + exact S0.
Qed.
End Run.

(** ** no deadlock, no endless run *)

Section Ends.
Variables (auto : bool) (ord : list value -> list value).
Definition work : Type := option (prog unit) * list op.
Inductive less : work -> work -> Prop :=
| l_act X (a : act X) k q todo : (exists x, q = k x) \/ (exists e, q = PRet (Err e)) -> less (Some q, todo) (Some (PAct a k), todo)
| l_done r todo : less (None, todo) (Some (PRet r), todo)
| l_call q o todo : less (q, todo) (None, o :: todo).

Lemma less_acc : well_founded less.
Proof.
  assert (P : forall todo, Acc less (None, todo) -> forall q, Acc less (Some q, todo)).
  { intros todo A. assert (R : forall r, Acc less (Some (PRet r), todo)).
    { intros r. constructor. intros y H. inversion H; subst. exact A. }
    induction q as [r|X a k IH]; [apply R|]. constructor. intros y H.
    remember (Some (PAct a k), todo) as z eqn:Ez. destruct H as [X' a' k' q todo' H|r todo'|q o todo']; try discriminate.
    assert (Et : todo' = todo) by exact (f_equal snd Ez).
    assert (E : Some (PAct a' k') = Some (PAct a k)) by exact (f_equal fst Ez). subst todo'. destruct H as [[x ->]|[e ->]]; [|apply R].
    assert (G : forall p : option (prog unit), p = Some (PAct a k) -> match p with Some (PAct a k) => forall x, Acc less (Some (k x), todo) | _ => True end).
    { intros p ->. exact IH. }
    apply (G _ E x). }
  assert (N : forall todo, Acc less (None, todo)).
  { induction todo as [|o todo IH]; constructor; intros y H; inversion H; subst. destruct q as [q|]; [now apply P|exact IH]. }
  intros [[q|] todo]; [apply P, N|apply N].
Qed.
(** in a list of processes, one goes on *)
Definition dec (l' l : list work) : Prop := exists a x y b, l = a ++ x :: b /\ l' = a ++ y :: b /\ less y x.
Lemma dec_acc : well_founded dec.
Proof.
  assert (C : forall x l, Acc dec l -> Acc dec (x :: l)).
  { intros x. induction (less_acc x) as [x _ IHx]. intros l A. induction A as [l A IHl]. constructor.
    intros l' (a & u & v & b & E & -> & H). destruct a as [|z a]; cbn in *; injection E as -> E.
    - apply (IHx v H). subst. now constructor.
    - apply IHl. subst. now exists a, u, v, b. }
  intros l. induction l as [|x l IH]; [|now apply C]. constructor. intros l' (a & u & v & b & E & _). now destruct a.
Qed.
Definition works (n : nat) (w : world) : list work := List.map (fun i => (pr_now (wd_procs w i), pr_todo (wd_procs w i))) (seq 0 n).
Definition quiet_above (n : nat) (w : world) : Prop := forall i, (n <= i)%nat -> pr_now (wd_procs w i) = None /\ pr_todo (wd_procs w i) = [].
Lemma works_dec n i w d wr p : (i < n)%nat -> less (pr_now p, pr_todo p) (pr_now (wd_procs w i), pr_todo (wd_procs w i)) ->
  dec (works n (World d wr (set_proc i p (wd_procs w)))) (works n w).
Proof.
  intros Hi H. unfold works. cbn [wd_procs].
  assert (E : seq 0 n = seq 0 i ++ i :: seq (S i) (n - S i)).
  { replace n with (i + S (n - S i))%nat at 1 by lia. rewrite seq_app. reflexivity. }
  rewrite E, !map_app. cbn [List.map]. rewrite set_same.
  assert (K : forall l, ~ In i l -> List.map (fun j => (pr_now (set_proc i p (wd_procs w) j), pr_todo (set_proc i p (wd_procs w) j))) l
                     = List.map (fun j => (pr_now (wd_procs w j), pr_todo (wd_procs w j))) l).
  { intros l Hl. apply map_ext_in. intros j Hj. rewrite set_other; [reflexivity|]. intros ->. contradiction. }
  rewrite !K by (rewrite in_seq; lia). eexists _, _, _, _. split; [reflexivity|]. split; [reflexivity|exact H].
Qed.
Lemma step_dec n w w' : quiet_above n w -> step false auto ord w w' -> quiet_above n w' /\ dec (works n w') (works n w).
Proof.
  intros Q St.
  assert (K : forall i p d wr, less (pr_now p, pr_todo p) (pr_now (wd_procs w i), pr_todo (wd_procs w i)) ->
     quiet_above n (World d wr (set_proc i p (wd_procs w))) /\ dec (works n (World d wr (set_proc i p (wd_procs w)))) (works n w)).
  { intros i p d wr H.
    assert (Hi : (i < n)%nat).
    { destruct (Nat.ltb_spec i n) as [L|L]; [exact L|]. destruct (Q i L) as [E1 E2]. rewrite E1, E2 in H. inversion H. }
    split; [|now apply works_dec]. intros j Hj. cbn [wd_procs]. rewrite set_other by lia. now apply Q. }
  destruct St as [i w p o todo Hp Hn Ht Ho|i w p todo Hp Hn Ht|i w p X a k r d wr cur Hp Hn E|i w p r Hp Hn|i w p X a k Hf Hp Hn|i w p todo' Hf Hp Hi]; subst p; try discriminate; apply K; cbn [pr_now pr_todo].
  - rewrite Hn, Ht. constructor.
  - rewrite Hn, Ht. constructor.
  - rewrite Hn. constructor. destruct r as [x|e]; cbn; [left; now exists x|right; now exists e].
  - rewrite Hn. constructor.
Qed.
Lemma ends n w : quiet_above n w -> Acc (fun w' w => step false auto ord w w') w.
Proof.
  intros Q. remember (works n w) as l eqn:E. revert w E Q. induction (dec_acc l) as [l _ IH]. intros w -> Q. constructor. intros w' St.
  destruct (step_dec n w w' Q St) as [Q' D]. now apply (IH _ D w').
Qed.
End Ends.
