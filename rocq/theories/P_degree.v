(** * P_degree.v -- the degree of a vertex while several processes add and remove edges around it *)

From Verif Require Import Py M_symbol M_edge M_sql M_mysql M_hypergraph P_py Spec P_edge P_perm P_range P_query
  S_history M_driver P_ops P_hist P_graph P_answers P_crash S_steps M_steps P_steps P_owned.
From Coq Require Import Permutation Factorial String.
Open Scope list_scope.

(** ** one process among others, and what its statements add to a number *)

Section Wpg.
Variables (auto strict : bool) (R : db -> db -> Prop) (pres : db -> Prop) (dg : db -> Z).
Hypothesis R_trans : forall a b c, R a b -> R b c -> R a c.

Definition wpg_act {X} (a : act X) (K : X -> db -> curstate -> bool -> Z -> Prop) (d : db) (cur : curstate) (dirty : bool) (g : Z) : Prop :=
  match a in act X return (X -> db -> curstate -> bool -> Z -> Prop) -> Prop with
  | AExec h s => fun K =>
      if closed h cur then strict = false
      else match bind_error s with Some _ => strict = false | None =>
        forall d1, env R dirty d d1 ->
        match engine auto s d1 with
        | Ok (d2, n) => (pres d1 -> pres d2) /\ K n d2 cur (negb auto) (g + (dg d2 - dg d1))%Z
        | Err _ => strict = false
        end end
  | AQuery h q => fun K =>
      if closed h cur then strict = false
      else if negb (forallb bindable (sel_texts q)) then strict = false
      else forall d1, env R dirty d d1 -> K (sel_run q d1) d1 cur dirty g
  | ACommit => fun K => K tt d cur false g
  | AGetCur => fun K => K cur d cur dirty g
  | ASetCur s => fun K => K tt d s dirty g
  end K.
Fixpoint wpg {A} (p : prog A) (Q : A -> db -> curstate -> bool -> Z -> Prop) (d : db) (cur : curstate) (dirty : bool) (g : Z) : Prop :=
  match p with
  | PRet (Ok a) => Q a d cur dirty g
  | PRet (Err _) => strict = false
  | PAct a k => wpg_act a (fun x => wpg (k x) Q) d cur dirty g
  end.

Lemma wpg_act_mono {X} (a : act X) (K K' : X -> db -> curstate -> bool -> Z -> Prop) d cur dirty g :
  (forall x d cur dirty g, K x d cur dirty g -> K' x d cur dirty g) -> wpg_act a K d cur dirty g -> wpg_act a K' d cur dirty g.
Proof.
  intros H. destruct a; cbn; auto.
  - destruct (closed h cur); [auto|]. destruct (bind_error s); [auto|]. intros G d1 E. specialize (G d1 E).
    destruct (engine auto s d1) as [[d2 n]|e]; [|auto]. destruct G. auto.
  - destruct (closed h cur); [auto|]. destruct (negb (forallb bindable (sel_texts q))); auto.
Qed.
Lemma wpg_mono {A} (p : prog A) (Q Q' : A -> db -> curstate -> bool -> Z -> Prop) : (forall a d cur dirty g, Q a d cur dirty g -> Q' a d cur dirty g) ->
  forall d cur dirty g, wpg p Q d cur dirty g -> wpg p Q' d cur dirty g.
Proof.
  intros H. induction p as [[a|e]|X a k IH]; intros d cur dirty g; cbn [wpg]; auto. apply wpg_act_mono. exact IH.
Qed.
Lemma wpg_bind {A B} (p : prog A) (k : A -> prog B) (Q : B -> db -> curstate -> bool -> Z -> Prop) : forall d cur dirty g,
  wpg p (fun a => wpg (k a) Q) d cur dirty g -> wpg (pbind p k) Q d cur dirty g.
Proof.
  induction p as [[a|e]|X a f IH]; intros d cur dirty g; cbn [wpg pbind]; auto. apply wpg_act_mono. exact IH.
Qed.
Lemma wpg_stable {A} (p : prog A) (Q : A -> db -> curstate -> bool -> Z -> Prop) : (forall a d d' cur g, R d d' -> Q a d cur false g -> Q a d' cur false g) ->
  forall d d' cur g, R d d' -> wpg p Q d cur false g -> wpg p Q d' cur false g.
Proof.
  intros HQ. induction p as [[a|e]|X a k IH]; intros d d' cur g HR; cbn [wpg]; [now apply HQ|auto|]. destruct a; cbn.
  - destruct (closed h cur); [auto|]. destruct (bind_error s); [auto|]. intros G d1 E. apply G. now apply (R_trans d d').
  - destruct (closed h cur); [auto|]. destruct (negb (forallb bindable (sel_texts q))); [auto|]. intros G d1 E. apply G. now apply (R_trans d d').
  - apply (IH tt d d' cur g HR).
  - apply (IH cur d d' cur g HR).
  - apply (IH tt d d' s g HR).
Qed.
(** with the weakest precondition that does not count *)
Lemma wpg_and {A} (p : prog A) (Q : A -> db -> curstate -> bool -> Prop) (Q' : A -> db -> curstate -> bool -> Z -> Prop) : forall d cur dirty g,
  wp auto strict R p Q d cur dirty -> wpg p Q' d cur dirty g -> wpg p (fun a d cur dirty g => Q a d cur dirty /\ Q' a d cur dirty g) d cur dirty g.
Proof.
  induction p as [[a|e]|X a k IH]; intros d cur dirty g; cbn [wp wpg]; auto. destruct a; cbn [wp_act wpg_act].
  - destruct (closed h cur); [auto|]. destruct (bind_error s); [auto|]. intros G1 G2 d1 E. specialize (G1 d1 E). specialize (G2 d1 E).
    destruct (engine auto s d1) as [[d2 n]|e]; [|auto]. destruct G2. auto.
  - destruct (closed h cur); [auto|]. destruct (negb (forallb bindable (sel_texts q))); auto.
  - apply IH.
  - apply IH.
  - apply IH.
Qed.
(** statements that leave the number as it is *)
Lemma wpg_tame {A} (J : db -> Prop) (p : prog A) (Q : A -> db -> curstate -> bool -> Prop) (Q2 : A -> Prop) :
  (forall d d', R d d' -> J d -> J d') -> (forall d d', R d d' -> pres d -> pres d') ->
  tame J (fun d d' => (pres d -> pres d') /\ dg d' = dg d) p Q2 -> forall d cur dirty g, J d -> pres d ->
  wp auto strict R p Q d cur dirty -> wpg p (fun a d' cur dirty g' => Q a d' cur dirty /\ pres d' /\ g' = g) d cur dirty g.
Proof.
  intros HR HP. assert (HE : forall (P : db -> Prop) dirty d d', (forall d d', R d d' -> P d -> P d') -> env R dirty d d' -> P d -> P d').
  { intros P dirty d d' H. unfold env. destruct dirty; [now intros ->|apply H]. }
  induction p as [[a|e]|X a k IH]; intros T d cur dirty g Jd Pd; cbn [tame wp wpg] in *; auto. destruct a; cbn [tame_act wp_act wpg_act] in *.
  - destruct (closed h cur); [auto|]. destruct (bind_error s); [auto|]. intros G d1 E. specialize (G d1 E).
    destruct T as [T1 T2]. pose proof (HE J _ _ _ HR E Jd) as J1. pose proof (HE pres _ _ _ HP E Pd) as P1.
    destruct (engine auto s d1) as [[d2 n]|e] eqn:En; [|auto]. destruct (T1 auto d1 d2 n J1 En) as (J2 & K1 & K2). split; [exact K1|].
    replace (g + (dg d2 - dg d1))%Z with g by lia. apply IH; auto.
  - destruct (closed h cur); [auto|]. destruct (negb (forallb bindable (sel_texts q))); [auto|]. intros G d1 E.
    pose proof (HE J _ _ _ HR E Jd) as J1. pose proof (HE pres _ _ _ HP E Pd) as P1. apply IH; auto.
  - apply IH; auto.
  - apply IH; auto.
  - apply IH; auto.
Qed.
End Wpg.
(** weaker interference *)
Lemma wp_rely {A} auto strict (R R' : db -> db -> Prop) (p : prog A) (Q : A -> db -> curstate -> bool -> Prop) : (forall d d', R' d d' -> R d d') ->
  forall d cur dirty, wp auto strict R p Q d cur dirty -> wp auto strict R' p Q d cur dirty.
Proof.
  intros H. assert (HE : forall dirty d d', env R' dirty d d' -> env R dirty d d') by (intros []; cbn; auto).
  induction p as [[a|e]|X a k IH]; intros d cur dirty; cbn [wp]; auto. destruct a; cbn [wp_act].
  - destruct (closed h cur); [auto|]. destruct (bind_error s); [auto|]. intros G d1 E. specialize (G d1 (HE _ _ _ E)).
    destruct (engine auto s d1) as [[d2 n]|e]; auto.
  - destruct (closed h cur); [auto|]. destruct (negb (forallb bindable (sel_texts q))); auto.
  - apply IH.
  - apply IH.
  - apply IH.
Qed.

(** ** occurrences *)

Lemma count_none v l : ~ In v l -> count v l = O.
Proof.
  induction l as [|x l IH]; [reflexivity|]. intros H. cbn [count]. destruct (veqb v x) eqn:E; [apply veqb_eq in E; exfalso; apply H; now left|].
  apply IH. intros Hi. apply H. now right.
Qed.
Lemma in_or (v : value) l : In v l \/ ~ In v l.
Proof. destruct (memb v l) eqn:E; [left; now apply memb_in|right; now apply memb_nin]. Qed.
Lemma occ_perm v E1 E2 : Permutation E1 E2 -> occurrences v E1 = occurrences v E2.
Proof. induction 1; cbn [occurrences]; lia. Qed.
Lemma occ_has v E : occurrences v (filter (fun x => memb v (elems x)) E) = occurrences v E.
Proof.
  induction E as [|x E IH]; [reflexivity|]. cbn [filter occurrences]. destruct (memb v (elems x)) eqn:M; cbn [occurrences]; [lia|].
  apply memb_nin in M. rewrite (count_none v _ M). exact IH.
Qed.
Lemma occ_ext v h1 h2 : (forall x, In v (elems x) -> (present h1 x <-> present h2 x)) -> occurrences v (stored h1) = occurrences v (stored h2).
Proof.
  intros H. rewrite <- (occ_has v (stored h1)), <- (occ_has v (stored h2)). apply occ_perm.
  apply NoDup_Permutation; [apply NoDup_filter, stored_nodup|apply NoDup_filter, stored_nodup|].
  intros x. rewrite !filter_In, !stored_present, memb_in. split; intros [A B]; (split; [|exact B]); now apply (H x).
Qed.
Lemma occ_add1 v e t h : occurrences v (stored (EAdd e t :: h)) =
  ((if memb e (stored h) then 0 else count v (elems e)) + occurrences v (stored h))%nat.
Proof. cbn [stored]. now destruct (memb e (stored h)). Qed.
Lemma occ_rem1 v e h : (occurrences v (stored (ERem e :: h)) + (if memb e (stored h) then count v (elems e) else 0) = occurrences v (stored h))%nat.
Proof.
  cbn [stored]. destruct (memb e (stored h)) eqn:M.
  - apply occ_filter; [apply stored_nodup|now apply memb_in].
  - rewrite filter_id; [lia|]. intros x Hx. apply negb_true_iff, veqb_neq. intros ->. apply memb_nin in M. contradiction.
Qed.

(** ** the calls of one process *)

Section Own.
Variables (V X : value -> Prop) (auto strict : bool) (v : value) (t0 : Z).
Hypothesis HV : noalias V.
Hypothesis Hstrict : strict = true -> auto = false.
Hypothesis Hv : db_vertex v = true.

(** the vertex has a record, started at t0 *)
Definition pres (d : db) : Prop := exists k, row v d = Some (k, t0).
Definition dg (d : db) : Z := match row v d with Some (k, _) => k | None => 0%Z end.
Definition Rg (d d' : db) : Prop := Rx V X d d' /\ (pres d -> pres d').
Lemma Rg_refl d : Rg d d.
Proof. split; [apply Rx_refl|auto]. Qed.
Lemma Rg_trans a b c : Rg a b -> Rg b c -> Rg a c.
Proof. intros [A1 A2] [B1 B2]. split; [now apply (Rx_trans V X a b)|auto]. Qed.

Definition trig {A} (rho : str -> Prop) (p : prog A) (post : A -> (str -> Prop) -> Z -> Prop) : Prop :=
  forall d cur dirty g, st V X rho d -> pres d -> okst cur dirty ->
    wpg auto strict Rg pres dg p (fun a d' cur' dirty' g' => exists rho', st V X rho' d' /\ pres d' /\ post a rho' (g' - g)%Z /\ cur' = cur /\ okst cur' dirty') d cur dirty g.

Lemma trig_bind {A B} rho (p : prog A) (k : A -> prog B) (post : A -> (str -> Prop) -> Z -> Prop) (post' : B -> (str -> Prop) -> Z -> Prop) :
  trig rho p post -> (forall a rho' z, post a rho' z -> trig rho' (k a) (fun b rho2 z' => post' b rho2 (z + z')%Z)) -> trig rho (pbind p k) post'.
Proof.
  intros H1 H2 d cur dirty g S P O. apply wpg_bind. eapply wpg_mono; [|now apply H1].
  cbn. intros a d' cur' dirty' g' (rho' & S' & P' & Hp & -> & O'). eapply wpg_mono; [|now apply (H2 a rho' _ Hp d' cur dirty' g')].
  cbn. intros b d2 cur2 dirty2 g2 (rho2 & S2 & P2 & Hp2 & E & O2). exists rho2. split; [exact S2|]. split; [exact P2|].
  replace (g2 - g)%Z with (g' - g + (g2 - g'))%Z by lia. auto.
Qed.
Lemma trig_mono {A} rho (p : prog A) (post post' : A -> (str -> Prop) -> Z -> Prop) : (forall a r z, post a r z -> post' a r z) -> trig rho p post -> trig rho p post'.
Proof.
  intros H1 H2 d cur dirty g S P O. eapply wpg_mono; [|now apply H2]. cbn. intros a d' cur' dirty' g' (rho' & S' & P' & Hp & E). exists rho'. auto.
Qed.
Lemma trig_ret {A} rho (a : A) (post : A -> (str -> Prop) -> Z -> Prop) : post a rho 0%Z -> trig rho (pret a) post.
Proof. intros H d cur dirty g S P O. cbn. exists rho. replace (g - g)%Z with 0%Z by lia. auto. Qed.
(** programs that leave the vertex alone *)
Definition still {A} (p : prog A) : Prop := tame (wf_db V) (fun d d' => row v d' = row v d) p (fun _ => True).
Lemma row_same d d' : row v d' = row v d -> (pres d -> pres d') /\ dg d' = dg d.
Proof. unfold pres, dg. intros ->. auto. Qed.
Lemma trig_still {A} rho (p : prog A) post : tri V X auto strict rho p post -> still p -> trig rho p (fun a r z => post a r /\ z = 0%Z).
Proof.
  intros H T d cur dirty g S P O. eapply wpg_mono; [|apply (wpg_tame auto strict Rg pres dg Rg_trans (wf_db V) p
    (fun a d' cur' dirty' => exists rho', st V X rho' d' /\ post a rho' /\ cur' = cur /\ okst cur' dirty') (fun _ => True))].
  - cbn. intros a d' cur' dirty' g' ((rho' & S' & Hp & E & O') & P' & ->). exists rho'. split; [exact S'|]. split; [exact P'|].
    split; [split; [exact Hp|lia]|auto].
  - intros e e' [[Q _] _]. exact Q.
  - intros e e' [_ Q]. exact Q.
  - apply (tame_weaken _ (fun d d' => row v d' = row v d)); [|exact T]. intros e e' _. apply row_same.
  - apply S.
  - exact P.
  - apply (wp_rely auto strict (Rx V X)); [intros e e' [Q _]; exact Q|]. now apply H.
Qed.
(** *** which programs do *)
Lemma still_keeps {A} (T : value -> Prop) (p : prog A) : apart T v -> tame (wf_db V) (keeps V T) p (fun _ => True) -> still p.
Proof. intros Ap. apply tame_weaken. intros d d' _ K. now apply (k_vert _ _ _ _ K). Qed.
Definition nothing : value -> Prop := fun _ => False.
Lemma apart_nothing : apart nothing v.
Proof. split; [easy|]. intros e []. Qed.
Lemma still_exec h s : (forall b d d' n, wf_db V d -> engine b s d = Ok (d', n) -> wf_db V d' /\ row v d' = row v d) -> still (pact (AExec h s)).
Proof. intros H. cbn. split; [exact H|auto]. Qed.
Lemma still_bind {A B} (p : prog A) (k : A -> prog B) : still p -> (forall a, still (k a)) -> still (pbind p k).
Proof. intros H1 H2. apply tame_bind. eapply tame_mono; [|exact H1]. intros a _. apply H2. Qed.
Lemma still_open b : still (p_open_cursor b).
Proof. apply (still_keeps nothing); [apply apart_nothing|]. now apply on_open. Qed.
Lemma still_close h l b : still (p_close_cursor h l b).
Proof. apply (still_keeps nothing); [apply apart_nothing|]. now apply on_close. Qed.
Lemma still_uoi u i : (forall h, still (pact (AExec h u))) -> (forall h, still (pact (AExec h i))) -> still (p_update_or_insert u i).
Proof.
  intros Hu Hi. apply still_bind; [apply still_open|]. intros h. apply still_bind; [apply Hu|]. intros n. apply still_bind; [|intros _; apply still_close].
  destruct (Nat.eqb n 0); [|exact I]. apply still_bind; [apply Hi|]. intros _. exact I.
Qed.
Lemma vneq u : db_vertex u = true -> u <> v -> str_eqb (edge2str v) (edge2str u) = false.
Proof. intros Hu N. rewrite (id_eqb v u Hv Hu). apply veqb_neq. congruence. Qed.
Lemma still_add_str u n t : db_vertex u = true -> u <> v -> still (p_add_str (edge2str u) n t).
Proof.
  intros Hu N. pose proof (vneq u Hu N) as E0. apply still_uoi; intros h; apply still_exec; intros b d d' m W E; apply eng_effect in E.
  - assert (E' : d' = d \/ d' = set_row (edge2str u) (n, t) d) by (destruct E as [(_ & _ & E)|(_ & _ & E)]; auto).
    destruct E' as [->| ->]; [split; [exact W|reflexivity]|]. split; [now apply wf_set|]. unfold row. now rewrite vlook_set, E0.
  - destruct E as [_ ->]. split; [now apply wf_set|]. unfold row. now rewrite vlook_set, E0.
Qed.
Lemma still_remove_str u : db_vertex u = true -> u <> v -> still (p_remove_str (edge2str u)).
Proof.
  intros Hu N. pose proof (vneq u Hu N) as E0. apply still_bind; [apply still_open|]. intros h. apply still_bind; [|intros _; apply still_close].
  apply still_exec. intros b d d' m W E. apply eng_effect in E as ->. split; [now apply wf_del|]. unfold row. now rewrite vlook_del, E0.
Qed.
Lemma still_change u k : db_vertex u = true -> u <> v -> still (p_change_degree (edge2str u) k).
Proof.
  intros Hu N. pose proof (vneq u Hu N) as E0. apply still_bind; [apply still_open|]. intros h. apply still_bind; [|intros n; apply still_bind; [apply still_close|intros _; exact I]].
  apply still_exec. intros b d d' m W E. apply eng_effect in E as [_ ->]. split; [now apply wf_inc|]. unfold row. now rewrite vlook_inc, E0.
Qed.
Lemma still_write e r : edge_in V e -> is_row (elems e) r -> still (p_write_edge_permutation r).
Proof.
  intros He Hr. apply still_uoi; intros h; apply still_exec; intros b d d' m W E; apply eng_effect in E.
  - destruct E as (_ & _ & ->). split; [exact W|reflexivity].
  - destruct E as [_ ->]. split; [now apply (wf_ins V e)|apply vlook_ins_perm].
Qed.
Lemma still_unwrite r : still (p_remove_edge_permutation r).
Proof.
  apply still_bind; [|intros _; exact I]. apply still_exec. intros b d d' m W E. apply eng_effect in E as ->. split; [now apply wf_delp|apply vlook_del_perm].
Qed.
Lemma still_for {A} (l : list A) f : (forall x, In x l -> still (f x)) -> still (pfor l f).
Proof. intros H. apply tame_for. exact H. Qed.
Lemma still_pattern items : pattern_ok V items -> still (p_pattern2edges (VTup items)).
Proof. intros H. apply (still_keeps nothing); [apply apart_nothing|]. apply on_pattern; auto. Qed.
Lemma still_exists e : edge_in V e -> still (p_exists e).
Proof. intros H. apply (still_keeps nothing); [apply apart_nothing|]. apply on_exists; auto. Qed.
Lemma still_star a : db_atom a = true -> still (p_star a).
Proof. intros H. apply (still_keeps nothing); [apply apart_nothing|]. apply on_star; auto. Qed.
Lemma still_symbols r : root_in r -> still (p_symbols_with_root (VStr r)).
Proof. intros H. apply (still_keeps nothing); [apply apart_nothing|]. apply on_symbols; auto. Qed.
Lemma still_all {B} (f : value * Z -> B) : still (p_f_all f).
Proof. apply (still_keeps nothing); [apply apart_nothing|]. apply on_all; auto. Qed.
Lemma still_sources e : db_vertex e = true -> V e -> V const_source -> still (p_sources e).
Proof. intros H H1 H2. apply (still_keeps nothing); [apply apart_nothing|]. apply on_sources; auto. Qed.

(** *** the vertex itself *)
Lemma trig_change_v rho k : k <> 0%Z -> trig rho (p_change_degree (edge2str v) k) (fun b r z => r = rho /\ b = true /\ z = k).
Proof.
  intros Nk d cur dirty g S P O.
  pose proof (wp_rely auto strict (Rx V X) Rg _ _ (fun e e' (Q : Rg e e') => proj1 Q) d cur dirty (tri_change V X auto strict rho v k Hv d cur dirty S O)) as W.
  assert (G : wpg auto strict Rg pres dg (p_change_degree (edge2str v) k) (fun b d' _ _ g' => pres d' /\ b = true /\ g' = (g + k)%Z) d cur dirty g).
  { unfold p_change_degree. apply wpg_bind.
    assert (Hb : bind_error (IncDegree (edge2str v) k) = None) by (apply binds_text; [exact (vertex_bindable v Hv)|exact I]).
    assert (Main : forall h, closed h cur = false -> (forall dirty2 d2 g2 (Q : unit -> db -> curstate -> bool -> Z -> Prop), (forall cur3 dirty3, Q tt d2 cur3 dirty3 g2) -> wpg auto strict Rg pres dg (p_close_cursor h true true) Q d2 cur dirty2 g2) ->
      wpg auto strict Rg pres dg (pdo n <- pact (AExec h (IncDegree (edge2str v) k)); p_close_cursor h true true;p pret (Nat.ltb 0 n))
         (fun b d' _ _ g' => pres d' /\ b = true /\ g' = (g + k)%Z) d cur dirty g).
    { intros h Hc Hcl. apply wpg_bind. cbn [pact wpg wpg_act]. rewrite Hc, Hb. intros d1 E1.
      assert (P1 : pres d1) by (unfold env in E1; destruct dirty; [now subst d1|now apply E1]). destruct P1 as [q Eq].
      destruct (engine auto (IncDegree (edge2str v) k) d1) as [[d2 n]|e] eqn:E; [|apply eng_fails in E; destruct E].
      apply eng_effect in E as [En ->]. specialize (En Nk).
      assert (E2 : row v (inc_row (edge2str v) k d1) = Some ((q + k)%Z, t0)).
      { unfold row in *. rewrite vlook_inc, str_eqb_refl, Eq. reflexivity. }
      assert (Nn : Nat.ltb 0 n = true).
      { apply Nat.ltb_lt. destruct n; [|lia]. destruct En as [En _]. specialize (En eq_refl). unfold row in Eq. congruence. }
      split; [intros _; now exists (q + k)%Z|]. apply wpg_bind. apply Hcl. intros cur3 dirty3. cbn. split; [now exists (q + k)%Z|]. split; [exact Nn|].
      unfold dg. rewrite E2, Eq. lia. }
    destruct O as [->|[-> ->]]; cbn [p_open_cursor pbind pact wpg wpg_act pret].
    - apply Main; [reflexivity|]. intros dirty2 d2 g2 Q H. exact (H COpen dirty2).
    - apply Main; [reflexivity|]. intros dirty2 d2 g2 Q H. exact (H CNone false). }
  pose proof (wpg_and auto strict Rg pres dg _ _ _ d cur dirty g W G) as WG. eapply wpg_mono; [|exact WG].
  cbn. intros b d' cur' dirty' g' ((rho' & S' & -> & E & O') & P' & Eb & ->). exists rho. split; [exact S'|]. split; [exact P'|].
  split; [|auto]. split; [reflexivity|]. split; [exact Eb|lia].
Qed.
Lemma trig_change rho u k : db_vertex u = true -> k <> 0%Z ->
  trig rho (p_change_degree (edge2str u) k) (fun b r z => r = rho /\ (u = v -> b = true) /\ z = if veqb v u then k else 0%Z).
Proof.
  intros Hu Nk. destruct (veqb v u) eqn:E.
  - apply veqb_eq in E as <-. eapply trig_mono; [|now apply trig_change_v]. cbn. intros b r z (A & B & C). auto.
  - apply veqb_neq in E. eapply trig_mono; [|apply trig_still; [now apply tri_change|apply still_change; [exact Hu|congruence]]].
    cbn. intros b r z (A & B). split; [exact A|]. split; [|exact B]. intros ->. now destruct E.
Qed.
Lemma trig_add_vertex rho u t : db_vertex u = true -> int64 t = true -> trig rho (p_add_vertex t u) (fun _ r z => r = rho /\ z = if veqb v u then 1%Z else 0%Z).
Proof.
  intros Hu Ht. unfold p_add_vertex. eapply trig_bind; [apply trig_change; [exact Hu|discriminate]|]. cbn beta. intros b r z (-> & Hb & ->).
  destruct b.
  - apply trig_ret. split; [reflexivity|lia].
  - assert (N : u <> v) by (intros Eu; specialize (Hb Eu); discriminate).
    eapply trig_mono; [|apply trig_still; [now apply (tri_add_str V X auto strict Hstrict rho u 1 t)|now apply still_add_str]].
    cbn. intros _ r z (-> & ->). split; [reflexivity|]. lia.
Qed.
Lemma trig_each rho (f : value -> prog unit) k l : (forall x, In x l -> trig rho (f x) (fun _ r z => r = rho /\ z = if veqb v x then k else 0%Z)) ->
  trig rho (pfor l f) (fun _ r z => r = rho /\ z = (k * Z.of_nat (count v l))%Z).
Proof.
  induction l as [|x l IH]; intros H; cbn [pfor]; [apply trig_ret; split; [reflexivity|cbn; lia]|].
  eapply trig_bind; [apply H; now left|]. cbn beta. intros ? r z (-> & ->). eapply trig_mono; [|apply IH; intros y Hy; apply H; now right].
  cbn beta. intros _ r z (-> & ->). split; [reflexivity|]. cbn [count]. destruct (veqb v x); lia.
Qed.

(** how the number changes when the history does *)
Definition occ (h : list ev) : Z := Z.of_nat (occurrences v (stored h)).

Lemma trig_add_raw rho h e t : edge_in V e -> int64 t = true -> e <> v -> (In v (elems e) -> X e) -> tracks V X rho (present h) ->
  trig rho (p_add_raw e t) (fun _ rho' z => tracks V X rho' (present (EAdd e t :: h)) /\ z = (occ (EAdd e t :: h) - occ h)%Z).
Proof.
  intros He Ht Nv Xe T. pose proof (edge_in_db _ _ He) as De. unfold p_add_raw.
  assert (T' : forall rho', tracks V X rho' (fun x => x = e \/ present h x) -> tracks V X rho' (present (EAdd e t :: h))).
  { intros rho'. apply tracks_ext. intros x _ _. symmetry. apply present_add. }
  eapply trig_bind; [apply (trig_still rho _ _ (tri_exists V X auto strict HV rho e He)); now apply still_exists|]. cbn beta.
  intros b r z ((-> & d1 & S1 & Hb) & ->).
  apply (trig_bind rho _ _ (fun _ rho' z => tracks V X rho' (present (EAdd e t :: h)) /\ z = (occ (EAdd e t :: h) - occ h)%Z));
    [|intros ? r z [Hr1 Hr2]; apply trig_ret; split; [exact Hr1|lia]].
  unfold occ. rewrite occ_add1. destruct b.
  - apply trig_ret. split.
    + apply T'. eapply tracks_ext; [|exact T]. intros x Hx Hxe. split; [auto|]. intros [->|Hp]; [|exact Hp].
      apply (hit_tracks V X rho (present h) d1); auto. now apply Hb.
    + destruct (in_or v (elems e)) as [I|I].
      * assert (Pe : present h e) by (apply (hit_tracks V X rho (present h) d1); auto; now apply Hb).
        apply stored_present, memb_in in Pe. rewrite Pe. lia.
      * rewrite (count_none v _ I). destruct (memb e (stored h)); lia.
  - rewrite (as_seq_edge e De). cbn [pbind].
    eapply trig_bind; [apply (trig_each rho _ 1); intros x Hx; apply trig_add_vertex; [now apply (elems_vertices V e)|exact Ht]|]. cbn beta.
    intros ? r z (-> & ->).
    eapply trig_bind; [apply trig_still; [apply (tri_add_str V X auto strict Hstrict rho e 0 t); [now apply db_edge_vertex|exact Ht]|apply still_add_str; [now apply db_edge_vertex|exact Nv]]|].
    cbn beta. intros ? r z (-> & ->). rewrite dow_rows.
    assert (Ne : elems e <> []) by (now apply (elems_nonnil V)).
    eapply trig_mono; [|apply trig_still; [apply (tri_write_rows V X auto strict Hstrict e); [exact He|]; intros r Hr; now apply rows_of_spec|]].
    + cbn beta. intros _ rho' z (H & ->). split.
      * apply T'. intros x r Hx Hxe Hr. rewrite (H r), (rows_of_spec _ _ Ne), (T x r Hx Hxe Hr). split; [|intros [->|Hp]; auto].
        intros [Re|Hp]; [left; now apply (row_other V x e r)|auto].
      * destruct (in_or v (elems e)) as [I|I].
        -- destruct (memb e (stored h)) eqn:M; [|lia]. exfalso. apply memb_in, stored_present in M.
           apply (hit_tracks V X rho (present h) d1 e S1 T (Xe I) He) in M. apply Hb in M. discriminate.
        -- rewrite (count_none v _ I). destruct (memb e (stored h)); lia.
    + apply still_for. intros r Hr. apply (still_write e); [exact He|]. now apply rows_of_spec.
Qed.
Lemma trig_remove_raw rho h e : edge_in V e -> e <> v -> (In v (elems e) -> X e) -> tracks V X rho (present h) ->
  trig rho (p_remove_raw e) (fun _ rho' z => tracks V X rho' (present (ERem e :: h)) /\ z = (occ (ERem e :: h) - occ h)%Z).
Proof.
  intros He Nv Xe T. pose proof (edge_in_db _ _ He) as De. unfold p_remove_raw.
  assert (T' : forall rho', tracks V X rho' (fun x => x <> e /\ present h x) -> tracks V X rho' (present (ERem e :: h))).
  { intros rho'. apply tracks_ext. intros x _ _. symmetry. apply present_rem. }
  eapply trig_bind; [apply (trig_still rho _ _ (tri_exists V X auto strict HV rho e He)); now apply still_exists|]. cbn beta.
  intros b r z ((-> & d1 & S1 & Hb) & ->). unfold occ. pose proof (occ_rem1 v e h) as O1. destruct b.
  - rewrite (as_seq_edge e De). cbn [pbind].
    eapply trig_bind.
    { apply (trig_each rho _ (-1)). intros x Hx. pose proof (elems_vertices V e x He Hx) as Hu.
      eapply trig_bind; [apply trig_change; [exact Hu|discriminate]|]. cbn beta. intros b r z (-> & _ & ->). apply trig_ret. split; [reflexivity|lia]. }
    cbn beta. intros ? r z (-> & ->). rewrite dow_rows. assert (Ne : elems e <> []) by (now apply (elems_nonnil V)).
    eapply trig_bind; [apply trig_still; [apply (tri_unwrite_rows V X auto strict e); [exact He|]; intros r Hr; now apply rows_of_spec|]|].
    { apply still_for. intros r Hr. apply still_unwrite. }
    cbn beta. intros _ rho' z (H & ->).
    eapply trig_mono; [|apply trig_still; [apply tri_remove_str; now apply db_edge_vertex|apply still_remove_str; [now apply db_edge_vertex|exact Nv]]].
    cbn beta. intros _ r z (-> & ->). split.
    + apply T'. intros x q Hx Hxe Hq. rewrite (H q), (rows_of_spec _ _ Ne), (T x q Hx Hxe Hq). split; [|intros [N Hp]].
      * intros [Nq Hp]. split; [|exact Hp]. intros ->. now apply Nq.
      * split; [|exact Hp]. intros Hq'. apply N. now apply (row_other V x e q).
    + destruct (in_or v (elems e)) as [I|I].
      * assert (Pe : present h e) by (apply (hit_tracks V X rho (present h) d1); auto; now apply Hb).
        apply stored_present, memb_in in Pe. rewrite Pe in O1. lia.
      * rewrite (count_none v _ I) in *. destruct (memb e (stored h)); lia.
  - apply trig_ret. split.
    + apply T'. eapply tracks_ext; [|exact T]. intros x Hx Hxe. split; [|tauto]. intros Hp. split; [|exact Hp]. intros ->.
      apply (hit_tracks V X rho (present h) d1) in Hp; auto. apply Hb in Hp. discriminate.
    + destruct (in_or v (elems e)) as [I|I].
      * destruct (memb e (stored h)) eqn:M; [|lia]. exfalso. apply memb_in, stored_present in M.
        apply (hit_tracks V X rho (present h) d1 e S1 T (Xe I) He) in M. apply Hb in M. discriminate.
      * rewrite (count_none v _ I) in *. destruct (memb e (stored h)); lia.
Qed.

(** what [h'] has more than [h] *)
Definition more (h h' : list ev) : unit -> (str -> Prop) -> Z -> Prop :=
  fun _ rho' z => tracks V X rho' (present h') /\ z = (occ h' - occ h)%Z.
Lemma more_bind {B} rho (p : prog unit) (k : unit -> prog B) h h' (post : B -> (str -> Prop) -> Z -> Prop) :
  trig rho p (more h h') -> (forall rho', tracks V X rho' (present h') -> trig rho' (k tt) (fun b r z => post b r (occ h' - occ h + z)%Z)) -> trig rho (pbind p k) post.
Proof.
  intros H1 H2. eapply trig_bind; [exact H1|]. intros [] rho' z [T ->]. now apply H2.
Qed.
Lemma more_same h rho : tracks V X rho (present h) -> more h h tt rho 0%Z.
Proof. intros T. split; [exact T|lia]. Qed.
Definition mind (e : value) : Prop := edge_in V e /\ e <> v /\ (In v (elems e) -> X e).

Lemma trig_edges (f : value -> prog unit) (g : list ev -> value -> list ev) : (forall e rho h, mind e -> tracks V X rho (present h) ->
    trig rho (f e) (more h (g h e))) ->
  forall es rho h, Forall mind es -> tracks V X rho (present h) -> trig rho (pfor es f) (more h (fold_left g es h)).
Proof.
  intros H. induction es as [|e es IH]; intros rho h F T; cbn [pfor fold_left]; [now apply trig_ret, more_same|].
  inversion F as [|? ? He Fe]; subst. eapply more_bind; [now apply (H e rho h)|]. intros rho' T'.
  eapply trig_mono; [|exact (IH rho' (g h e) Fe T')]. intros ? r z [T2 ->]. split; [exact T2|lia].
Qed.
Lemma trig_add1 e rho h t : mind e -> int64 t = true -> tracks V X rho (present h) -> trig rho (p_add_raw e t;p pret tt) (more h (EAdd e t :: h)).
Proof.
  intros (He & Nv & Xe) Ht T. eapply trig_bind; [now apply (trig_add_raw rho h e t)|]. cbn beta. intros a rho' z [T' ->].
  apply trig_ret. split; [exact T'|lia].
Qed.
Lemma trig_rem1 e rho h : mind e -> tracks V X rho (present h) -> trig rho (p_remove_raw e) (more h (ERem e :: h)).
Proof. intros (He & Nv & Xe) T. eapply trig_mono; [|now apply (trig_remove_raw rho h e)]. intros a r z H. exact H. Qed.
Lemma trig_add e rho h t : mind e -> int64 t = true -> tracks V X rho (present h) -> trig rho (p_add e t;p pret tt) (more h (EAdd e t :: h)).
Proof.
  intros He Ht T. destruct (index0_edge e (edge_in_db _ _ (proj1 He))) as (a & E0 & Ea). unfold p_add. rewrite E0. cbn [pbind]. rewrite Ea.
  apply (trig_bind rho _ _ (fun _ => more h (EAdd e t :: h) tt)); [|intros ? r z [H1 H2]; apply trig_ret; split; [exact H1|lia]].
  apply (trig_bind rho _ _ (fun _ => more h (EAdd e t :: h) tt)); [|intros ? r z [H1 H2]; apply trig_ret; split; [exact H1|lia]].
  eapply trig_mono; [|now apply (trig_add1 e rho h t)]. intros [] r z H. exact H.
Qed.
Lemma trig_remove e rho h : mind e -> tracks V X rho (present h) -> trig rho (p_remove e) (more h (ERem e :: h)).
Proof.
  intros He T. destruct (index0_edge e (edge_in_db _ _ (proj1 He))) as (a & E0 & Ea). unfold p_remove. rewrite E0. cbn [pbind]. rewrite Ea.
  now apply trig_rem1.
Qed.
Lemma mind_in es : Forall mind es -> Forall (edge_in V) es.
Proof. apply Forall_impl. intros e H. apply H. Qed.
Lemma trig_remove_many es rho h : es <> [] -> Forall mind es -> tracks V X rho (present h) ->
  trig rho (p_remove (VTup es)) (more h (fold_left (fun h e => ERem e :: h) es h)).
Proof.
  intros Hn He T. destruct (index0_edges V es Hn (mind_in es He)) as (a & E0 & Ea). unfold p_remove. rewrite E0. cbn [pbind]. rewrite Ea. cbn [as_seq pbind].
  apply (trig_edges p_remove_raw (fun h e => ERem e :: h)); auto. intros e r h'. apply trig_rem1.
Qed.
Lemma trig_query {A} rho (p : prog A) h : tri V X auto strict rho p (fun _ r => r = rho) -> still p -> tracks V X rho (present h) ->
  trig rho (p;p pret tt) (more h h).
Proof.
  intros H1 H2 T. eapply trig_bind; [apply (trig_still rho p _ H1 H2)|]. cbn beta. intros a r z (-> & ->). apply trig_ret. now apply more_same.
Qed.
Definition bop_mind (b : bop) : Prop := bop_in V b /\ forall e, bop_on b e -> mind e.
Lemma trig_bop b rho h : bop_in V b -> b <> BDestroy -> (forall e, edge_in V e -> bop_on b e -> mind e) -> tracks V X rho (present h) ->
  trig rho (p_bop b) (more h (after_bop h b)).
Proof.
  intros Hb Nd Hm T. destruct b; cbn [bop_in bop_on p_bop after_bop] in *.
  - destruct Hb as [Hb Ht]. apply trig_add; auto.
  - apply trig_remove; auto.
  - destruct Hb as [Hn Hes]. apply trig_remove_many; [exact Hn| |exact T]. rewrite Forall_forall in *. auto.
  - easy.
  - apply trig_query; [|now apply still_exists|exact T]. eapply tri_mono; [|now apply tri_exists]. cbn. intros ? r [E _]. exact E.
  - apply trig_query; [|now apply still_pattern, pattern_in_ok|exact T]. eapply tri_mono; [|now apply tri_pattern, pattern_in_ok]. cbn. intros ? r [E _]. exact E.
  - apply trig_query; [|now apply still_star|exact T]. now apply tri_star.
  - apply trig_query; [|now apply still_symbols|exact T]. now apply tri_symbols.
  - apply trig_query; [|apply still_all|exact T]. apply tri_all.
Qed.
Lemma trig_bops : forall bs rho h, Forall (bop_in V) bs -> (forall b, In b bs -> b <> BDestroy /\ forall e, edge_in V e -> bop_on b e -> mind e) -> tracks V X rho (present h) ->
  trig rho (pfor bs p_bop) (more h (fold_left after_bop bs h)).
Proof.
  induction bs as [|b bs IH]; intros rho h F Hm T; cbn [pfor fold_left]; [now apply trig_ret, more_same|]. inversion F as [|? ? Hb Fb]; subst.
  destruct (Hm b ltac:(now left)) as [Nd Hm1].
  eapply more_bind; [now apply (trig_bop b rho h)|]. intros rho' T'.
  eapply trig_mono; [|apply (IH rho' (after_bop h b)); [exact Fb|intros b' Hb'; apply Hm; now right|exact T']]. intros ? r z [T2 ->]. split; [exact T2|lia].
Qed.
Lemma trig_funs : forall fs rho h, Forall (bop_in V) (List.concat fs) -> (forall b, In b (List.concat fs) -> b <> BDestroy /\ forall e, edge_in V e -> bop_on b e -> mind e) -> tracks V X rho (present h) ->
  trig rho (pfor (List.map (fun f => pfor f p_bop) fs) (fun f => f)) (more h (fold_left after_bop (List.concat fs) h)).
Proof.
  induction fs as [|f fs IH]; intros rho h F Hm T; cbn [List.map pfor List.concat fold_left]; [now apply trig_ret, more_same|].
  cbn [List.concat] in F, Hm. apply Forall_app in F as [F1 F2]. rewrite fold_left_app.
  eapply more_bind; [apply (trig_bops f rho h); [exact F1|intros b Hb; apply Hm, in_or_app; now left|exact T]|]. intros rho' T'.
  eapply trig_mono; [|apply (IH rho' (fold_left after_bop f h)); [exact F2|intros b Hb; apply Hm, in_or_app; now right|exact T']]. intros ? r z [T2 ->]. split; [exact T2|lia].
Qed.
(** two histories that differ in edges without the vertex, or not in X *)
Lemma more_ext h h1 h2 u rho z : (forall x, In v (elems x) -> (present h1 x <-> present h2 x)) -> (forall x, X x -> edge_in V x -> (present h1 x <-> present h2 x)) ->
  more h h1 u rho z -> more h h2 u rho z.
Proof.
  intros H1 H2 [T ->]. split; [eapply tracks_ext; [exact H2|exact T]|]. unfold occ. now rewrite (occ_ext v h1 h2 H1).
Qed.
Lemma trig_remove_belief s e rho h : mind e -> mind (link_edge s e) -> tracks V X rho (present h) ->
  (forall x, present h x -> edge_in V x) -> (X e -> forall y, is_link_of e y = true -> X y) ->
  trig rho (p_remove_belief s e) (more h (after h (ORemoveBelief s e))).
Proof.
  intros Me Ml T Hin Hc. pose proof (proj1 Me) as He. pose proof (proj1 Ml) as Hl. unfold p_remove_belief. cbn [after]. set (h1 := ERem (link_edge s e) :: h).
  eapply more_bind; [apply (trig_remove (link_edge s e) rho h Ml T)|]. fold h1. intros rho1 T1.
  assert (V e /\ V const_source) as [Ve Vs] by (split; apply Hl; cbn; tauto).
  assert (Dv : db_vertex e = true) by (now apply db_edge_vertex, (edge_in_db V)).
  eapply trig_bind; [apply (trig_still _ _ _ (tri_sources V X auto strict HV rho1 e Dv Ve Vs)); now apply still_sources|]. cbn beta.
  intros ss r z ((-> & d1 & l & S1 & A & Es) & ->).
  assert (Hp : pattern_ok V [const_source; e; VNone]) by (now apply pattern_in_ok, sources_pattern_in).
  assert (D : X e -> (ss = [] <-> existsb (is_link_of e) (stored h1) = false)).
  { intros Xe. rewrite Es. split.
    - intros ->. destruct (existsb (is_link_of e) (stored h1)) eqn:E; [|reflexivity]. exfalso.
      apply existsb_exists in E as (x & Hx & Ex). pose proof (Hc Xe x Ex) as Xx. apply stored_present in Hx.
      assert (He' : edge_in V x) by (apply Hin; unfold h1 in Hx; rewrite present_rem in Hx; tauto).
      apply (link_is s) in Ex as [s' ->].
      assert (In (link s' e) []); [|easy]. apply (pat_tracks V X rho1 (present h1) d1 [const_source; e; VNone] [] (link s' e) Hp S1 T1 A Xx He').
      split; [exact Hx|]. cbn. constructor; [now right|]. constructor; [now right|]. constructor; [now left|]. constructor.
    - intros E. destruct l as [|x l]; [reflexivity|]. exfalso.
      destruct (proj1 (pa_in _ _ _ _ A x) ltac:(now left)) as (Hi & _ & M).
      assert (exists s', x = link s' e) as [s' ->].
      { destruct (db_edge_elems x (edge_in_db _ _ Hi)) as (Ex & _ & _). revert M Ex. generalize (elems x). intros l0 M Ex. subst x.
        inversion M as [|p1 x1 q1 l1 [E1|E1] M1]; subst; [discriminate|]. inversion M1 as [|p2 x2 q2 l2 [E2|E2] M2]; subst; [discriminate|].
        inversion M2 as [|p3 x3 q3 l3 _ M3]; subst. inversion M3; subst. now exists x3. }
      assert (Lk : is_link_of e (link s' e) = true) by (apply (link_is s); now exists s').
      pose proof (Hc Xe _ Lk) as Xx.
      destruct (proj1 (pat_tracks V X rho1 (present h1) d1 _ _ _ Hp S1 T1 A Xx Hi) ltac:(now left)) as [Px _].
      assert (existsb (is_link_of e) (stored h1) = true); [|congruence]. apply existsb_exists. exists (link s' e).
      split; [now apply stored_present|exact Lk]. }
  destruct ss as [|s' ss]; cbn [List.length Nat.eqb].
  - eapply trig_mono; [|apply (trig_remove e rho1 h1 Me T1)]. intros u rho2 z M. cbn beta.
    assert (M' : more h (ERem e :: h1) u rho2 (occ h1 - occ h + (0 + z))%Z) by (destruct M as [M1 ->]; split; [exact M1|lia]).
    assert (K : forall x, X x -> (present (ERem e :: h1) x <-> present (if existsb (is_link_of e) (stored h1) then h1 else ERem e :: h1) x)).
    { intros x Xx. destruct (existsb (is_link_of e) (stored h1)) eqn:E; [|reflexivity]. rewrite present_rem. split; [tauto|]. intros Px. split; [|exact Px].
      intros ->. destruct (D Xx) as [D1 _]. specialize (D1 eq_refl). discriminate. }
    revert M'. apply more_ext; [|intros x Xx _; now apply K]. intros x Ix.
    destruct (veqb x e) eqn:Ex; [apply veqb_eq in Ex as ->; apply K, Me, Ix|]. apply veqb_neq in Ex.
    destruct (existsb (is_link_of e) (stored h1)); [|reflexivity]. rewrite present_rem. tauto.
  - apply trig_ret.
    assert (M' : more h h1 tt rho1 (occ h1 - occ h + (0 + 0))%Z) by (split; [exact T1|lia]). 
    assert (K : forall x, X x -> (present h1 x <-> present (if existsb (is_link_of e) (stored h1) then h1 else ERem e :: h1) x)).
    { intros x Xx. destruct (existsb (is_link_of e) (stored h1)) eqn:E; [reflexivity|]. rewrite present_rem. split; [|tauto]. intros Px. split; [|exact Px].
      intros ->. destruct (D Xx) as [_ D2]. specialize (D2 eq_refl). discriminate. }
    revert M'. apply more_ext; [|intros x Xx _; now apply K]. intros x Ix.
    destruct (veqb x e) eqn:Ex; [apply veqb_eq in Ex as ->; apply K, Me, Ix|]. apply veqb_neq in Ex.
    destruct (existsb (is_link_of e) (stored h1)); [reflexivity|]. rewrite present_rem. tauto.
Qed.
Lemma trig_remove_by_pattern ord p rho h : (forall l, Permutation (ord l) l) -> pattern_in V p -> (forall x, edge_in V x -> matches p (elems x) -> mind x) -> tracks V X rho (present h) ->
  (forall x, present h x -> edge_in V x) ->
  trig rho (p_remove_by_pattern ord (VTup p)) (more h (after h (ORemovePattern p))).
Proof.
  intros Hord Hp Hm T Hin. pose proof (pattern_in_ok V p Hp) as Hp'. unfold p_remove_by_pattern. cbn [after].
  eapply trig_bind; [apply (trig_still _ _ _ (tri_pattern V X auto strict HV rho p Hp')); now apply still_pattern|]. cbn beta. intros l r z ((-> & d1 & S1 & A) & ->).
  assert (Hl : forall x, In x (ord l) <-> In x l) by (intros x; split; apply Permutation_in; [apply Hord|apply Permutation_sym, Hord]).
  assert (K : forall x, X x -> edge_in V x -> (present (fold_left (fun h e => ERem e :: h) (ord l) h) x <-> present (fold_left (fun h e => ERem e :: h) (filter (fun x => matchb p (elems x)) (stored h)) h) x)).
  { intros x Xx Hx. rewrite !present_rems, filter_In, matchb_spec, stored_present, Hl, (pat_tracks V X rho (present h) d1 p l x Hp' S1 T A Xx Hx). reflexivity. }
  eapply trig_mono; [|apply (trig_edges p_remove (fun h e => ERem e :: h)) with (h := h)].
  - intros u rho' z M. cbn beta. rewrite Z.add_0_l. revert M. apply more_ext; [|exact K]. intros x Ix. rewrite !present_rems, filter_In, matchb_spec, stored_present, Hl.
    split.
    + intros [N Px]. split; [|exact Px]. intros [_ M]. apply N. pose proof (Hin x Px) as Hx.
      apply (pat_tracks V X rho (present h) d1 p l x Hp' S1 T A); auto. now apply Hm.
    + intros [N Px]. split; [|exact Px]. intros I. apply N. apply (pa_in _ _ _ _ A) in I as (_ & _ & M). auto.
  - intros e r h' He T'. now apply trig_remove.
  - apply Forall_forall. intros x Hx. apply Hl, (pa_in _ _ _ _ A) in Hx as (Hx & _ & M). now apply Hm.
  - exact T.
Qed.

(** the whole call *)
Definition op_ends (h : list ev) (g : Z) : unit -> db -> curstate -> bool -> Z -> Prop :=
  fun _ d cur dirty g' => cur = CNone /\ dirty = false /\ pres d /\ g' = (g + occ h)%Z /\ exists rho, st V X rho d /\ tracks V X rho (present h).
Lemma trig_top rho h h' (p : prog unit) d g : trig rho p (more h h') -> st V X rho d -> pres d ->
  wpg auto strict Rg pres dg p (op_ends h' (g - occ h)) d CNone false g.
Proof.
  intros T S P. eapply wpg_mono; [|apply (T d CNone false g S P); right; auto]. cbn.
  intros u d' cur' dirty' g' (rho' & S' & P' & [Tr E] & -> & [O|[_ ->]]); [discriminate|].
  split; [reflexivity|]. split; [reflexivity|]. split; [exact P'|]. split; [lia|]. now exists rho'.
Qed.
Lemma trig_shared rho h h' (body : prog unit) d g : trig rho body (more h h') -> st V X rho d -> pres d ->
  wpg auto strict Rg pres dg (pdo cur <- p_open_cursor false; body;p p_close_cursor cur false true) (op_ends h' (g - occ h)) d CNone false g.
Proof.
  intros B S P. cbn. apply wpg_bind. eapply wpg_mono; [|apply (B d COpen false g S P); now left]. cbn.
  intros u d' cur' dirty' g' (rho' & S' & P' & [Tr E] & -> & _). split; [reflexivity|]. split; [reflexivity|]. split; [exact P'|]. split; [lia|]. now exists rho'.
Qed.
Lemma wpg_add_many es t rho h d g : es <> [] -> Forall mind es -> int64 t = true -> st V X rho d -> pres d -> tracks V X rho (present h) ->
  wpg auto strict Rg pres dg (p_add (VTup es) t;p pret tt) (op_ends (fold_left (fun h e => EAdd e t :: h) es h) (g - occ h)) d CNone false g.
Proof.
  intros Hn He Ht S P T. destruct (index0_edges V es Hn (mind_in es He)) as (a & E0 & Ea). unfold p_add. rewrite E0. cbn [pbind]. rewrite Ea. cbn [as_seq pbind].
  apply wpg_bind, wpg_bind. eapply wpg_mono; [|apply (trig_shared rho h (fold_left (fun h e => EAdd e t :: h) es h)); [|exact S|exact P]].
  - intros u d' cur' dirty' g' H. exact H.
  - apply (trig_edges (fun edge => p_add_raw edge t;p pret tt) (fun h e => EAdd e t :: h)); auto. intros e r h' He' T'. now apply trig_add1.
Qed.
Theorem wpg_op ord o rho h d g : (forall l, Permutation (ord l) l) -> op_in V o -> o <> OReopen -> st V X rho d -> pres d -> tracks V X rho (present h) ->
  (forall x, present h x -> edge_in V x) -> (forall s e, o = ORemoveBelief s e -> X e -> forall y, is_link_of e y = true -> X y) ->
  ~ op_on o v -> (forall e, edge_in V e -> op_on o e -> In v (elems e) -> X e) ->
  wpg auto strict Rg pres dg (p_op ord o) (op_ends (after h o) (g - occ h)) d CNone false g.
Proof.
  intros Hord Ho Nr S P T Hin Hc Nv Xe.
  assert (Mi : forall e, edge_in V e -> op_on o e -> mind e).
  { intros e He Oe. split; [exact He|]. split; [intros ->; contradiction|]. intros I. now apply Xe. }
  destruct o as [e t|es t|e|es| |s e t|s es t|s e|p|fs|q|]; cbn [p_op op_in op_on] in *.
  - apply (trig_top rho); auto. destruct Ho as [Ho Ht]. apply trig_add; auto.
  - destruct Ho as [[Hn Hes] Ht]. apply (wpg_add_many es t rho); auto. rewrite Forall_forall in *. auto.
  - apply (trig_top rho); auto. apply trig_remove; auto.
  - destruct Ho as [Hn Hes]. apply (trig_top rho); auto. apply trig_remove_many; auto. rewrite Forall_forall in *. auto.
  - now destruct Nv.
  - destruct Ho as [[He Hl] Ht]. destruct (index0_edge e (edge_in_db _ _ He)) as (a & E0 & Ea).
    unfold p_add_belief. rewrite E0. cbn [pbind]. rewrite Ea. cbn [after].
    apply (wpg_add_many [e; link s e] t rho h d g); [discriminate| |exact Ht|exact S|exact P|exact T].
    apply Forall_cons; [apply Mi; auto|apply Forall_cons; [apply Mi; auto|apply Forall_nil]].
  - destruct Ho as [[Hn Hes] Ht]. assert (Fes : Forall (edge_in V) es) by (eapply Forall_impl; [|exact Hes]; intros x [A _]; exact A).
    destruct (index0_edges V es Hn Fes) as (a & E0 & Ea).
    unfold p_add_belief. rewrite E0. cbn [pbind]. rewrite Ea. cbn [as_seq pbind after].
    pose proof (wpg_add_many (flat_map (fun edge => [edge; link s edge]) es) t rho h d g) as W. rewrite fold_flat in W. apply W; [|  |exact Ht|exact S|exact P|exact T].
    + destruct es; [easy|discriminate].
    + rewrite Forall_forall in *. intros x Hx. apply in_flat_map in Hx as (e & He & [<-|[<-|[]]]); (apply Mi; [now apply (Hes e)|]); exists e; auto.
  - destruct Ho as [He Hl]. apply (trig_top rho); auto. apply trig_remove_belief; auto. now apply (Hc s e).
  - apply (trig_top rho); auto. apply trig_remove_by_pattern; auto.
  - unfold p_batch_exec. apply (trig_shared rho h); auto. cbn [after]. apply trig_funs; auto. intros b Hb. split.
    + intros ->. apply Nv. exists BDestroy. split; [exact Hb|exact I].
    + intros e He Be. apply Mi; [exact He|]. now exists b.
  - pose proof (wp_op V X auto strict HV Hstrict ord (OAsk q) rho h d Hord Ho Nr S T Hin Hc) as W. apply (wp_rely auto strict (Rx V X) Rg) in W; [|intros e e' [Q _]; exact Q].
    assert (Tm : still (p_op ord (OAsk q))) by (apply (still_keeps nothing); [apply apart_nothing|]; now apply on_op).
    eapply wpg_mono; [|apply (wpg_tame auto strict Rg pres dg Rg_trans (wf_db V) _ (after_call V X (after h (OAsk q))) (fun _ => True)) with (g := g)].
    + cbn. intros u d' cur' dirty' g' ((-> & -> & rho' & S' & T') & P' & ->). split; [reflexivity|]. split; [reflexivity|]. split; [exact P'|]. split; [lia|]. now exists rho'.
    + intros e e' [[Q _] _]. exact Q.
    + intros e e' [_ Q]. exact Q.
    + apply (tame_weaken _ (fun d d' => row v d' = row v d)); [|exact Tm]. intros e e' _. apply row_same.
    + apply S.
    + exact P.
    + exact W.
  - easy.
Qed.

End Own.

(** ** every schedule *)

Definition top (w : world) : db := match wd_writer w with Some (_, d) => d | None => wd_disk w end.
Lemma total_ext f g js : (forall j, In j js -> f j = g j) -> total f js = total g js.
Proof. intros H. unfold total. now rewrite (map_ext_in f g js H). Qed.
Lemma total_cons f j js : total f (j :: js) = (f j + total f js)%Z.
Proof. reflexivity. Qed.
Lemma total_set f i z js : NoDup js -> In i js -> total (fun j => if Nat.eqb j i then z else f j) js = (total f js + (z - f i))%Z.
Proof.
  intros N. induction N as [|j js Hj N IH]; [easy|]. rewrite !total_cons. intros [->|Hi].
  - rewrite Nat.eqb_refl. rewrite (total_ext _ f js); [lia|].
    intros k Hk. destruct (Nat.eqb_spec k i) as [->|]; [contradiction|reflexivity].
  - rewrite (IH Hi). destruct (Nat.eqb_spec j i) as [->|]; [contradiction|lia].
Qed.

(** an action of a process that counts *)
Lemma count_act {Y} auto strict (R : db -> db -> Prop) (pr : db -> Prop) (num : db -> Z) i w cur (a : act Y) (k : Y -> prog unit) r d wr cur' (Q : unit -> db -> curstate -> bool -> Z -> Prop) g :
  (forall d, R d d) -> (auto = true -> wd_writer w = None) -> pr (wd_disk w) -> pr (top w) ->
  wpg auto strict R pr num (PAct a k) Q (view i w) cur (holds i w) g -> act_on auto i w cur a = Some (r, d, wr, cur') ->
  exists g', (forall ps, wpg auto strict R pr num (after_act r k) Q (view i (World d wr ps)) cur' (holds i (World d wr ps)) g')
    /\ pr d /\ forall ps, pr (top (World d wr ps)) /\ num (top (World d wr ps)) = (num (top w) + (g' - g))%Z.
Proof.
  intros R_refl Sa Pd Pt W E. cbn [wpg] in W.
  assert (En : env R (holds i w) (view i w) (view i w)) by (unfold env; destruct (holds i w); auto).
  assert (Same : forall (r0 : res Y) cur0, Some (r0, wd_disk w, wd_writer w, cur0) = Some (r, d, wr, cur') ->
     r = r0 /\ cur' = cur0 /\ d = wd_disk w /\ wr = wd_writer w).
  { intros r0 cur0 H. injection H as <- <- <- <-. auto. }
  assert (Fin : forall (r0 : res Y) cur0, Some (r0, wd_disk w, wd_writer w, cur0) = Some (r, d, wr, cur') ->
     wpg auto strict R pr num (after_act r0 k) Q (view i w) cur0 (holds i w) g ->
     exists g', (forall ps, wpg auto strict R pr num (after_act r k) Q (view i (World d wr ps)) cur' (holds i (World d wr ps)) g')
       /\ pr d /\ forall ps, pr (top (World d wr ps)) /\ num (top (World d wr ps)) = (num (top w) + (g' - g))%Z).
  { intros r0 cur0 H W0. apply Same in H as (-> & -> & -> & ->). exists g. split; [intros ps; exact W0|]. split; [exact Pd|]. intros ps.
    split; [exact Pt|]. change (top (World (wd_disk w) (wd_writer w) ps)) with (top w). lia. }
  destruct a; cbn [act_on wpg_act] in *.
  - destruct (closed h cur); [now apply (Fin _ _ E)|].
    destruct (bind_error s); [now apply (Fin _ _ E)|]. specialize (W _ En). destruct auto eqn:Ea.
    + assert (Hw : wd_writer w = None) by (now apply Sa).
      assert (Hv : view i w = wd_disk w) by (unfold view; now rewrite Hw). rewrite Hv in W.
      assert (Ht : top w = wd_disk w) by (unfold top; now rewrite Hw).
      destruct (engine true s (wd_disk w)) as [[d1 n]|e]; [|apply (Fin _ _ E); exact W].
      injection E as <- <- <- <-. destruct W as [W1 W2]. exists (g + (num d1 - num (wd_disk w)))%Z. unfold view, holds, top. cbn [wd_disk wd_writer]. rewrite Hw.
      split; [intros ps; exact W2|]. split; [auto|]. intros ps. split; [auto|]. lia.
    + destruct (lock_free i w) eqn:Lf; [|discriminate].
      assert (Ht : view i w = top w).
      { unfold lock_free, view, top in *. destruct (wd_writer w) as [[j dj]|]; [|reflexivity]. now rewrite Lf. }
      destruct (engine false s (view i w)) as [[d1 n]|e]; injection E as <- <- <- <-.
      * destruct W as [W1 W2]. rewrite Ht in *. exists (g + (num d1 - num (top w)))%Z. unfold view, holds. cbn [wd_disk wd_writer]. rewrite Nat.eqb_refl.
        split; [intros ps; exact W2|]. split; [exact Pd|]. intros ps. unfold top at 1 2. cbn [wd_writer]. split; [auto|]. lia.
      * exists g. split; [intros ps; exact W|]. split; [exact Pd|]. intros ps. unfold top at 1 2. cbn [wd_writer]. rewrite Ht. split; [exact Pt|lia].
  - destruct (closed h cur); [now apply (Fin _ _ E)|].
    destruct (negb (forallb bindable (sel_texts q))); [now apply (Fin _ _ E)|]. apply (Fin _ _ E). exact (W _ En).
  - destruct (holds i w) eqn:Hh.
    + assert (Ht : view i w = top w).
      { unfold holds, view, top in *. destruct (wd_writer w) as [[j dj]|]; [|discriminate]. now rewrite Hh. }
      injection E as <- <- <- <-. rewrite Ht in *. exists g. split; [intros ps; exact W|]. split; [exact Pt|]. intros ps. change (top (World (top w) None ps)) with (top w).
      split; [exact Pt|lia].
    + apply (Fin _ _ E). exact W.
  - apply (Fin _ _ E). exact W.
  - apply (Fin _ _ E). exact W.
Qed.

Section Run.
Variables (V : value -> Prop) (X : nat -> value -> Prop) (flt auto : bool) (ord : list value -> list value) (calls : nat -> list op).
Variables (d0 : db) (h0 : list ev) (v : value) (t0 : Z) (js : list nat).
Hypothesis HV : noalias V.
Hypothesis Hord : forall l, Permutation (ord l) l.
Hypothesis Hin : forall j, Forall (op_in V) (calls j).
Hypothesis Hh0 : Forall (ev_in V) h0.
Hypothesis W0 : wf_db V d0.
Hypothesis S0 : forall x r, edge_in V x -> is_row (elems x) r -> (In r (perms d0) <-> present h0 x).
Hypothesis Hv : db_vertex v = true.
Hypothesis P0 : pres v t0 d0.
Hypothesis Njs : NoDup js.
Hypothesis Hjs : forall j, ~ In j js -> apart (calls_on (calls j)) v.
Hypothesis Nv : forall j, ~ calls_on (calls j) v.
Hypothesis Xother : forall i x j, X i x -> j <> i -> ~ calls_on (calls j) x.
Hypothesis Xv : forall i x, calls_on (calls i) x -> In v (elems x) -> X i x.
Hypothesis Xlinks : forall i s e, In (ORemoveBelief s e) (calls i) -> X i e -> forall y, is_link_of e y = true -> X i y.
Let strict : bool := negb auto && negb flt.

Definition gfin (i : nat) (todo : list op) (d : db) (g : Z) : Prop :=
  exists before rho, calls i = before ++ todo /\ st V (X i) rho d /\ tracks V (X i) rho (present (fold_left after before h0))
    /\ pres v t0 d /\ g = (occ v (fold_left after before h0) - occ v h0)%Z.
Definition gdone (i : nat) (todo : list op) : unit -> db -> curstate -> bool -> Z -> Prop :=
  fun _ d cur dirty g => cur = CNone /\ dirty = false /\ gfin i todo d g.
Definition gmine (i : nat) (p : proc) (seen : db) (hold : bool) (g : Z) : Prop :=
  match pr_now p with
  | Some q => wpg auto strict (Rg V (X i) v t0) (pres v t0) (dg v) q (gdone i (pr_todo p)) seen (pr_cur p) hold g
  | None => gdone i (pr_todo p) tt seen (pr_cur p) hold g
  end.
Definition allok (w : world) : Prop := forall j, In j js -> pr_ok (wd_procs w j) = true.
Record ginv (w : world) (g : nat -> Z) : Prop := {
  gi_mine : forall i, In i js -> gmine i (wd_procs w i) (view i w) (holds i w) (g i);
  gi_disk : pres v t0 (wd_disk w);
  gi_top : pres v t0 (top w);
  gi_sum : dg v (top w) = (dg v d0 + total g js)%Z }.

Lemma gfin_stable i todo d d' g : Rg V (X i) v t0 d d' -> gfin i todo d g -> gfin i todo d' g.
Proof.
  intros [HR HP] (before & rho & E & S & T & P & G). exists before, rho. split; [exact E|]. split; [now apply (st_R V (X i) rho d)|]. auto.
Qed.
Lemma gmine_stable i p d d' g : Rg V (X i) v t0 d d' -> gmine i p d false g -> gmine i p d' false g.
Proof.
  intros HR. unfold gmine. destruct (pr_now p) as [q|].
  - apply wpg_stable; [apply Rg_trans| |exact HR]. intros a e e' cur z HRe (A & B & C). split; [exact A|]. split; [exact B|]. now apply (gfin_stable i _ e).
  - intros (A & B & C). split; [exact A|]. split; [exact B|]. now apply (gfin_stable i _ d).
Qed.
Lemma gfin_call i o todo d g : o <> OReopen -> gfin i (o :: todo) d g ->
  wpg auto strict (Rg V (X i) v t0) (pres v t0) (dg v) (p_op ord o) (gdone i todo) d CNone false g.
Proof.
  intros Ho (before & rho & E & S & T & P & Eg).
  assert (Hi : forall o', In o' (calls i) -> op_in V o') by (apply Forall_forall, Hin).
  assert (In o (calls i)) as Io by (rewrite E; apply in_or_app; right; now left).
  eapply wpg_mono; [|apply (wpg_op V (X i) auto strict v t0 HV) with (rho := rho) (h := fold_left after before h0); auto].
  - cbn. intros u d' cur dirty g' (-> & -> & P' & -> & rho' & S' & T'). split; [reflexivity|]. split; [reflexivity|]. exists (before ++ [o]), rho'.
    split; [rewrite <- app_assoc; exact E|]. split; [exact S'|]. rewrite fold_left_app. split; [exact T'|]. split; [exact P'|]. cbn [fold_left]. lia.
  - unfold strict. destruct auto; [discriminate|reflexivity].
  - intros x. apply (present_in V). apply (hist_in_after V h0 Hh0). intros o' Ho'. apply Hi. rewrite E. apply in_or_app. now left.
  - intros s e -> Xe. now apply (Xlinks i s).
  - intros Hov. apply (Nv i). now exists o.
  - intros e He Hoe Ive. apply Xv; [now exists o|exact Ive].
Qed.

Lemma top_or w : (wd_writer w = None /\ top w = wd_disk w) \/ exists i d, wd_writer w = Some (i, d) /\ top w = d.
Proof. unfold top. destruct (wd_writer w) as [[i d]|]; [right; now exists i, d|now left]. Qed.
Lemma ok_back w w' : step flt auto ord w w' -> allok w' -> allok w.
Proof.
  intros St A j Hj. specialize (A j Hj).
  destruct St as [i w p o todo Hp Hn Ht Ho|i w p todo Hp Hn Ht|i w p Y a k r d wr cur Hp Hn E|i w p r Hp Hn|i w p Y a k Hf Hp Hn|i w p todo' Hf Hp Hi]; subst p;
    cbn [wd_procs] in A; unfold set_proc in A; destruct (Nat.eqb j i) eqn:Eji; cbn [pr_ok] in A; auto; apply Nat.eqb_eq in Eji; rewrite Eji; auto.
  - now apply andb_true_iff in A as [A _].
  - discriminate.
Qed.

Notation G := (fun i => keeps V (calls_on (calls i))).
Lemma ginv_step w w' g : safe V auto ord G w -> allok w' -> ginv w g -> step flt auto ord w w' -> exists g', ginv w' g'.
Proof.
  intros S A' I St. pose proof (ok_back w w' St A') as A.
  assert (Gr : forall j d, G j d d) by (intros j d; apply keeps_refl).
  assert (Gt : forall j a b c, G j a b -> G j b c -> G j a c) by (intros j a b c; apply keeps_trans).
  (* the others after a step of j *)
  assert (Oth : forall j i p d wr, In i js -> i <> j -> wf_db V d -> G j (wd_disk w) d -> pres v t0 d ->
    (holds i w = true /\ d = wd_disk w /\ wr = wd_writer w) \/ (holds i w = false /\ forall ps, holds i (World d wr ps) = false) ->
    let w1 := World d wr (set_proc j p (wd_procs w)) in gmine i (wd_procs w1 i) (view i w1) (holds i w1) (g i)).
  { intros j i p d wr Hi N W K Pd H w1. unfold w1. cbn [wd_procs]. rewrite (set_other j i p (wd_procs w)) by congruence. pose proof (gi_mine _ _ I i Hi) as Mi.
    destruct H as [(Hh & -> & ->)|[Hh Hh']]; [exact Mi|]. pose proof (Hh' (set_proc j p (wd_procs w))) as Hh1. rewrite Hh1.
    rewrite (holds_view _ _ Hh1). cbn [wd_disk]. rewrite Hh, (holds_view _ _ Hh) in Mi. apply (gmine_stable i _ (wd_disk w)); [|exact Mi].
    split; [|auto]. split; [auto|]. intros x r Xx Hx Hr. apply (k_rows _ _ _ _ K x r Hx); [|exact Hr]. apply (Xother i); [exact Xx|congruence]. }
  assert (Same : forall j, (holds j w = true /\ wd_disk w = wd_disk w /\ wd_writer w = wd_writer w) \/ (holds j w = false /\ forall ps, holds j (World (wd_disk w) (wd_writer w) ps) = false)).
  { intros j. destruct (holds j w) eqn:Hh; [left; auto|right; split; [reflexivity|]]. intros ps. exact Hh. }
  assert (Drop : forall i j, i <> j -> (holds i w = true /\ wd_disk w = wd_disk w /\ (if holds j w then None else wd_writer w) = wd_writer w)
       \/ (holds i w = false /\ forall ps, holds i (World (wd_disk w) (if holds j w then None else wd_writer w) ps) = false)).
  { intros i j N. destruct (holds i w) eqn:Hh.
    - left. destruct (holds_other i j w) as [F _]; [congruence|exact Hh|]. rewrite F. auto.
    - right. split; [reflexivity|]. intros ps. destruct (holds j w); [reflexivity|exact Hh]. }
  (* a step of j that changes nothing but its own state *)
  assert (Own : forall j p, (In j js -> gmine j p (view j w) (holds j w) (g j)) -> ginv (World (wd_disk w) (wd_writer w) (set_proc j p (wd_procs w))) g).
  { intros j p Hp. constructor; try exact (gi_disk _ _ I); try exact (gi_top _ _ I); try exact (gi_sum _ _ I). intros i Hi.
    destruct (Nat.eq_dec i j) as [->|N]; [cbn [wd_procs]; rewrite set_same; now apply Hp|].
    apply Oth; auto; [apply S|exact (gi_disk _ _ I)]. }
  (* a process that has nothing to do with the vertex *)
  assert (Far : forall j p d wr, ~ In j js -> wf_db V d -> G j (wd_disk w) d -> (forall i, i <> j -> (holds i w = true /\ d = wd_disk w /\ wr = wd_writer w) \/ (holds i w = false /\ forall ps, holds i (World d wr ps) = false)) ->
    (forall i d', wr = Some (i, d') -> G i d d') -> ginv (World d wr (set_proc j p (wd_procs w))) g).
  { intros j p d wr Nj Wd K H Hwr. pose proof (k_vert _ _ _ _ K v Hv (Hjs j Nj)) as Rd.
    assert (Pd : pres v t0 d) by (unfold pres; rewrite Rd; apply I).
    assert (Rt : row v (top (World d wr (set_proc j p (wd_procs w)))) = row v (top w)).
    { destruct (top_or w) as [[Ew Et]|(i & di & Ew & Et)].
      - rewrite Et. unfold top. cbn [wd_writer wd_disk]. destruct wr as [[i di]|] eqn:Er; [|exact Rd].
        destruct (Nat.eq_dec i j) as [->|N].
        + rewrite (k_vert _ _ _ _ (Hwr j di eq_refl) v Hv (Hjs j Nj)). exact Rd.
        + exfalso. destruct (H i N) as [(Hh & _)|[_ Hh]]; [unfold holds in Hh; rewrite Ew in Hh; discriminate|].
          specialize (Hh (wd_procs w)). unfold holds in Hh. cbn in Hh. rewrite Nat.eqb_refl in Hh. discriminate.
      - destruct (Nat.eq_dec i j) as [->|N].
        + rewrite Et. pose proof (proj2 (sf_writer _ _ _ _ _ S j di Ew)) as Kd. rewrite (k_vert _ _ _ _ Kd v Hv (Hjs j Nj)).
          unfold top. cbn [wd_writer wd_disk]. destruct wr as [[i' di']|] eqn:Er; [|exact Rd].
          destruct (Nat.eq_dec i' j) as [->|N].
          * rewrite (k_vert _ _ _ _ (Hwr j di' eq_refl) v Hv (Hjs j Nj)). exact Rd.
          * exfalso. destruct (H i' N) as [(Hh & _)|[_ Hh]].
            -- unfold holds in Hh. rewrite Ew in Hh. apply Nat.eqb_eq in Hh. congruence.
            -- specialize (Hh (wd_procs w)). unfold holds in Hh. cbn in Hh. rewrite Nat.eqb_refl in Hh. discriminate.
        + destruct (H i N) as [(_ & -> & ->)|[Hh _]]; [reflexivity|]. unfold holds in Hh. rewrite Ew, Nat.eqb_refl in Hh. discriminate. }
    constructor; [|exact Pd| |].
    - intros i Hi. destruct (Nat.eq_dec i j) as [->|N]; [contradiction|]. apply Oth; auto.
    - unfold pres. rewrite Rt. apply I.
    - unfold dg at 1. rewrite Rt. apply I. }
  destruct St as [j w p o todo Hp Hn Ht Ho|j w p todo Hp Hn Ht|j w p Y a k r d wr cur Hp Hn E|j w p r Hp Hn|j w p Y a k Hf Hp Hn|j w p todo' Hf Hp Hi]; subst p.
  - exists g. apply Own. intros Hj. pose proof (gi_mine _ _ I j Hj) as M. unfold gmine in *. rewrite Hn, Ht in M. cbn [pr_now pr_todo pr_cur].
    destruct M as (A1 & B & C). rewrite A1, B. now apply gfin_call.
  - destruct (in_dec Nat.eq_dec j js) as [Hj|Nj].
    + exists g. pose proof (gi_mine _ _ I j Hj) as M. unfold gmine in M. rewrite Hn, Ht in M. destruct M as (A1 & B & C).
      rewrite B. apply Own. intros _. unfold gmine. cbn [pr_now pr_todo pr_cur]. split; [reflexivity|]. split; [exact B|].
      destruct C as (before & rho & E & Sr & T & P & Eg). exists (before ++ [OReopen]), rho. split; [rewrite <- app_assoc; exact E|]. split; [exact Sr|].
      rewrite fold_left_app. auto.
    + exists g. apply Far; auto; [apply S|]. intros i d' Hw. apply (sf_writer _ _ _ _ _ S). now destruct (holds j w).
  - destruct (act_safe V auto ord G Gr Gt j w (pr_cur (wd_procs w j)) a k r d wr cur S (sf_now _ _ _ _ _ S j _ Hn) E) as (W & K & _ & Wr & _).
    assert (Ao : forall i, i <> j -> (holds i w = true /\ d = wd_disk w /\ wr = wd_writer w) \/ (holds i w = false /\ forall ps, holds i (World d wr ps) = false)).
    { intros i N. apply (act_other auto i j w (pr_cur (wd_procs w j)) a r d wr cur); [congruence|apply S|exact E]. }
    destruct (in_dec Nat.eq_dec j js) as [Hj|Nj].
    + pose proof (gi_mine _ _ I j Hj) as M. unfold gmine in M. rewrite Hn in M.
      destruct (count_act auto strict _ _ _ j w (pr_cur (wd_procs w j)) a k r d wr cur _ (g j) (Rg_refl V (X j) v t0) (sf_auto _ _ _ _ _ S) (gi_disk _ _ I) (gi_top _ _ I) M E) as (z & M' & Pd & Hps).
      exists (fun i => if Nat.eqb i j then z else g i). destruct (Hps (set_proc j (Proc cur (Some (after_act r k)) (pr_todo (wd_procs w j)) (pr_ok (wd_procs w j))) (wd_procs w))) as [Pt Et].
      constructor; [|exact Pd|exact Pt|].
      * intros i Hi. destruct (Nat.eqb_spec i j) as [->|N]; [|apply Oth; auto]. cbn [wd_procs]. rewrite set_same. unfold gmine. cbn [pr_now pr_todo pr_cur]. apply M'.
      * rewrite Et, (gi_sum _ _ I), (total_set g j z js Njs Hj). lia.
    + exists g. apply Far; auto. intros i d' Hw. now apply Wr.
  - exists g. apply Own. intros Hj. specialize (A' j Hj). cbn [wd_procs] in A'. rewrite set_same in A'. cbn [pr_ok] in A'. apply andb_true_iff in A' as [_ Or].
    pose proof (gi_mine _ _ I j Hj) as M. unfold gmine in *. rewrite Hn in M. cbn [pr_now pr_todo pr_cur]. destruct r as [[]|e]; [exact M|discriminate].
  - exists g. apply Own. intros Hj. unfold gmine. cbn [pr_now wpg]. unfold strict. rewrite Hf. apply andb_false_r.
  - destruct (in_dec Nat.eq_dec j js) as [Hj|Nj].
    + exfalso. specialize (A' j Hj). cbn [wd_procs] in A'. rewrite set_same in A'. discriminate.
    + exists g. apply Far; auto; [apply S|]. intros i d' Hw. apply (sf_writer _ _ _ _ _ S). now destruct (holds j w).
Qed.

Theorem ginv_steps w : steps flt auto ord (start_world d0 calls) w -> allok w -> exists g, ginv w g.
Proof.
  intros St. induction St as [|w w' St IH S1]; intros A.
  - exists (fun _ => 0%Z). constructor.
    + intros i Hi. unfold gmine. cbn. split; [reflexivity|]. split; [reflexivity|]. exists [], (fun r => In r (perms d0)). split; [reflexivity|]. split.
      * split; [exact W0|]. intros x r _ _ _. change (perms (view i (start_world d0 calls))) with (perms d0). reflexivity.
      * split; [intros x r _; apply S0|]. split; [exact P0|]. cbn [fold_left]. lia.
    + exact P0.
    + exact P0.
    + change (top (start_world d0 calls)) with d0. unfold total. clear. induction js as [|j l IH]; cbn; lia.
  - destruct (IH (ok_back w w' S1 A)) as [g I].
    destruct (run_safe V flt auto ord calls d0 w HV Hord W0 Hin St) as [S _]. now apply (ginv_step w w' g S).
Qed.
End Run.

(** ** edges of several lists *)
Section Parts.
Variables (v : value) (E0 : list value) (E : nat -> list value).
Hypothesis N0 : NoDup E0.
Hypothesis NE : forall j, NoDup (E j).
Definition new (j : nat) : list value := filter (fun x => negb (memb x E0)) (E j).
Definition old (j : nat) : list value := filter (fun x => negb (memb x (E j))) E0.
Lemma in_new j x : In x (new j) <-> In x (E j) /\ ~ In x E0.
Proof. unfold new. rewrite filter_In, negb_true_iff, memb_nin. reflexivity. Qed.
Lemma in_old j x : In x (old j) <-> In x E0 /\ ~ In x (E j).
Proof. unfold old. rewrite filter_In, negb_true_iff, memb_nin. reflexivity. Qed.
Lemma occ_app l l' : occurrences v (l ++ l') = (occurrences v l + occurrences v l')%nat.
Proof. induction l; cbn [app occurrences]; lia. Qed.
Lemma nodup_app (l l' : list value) : NoDup l -> NoDup l' -> (forall x, In x l -> ~ In x l') -> NoDup (l ++ l').
Proof.
  induction 1 as [|x l Hx N IH]; intros N' H; [exact N'|]. cbn. constructor.
  - rewrite in_app_iff. intros [I|I]; [contradiction|]. now apply (H x); [left|].
  - apply IH; [exact N'|]. intros y Hy. apply H. now right.
Qed.
Lemma occ_diff j : (occurrences v (E j) + occurrences v (old j) = occurrences v E0 + occurrences v (new j))%nat.
Proof.
  rewrite <- !occ_app. apply occ_perm, NoDup_Permutation.
  - apply nodup_app; [apply NE|now apply NoDup_filter|]. intros x Hx Ho. apply in_old in Ho. tauto.
  - apply nodup_app; [exact N0|apply NoDup_filter, NE|]. intros x Hx Ho. apply in_new in Ho. tauto.
  - intros x. rewrite !in_app_iff, in_old, in_new. destruct (in_or x E0), (in_or x (E j)); tauto.
Qed.
Lemma occ_parts : forall js, NoDup js ->
  (forall i j x, In i js -> In j js -> (In x (new i) \/ In x (old i)) -> (In x (new j) \/ In x (old j)) -> i = j) ->
  forall l, NoDup l ->
  (forall x, In x l <-> (exists j, In j js /\ In x (new j)) \/ (In x E0 /\ forall j, In j js -> ~ In x (old j))) ->
  Z.of_nat (occurrences v l) = (Z.of_nat (occurrences v E0) + total (fun j => Z.of_nat (occurrences v (E j)) - Z.of_nat (occurrences v E0))%Z js)%Z.
Proof.
  induction js as [|j js IH]; intros Nj D l Nl H.
  - unfold total. cbn [List.map fold_right]. rewrite (occ_perm v l E0); [lia|]. apply NoDup_Permutation; [exact Nl|exact N0|]. intros x. rewrite (H x).
    split; [|intros Hx; right; split; [exact Hx|easy]]. intros [(j & [] & _)|[Hx _]]. exact Hx.
  - inversion Nj as [|? ? Hj Nj']; subst.
    set (l' := filter (fun x => negb (memb x (new j))) l ++ old j).
    assert (In_l' : forall x, In x l' <-> (In x l /\ ~ In x (new j)) \/ In x (old j)).
    { intros x. unfold l'. rewrite in_app_iff, !filter_In, !negb_true_iff, !memb_nin. tauto. }
    assert (Nold : forall x, In x (old j) -> ~ In x l).
    { intros x Ho Hl. apply H in Hl as [(i & Hi & Hn)|[_ Hn]]; [|now apply (Hn j (or_introl eq_refl))].
      apply in_new in Hn. apply in_old in Ho. tauto. }
    assert (Nl' : NoDup l').
    { unfold l'. apply nodup_app; [now apply NoDup_filter|apply NoDup_filter, N0|].
      intros x Hx Ho. apply filter_In in Hx as [Hx _]. now apply (Nold x). }
    assert (Hnew : forall x, In x (new j) -> In x l) by (intros x Hn; apply H; left; exists j; split; [now left|exact Hn]).
    assert (E1 : (occurrences v l' + occurrences v (new j) = occurrences v l + occurrences v (old j))%nat).
    { rewrite <- !occ_app. apply occ_perm, NoDup_Permutation.
      - apply nodup_app; [exact Nl'|apply NoDup_filter, NE|]. intros x Hx Hn. apply In_l' in Hx as [[_ Hx]|Hx]; [contradiction|].
        apply in_new in Hn. apply in_old in Hx. tauto.
      - apply nodup_app; [exact Nl|apply NoDup_filter, N0|]. intros x Hx Ho. now apply (Nold x).
      - intros x. rewrite !in_app_iff, In_l'. specialize (Hnew x).
        destruct (in_or x (new j)), (in_or x l), (in_or x (old j)); tauto. }
    pose proof (occ_diff j) as E2. rewrite total_cons.
    assert (E3 : Z.of_nat (occurrences v l') = (Z.of_nat (occurrences v E0) + total (fun j => Z.of_nat (occurrences v (E j)) - Z.of_nat (occurrences v E0))%Z js)%Z); [|lia].
    apply IH; [exact Nj'| |exact Nl'|].
    + intros i k x Hi Hk. apply D; now right.
    + intros x. rewrite In_l', (H x). split.
      * intros [[[(i & [<-|Hi] & Hn)|[Hx Ho]] Nn]|Ho]; [contradiction| | |].
        -- left. now exists i.
        -- right. split; [exact Hx|]. intros i Hi. apply Ho. now right.
        -- right. split; [now apply in_old in Ho|]. intros i Hi Hoi. apply Hj. now rewrite (D j i x (or_introl eq_refl) (or_intror Hi) (or_intror Ho) (or_intror Hoi)).
      * intros [(i & Hi & Hn)|[Hx Ho]].
        -- left. split; [left; exists i; split; [now right|exact Hn]|]. intros Hn'. apply Hj. now rewrite (D j i x (or_introl eq_refl) (or_intror Hi) (or_introl Hn') (or_introl Hn)).
        -- destruct (in_or x (old j)) as [Oj|Oj]; [now right|]. left. split; [|intros Hn; apply in_new in Hn; tauto]. right. split; [exact Hx|].
           intros i [<-|Hi]; [exact Oj|now apply Ho].
Qed.
End Parts.
