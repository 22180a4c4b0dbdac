(** * P_added.v -- several processes that only add an edge *)

From Verif Require Import Py M_symbol M_edge M_sql M_mysql M_hypergraph P_py Spec P_edge P_perm P_range P_query
  S_history M_driver P_ops P_hist P_graph P_answers P_crash S_steps M_steps P_steps P_owned.
From Coq Require Import Permutation Factorial String.
Open Scope list_scope.

(** ** more about [wp] *)

Lemma wp_act_weaken {X} auto strict (R R' : db -> db -> Prop) (a : act X) K d cur dirty : (forall a b, R a b -> R' a b) ->
  wp_act auto strict R' a K d cur dirty -> wp_act auto strict R a K d cur dirty.
Proof.
  intros H. destruct a; cbn; auto.
  - destruct (closed h cur); [auto|]. destruct (bind_error s); [auto|]. intros W d1 E. apply W.
    unfold env in *. destruct dirty; auto.
  - destruct (closed h cur); [auto|]. destruct (negb (forallb bindable (sel_texts q))); [auto|]. intros W d1 E. apply W.
    unfold env in *. destruct dirty; auto.
Qed.
Lemma wp_weaken {A} auto strict (R R' : db -> db -> Prop) (p : prog A) Q : (forall a b, R a b -> R' a b) -> forall d cur dirty,
  wp auto strict R' p Q d cur dirty -> wp auto strict R p Q d cur dirty.
Proof.
  intros H. induction p as [[a|e]|X a k IH]; intros d cur dirty; cbn [wp]; auto. intros W. apply (wp_act_weaken _ _ R R' _ _ _ _ _ H).
  revert W. apply wp_act_mono. intros y d' cur' dirty'. apply IH.
Qed.
Lemma wp_lenient {A} auto strict R (p : prog A) Q : forall d cur dirty, wp auto strict R p Q d cur dirty -> wp auto false R p Q d cur dirty.
Proof.
  induction p as [[a|e]|X a k IH]; intros d cur dirty; cbn [wp]; auto. destruct a; cbn; auto.
  - destruct (closed h cur); [auto|]. destruct (bind_error s); [auto|]. intros W d1 E. specialize (W d1 E).
    destruct (engine auto s d1) as [[d2 n]|y]; auto.
  - destruct (closed h cur); [auto|]. destruct (negb (forallb bindable (sel_texts q))); auto.
Qed.
Lemma wp_and {A} auto strict R (p : prog A) (Q1 Q2 : A -> db -> curstate -> bool -> Prop) : forall d cur dirty,
  wp auto strict R p Q1 d cur dirty -> wp auto strict R p Q2 d cur dirty ->
  wp auto strict R p (fun a d' cur' dirty' => Q1 a d' cur' dirty' /\ Q2 a d' cur' dirty') d cur dirty.
Proof.
  induction p as [[a|e]|X a k IH]; intros d cur dirty; cbn [wp]; auto. destruct a; cbn; auto.
  - destruct (closed h cur); [auto|]. destruct (bind_error s); [auto|]. intros W1 W2 d1 E. specialize (W1 d1 E). specialize (W2 d1 E).
    destruct (engine auto s d1) as [[d2 n]|y]; auto.
  - destruct (closed h cur); [auto|]. destruct (negb (forallb bindable (sel_texts q))); auto.
Qed.

Section Added.
Variables (V : value -> Prop) (x : value) (auto : bool).
Hypothesis HV : noalias V.
Hypothesis Hx : edge_in V x.
Notation xrow r := (is_row (elems x) r).
Notation any := (fun _ => True).

Definition full (d : db) : Prop := forall r, xrow r -> In r (perms d).
Definition some_row (d : db) : Prop := exists r, xrow r /\ In r (perms d).
(** the rows of x: unchanged; only more of them *)
Definition G0 (d d' : db) : Prop := forall r, xrow r -> (In r (perms d) <-> In r (perms d')).
Definition Gm (d d' : db) : Prop := forall r, xrow r -> In r (perms d) -> In r (perms d').
Definition Rm (d d' : db) : Prop := (wf_db V d -> wf_db V d') /\ Gm d d'.
Lemma Gm_refl d : Gm d d.
Proof. intros r _ H. exact H. Qed.
Lemma Gm_trans a b c : Gm a b -> Gm b c -> Gm a c.
Proof. intros H1 H2 r Hr H. apply (H2 r Hr), (H1 r Hr), H. Qed.
Lemma G0_refl d : G0 d d.
Proof. intros r _. reflexivity. Qed.
Lemma G0_trans a b c : G0 a b -> G0 b c -> G0 a c.
Proof. intros H1 H2 r Hr. rewrite (H1 r Hr). now apply H2. Qed.
Lemma G0_sym a b : G0 a b -> G0 b a.
Proof. intros H1 r Hr. symmetry. now apply H1. Qed.
Lemma G0_Gm a b : G0 a b -> Gm a b.
Proof. intros H r Hr. apply (H r Hr). Qed.
Lemma Rm_refl d : Rm d d.
Proof. split; [auto|apply Gm_refl]. Qed.
Lemma Rm_trans a b c : Rm a b -> Rm b c -> Rm a c.
Proof. intros [A B] [C D]. split; [auto|now apply (Gm_trans a b c)]. Qed.
Lemma full_m d d' : Gm d d' -> full d -> full d'.
Proof. intros H F r Hr. apply (H r Hr), F, Hr. Qed.
Lemma some_m d d' : Gm d d' -> some_row d -> some_row d'.
Proof. intros H (r & Hr & I). exists r. split; [exact Hr|now apply H]. Qed.
Lemma full_some d : full d -> some_row d.
Proof. intros F. destruct (row_exists V x Hx) as (r & Hr & _). exists r. split; [exact Hr|now apply F]. Qed.
Lemma env_m dirty d d1 : env Rm dirty d d1 -> Rm d d1.
Proof. unfold env. destruct dirty; [intros ->; apply Rm_refl|auto]. Qed.
Lemma keeps_G0 T d d' : ~ T x -> keeps V T d d' -> G0 d d'.
Proof. intros N K r Hr. now apply (k_rows _ _ _ _ K x r). Qed.

(** what the rest of the program does, nothing of it can lose an assertion that survives Rm *)
Notation will p := (wp auto false Rm p).
Lemma wp_keep {A} (p : prog A) (S : db -> Prop) : (forall d d', Rm d d' -> S d -> S d') -> (forall d, S d -> wf_db V d) -> tame (wf_db V) Gm p any ->
  forall d cur dirty, S d -> will p (fun _ d' _ _ => S d') d cur dirty.
Proof.
  intros H1 H2. induction p as [[a|e]|X a k IH]; intros T d cur dirty Hs; cbn [wp tame] in *; [exact Hs|reflexivity|].
  destruct a; cbn [tame_act wp_act] in *; auto.
  - destruct T as [Ts Tk]. destruct (closed h cur); [reflexivity|]. destruct (bind_error s); [reflexivity|]. intros d1 E. apply env_m in E.
    pose proof (H1 _ _ E Hs) as S1. destruct (engine auto s d1) as [[d2 n]|y] eqn:En; [|reflexivity].
    destruct (Ts _ _ _ _ (H2 _ S1) En) as [W K]. apply IH; [apply Tk|]. apply (H1 d1); [|exact S1]. now split.
  - destruct (closed h cur); [reflexivity|]. destruct (negb (forallb bindable (sel_texts q))); [reflexivity|]. intros d1 E. apply env_m in E.
    pose proof (H1 _ _ E Hs) as S1. apply IH; [|exact S1]. apply T. now apply H2.
Qed.
Lemma wp_open_any (Q : handle -> db -> curstate -> bool -> Prop) d cur dirty : (forall h, Q h d cur dirty) -> will (p_open_cursor true) Q d cur dirty.
Proof. intros H. destruct cur; cbn; apply H. Qed.
Lemma wp_close_any (Q : unit -> db -> curstate -> bool -> Prop) h d cur dirty : (forall cur', Q tt d cur' dirty) -> will (p_close_cursor h true false) Q d cur dirty.
Proof. intros H. destruct cur, h; cbn; apply H. Qed.
Lemma wp_wf {A} (p : prog A) d cur dirty : tame (wf_db V) Gm p any -> wf_db V d -> will p (fun _ d' _ _ => wf_db V d') d cur dirty.
Proof. intros T W. apply wp_keep; auto. intros a b [H _]. exact H. Qed.

(** a program that, once begun, leaves all rows of x there or raises *)
Definition comp {A} (p : prog A) : Prop := forall d cur dirty, wf_db V d -> will p (fun _ d' _ _ => wf_db V d' /\ full d') d cur dirty.
(** ... that leaves some row of x there or raises *)
Definition hits {A} (p : prog A) : Prop := forall d cur dirty, wf_db V d -> will p (fun _ d' _ _ => wf_db V d' /\ some_row d') d cur dirty.
(** a program that first changes no row of x, and then (if at all) writes all of them *)
Fixpoint tidy {A} (p : prog A) (Q : A -> Prop) : Prop :=
  comp p \/
  match p with
  | PRet (Ok a) => Q a
  | PRet (Err _) => True
  | PAct a k => tame_act (wf_db V) G0 a (fun y => tidy (k y) Q)
  end.

Lemma comp_bind {A B} (p : prog A) (k : A -> prog B) : (forall a, tame (wf_db V) Gm (k a) any) -> comp p -> comp (pbind p k).
Proof.
  intros H C d cur dirty W. apply wp_bind. eapply wp_mono; [|now apply C]. cbn. intros a d' cur' dirty' [W' F].
  apply (wp_keep (k a) (fun d => wf_db V d /\ full d)); auto; [|tauto]. intros d1 d2 [R1 R2] [S1 S2]. split; [auto|now apply (full_m d1)].
Qed.
Lemma comp_after {A B} (p : prog A) (k : A -> prog B) : tame (wf_db V) Gm p any -> (forall a, comp (k a)) -> comp (pbind p k).
Proof.
  intros T C d cur dirty W. apply wp_bind. eapply wp_mono; [|now apply wp_wf]. cbn. intros a d' cur' dirty' W'. now apply C.
Qed.
Lemma hits_bind {A B} (p : prog A) (k : A -> prog B) : (forall a, tame (wf_db V) Gm (k a) any) -> hits p -> hits (pbind p k).
Proof.
  intros H C d cur dirty W. apply wp_bind. eapply wp_mono; [|now apply C]. cbn. intros a d' cur' dirty' [W' F].
  apply (wp_keep (k a) (fun d => wf_db V d /\ some_row d)); auto; [|tauto]. intros d1 d2 [R1 R2] [S1 S2]. split; [auto|now apply (some_m d1)].
Qed.
Lemma hits_after {A B} (p : prog A) (k : A -> prog B) : tame (wf_db V) Gm p any -> (forall a, hits (k a)) -> hits (pbind p k).
Proof.
  intros T C d cur dirty W. apply wp_bind. eapply wp_mono; [|now apply wp_wf]. cbn. intros a d' cur' dirty' W'. now apply C.
Qed.
Lemma hits_for {A} (l : list A) f y : (forall z, In z l -> tame (wf_db V) Gm (f z) any) -> In y l -> hits (f y) -> hits (pfor l f).
Proof.
  induction l as [|z l IH]; intros T Hy H; [easy|]. cbn [pfor].
  assert (Tl : tame (wf_db V) Gm (pfor l f) any) by (apply tame_for; intros u Hu; apply T; now right).
  destruct Hy as [->|Hy].
  - now apply hits_bind.
  - apply hits_after; [apply T; now left|]. intros _. apply IH; auto. intros u Hu. apply T. now right.
Qed.
Lemma comp_hits {A} (p : prog A) : comp p -> hits p.
Proof. intros C d cur dirty W. eapply wp_mono; [|now apply C]. cbn. intros a d' _ _ [W' F]. split; [exact W'|now apply full_some]. Qed.

Lemma tidy_comp {A} (p : prog A) Q : comp p -> tidy p Q.
Proof. destruct p; now left. Qed.
Lemma tidy_mono {A} (p : prog A) (Q Q' : A -> Prop) : (forall a, Q a -> Q' a) -> tidy p Q -> tidy p Q'.
Proof.
  intros H. induction p as [[a|e]|X a k IH]; cbn [tidy]; (intros [C|T]; [now left|right]); auto. revert T. apply tame_act_mono. exact IH.
Qed.
Lemma tame_tidy {A} (p : prog A) (Q : A -> Prop) : tame (wf_db V) G0 p Q -> tidy p Q.
Proof.
  induction p as [[a|e]|X a k IH]; cbn [tidy tame]; intros T; right; auto. revert T. apply tame_act_mono. exact IH.
Qed.
Lemma tidy_bind {A B} (p : prog A) (k : A -> prog B) Q : (forall a, tame (wf_db V) Gm (k a) any) -> tidy p (fun a => tidy (k a) Q) -> tidy (pbind p k) Q.
Proof.
  intros H. induction p as [[a|e]|X a f IH]; cbn [tidy pbind].
  - intros [C|T]; [|exact T]. apply tidy_comp. exact (comp_bind (PRet (Ok a)) k H C).
  - intros _. now right.
  - intros [C|T]; [left; exact (comp_bind (PAct a f) k H C)|right]. revert T. apply tame_act_mono. exact IH.
Qed.

(** *** pieces of programs *)
Definition piece {A} (p : prog A) : Prop := tame (wf_db V) Gm p any /\ tidy p any.
Lemma piece_calm {A} (p : prog A) : tame (wf_db V) G0 p any -> piece p.
Proof. intros T. split; [|now apply tame_tidy]. eapply tame_weaken; [|exact T]. intros d d' _. apply G0_Gm. Qed.
Lemma piece_on {A} (T : value -> Prop) (p : prog A) : ~ T x -> tame (wf_db V) (keeps V T) p any -> piece p.
Proof. intros N H. apply piece_calm. eapply tame_weaken; [|exact H]. intros d d' _. now apply keeps_G0. Qed.
Lemma piece_bind {A B} (p : prog A) (k : A -> prog B) : piece p -> (forall a, piece (k a)) -> piece (pbind p k).
Proof.
  intros [A1 A2] H. split.
  - apply tame_bind. eapply tame_mono; [|exact A1]. intros a _. apply H.
  - apply tidy_bind; [intros a; apply H|]. eapply tidy_mono; [|exact A2]. intros a _. apply H.
Qed.
Lemma piece_ret {A} (a : A) : piece (pret a).
Proof. split; [exact I|right; exact I]. Qed.
Lemma piece_err {A} e : piece (@PRet A (Err e)).
Proof. split; [exact I|right; exact I]. Qed.
Lemma piece_for {A} (l : list A) f : (forall y, In y l -> piece (f y)) -> piece (pfor l f).
Proof.
  induction l as [|y l IH]; intros H; cbn [pfor]; [apply piece_ret|]. apply piece_bind; [apply H; now left|].
  intros _. apply IH. intros z Hz. apply H. now right.
Qed.
Lemma piece_comp {A} (p : prog A) : tame (wf_db V) Gm p any -> comp p -> piece p.
Proof. intros T C. split; [exact T|now apply tidy_comp]. Qed.

Notation never := (fun _ : value => False).
Lemma nx : ~ never x. Proof. tauto. Qed.

(** *** adding x itself *)
Inductive up : stmt -> Prop :=
| up_updv v n t : db_vertex v = true -> up (UpdVertex (edge2str v) n t)
| up_insv v n t : db_vertex v = true -> up (InsVertex (edge2str v) n t)
| up_inc v k : db_vertex v = true -> up (IncDegree (edge2str v) k)
| up_updp r : up (UpdPerm r)
| up_insp r : xrow r -> up (InsPerm r).
Lemma up_m s b d d' n : up s -> wf_db V d -> engine b s d = Ok (d', n) -> wf_db V d' /\ Gm d d'.
Proof.
  intros H W E. apply eng_effect in E. destruct H as [v k t Hv|v k t Hv|v k Hv|r|r Hr].
  - assert (E' : d' = d \/ d' = set_row (edge2str v) (k, t) d) by (destruct E as [(_ & _ & E)|(_ & _ & E)]; auto).
    destruct E' as [->| ->]; [split; [exact W|apply Gm_refl]|]. split; [now apply wf_set|]. intros r _. now rewrite perms_set.
  - destruct E as [_ ->]. split; [now apply wf_set|]. intros r _. now rewrite perms_set.
  - destruct E as [_ ->]. split; [now apply wf_inc|]. intros r _. now rewrite perms_inc.
  - destruct E as (_ & _ & ->). split; [exact W|apply Gm_refl].
  - destruct E as [_ ->]. split; [now apply (wf_ins V x)|]. intros s _ Hs. rewrite in_ins_perm. now right.
Qed.
Lemma m_exec h s (Q : nat -> Prop) : up s -> (forall n, Q n) -> tame (wf_db V) Gm (pact (AExec h s)) Q.
Proof. intros Hs H. cbn. split; [|exact H]. intros b d d' n. now apply up_m. Qed.
Lemma m_open b (Q : handle -> Prop) : (forall h, Q h) -> tame (wf_db V) Gm (p_open_cursor b) Q.
Proof. intros H. cbn. intros c. destruct b, c; cbn; auto. Qed.
Lemma m_close h l b (Q : unit -> Prop) : Q tt -> tame (wf_db V) Gm (p_close_cursor h l b) Q.
Proof.
  intros H. destruct l; cbn.
  - intros c. destruct c; cbn; auto. destruct h, b; exact H.
  - destruct b; cbn; intros c; destruct c; cbn; auto.
Qed.
Lemma m_uoi u i : up u -> up i -> tame (wf_db V) Gm (p_update_or_insert u i) any.
Proof.
  intros Hu Hi. unfold p_update_or_insert. apply tame_bind, m_open. intros h. apply tame_bind, m_exec; [exact Hu|]. intros n.
  apply tame_bind. destruct (Nat.eqb n 0).
  - apply tame_bind, m_exec; [exact Hi|]. intros _. now apply m_close.
  - now apply m_close.
Qed.
Lemma m_vertex t v : db_vertex v = true -> tame (wf_db V) Gm (p_add_vertex t v) any.
Proof.
  intros Hv. unfold p_add_vertex, p_change_degree. apply tame_bind, tame_bind, m_open. intros h. apply tame_bind, m_exec; [now constructor|].
  intros n. apply tame_bind, m_close. cbn [tame]. destruct (Nat.ltb 0 n); [exact I|]. now apply m_uoi; constructor.
Qed.
Lemma m_write r : xrow r -> tame (wf_db V) Gm (p_write_edge_permutation r) any.
Proof. intros Hr. apply m_uoi; now constructor. Qed.
Lemma wp_write r d cur dirty : xrow r -> wf_db V d -> will (p_write_edge_permutation r) (fun _ d' _ _ => In r (perms d')) d cur dirty.
Proof.
  intros Hr W. unfold p_write_edge_permutation, p_update_or_insert. apply wp_bind.
  assert (C : forall h d1 cur1 dirty1, In r (perms d1) -> will (p_close_cursor h true true) (fun _ d' _ _ => In r (perms d')) d1 cur1 dirty1).
  { intros h d1 cur1 dirty1 H1. destruct cur1, h; cbn; auto. }
  assert (K : forall h d1 cur1 dirty1, will
     (pdo n <- pact (AExec h (UpdPerm r)); (if Nat.eqb n 0 then pact (AExec h (InsPerm r));p pret tt else pret tt);p p_close_cursor h true true)
     (fun _ d' _ _ => In r (perms d')) d1 cur1 dirty1).
  { intros h d1 cur1 dirty1. apply wp_bind. cbn [pact wp wp_act]. destruct (closed h cur1) eqn:Hc; [reflexivity|].
    destruct (bind_error (UpdPerm r)); [reflexivity|]. intros d2 _.
    destruct (engine auto (UpdPerm r) d2) as [[d3 n]|y] eqn:E; [|reflexivity]. apply eng_effect in E as (H1 & _ & ->). cbn [pret wp].
    apply wp_bind. destruct (Nat.eqb_spec n 0) as [->|Nn]; [|cbn [pret wp]; now apply C, H1].
    apply wp_bind. cbn [pact wp wp_act]. rewrite Hc. destruct (bind_error (InsPerm r)); [reflexivity|]. intros d3 _.
    destruct (engine auto (InsPerm r) d3) as [[d4 m]|y] eqn:E; [|reflexivity]. apply eng_effect in E as [_ ->]. cbn [pret wp].
    apply C. rewrite in_ins_perm. now left. }
  apply wp_open_any. intros h. apply K.
Qed.
Lemma comp_rows : comp (pfor (rows_of (elems x)) p_write_edge_permutation).
Proof.
  assert (H : forall l, (forall r, In r l -> xrow r) -> forall d cur dirty, wf_db V d ->
    will (pfor l p_write_edge_permutation) (fun _ d' _ _ => wf_db V d' /\ forall r, In r l -> In r (perms d')) d cur dirty).
  { induction l as [|r l IH]; intros Hl d cur dirty W; cbn [pfor]; [cbn; split; [exact W|easy]|].
    assert (Hr : xrow r) by (apply Hl; now left). apply wp_bind.
    eapply wp_mono; [|apply wp_and; [apply (wp_wf (p_write_edge_permutation r)); [now apply m_write|exact W]|now apply (wp_write r)]].
    cbn beta. intros _ d1 cur1 dirty1 [W1 I1].
    assert (Tl : tame (wf_db V) Gm (pfor l p_write_edge_permutation) any) by (apply tame_for; intros s Hs; apply m_write, Hl; now right).
    eapply wp_mono; [|apply wp_and; [apply IH; [intros s Hs; apply Hl; now right|exact W1]|
      apply (wp_keep (pfor l p_write_edge_permutation) (fun d => wf_db V d /\ In r (perms d))); [| |exact Tl|now split]]].
    - cbn beta. intros _ d2 _ _ [[W2 I2] [_ I3]]. split; [exact W2|]. intros s [<-|Hs]; auto.
    - intros a b [Ra Rb] [Sa Sb]. split; [auto|now apply Rb].
    - tauto. }
  intros d cur dirty W. assert (Ne : elems x <> []) by (now apply (elems_nonnil V)).
  eapply wp_mono; [|apply H; [intros r Hr; now apply rows_of_spec|exact W]]. cbn beta. intros _ d' _ _ [W' I']. split; [exact W'|].
  intros r Hr. apply I'. now apply rows_of_spec.
Qed.
Lemma m_rows : tame (wf_db V) Gm (pfor (rows_of (elems x)) p_write_edge_permutation) any.
Proof. apply tame_for. intros r Hr. apply m_write. apply rows_of_spec; [now apply (elems_nonnil V)|exact Hr]. Qed.
(** writing x: the vertices, the edge, the rows *)
Definition write_all (t : Z) : prog unit :=
  pfor (elems x) (p_add_vertex t);p p_add_str (edge2str x) 0 t;p pfor (rows_of (elems x)) p_write_edge_permutation.
Lemma m_all1 t : tame (wf_db V) Gm (pfor (elems x) (p_add_vertex t)) any.
Proof. apply tame_for. intros v Hv. apply m_vertex. now apply (elem_vertex V x); auto. Qed.
Lemma m_all2 t : tame (wf_db V) Gm (p_add_str (edge2str x) 0 t) any.
Proof. apply m_uoi; constructor; now apply (elem_vertex V x); auto. Qed.
Lemma m_all t : tame (wf_db V) Gm (write_all t) any.
Proof.
  unfold write_all. apply tame_bind. eapply tame_mono; [|apply m_all1]. intros _ _. apply tame_bind. eapply tame_mono; [|apply m_all2]. intros _ _. apply m_rows.
Qed.
Lemma comp_all t : comp (write_all t).
Proof. unfold write_all. apply comp_after; [apply m_all1|]. intros _. apply comp_after; [apply m_all2|]. intros _. apply comp_rows. Qed.
Lemma add_raw_is t : p_add_raw x t = (pdo b <- p_exists x; (if b then pret tt else write_all t);p pret x).
Proof.
  unfold p_add_raw, write_all. rewrite (as_seq_edge x (edge_in_db _ _ Hx)). cbn [pbind]. now rewrite dow_rows.
Qed.
Lemma calm_exists : tame (wf_db V) G0 (p_exists x) any.
Proof. eapply tame_weaken; [|now apply (on_exists V never HV x)]. intros d d' _. now apply keeps_G0. Qed.
Lemma piece_add_raw t : piece (p_add_raw x t).
Proof.
  rewrite add_raw_is. apply piece_bind; [apply piece_calm, calm_exists|]. intros b. apply piece_bind; [|intros _; apply piece_ret].
  destruct b; [apply piece_ret|]. apply piece_comp; [apply m_all|apply comp_all].
Qed.
(** exists says yes: there is a row *)
Lemma wp_exists d cur dirty : wf_db V d -> will (p_exists x) (fun b d' _ _ => wf_db V d' /\ (b = true -> some_row d')) d cur dirty.
Proof.
  intros W. unfold p_exists, p_pattern2edges. apply wp_bind. destruct (db_edge_elems x (edge_in_db _ _ Hx)) as (Ee & Ae & _). rewrite Ee at 1. cbn [as_seq pbind].
  change (nodes2str (filter not_none (elems x))) with (pat_text (elems x)).
  pose proof (edge_pattern_ok V x Hx) as Hp.
  destruct (pattern_pure V db_empty (elems x) HV) as (hi & _ & _ & E & B & _); [easy|exact Hp|]. rewrite E. cbn [pbind].
  assert (K : forall h d0 cur0 dirty0, wf_db V d0 -> will
     (pdo rows <- pact (AQuery h (SelRange (pat_text (elems x)) hi));
      pdo edges <- PRet (cur2edges rows); p_close_cursor h true false;p
      pdo flags <- PRet (mapr (fun e => edge_matches_pattern e (elems x)) edges);
      pret (py_set (List.map fst (filter snd (combine edges flags)))))
     (fun a d1 cur1 dirty1 => will (pret (Nat.ltb 0 (List.length a))) (fun b d' _ _ => wf_db V d' /\ (b = true -> some_row d')) d1 cur1 dirty1) d0 cur0 dirty0).
  { intros h d0 cur0 dirty0 W0. apply wp_bind. cbn [pact wp wp_act]. destruct (closed h cur0); [reflexivity|]. change (sel_texts (SelRange (pat_text (elems x)) hi)) with [pat_text (elems x); hi]. rewrite B. cbn [negb]. intros d1 E1. cbn [sel_run]. apply env_m in E1 as [W1 _].
    specialize (W1 W0). destruct (pattern_pure V d1 (elems x) HV (wf_rows _ _ W1) Hp) as (hi' & es & flags & E' & _ & Ec & Ef & A).
    rewrite E in E'. injection E' as <-. cbn [pret wp]. rewrite Ec. cbn [pbind]. apply wp_bind. rewrite Ef. cbn [pbind].
    set (l := py_set (List.map fst (filter snd (combine es flags)))) in *.
    assert (Fin : forall dirty1 cur1, will (pret l) (fun a d1 cur1 dirty1 => will (pret (Nat.ltb 0 (List.length a))) (fun b d' _ _ => wf_db V d' /\ (b = true -> some_row d')) d1 cur1 dirty1) d1 cur1 dirty1).
    { intros dirty1 cur1. cbn [pret wp]. split; [exact W1|]. rewrite Nat.ltb_lt. destruct l as [|e l]; [cbn; lia|]. intros _.
      destruct (proj1 (pa_in _ _ _ _ A e) ltac:(now left)) as (He & (r & Hr & Rr & _) & M).
      apply matches_all_db in M; [|exact Ae]. destruct (db_edge_elems e (edge_in_db _ _ He)) as (Ee' & _ & _). exists r. split; [|exact Hr]. now rewrite M. }
    apply wp_close_any. intros cur1. apply Fin. }
  apply wp_bind, wp_open_any. intros h. now apply K.
Qed.
Lemma hits_add_raw t : hits (p_add_raw x t).
Proof.
  rewrite add_raw_is. intros d cur dirty W. apply wp_bind. eapply wp_mono; [|now apply wp_exists]. cbn beta. intros b d1 cur1 dirty1 [W1 H1].
  apply wp_bind. destruct b.
  - cbn [pret wp]. split; [exact W1|now apply H1].
  - eapply wp_mono; [|apply (comp_hits _ (comp_all t)); exact W1]. cbn beta. intros _ d2 cur2 dirty2 H2. exact H2.
Qed.
Lemma piece_raw e t : edge_in V e -> piece (p_add_raw e t).
Proof.
  intros He. destruct (veqb e x) eqn:Eq.
  - apply veqb_eq in Eq as ->. apply piece_add_raw.
  - apply veqb_neq in Eq. apply (piece_on (fun y => y = e)); [congruence|]. now apply on_add_raw.
Qed.
Lemma piece_add e t : edge_in V e -> piece (p_add e t).
Proof.
  intros He. destruct (index0_edge e (edge_in_db _ _ He)) as (a & E0 & Ea). unfold p_add. rewrite E0. cbn [pbind]. rewrite Ea.
  apply piece_bind; [|intros _; apply piece_ret]. apply piece_bind; [now apply piece_raw|intros _; apply piece_ret].
Qed.
Lemma hits_add t : hits (p_add x t).
Proof.
  destruct (index0_edge x (edge_in_db _ _ Hx)) as (a & E0 & Ea). unfold p_add. rewrite E0. cbn [pbind]. rewrite Ea.
  apply hits_bind; [intros _; exact I|]. apply hits_bind; [intros _; exact I|]. apply hits_add_raw.
Qed.
Lemma piece_open b : piece (p_open_cursor b).
Proof. apply (piece_on never _ nx). now apply on_open. Qed.
Lemma piece_close h l b : piece (p_close_cursor h l b).
Proof. apply (piece_on never _ nx). now apply on_close. Qed.
Lemma piece_add_many es t : es <> [] -> Forall (edge_in V) es -> piece (p_add (VTup es) t).
Proof.
  intros Hn Fes. destruct (index0_edges V es Hn Fes) as (a & E0 & Ea). unfold p_add. rewrite E0. cbn [pbind]. rewrite Ea. cbn [as_seq pbind].
  apply piece_bind; [|intros _; apply piece_ret]. apply piece_bind; [apply piece_open|]. intros h.
  apply piece_bind; [|intros _; apply piece_close]. apply piece_for. intros e He. rewrite Forall_forall in Fes.
  apply piece_bind; [now apply piece_raw, Fes|intros _; apply piece_ret].
Qed.
Lemma hits_add_many es t : es <> [] -> Forall (edge_in V) es -> In x es -> hits (p_add (VTup es) t).
Proof.
  intros Hn Fes Ix. destruct (index0_edges V es Hn Fes) as (a & E0 & Ea). unfold p_add. rewrite E0. cbn [pbind]. rewrite Ea. cbn [as_seq pbind].
  apply hits_bind; [intros _; exact I|]. apply hits_after; [apply piece_open|]. intros h. apply hits_bind; [intros _; apply piece_close|].
  rewrite Forall_forall in Fes. apply (hits_for _ _ x); [|exact Ix|].
  - intros e He. apply piece_bind; [now apply piece_raw, Fes|intros _; apply piece_ret].
  - apply hits_bind; [intros _; exact I|apply hits_add_raw].
Qed.

(** *** the calls *)
Lemma bop_on_dec b : bop_on b x \/ ~ bop_on b x.
Proof.
  assert (D : forall y : value, x = y \/ x <> y) by (intros y; destruct (veqb x y) eqn:E; [left; now apply veqb_eq|right; now apply veqb_neq]).
  destruct b; cbn; auto. induction es as [|e es IH]; [right; easy|]. cbn. destruct (D e) as [->|N]; [auto|]. destruct IH; [auto|]. right. intros [H1|H1]; auto.
Qed.
Lemma exists_in_dec {A} (P : A -> Prop) (l : list A) : (forall y, P y \/ ~ P y) -> (exists y, In y l /\ P y) \/ ~ (exists y, In y l /\ P y).
Proof.
  intros D. induction l as [|y l IH]; [right; now intros (z & [] & _)|]. destruct (D y) as [Hy|Ny]; [left; exists y; split; [now left|exact Hy]|].
  destruct IH as [(z & Hz & Pz)|N]; [left; exists z; split; [now right|exact Pz]|]. right. intros (z & [<-|Hz] & Pz); [auto|]. apply N. now exists z.
Qed.
Lemma op_on_dec o : op_on o x \/ ~ op_on o x.
Proof.
  assert (D : forall y : value, x = y \/ x <> y) by (intros y; destruct (veqb x y) eqn:E; [left; now apply veqb_eq|right; now apply veqb_neq]).
  assert (Di : forall l, In x l \/ ~ In x l).
  { intros l. destruct (exists_in_dec (fun y => x = y) l D) as [(y & Hy & <-)|N]; [now left|right]. intros H. apply N. now exists x. }
  assert (Do : forall y z : value, (x = y \/ x = z) \/ ~ (x = y \/ x = z)).
  { intros y z. destruct (D y) as [->|N1]; [auto|]. destruct (D z) as [->|N2]; [auto|]. right. now intros [H|H]. }
  destruct o; cbn [op_on]; auto.
  - apply exists_in_dec. intros e. apply Do.
  - destruct (matchb p (elems x)) eqn:E; [left; now apply matchb_spec|right]. intros H. apply matchb_spec in H. congruence.
  - apply exists_in_dec. intros b. apply bop_on_dec.
Qed.
Lemma calls_on_dec ops : calls_on ops x \/ ~ calls_on ops x.
Proof. apply (exists_in_dec (fun o => op_on o x)). intros o. apply op_on_dec. Qed.

Lemma piece_bop b : bop_in V b -> ~ bop_drops b x -> piece (p_bop b).
Proof.
  intros Hb Nd. destruct (bop_on_dec b) as [O|N].
  - destruct b; cbn [bop_on bop_drops p_bop bop_in] in *; try tauto. apply piece_bind; [now apply piece_add|intros _; apply piece_ret].
  - apply (piece_on (bop_on b)); [exact N|]. now apply on_bop.
Qed.
Lemma hits_bop b : bop_in V b -> ~ bop_drops b x -> bop_on b x -> hits (p_bop b).
Proof.
  intros Hb Nd O. destruct b; cbn [bop_on bop_drops p_bop] in *; try tauto. subst e. apply hits_bind; [intros _; exact I|apply hits_add].
Qed.
Lemma piece_op ord o : (forall l, Permutation (ord l) l) -> op_in V o -> ~ op_drops o x -> piece (p_op ord o).
Proof.
  intros Hord Ho Nd. destruct (op_on_dec o) as [O|N].
  - destruct o as [e t|es t|e|es| |s e t|s es t|s e|p|fs|q|]; cbn [op_on op_drops p_op op_in] in *; try tauto.
    + apply piece_bind; [now apply piece_add|intros _; apply piece_ret].
    + destruct Ho as [[Hn He] _]. apply piece_bind; [now apply piece_add_many|intros _; apply piece_ret].
    + destruct Ho as [[He Hl] _]. destruct (index0_edge e (edge_in_db _ _ He)) as (a & E0 & Ea). unfold p_add_belief. rewrite E0. cbn [pbind]. rewrite Ea.
      apply piece_bind; [|intros _; apply piece_ret]. apply piece_add_many; [discriminate|]. constructor; [exact He|]. constructor; [exact Hl|constructor].
    + destruct Ho as [[Hn Hes] _]. assert (Fes : Forall (edge_in V) es) by (eapply Forall_impl; [|exact Hes]; intros y [A _]; exact A).
      destruct (index0_edges V es Hn Fes) as (a & E0 & Ea). unfold p_add_belief. rewrite E0. cbn [pbind]. rewrite Ea. cbn [as_seq pbind].
      apply piece_bind; [|intros _; apply piece_ret]. apply piece_add_many; [destruct es; [easy|discriminate]|].
      rewrite Forall_forall in *. intros y Hy. apply in_flat_map in Hy as (e & He & [<-|[<-|[]]]); now apply (Hes e).
    + rewrite Forall_forall in Ho. unfold p_batch_exec. apply piece_bind; [apply piece_open|]. intros h. apply piece_bind; [|intros _; apply piece_close].
      apply piece_for. intros f Hf. apply in_map_iff in Hf as (bs & <- & Hbs). apply piece_for. intros b Hb.
      assert (Ib : In b (List.concat fs)) by (apply in_concat; now exists bs). apply piece_bop; [now apply Ho|]. intros D. apply Nd. now exists b.
  - apply (piece_on (op_on o)); [exact N|]. now apply on_op.
Qed.
Lemma hits_op ord o : op_in V o -> ~ op_drops o x -> op_on o x -> hits (p_op ord o).
Proof.
  intros Ho Nd O. destruct o as [e t|es t|e|es| |s e t|s es t|s e|p|fs|q|]; cbn [op_on op_drops p_op op_in] in *; try tauto.
  - subst e. apply hits_bind; [intros _; exact I|apply hits_add].
  - destruct Ho as [[Hn He] _]. apply hits_bind; [intros _; exact I|now apply hits_add_many].
  - destruct Ho as [[He Hl] _]. destruct (index0_edge e (edge_in_db _ _ He)) as (a & E0 & Ea). unfold p_add_belief. rewrite E0. cbn [pbind]. rewrite Ea.
    apply hits_bind; [intros _; exact I|]. apply hits_add_many; [discriminate| |cbn; destruct O; auto]. constructor; [exact He|]. constructor; [exact Hl|constructor].
  - destruct Ho as [[Hn Hes] _]. assert (Fes : Forall (edge_in V) es) by (eapply Forall_impl; [|exact Hes]; intros y [A _]; exact A).
    destruct (index0_edges V es Hn Fes) as (a & E0 & Ea). unfold p_add_belief. rewrite E0. cbn [pbind]. rewrite Ea. cbn [as_seq pbind].
    apply hits_bind; [intros _; exact I|]. apply hits_add_many; [destruct es; [easy|discriminate]| |].
    + rewrite Forall_forall in *. intros y Hy. apply in_flat_map in Hy as (e & He & [<-|[<-|[]]]); now apply (Hes e).
    + destruct O as (e & He & O). apply in_flat_map. exists e. split; [exact He|]. cbn. destruct O; auto.
  - destruct O as (b & Hb & O). rewrite Forall_forall in Ho. unfold p_batch_exec. apply hits_after; [apply piece_open|]. intros h. apply hits_bind; [intros _; apply piece_close|].
    assert (P : forall b, In b (List.concat fs) -> piece (p_bop b)).
    { intros b' Hb'. apply piece_bop; [now apply Ho|]. intros D. apply Nd. now exists b'. }
    apply in_concat in Hb as (bs & Hbs & Hb).
    apply (hits_for _ _ (pfor bs p_bop)).
    + intros f Hf. apply in_map_iff in Hf as (bs' & <- & Hbs'). apply piece_for. intros b' Hb'. apply P, in_concat. now exists bs'.
    + apply in_map_iff. now exists bs.
    + assert (P' : forall b', In b' bs -> piece (p_bop b')) by (intros b' Hb'; apply P, in_concat; now exists bs).
      apply (hits_for _ _ b); [|exact Hb|].
      * intros b' Hb'. now apply P'.
      * assert (Ib : In b (List.concat fs)) by (apply in_concat; now exists bs). apply hits_bop; [now apply Ho| |exact O]. intros D. apply Nd. now exists b.
Qed.
End Added.

(** ** every schedule: processes of which nobody takes x out *)

Section Everyone.
Variables (V : value -> Prop) (x : value) (flt auto : bool) (ord : list value -> list value) (calls : nat -> list op) (d0 : db) (h0 : list ev).
Hypothesis HV : noalias V.
Hypothesis Hx : edge_in V x.
Hypothesis Hord : forall l, Permutation (ord l) l.
Hypothesis Hin : forall j, Forall (op_in V) (calls j).
Hypothesis Hh0 : Forall (ev_in V) h0.
Hypothesis Hdrop : forall j o, In o (calls j) -> ~ op_drops o x.
Hypothesis W0 : wf_db V d0.
Hypothesis S0 : forall r, is_row (elems x) r -> (In r (perms d0) <-> present h0 x).
Notation any := (fun _ => True).

Definition Ga (j : nat) (d d' : db) : Prop := keeps V (calls_on (calls j)) d d' /\ Gm x d d'.
Lemma Ga_refl j d : Ga j d d.
Proof. split; [apply keeps_refl|apply Gm_refl]. Qed.
Lemma Ga_trans j a b c : Ga j a b -> Ga j b c -> Ga j a c.
Proof. intros [A B] [C D]. split; [now apply (keeps_trans V _ a b)|now apply (Gm_trans x a b)]. Qed.
Lemma tame_and {A} (J : db -> Prop) (G1 G2 : db -> db -> Prop) (p : prog A) (Q : A -> Prop) : tame J G1 p Q -> tame J G2 p Q -> tame J (fun d d' => G1 d d' /\ G2 d d') p Q.
Proof.
  induction p as [[a|e]|X a k IH]; cbn [tame]; auto. destruct a; cbn [tame_act]; auto.
  intros [A1 A2] [B1 B2]. split; [|auto]. intros b d d' n Hd E. destruct (A1 b d d' n Hd E), (B1 b d d' n Hd E). auto.
Qed.
Let safe := safe V auto ord Ga.
Lemma in_calls j o : In o (calls j) -> op_in V o.
Proof. intros H. pose proof (Hin j) as F. rewrite Forall_forall in F. now apply F. Qed.
Lemma start_safe_a : safe (start_world d0 calls).
Proof.
  constructor; cbn; [reflexivity|exact W0|discriminate|discriminate|]. intros i o Ho _. apply tame_and.
  - apply on_op; [exact HV|exact Hord|now apply (in_calls i)|]. intros y Hy. now exists o.
  - apply (piece_op V x auto HV Hx ord o Hord); [now apply (in_calls i)|now apply (Hdrop i)].
Qed.
Lemma run_safe_a w : steps flt auto ord (start_world d0 calls) w -> safe w /\ Gm x d0 (wd_disk w).
Proof.
  intros St. refine (steps_safe V flt auto ord Ga Ga_refl Ga_trans (Gm x) (start_world d0 calls) w (Gm_refl x) (Gm_trans x) _ start_safe_a St).
  intros j a b [_ H]. exact H.
Qed.
Lemma own_idle w j : steps flt auto ord (start_world d0 calls) w -> pr_ok (wd_procs w j) = true -> pr_now (wd_procs w j) = None -> holds j w = false.
Proof.
  intros St Ok Nw. pose proof (own_mine V (fun _ => False) flt auto ord calls j d0 h0 HV Hord Hin Hh0 W0) as M.
  specialize (M ltac:(easy) ltac:(easy) ltac:(easy) w St Ok). cbv zeta in M. rewrite Nw in M. apply M.
Qed.
Lemma out_G0 j d d' : ~ calls_on (calls j) x -> Ga j d d' -> G0 x d d'.
Proof. intros N [K _]. exact (keeps_G0 V x Hx _ d d' N K). Qed.

(** process j is going to write all of x *)
Definition willw (j : nat) (w : world) : Prop :=
  exists q, pr_now (wd_procs w j) = Some q
    /\ wp auto false (Rm V x) q (fun _ d' _ _ => wf_db V d' /\ full x d') (view j w) (pr_cur (wd_procs w j)) (holds j w).
(** process j has changed no row of x that is not on the disk *)
Definition calmw (j : nat) (w : world) : Prop :=
  G0 x (wd_disk w) (view j w) /\ forall q, pr_now (wd_procs w j) = Some q -> tidy V x auto q any.
(** process j has begun a call on x *)
Definition begun (j : nat) (w : world) : Prop := exists b o, calls j = b ++ pr_todo (wd_procs w j) /\ In o b /\ op_on o x.
Definition idlew (j : nat) (w : world) : Prop :=
  G0 x (wd_disk w) (view j w) /\ forall q, pr_now (wd_procs w j) = Some q -> tame (wf_db V) (G0 x) q any.
Definition allok (w : world) : Prop := forall j, calls_on (calls j) x -> pr_ok (wd_procs w j) = true.
Record added (w : world) : Prop := {
  ad_each : forall j, calls_on (calls j) x -> calmw j w \/ willw j w;
  ad_full : some_row x (wd_disk w) -> full x (wd_disk w) \/ exists j, calls_on (calls j) x /\ willw j w;
  ad_todo : forall j, calls_on (calls j) x -> exists b, calls j = b ++ pr_todo (wd_procs w j);
  ad_begun : forall j, calls_on (calls j) x -> idlew j w \/ begun j w;
  ad_some : some_row x (wd_disk w) -> present h0 x \/ exists j, calls_on (calls j) x /\ begun j w }.

Lemma act_calm {X} i w cur (a : act X) (K : X -> Prop) r d wr cur' ps : safe w -> G0 x (wd_disk w) (view i w) ->
  tame_act (wf_db V) (G0 x) a K -> act_on auto i w cur a = Some (r, d, wr, cur') ->
  G0 x (wd_disk w) d /\ G0 x d (view i (World d wr ps)) /\ (forall v, r = Ok v -> K v).
Proof.
  intros S Gv T E. pose proof (sf_auto _ _ _ _ _ S) as Sa. pose proof (sf_disk _ _ _ _ _ S) as Sd.
  destruct (safe_view V auto ord Ga Ga_refl i w S) as [Wv _].
  assert (Same : forall (r0 : res X) cur0, Some (r0, wd_disk w, wd_writer w, cur0) = Some (r, d, wr, cur') ->
     r = r0 /\ G0 x (wd_disk w) d /\ G0 x d (view i (World d wr ps))).
  { intros r0 cur0 H. injection H as <- <- <- <-. split; [reflexivity|]. split; [apply G0_refl|exact Gv]. }
  destruct a; cbn [act_on tame_act] in *.
  - destruct T as [Ts Tk]. destruct (closed h cur); [apply Same in E as (-> & U1 & U2); split; [exact U1|split; [exact U2|discriminate]]|].
    destruct (bind_error s); [apply Same in E as (-> & U1 & U2); split; [exact U1|split; [exact U2|discriminate]]|].
    destruct auto eqn:Ea.
    + destruct (engine true s (wd_disk w)) as [[d1 n]|e] eqn:En; [|apply Same in E as (-> & U1 & U2); split; [exact U1|split; [exact U2|discriminate]]].
      injection E as <- <- <- <-. destruct (Ts _ _ _ _ Sd En) as [_ G]. split; [exact G|]. split; [|intros v _; apply Tk].
      unfold view. cbn. rewrite (Sa eq_refl). apply G0_refl.
    + destruct (lock_free i w); [|discriminate]. destruct (engine false s (view i w)) as [[d1 n]|e] eqn:En; injection E as <- <- <- <-.
      * destruct (Ts _ _ _ _ Wv En) as [_ G]. split; [apply G0_refl|]. split; [|intros v _; apply Tk].
        unfold view at 1. cbn. rewrite Nat.eqb_refl. now apply (G0_trans x _ (view i w)).
      * split; [apply G0_refl|]. split; [|discriminate]. unfold view at 1. cbn. now rewrite Nat.eqb_refl.
  - destruct (closed h cur); [apply Same in E as (-> & U1 & U2); split; [exact U1|split; [exact U2|discriminate]]|].
    destruct (negb (forallb bindable (sel_texts q))); [apply Same in E as (-> & U1 & U2); split; [exact U1|split; [exact U2|discriminate]]|].
    apply Same in E as (-> & U1 & U2). split; [exact U1|]. split; [exact U2|]. intros v H. injection H as <-. now apply T.
  - destruct (holds i w) eqn:Hh.
    + injection E as <- <- <- <-. split; [exact Gv|]. split; [unfold view at 2; cbn; apply G0_refl|]. intros v _. now destruct v.
    + apply Same in E as (-> & U1 & U2). split; [exact U1|]. split; [exact U2|]. intros v _. now destruct v.
  - apply Same in E as (-> & U1 & U2). split; [exact U1|]. split; [exact U2|]. intros v H. injection H as <-. apply T.
  - apply Same in E as (-> & U1 & U2). split; [exact U1|]. split; [exact U2|]. intros v _. now destruct v.
Qed.

Lemma step_ok w w' j : step flt auto ord w w' -> pr_ok (wd_procs w' j) = true -> pr_ok (wd_procs w j) = true.
Proof.
  intros St. assert (Q : forall i p, (pr_ok p = true -> pr_ok (wd_procs w i) = true) -> pr_ok (set_proc i p (wd_procs w) j) = true -> pr_ok (wd_procs w j) = true).
  { intros i p H. unfold set_proc. destruct (Nat.eqb_spec j i) as [->|]; auto. }
  destruct St as [i w p o todo Hp Hn Ht Ho|i w p todo Hp Hn Ht|i w p X a k r d wr cur Hp Hn E|i w p r Hp Hn|i w p X a k Hf Hp Hn|i w p todo' Hf Hp Hi]; subst p;
    cbn [wd_procs]; apply Q; cbn [pr_ok]; auto; [|discriminate].
  now intros [H _]%andb_true_iff.
Qed.
Lemma others i p d wr w j : safe w -> wf_db V d -> Ga i (wd_disk w) d -> j <> i ->
  (holds j w = true /\ d = wd_disk w /\ wr = wd_writer w) \/ (holds j w = false /\ forall ps, holds j (World d wr ps) = false) ->
  let w1 := World d wr (set_proc i p (wd_procs w)) in
  (calmw j w -> calmw j w1) /\ (willw j w -> willw j w1) /\ (idlew j w -> idlew j w1) /\ (begun j w -> begun j w1)
  /\ pr_todo (wd_procs w1 j) = pr_todo (wd_procs w j).
Proof.
  intros S W K N H w1.
  assert (Ep : wd_procs w1 j = wd_procs w j) by (unfold w1; cbn [wd_procs]; now apply set_other).
  unfold calmw, willw, idlew, begun. rewrite !Ep.
  destruct H as [(Hh & -> & ->)|[Hh Hh']].
  - change (view j w1) with (view j w). change (holds j w1) with (holds j w). change (wd_disk w1) with (wd_disk w). tauto.
  - pose proof (Hh' (set_proc i p (wd_procs w))) as Hh1. fold w1 in Hh1. rewrite (holds_view _ _ Hh1), (holds_view _ _ Hh), Hh1, Hh.
    change (wd_disk w1) with d. split; [intros [_ H]; split; [apply G0_refl|exact H]|]. split; [|split; [intros [_ H]; split; [apply G0_refl|exact H]|tauto]].
    intros (q & Hq & Wp). exists q. split; [exact Hq|].
    apply (wp_stable auto false (Rm V x) (Rm_trans V x) q _) with (d := wd_disk w); [|split; [auto|apply K]|exact Wp].
    intros a e e' cur [R1 R2] [A B]. split; [auto|now apply (full_m x e)].
Qed.
Lemma glue i p d wr w : safe w -> added w -> wf_db V d -> Ga i (wd_disk w) d ->
  (forall j, j <> i -> (holds j w = true /\ d = wd_disk w /\ wr = wd_writer w) \/ (holds j w = false /\ forall ps, holds j (World d wr ps) = false)) ->
  let w1 := World d wr (set_proc i p (wd_procs w)) in
  (calls_on (calls i) x -> (calmw i w1 \/ willw i w1) /\ (exists b, calls i = b ++ pr_todo p) /\ (idlew i w1 \/ begun i w1) /\ (begun i w -> begun i w1)) ->
  (G0 x (wd_disk w) d /\ (calls_on (calls i) x -> willw i w -> willw i w1 \/ full x d)) \/ (calls_on (calls i) x /\ willw i w1) ->
  G0 x (wd_disk w) d \/ (calls_on (calls i) x /\ begun i w1) ->
  added w1.
Proof.
  intros S A W K H w1 Hi Hf Hs.
  assert (O : forall j, j <> i -> (calmw j w -> calmw j w1) /\ (willw j w -> willw j w1) /\ (idlew j w -> idlew j w1) /\ (begun j w -> begun j w1)
     /\ pr_todo (wd_procs w1 j) = pr_todo (wd_procs w j)) by (intros j Nj; apply (others i p d wr w j S W K Nj (H j Nj))).
  constructor.
  - intros j Cj. destruct (Nat.eq_dec j i) as [->|Nj]; [now apply Hi|]. destruct (O j Nj) as (O1 & O2 & _). destruct (ad_each _ A j Cj); auto.
  - intros So. destruct Hf as [[G Hf]|[Ci Wi]]; [|right; now exists i].
    assert (So' : some_row x (wd_disk w)) by (apply (some_m x d); [apply G0_Gm, G0_sym, G|exact So]).
    destruct (ad_full _ A So') as [F|(j & Cj & Wj)].
    + left. apply (full_m x (wd_disk w)); [now apply G0_Gm|exact F].
    + destruct (Nat.eq_dec j i) as [->|Nj].
      * destruct (Hf Cj Wj) as [Wi|F]; [right; now exists i|now left].
      * right. exists j. split; [exact Cj|]. now apply (O j Nj).
  - intros j Cj. destruct (Nat.eq_dec j i) as [->|Nj].
    + unfold w1. cbn [wd_procs]. rewrite set_same. now apply Hi.
    + destruct (O j Nj) as (_ & _ & _ & _ & ->). now apply A.
  - intros j Cj. destruct (Nat.eq_dec j i) as [->|Nj]; [now apply Hi|]. destruct (O j Nj) as (_ & _ & O3 & O4 & _). destruct (ad_begun _ A j Cj); auto.
  - intros So. destruct Hs as [G|[Ci Bi]]; [|right; now exists i].
    assert (So' : some_row x (wd_disk w)) by (apply (some_m x d); [apply G0_Gm, G0_sym, G|exact So]).
    destruct (ad_some _ A So') as [P|(j & Cj & Bj)]; [now left|right]. exists j. split; [exact Cj|].
    destruct (Nat.eq_dec j i) as [->|Nj]; [now apply Hi|now apply (O j Nj)].
Qed.

Lemma added_step w w' : steps flt auto ord (start_world d0 calls) w' -> safe w -> added w -> step flt auto ord w w' -> allok w' -> added w'.
Proof.
  intros Sts S A St Oks.
  assert (Nochange : forall i j, j <> i -> (holds j w = true /\ wd_disk w = wd_disk w /\ wd_writer w = wd_writer w) \/ (holds j w = false /\ forall ps, holds j (World (wd_disk w) (wd_writer w) ps) = false)).
  { intros i j N. destruct (holds j w) eqn:Hh; [left; auto|right; split; [reflexivity|]]. intros ps. exact Hh. }
  assert (Drop : forall i j, j <> i -> (holds j w = true /\ wd_disk w = wd_disk w /\ (if holds i w then None else wd_writer w) = wd_writer w)
       \/ (holds j w = false /\ forall ps, holds j (World (wd_disk w) (if holds i w then None else wd_writer w) ps) = false)).
  { intros i j N. destruct (holds j w) eqn:Hh.
    - left. destruct (holds_other j i w) as [F _]; [congruence|exact Hh|]. rewrite F. auto.
    - right. split; [reflexivity|]. intros ps. destruct (holds i w); [reflexivity|exact Hh]. }
  destruct St as [i w p o todo Hp Hn Ht Ho|i w p todo Hp Hn Ht|i w p X a k r d wr cur Hp Hn E|i w p r Hp Hn|i w p X a k Hf Hp Hn|i w p todo' Hf Hp Hi]; subst p.
  - (* a call begins *)
    set (p := Proc _ _ _ _) in *. apply glue; [exact S|exact A|apply S|apply Ga_refl|now apply (Nochange i)| | |left; apply G0_refl].
    + intros Ci. destruct (ad_todo _ A i Ci) as (b & Eb). rewrite Ht in Eb.
      assert (Io : In o (calls i)) by (rewrite Eb; apply in_or_app; right; now left).
      set (w1 := World _ _ _) in *. assert (Ep : wd_procs w1 i = p) by (unfold w1; cbn [wd_procs]; apply set_same).
      assert (Gv : G0 x (wd_disk w1) (view i w1)).
      { change (wd_disk w1) with (wd_disk w). change (view i w1) with (view i w). destruct (ad_each _ A i Ci) as [[Gv _]|(q & Hq & _)]; [exact Gv|congruence]. }
      assert (Eb' : calls i = (b ++ [o]) ++ todo) by (rewrite <- app_assoc; exact Eb).
      split; [left; split; [exact Gv|]; rewrite Ep; cbn; intros q Hq; injection Hq as <-|split; [exists (b ++ [o]); exact Eb'|split]].
      * apply (piece_op V x auto HV Hx ord o Hord); [now apply (in_calls i)|now apply (Hdrop i)].
      * destruct (op_on_dec V x Hx o) as [Oo|No].
        -- right. exists (b ++ [o]), o. rewrite Ep. split; [exact Eb'|]. split; [apply in_or_app; right; now left|exact Oo].
        -- left. split; [exact Gv|]. rewrite Ep. cbn. intros q Hq. injection Hq as <-. eapply tame_weaken; [|apply (on_op V (op_on o) HV ord o Hord (in_calls i o Io)); auto].
           intros d d' _. now apply (keeps_G0 V x Hx).
      * intros (b' & o' & Eb2 & Io' & Oo'). rewrite Ht in Eb2. exists (b' ++ [o]), o'. rewrite Ep. split; [rewrite <- app_assoc; exact Eb2|].
        split; [apply in_or_app; now left|exact Oo'].
    + left. split; [apply G0_refl|]. intros _ (q & Hq & _). congruence.
  - (* the database is opened again *)
    set (p := Proc _ _ _ _) in *. apply glue; [exact S|exact A|apply S|apply Ga_refl|now apply (Drop i)| | |left; apply G0_refl].
    + intros Ci. destruct (ad_todo _ A i Ci) as (b & Eb). rewrite Ht in Eb.
      set (w1 := World _ _ _) in *. assert (Ep : wd_procs w1 i = p) by (unfold w1; cbn [wd_procs]; apply set_same).
      assert (Gv : G0 x (wd_disk w1) (view i w1)).
      { rewrite (holds_view i w1); [apply G0_refl|]. unfold w1, holds at 1. cbn. destruct (holds i w) eqn:Hh; [reflexivity|exact Hh]. }
      assert (Eb' : calls i = (b ++ [OReopen]) ++ todo) by (rewrite <- app_assoc; exact Eb).
      split; [left; split; [exact Gv|]; rewrite Ep; cbn; discriminate|]. split; [exists (b ++ [OReopen]); exact Eb'|].
      split; [left; split; [exact Gv|]; rewrite Ep; cbn; discriminate|].
      intros (b' & o' & Eb2 & Io' & Oo'). rewrite Ht in Eb2. exists (b' ++ [OReopen]), o'. rewrite Ep. split; [rewrite <- app_assoc; exact Eb2|].
      split; [apply in_or_app; now left|exact Oo'].
    + left. split; [apply G0_refl|]. intros _ (q & Hq & _). congruence.
  - (* an action *)
    destruct (act_safe V auto ord Ga Ga_refl Ga_trans i w (pr_cur (wd_procs w i)) a k r d wr cur S (sf_now _ _ _ _ _ S i _ Hn) E) as (W & K & _).
    set (p := Proc _ _ _ _) in *. set (w1 := World _ _ _) in *. assert (Ep : wd_procs w1 i = p) by (unfold w1; cbn [wd_procs]; apply set_same).
    assert (Ww : willw i w -> willw i w1).
    { intros (q & Hq & Wp). exists (after_act r k). rewrite Ep. split; [reflexivity|]. cbn [p pr_cur].
      rewrite Hn in Hq. assert (Wp' : wp auto false (Rm V x) (PAct a k) (fun _ d' _ _ => wf_db V d' /\ full x d') (view i w) (pr_cur (wd_procs w i)) (holds i w)) by congruence.
      exact (mine_act V auto false ord Ga i (Rm V x) w (pr_cur (wd_procs w i)) a k r d wr cur _ _ (Rm_refl V x) S Wp' E). }
    assert (Wb : begun i w -> begun i w1).
    { intros (b & o & Eb & H). exists b, o. rewrite Ep. split; [exact Eb|exact H]. }
    (* an action that changes no row of x *)
    assert (Calm : G0 x (wd_disk w) (view i w) -> forall K0, tame_act (wf_db V) (G0 x) a K0 -> G0 x (wd_disk w) d /\ G0 x d (view i w1) /\ (forall v, r = Ok v -> K0 v)).
    { intros Gv K0 T. exact (act_calm i w _ a K0 r d wr cur _ S Gv T E). }
    (* what i can do *)
    assert (Each : calls_on (calls i) x -> (calmw i w1 /\ G0 x (wd_disk w) d) \/ willw i w1).
    { intros Ci. destruct (ad_each _ A i Ci) as [[Gv T]|Wi]; [|right; now apply Ww]. specialize (T _ Hn). cbn [tidy] in T. destruct T as [C|T].
      - right. apply Ww. exists (PAct a k). split; [exact Hn|]. apply C. now apply (safe_view V auto ord Ga Ga_refl i w).
      - destruct (Calm Gv _ T) as (G1 & G2 & Kv). left. split; [|exact G1]. split; [exact G2|]. rewrite Ep. cbn. intros q Hq. injection Hq as <-.
        destruct r as [v|e]; cbn [after_act]; [now apply Kv|right; exact I]. }
    assert (Beg : calls_on (calls i) x -> (idlew i w1 /\ G0 x (wd_disk w) d) \/ begun i w1).
    { intros Ci. destruct (ad_begun _ A i Ci) as [[Gv T]|Bi]; [|right; now apply Wb]. specialize (T _ Hn). cbn [tame] in T.
      destruct (Calm Gv _ T) as (G1 & G2 & Kv). left. split; [|exact G1]. split; [exact G2|]. rewrite Ep. cbn. intros q Hq. injection Hq as <-.
      destruct r as [v|e]; cbn [after_act]; [now apply Kv|exact I]. }
    apply glue; [exact S|exact A|exact W|exact K| | | |].
    + intros j Nj. apply (act_other auto j i w (pr_cur (wd_procs w i)) a r d wr cur); [congruence|apply S|exact E].
    + intros Ci. split; [destruct (Each Ci) as [[C _]|]; auto|]. split; [exact (ad_todo _ A i Ci)|]. split; [|exact Wb]. destruct (Beg Ci) as [[C _]|]; auto.
    + destruct (calls_on_dec V x Hx (calls i)) as [Ci|Ni].
      * destruct (Each Ci) as [[_ G1]|Wi]; [left|right; auto]. split; [exact G1|]. intros _ Wi. left. now apply Ww.
      * left. split; [now apply (out_G0 i)|]. tauto.
    + destruct (calls_on_dec V x Hx (calls i)) as [Ci|Ni].
      * destruct (Beg Ci) as [[_ G1]|Bi]; [now left|right; auto].
      * left. now apply (out_G0 i).
  - (* a call ends *)
    set (p := Proc _ _ _ _) in *. set (w1 := World _ _ _) in *. assert (Ep : wd_procs w1 i = p) by (unfold w1; cbn [wd_procs]; apply set_same).
    assert (Fr : calls_on (calls i) x -> view i w = wd_disk w /\ exists u, r = Ok u).
    { intros Ci. pose proof (Oks i Ci) as Oi. rewrite Ep in Oi. change (view i w) with (view i w1). change (wd_disk w) with (wd_disk w1).
      split; [apply holds_view; apply (own_idle w1 i Sts); rewrite Ep; [exact Oi|reflexivity]|]. cbn in Oi. apply andb_true_iff in Oi as [_ Oi].
      destruct r as [u|e]; [now exists u|discriminate]. }
    apply glue; [exact S|exact A|apply S|apply Ga_refl|now apply (Nochange i)| | |left; apply G0_refl].
    + intros Ci. destruct (Fr Ci) as [Ev _]. fold w1.
      assert (Gv : G0 x (wd_disk w1) (view i w1)) by (change (view i w1) with (view i w); rewrite Ev; apply G0_refl).
      split; [left; split; [exact Gv|]; rewrite Ep; cbn; discriminate|]. split; [exact (ad_todo _ A i Ci)|].
      split; [left; split; [exact Gv|]; rewrite Ep; cbn; discriminate|].
      intros (b & o & Eb & H). exists b, o. rewrite Ep. split; [exact Eb|exact H].
    + left. split; [apply G0_refl|]. intros Ci (q & Hq & Wp). destruct (Fr Ci) as [Ev [u ->]]. rewrite Hn in Hq. injection Hq as <-. cbn [wp] in Wp.
      right. rewrite <- Ev. apply Wp.
  - (* an action is refused *)
    set (p := Proc _ _ _ _) in *. set (w1 := World _ _ _) in *. assert (Ep : wd_procs w1 i = p) by (unfold w1; cbn [wd_procs]; apply set_same).
    assert (Wi : willw i w1) by (exists (PRet (Err OperationalError)); rewrite Ep; split; reflexivity).
    apply glue; [exact S|exact A|apply S|apply Ga_refl|now apply (Nochange i)| |left; split; [apply G0_refl|intros _ _; now left]|left; apply G0_refl].
    intros Ci. fold w1. split; [right; exact Wi|]. split; [exact (ad_todo _ A i Ci)|].
    assert (Wb : begun i w -> begun i w1) by (intros (b & o & Eb & H); exists b, o; rewrite Ep; split; [exact Eb|exact H]).
    split; [|exact Wb]. destruct (ad_begun _ A i Ci) as [[Gv _]|Bi]; [left|right; now apply Wb]. split; [exact Gv|]. rewrite Ep. cbn. intros q Hq. injection Hq as <-. exact I.
  - (* i dies *)
    set (p := Proc _ _ _ _) in *. set (w1 := World _ _ _) in *. assert (Ep : wd_procs w1 i = p) by (unfold w1; cbn [wd_procs]; apply set_same).
    assert (Ni : ~ calls_on (calls i) x) by (intros Ci; pose proof (Oks i Ci) as Oi; rewrite Ep in Oi; discriminate).
    apply glue; [exact S|exact A|apply S|apply Ga_refl|now apply (Drop i)|tauto|left; split; [apply G0_refl|tauto]|left; apply G0_refl].
Qed.
Lemma added_start : added (start_world d0 calls).
Proof.
  assert (Fs : some_row x d0 -> present h0 x) by (intros (r & Hr & I); now apply (S0 r)).
  constructor; cbn.
  - intros j _. left. split; [apply G0_refl|]. cbn. discriminate.
  - intros So. left. intros r Hr. apply (S0 r Hr). now apply Fs.
  - intros j _. now exists [].
  - intros j _. left. split; [apply G0_refl|]. cbn. discriminate.
  - intros So. left. now apply Fs.
Qed.
Lemma added_steps w : steps flt auto ord (start_world d0 calls) w -> allok w -> added w.
Proof.
  intros St. induction St as [|w w' St IH S1]; intros Ok; [exact added_start|].
  apply (added_step w w'); [now apply (steps_next _ _ _ _ w)|now apply run_safe_a| |exact S1|exact Ok].
  apply IH. intros j Cj. apply (step_ok w w' j S1). now apply Ok.
Qed.

(** after a call on x that returned normally there is a row of x *)
Definition had (j : nat) (todo : list op) (d : db) : Prop :=
  wf_db V d /\ exists before, calls j = before ++ todo /\ ((exists o, In o before /\ op_on o x) -> some_row x d).
Lemma had_mine j w : steps flt auto ord (start_world d0 calls) w -> mine auto false j (Rm V x) (had j) w.
Proof.
  intros St. refine (mine_steps V flt auto false ord Ga j (Rm V x) (had j) Ga_refl Ga_trans (Rm_refl V x) (Rm_trans V x) _ _ _ _ _ _ w start_safe_a _ St).
  - intros i d d' _ W W' [_ K]. split; auto.
  - reflexivity.
  - intros todo d d' [R1 R2] (W & b & E & H). split; [auto|]. exists b. split; [exact E|]. intros Ho. apply (some_m x d); auto.
  - intros o todo d Nr (W & b & E & H).
    assert (Io : In o (calls j)) by (rewrite E; apply in_or_app; right; now left).
    pose proof (in_calls j o Io) as Ho. pose proof (Hdrop j o Io) as Nd.
    assert (W1 : wp auto false (Rm V x) (p_op ord o) (fun _ _ cur dirty => cur = CNone /\ dirty = false) d CNone false).
    { apply (wp_weaken auto false (Rm V x) (Rx V (fun _ => False))); [intros a c [R1 _]; split; [exact R1|easy]|].
      eapply wp_mono; [|apply (wp_op V (fun _ => False) auto false HV ltac:(discriminate) ord o (fun _ => False) [] d Hord Ho Nr)].
      - cbn. intros _ d' cur dirty (A & B & _). now split.
      - split; [exact W|easy].
      - easy.
      - intros y (l & t & e & A & _). destruct l; discriminate.
      - easy. }
    assert (W2 : wp auto false (Rm V x) (p_op ord o) (fun _ d' _ _ => wf_db V d' /\ ((exists o, In o b /\ op_on o x) -> some_row x d')) d CNone false).
    { apply (wp_keep V x auto (p_op ord o) (fun d => wf_db V d /\ ((exists o, In o b /\ op_on o x) -> some_row x d))); [| | |now split].
      - intros d1 d2 [R1 R2] [A B]. split; [auto|]. intros C. apply (some_m x d1); auto.
      - tauto.
      - apply (piece_op V x auto HV Hx ord o Hord Ho Nd). }
    assert (W3 : wp auto false (Rm V x) (p_op ord o) (fun _ d' _ _ => op_on o x -> some_row x d') d CNone false).
    { destruct (op_on_dec V x Hx o) as [O|N].
      - eapply wp_mono; [|apply (hits_op V x auto HV Hx ord o Ho Nd O); exact W]. cbn. tauto.
      - eapply wp_mono; [|exact W1]. cbn. tauto. }
    eapply wp_mono; [|apply wp_and; [exact W1|apply wp_and; [exact W2|exact W3]]]. cbn beta. intros u d' cur dirty ((-> & ->) & (W' & H2) & H3).
    split; [reflexivity|]. split; [reflexivity|]. split; [exact W'|]. exists (b ++ [o]). split; [rewrite <- app_assoc; exact E|].
    intros (o' & Io' & Oo'). apply in_app_iff in Io' as [Io'|[<-|[]]]; [apply H2; now exists o'|now apply H3].
  - intros todo d (W & b & E & H). split; [exact W|]. exists (b ++ [OReopen]). split; [rewrite <- app_assoc; exact E|].
    intros (o' & Io' & Oo'). apply in_app_iff in Io' as [Io'|[<-|[]]]; [apply H; now exists o'|destruct Oo'].
  - unfold mine. cbn. intros _. split; [reflexivity|]. split; [reflexivity|]. split; [exact W0|]. exists []. split; [reflexivity|]. now intros (o & [] & _).
Qed.

(** the state when everyone who works on x is between two calls *)
Theorem added_rows (before later : nat -> list op) w :
  steps flt auto ord (start_world d0 calls) w ->
  (forall j, calls_on (calls j) x -> calls j = before j ++ later j
     /\ pr_now (wd_procs w j) = None /\ pr_todo (wd_procs w j) = later j /\ pr_ok (wd_procs w j) = true) ->
  (forall j d, d = wd_disk w \/ d = view j w ->
     wf_db V d /\ forall r, is_row (elems x) r -> (In r (perms d) <-> present h0 x \/ exists i o, In o (before i) /\ In o (calls i) /\ op_on o x)).
Proof.
  intros St Hb.
  assert (A : added w) by (apply added_steps; [exact St|]; intros j Cj; now apply Hb).
  destruct (run_safe_a w St) as [S K].
  assert (NoWill : forall j, calls_on (calls j) x -> ~ willw j w) by (intros j Cj (q & Hq & _); destruct (Hb j Cj) as (_ & Hn & _); congruence).
  assert (Full : some_row x (wd_disk w) -> full x (wd_disk w)).
  { intros So. destruct (ad_full _ A So) as [F|(j & Cj & Wj)]; [exact F|]. now destruct (NoWill j Cj). }
  assert (Disk : forall r, is_row (elems x) r -> (In r (perms (wd_disk w)) <-> present h0 x \/ exists i o, In o (before i) /\ In o (calls i) /\ op_on o x)).
  { intros r Hr. split.
    - intros I. assert (So : some_row x (wd_disk w)) by (now exists r). destruct (ad_some _ A So) as [P|(j & Cj & b & o & Eb & Io & Oo)]; [now left|right].
      destruct (Hb j Cj) as (Ec & _ & Et & _). rewrite Et, Ec in Eb. apply app_inv_tail in Eb as <-. exists j, o. split; [exact Io|]. split; [|exact Oo].
      rewrite Ec. apply in_or_app. now left.
    - intros [P|(j & o & Io & Ic & Oo)].
      + apply (K r Hr). now apply (S0 r Hr).
      + apply Full; [|exact Hr]. assert (Cj : calls_on (calls j) x) by (now exists o). destruct (Hb j Cj) as (Ec & Hn & Et & Ok).
        pose proof (had_mine j w St Ok) as M. cbv zeta in M. rewrite Hn, Et in M. destruct M as (_ & Hh & _ & b & Eb & H).
        rewrite Ec in Eb. apply app_inv_tail in Eb as <-. rewrite (holds_view _ _ Hh) in H. apply H. now exists o. }
  intros j d [->| ->]; [split; [apply S|exact Disk]|]. destruct (safe_view V auto ord Ga Ga_refl j w S) as [Wv Kv]. split; [exact Wv|].
  intros r Hr. rewrite <- (Disk r Hr). destruct (calls_on_dec V x Hx (calls j)) as [Cj|Nj].
  - destruct (Hb j Cj) as (_ & Hn & _ & Ok). rewrite (holds_view _ _ (own_idle w j St Ok Hn)). reflexivity.
  - symmetry. now apply (out_G0 j _ _ Nj Kv r Hr).
Qed.
(** x was there at the start: it is there at every moment *)
Theorem kept_rows w : present h0 x -> steps flt auto ord (start_world d0 calls) w ->
  forall j d, d = wd_disk w \/ d = view j w -> wf_db V d /\ forall r, is_row (elems x) r -> In r (perms d).
Proof.
  intros P St. destruct (run_safe_a w St) as [S K].
  assert (F : full x (wd_disk w)) by (apply (full_m x d0); [exact K|]; intros r Hr; now apply (S0 r Hr)).
  intros j d [->| ->]; [split; [apply S|exact F]|]. destruct (safe_view V auto ord Ga Ga_refl j w S) as [Wv Kv]. split; [exact Wv|].
  apply (full_m x (wd_disk w)); [apply Kv|exact F].
Qed.
End Everyone.
