(** * P_hist.v -- the tables encode the history *)

From Verif Require Import Py M_symbol M_edge M_sql M_hypergraph P_py Spec P_edge P_perm P_range P_query
  S_history M_driver P_ops.
From Coq Require Import Permutation Factorial String.
Open Scope list_scope.

(** ** the row of a vertex after a history *)

Fixpoint vrow (h : list ev) (v : value) : option (Z * Z) :=
  match h with
  | [] => None
  | EAdd e t :: h' =>
      if memb e (stored h') then vrow h' v
      else if veqb v e then Some (0%Z, t)
      else match count v (elems e), vrow h' v with
           | O, r => r
           | S n, Some (d, s) => Some (d + Z.of_nat (S n), s)%Z
           | S n, None => Some (Z.of_nat (S n), t)
           end
  | ERem e :: h' =>
      if memb e (stored h') then
        if veqb v e then None
        else option_map (fun x => (fst x - Z.of_nat (count v (elems e)), snd x)%Z) (vrow h' v)
      else vrow h' v
  | EDestroy :: _ => None
  end.

(** ** what the updates do to one vertex row *)

Lemma id_eqb v x : db_vertex v = true -> db_vertex x = true ->
  str_eqb (edge2str v) (edge2str x) = veqb v x.
Proof.
  intros Hv Hx. destruct (veqb v x) eqn:E.
  - apply veqb_eq in E as ->. apply str_eqb_refl.
  - apply str_eqb_neq. apply veqb_neq in E. intros H. apply E.
    now apply edge2str_inj; try apply db_vertex_wf.
Qed.

Lemma touch_runs l t w v : all_db l -> db_vertex v = true ->
  vlook (edge2str v) (runs (List.map (fun x => touch (edge2str x) t) l) w)
  = match count v l, vlook (edge2str v) w with
    | O, r => r
    | S n, Some (d, s) => Some (d + Z.of_nat (S n), s)%Z
    | S n, None => Some (Z.of_nat (S n), t)
    end.
Proof.
  intros Hl Hv. revert w. induction Hl as [|x l Hx _ IH]; intros w; [reflexivity|].
  cbn [List.map runs fold_left]. change (fold_left (fun w0 f => f w0) ?a ?b) with (runs a b).
  rewrite IH, vlook_touch, (id_eqb v x Hv Hx). cbn [count]. destruct (veqb v x) eqn:E.
  - apply veqb_eq in E as <-. cbn [Nat.add].
    destruct (vlook (edge2str v) w) as [[d s]|], (count v l) as [|n]; try reflexivity.
    + f_equal. f_equal. lia.
    + f_equal. f_equal. lia.
  - reflexivity.
Qed.

Lemma inc_runs l w v : all_db l -> db_vertex v = true ->
  vlook (edge2str v) (runs (List.map (fun x => inc_row (edge2str x) (-1)) l) w)
  = option_map (fun x => (fst x - Z.of_nat (count v l), snd x)%Z) (vlook (edge2str v) w).
Proof.
  intros Hl Hv. revert w. induction Hl as [|x l Hx _ IH]; intros w.
  - cbn. destruct (vlook (edge2str v) w) as [[d s]|]; [|reflexivity]. cbn. f_equal. f_equal. lia.
  - cbn [List.map runs fold_left]. change (fold_left (fun w0 f => f w0) ?a ?b) with (runs a b).
    rewrite IH, vlook_inc, (id_eqb v x Hv Hx). cbn [count].
    destruct (veqb v x), (vlook (edge2str v) w) as [[d s]|]; cbn [option_map fst snd]; try reflexivity;
      f_equal; f_equal; lia.
Qed.

Lemma vlook_ins_runs rows w id : vlook id (runs (List.map ins_perm rows) w) = vlook id w.
Proof.
  revert w. induction rows as [|r rows IH]; intros w; [reflexivity|]. cbn [List.map runs fold_left].
  change (fold_left (fun w0 f => f w0) ?a ?b) with (runs a b). now rewrite IH, vlook_ins_perm.
Qed.
Lemma vlook_delp_runs rows w id : vlook id (runs (List.map del_perm rows) w) = vlook id w.
Proof.
  revert w. induction rows as [|r rows IH]; intros w; [reflexivity|]. cbn [List.map runs fold_left].
  change (fold_left (fun w0 f => f w0) ?a ?b) with (runs a b). now rewrite IH, vlook_del_perm.
Qed.

(** ** index rows after the updates *)

Lemma perms_ins_runs rows w x : In x (perms (runs (List.map ins_perm rows) w)) <-> In x rows \/ In x (perms w).
Proof.
  revert w. induction rows as [|r rows IH]; intros w; [cbn; tauto|]. cbn [List.map runs fold_left].
  change (fold_left (fun w0 f => f w0) ?a ?b) with (runs a b). rewrite IH, in_ins_perm. cbn [In].
  split; [intros [H|[->|H]]; tauto|intros [[->|H]|H]; tauto].
Qed.
Lemma perms_del_runs rows w x : In x (perms (runs (List.map del_perm rows) w)) <-> ~ In x rows /\ In x (perms w).
Proof.
  revert w. induction rows as [|r rows IH]; intros w; [cbn; tauto|]. cbn [List.map runs fold_left].
  change (fold_left (fun w0 f => f w0) ?a ?b) with (runs a b). rewrite IH, in_del_perm. cbn [In].
  split; [intros (H & H2 & H3); split; [intros [<-|X]; tauto|tauto]|intros (H & H3); split; [tauto|split; [|tauto]]].
  intros ->. tauto.
Qed.
Lemma perms_same_runs fs w : (forall f d, In f fs -> perms (f d) = perms d) -> perms (runs fs w) = perms w.
Proof.
  revert w. induction fs as [|f fs IH]; intros w H; [reflexivity|]. cbn [runs fold_left].
  change (fold_left (fun w0 f => f w0) ?a ?b) with (runs a b). rewrite IH.
  - apply H. now left.
  - intros g d Hg. apply H. now right.
Qed.

(** ** well-formed tables, and invariants of all intermediate states *)

Record wf_db (V : value -> Prop) (w : db) : Prop := {
  wf_rows : rows_ok V w;
  wf_ndp : NoDup (perms w);
  wf_ndv : NoDup (keys w);
  wf_ids : forall id, In id (keys w) -> exists v, db_vertex v = true /\ id = edge2str v }.

Lemma states_inv (P : db -> Prop) fs w : P w -> (forall f d, In f fs -> P d -> P (f d)) ->
  forall d, In d (states fs w) -> P d.
Proof.
  revert w. induction fs as [|f fs IH]; intros w Hw H d Hd; cbn in Hd.
  - now destruct Hd as [<-|[]].
  - destruct Hd as [<-|Hd]; [exact Hw|]. apply (IH (f w)); [apply H; [now left|exact Hw]| |exact Hd].
    intros g d' Hg. apply H. now right.
Qed.
Lemma runs_inv (P : db -> Prop) fs w : P w -> (forall f d, In f fs -> P d -> P (f d)) -> P (runs fs w).
Proof. intros Hw H. apply (states_inv P fs w Hw H). apply states_last. Qed.

Lemma wf_touch V id t w v : db_vertex v = true -> id = edge2str v -> wf_db V w -> wf_db V (touch id t w).
Proof.
  intros Hv -> [A B C D]. constructor.
  - intros r. rewrite perms_touch. apply A.
  - now rewrite perms_touch.
  - now apply nodup_touch.
  - intros id. unfold touch. destruct (vlook (edge2str v) w); [rewrite keys_inc; apply D|].
    rewrite keys_set. destruct (existsb _ _); [apply D|]. rewrite in_app_iff.
    intros [H|[<-|[]]]; [now apply D|now exists v].
Qed.
Lemma wf_set V x w v : db_vertex v = true -> wf_db V w -> wf_db V (set_row (edge2str v) x w).
Proof.
  intros Hv [A B C D]. constructor.
  - intros r. rewrite perms_set. apply A.
  - now rewrite perms_set.
  - now apply nodup_set.
  - intros id. rewrite keys_set. destruct (existsb _ _); [apply D|]. rewrite in_app_iff.
    intros [H|[<-|[]]]; [now apply D|now exists v].
Qed.
Lemma wf_inc V id k w : wf_db V w -> wf_db V (inc_row id k w).
Proof. intros [A B C D]. constructor; [exact A|exact B|now rewrite keys_inc|]. intros x. rewrite keys_inc. apply D. Qed.
Lemma keys_del_incl id w x : In x (keys (del_row id w)) -> In x (keys w).
Proof.
  unfold keys, del_row. cbn. rewrite !in_map_iff. intros (y & E & H). apply filter_In in H as [H _]. now exists y.
Qed.
Lemma wf_del V id w : wf_db V w -> wf_db V (del_row id w).
Proof.
  intros [A B C D]. constructor; [exact A|exact B|now apply nodup_del|].
  intros x Hx. apply D. now apply (keys_del_incl id).
Qed.
Lemma wf_ins V e r w : edge_in V e -> is_row (elems e) r -> wf_db V w -> wf_db V (ins_perm r w).
Proof.
  intros He Hr [A B C D]. constructor.
  - intros x Hx. apply in_ins_perm in Hx as [->|Hx]; [now exists e|now apply A].
  - now apply nodup_ins_perm.
  - now rewrite keys_ins_perm.
  - intros x. rewrite keys_ins_perm. apply D.
Qed.
Lemma wf_delp V r w : wf_db V w -> wf_db V (del_perm r w).
Proof.
  intros [A B C D]. constructor.
  - intros x Hx. apply in_del_perm in Hx as [_ Hx]. now apply A.
  - cbn. now apply NoDup_filter.
  - exact C.
  - exact D.
Qed.

Lemma elems_nonnil V e : edge_in V e -> elems e <> [].
Proof.
  intros H. destruct (db_edge_elems e (edge_in_db _ _ H)) as (_ & _ & L).
  intros E. rewrite E in L. cbn in L. lia.
Qed.
Lemma elems_db V e x : edge_in V e -> In x (elems e) -> db_vertex x = true.
Proof.
  intros H Hx. destruct (db_edge_elems e (edge_in_db _ _ H)) as (_ & A & _).
  unfold all_db in A. rewrite Forall_forall in A. now apply A.
Qed.

Lemma add_upds_wf V e t f d : edge_in V e -> In f (add_upds e t) -> wf_db V d -> wf_db V (f d).
Proof.
  intros He Hf Hd. unfold add_upds in Hf. rewrite !in_app_iff, !in_map_iff in Hf.
  destruct Hf as [(x & <- & Hx)|[[<-|[]]|(r & <- & Hr)]].
  - apply (wf_touch V _ t d x); [now apply (elems_db V e)|reflexivity|exact Hd].
  - apply wf_set; [now apply db_edge_vertex, (edge_in_db V)|exact Hd].
  - apply (wf_ins V e); [exact He| |exact Hd]. apply rows_of_spec; [now apply (elems_nonnil V)|exact Hr].
Qed.
Lemma rem_upds_wf V e f d : In f (rem_upds e) -> wf_db V d -> wf_db V (f d).
Proof.
  intros Hf Hd. unfold rem_upds in Hf. rewrite !in_app_iff, !in_map_iff in Hf.
  destruct Hf as [(x & <- & Hx)|[(r & <- & Hr)|[<-|[]]]].
  - now apply wf_inc.
  - now apply wf_delp.
  - now apply wf_del.
Qed.

(** index rows of the edges other than [e] *)
Definition others (V : value -> Prop) (E : list value) (e : value) (w : db) : Prop :=
  forall x, edge_in V x -> x <> e -> forall r, is_row (elems x) r -> (In r (perms w) <-> In x E).

Lemma row_other V x e r : edge_in V x -> edge_in V e -> is_row (elems x) r -> is_row (elems e) r -> x = e.
Proof.
  intros Hx He Rx Re.
  destruct (db_edge_elems x (edge_in_db _ _ Hx)) as (Ex & Ax & _).
  destruct (db_edge_elems e (edge_in_db _ _ He)) as (Ee & Ae & _).
  rewrite Ex, Ee. f_equal. apply (row_unique _ _ r); auto; now apply (elems_nonnil V).
Qed.

Lemma add_upds_others V E e t f d : edge_in V e -> In f (add_upds e t) -> others V E e d -> others V E e (f d).
Proof.
  intros He Hf Hd x Hx Nx r Hr. unfold add_upds in Hf. rewrite !in_app_iff, !in_map_iff in Hf.
  destruct Hf as [(y & <- & Hy)|[[<-|[]]|(r' & <- & Hr')]].
  - rewrite perms_touch. now apply Hd.
  - rewrite perms_set. now apply Hd.
  - rewrite in_ins_perm. rewrite (Hd x Hx Nx r Hr). split; [|tauto]. intros [->|H]; [|exact H].
    exfalso. apply Nx. apply (row_other V x e r'); auto. apply rows_of_spec; [now apply (elems_nonnil V)|exact Hr'].
Qed.
Lemma rem_upds_others V E e f d : edge_in V e -> In f (rem_upds e) -> others V E e d -> others V E e (f d).
Proof.
  intros He Hf Hd x Hx Nx r Hr. unfold rem_upds in Hf. rewrite !in_app_iff, !in_map_iff in Hf.
  destruct Hf as [(y & <- & Hy)|[(r' & <- & Hr')|[<-|[]]]].
  - now apply Hd.
  - rewrite in_del_perm. rewrite (Hd x Hx Nx r Hr). split; [tauto|]. intros H. split; [|exact H]. intros ->.
    apply Nx. apply (row_other V x e r'); auto. apply rows_of_spec; [now apply (elems_nonnil V)|exact Hr'].
  - now apply Hd.
Qed.

(** ** the invariant *)

Record Inv (V : value -> Prop) (w : db) (h : list ev) : Prop := {
  i_wf : wf_db V w;
  i_edges : forall e, In e (stored h) -> edge_in V e;
  i_rows : forall e r, edge_in V e -> is_row (elems e) r -> (In r (perms w) <-> In e (stored h));
  i_vert : forall v, db_vertex v = true -> vlook (edge2str v) w = vrow h v }.

Lemma Inv_empty V : Inv V db_empty [].
Proof.
  constructor; try easy. constructor; try easy; constructor.
Qed.

Lemma row_exists V e : edge_in V e -> exists r, is_row (elems e) r /\ prefixb (nodes2str (elems e)) r = true.
Proof.
  intros He. exists (nodes2str (elems e ++ [VInt 0])). split.
  - exists 0%Z, (elems e). split; [|split; [apply nthperm_0|reflexivity]]. pose proof (lt_O_fact (List.length (elems e))). lia.
  - rewrite nodes2str_app; [apply prefixb_app|now apply (elems_nonnil V)|easy].
Qed.

Lemma Inv_exists V w h c e : noalias V -> Inv V w h -> c_work c = w -> live c -> edge_in V e ->
  gives (exists_ e) c (memb e (stored h)).
Proof.
  intros HV I Ew L He. destruct (exists_run V w c e HV (wf_rows V w (i_wf _ _ _ I)) Ew L He) as (b & G & Hb).
  assert (b = memb e (stored h)); [|now subst b].
  destruct (memb e (stored h)) eqn:M.
  - apply Hb. apply memb_in in M. destruct (row_exists V e He) as (r & Hr & Pr). exists r.
    split; [now apply (i_rows _ _ _ I e r)|]. now split.
  - destruct b; [|reflexivity]. exfalso. apply memb_nin in M. apply M.
    destruct (proj1 Hb eq_refl) as (r & Hr & Rr & _). now apply (i_rows _ _ _ I e r).
Qed.

Lemma Inv_add V w h e t : Inv V w h -> edge_in V e -> ~ In e (stored h) ->
  Inv V (runs (add_upds e t) w) (EAdd e t :: h).
Proof.
  intros I He Hn. pose proof (edge_in_db _ _ He) as De.
  assert (Hv : db_vertex e = true) by (now apply db_edge_vertex).
  assert (Ms : memb e (stored h) = false) by (now apply memb_nin).
  assert (Pt : perms (runs (List.map (fun x => touch (edge2str x) t) (elems e)) w) = perms w).
  { apply perms_same_runs. intros f d Hf. apply in_map_iff in Hf as (x & <- & _). apply perms_touch. }
  constructor.
  - apply runs_inv; [apply I|]. intros f d. now apply add_upds_wf.
  - intros x Hx. apply stored_add in Hx as [->|Hx]; [exact He|]. now apply (i_edges _ _ _ I).
  - intros x r Hx Hr. rewrite stored_add. unfold add_upds. rewrite !runs_app, perms_ins_runs.
    cbn [runs fold_left]. rewrite perms_set. change (fold_left (fun w0 f => f w0) ?a ?b) with (runs a b).
    rewrite Pt, rows_of_spec by (now apply (elems_nonnil V)). rewrite (i_rows _ _ _ I x r Hx Hr). split.
    + intros [H|H]; [left; now apply (row_other V x e r)|now right].
    + intros [->|H]; [now left|now right].
  - intros v Dv. cbn [vrow]. rewrite Ms. unfold add_upds. rewrite !runs_app, vlook_ins_runs. cbn [runs fold_left].
    rewrite vlook_set. change (fold_left (fun w0 f => f w0) ?a ?b) with (runs a b).
    rewrite (id_eqb v e Dv Hv). destruct (veqb v e); [reflexivity|].
    rewrite touch_runs; [|now apply db_edge_elems|exact Dv]. now rewrite (i_vert _ _ _ I v Dv).
Qed.

Lemma stored_add_present e t h : In e (stored h) -> stored (EAdd e t :: h) = stored h.
Proof. intros H. cbn. apply memb_in in H. now rewrite H. Qed.

Lemma Inv_add_present V w h e t : Inv V w h -> In e (stored h) -> Inv V w (EAdd e t :: h).
Proof.
  intros I H. pose proof (stored_add_present e t h H) as S. constructor; try rewrite S; try apply I.
  intros v Dv. cbn. apply memb_in in H. rewrite H. now apply I.
Qed.

Lemma Inv_rem V w h e : Inv V w h -> In e (stored h) -> Inv V (runs (rem_upds e) w) (ERem e :: h).
Proof.
  intros I Hs. pose proof (i_edges _ _ _ I e Hs) as He. pose proof (edge_in_db _ _ He) as De.
  assert (Hv : db_vertex e = true) by (now apply db_edge_vertex).
  assert (Ms : memb e (stored h) = true) by (now apply memb_in).
  assert (Pt : perms (runs (List.map (fun x => inc_row (edge2str x) (-1)) (elems e)) w) = perms w).
  { apply perms_same_runs. intros f d Hf. apply in_map_iff in Hf as (x & <- & _). reflexivity. }
  constructor.
  - apply runs_inv; [apply I|]. intros f d. apply rem_upds_wf.
  - intros x Hx. apply stored_rem in Hx as [_ Hx]. now apply (i_edges _ _ _ I).
  - intros x r Hx Hr. rewrite stored_rem. unfold rem_upds. rewrite !runs_app. cbn [runs fold_left].
    rewrite perms_del. change (fold_left (fun w0 f => f w0) ?a ?b) with (runs a b).
    rewrite perms_del_runs, Pt, rows_of_spec by (now apply (elems_nonnil V)).
    rewrite (i_rows _ _ _ I x r Hx Hr). split; intros [A B]; split; try exact B.
    + intros ->. easy.
    + intros R. apply A. now apply (row_other V x e r).
  - intros v Dv. cbn [vrow]. rewrite Ms. unfold rem_upds. rewrite !runs_app. cbn [runs fold_left].
    rewrite vlook_del. change (fold_left (fun w0 f => f w0) ?a ?b) with (runs a b).
    rewrite (id_eqb v e Dv Hv). destruct (veqb v e); [reflexivity|].
    rewrite vlook_delp_runs, inc_runs; [|now apply db_edge_elems|exact Dv]. now rewrite (i_vert _ _ _ I v Dv).
Qed.

Lemma Inv_rem_absent V w h e : Inv V w h -> ~ In e (stored h) -> Inv V w (ERem e :: h).
Proof.
  intros I H. pose proof (stored_rem_absent e h H) as S. constructor; try rewrite S; try apply I.
  intros v Dv. cbn. apply memb_nin in H. rewrite H. now apply I.
Qed.

Lemma Inv_destroy V w h : Inv V (runs [wipe_v; wipe_p] w) (EDestroy :: h).
Proof. constructor; try easy. constructor; try easy; constructor. Qed.

(** ** the operations *)

(** running [m] in a state that encodes [h] ends in a state that encodes [h'] *)
Definition goes {A} (b : bool) (V : value -> Prop) (h h' : list ev) (m : M A) (a : A) : Prop :=
  forall c, live c -> Inv V (c_work c) h -> exists fs, does b m c a fs /\ Inv V (runs fs (c_work c)) h'.

Lemma goes_bind {A B} b V h h1 h2 (m : M A) (k : A -> M B) a x :
  goes b V h h1 m a -> goes b V h1 h2 (k a) x -> goes b V h h2 (bind m k) x.
Proof.
  intros H1 H2 c L I. destruct (H1 c L I) as (fs & (c1 & t1 & E1 & S1) & I1).
  destruct (H2 c1) as (gs & (c2 & t2 & E2 & S2) & I2).
  - unfold live. now rewrite (st_cur _ _ _ _ _ S1).
  - now rewrite (st_work _ _ _ _ _ S1).
  - exists (fs ++ gs). split.
    + exists c2, (t1 ++ t2). split; [unfold bind; now rewrite E1, E2|now apply (step_app b c fs c1)].
    + rewrite runs_app. now rewrite (st_work _ _ _ _ _ S1) in I2.
Qed.
Lemma goes_ret {A} b V h (a : A) : goes b V h h (ret a) a.
Proof. intros c L I. exists []. split; [apply does_ret|exact I]. Qed.
Lemma goes_weaken {A} V h h' (m : M A) a : goes true V h h' m a -> goes false V h h' m a.
Proof. intros H c L I. destruct (H c L I) as (fs & D & I'). exists fs. split; [now apply does_weaken|exact I']. Qed.
Lemma goes_gives {A} b V h (m : M A) a :
  (forall c, live c -> Inv V (c_work c) h -> gives m c a) -> goes b V h h m a.
Proof. intros H c L I. exists []. split; [apply does_gives, H; assumption|exact I]. Qed.
Lemma goes_lift {A} b V h (r : res A) a : r = Ok a -> goes b V h h (lift r) a.
Proof. intros ->. apply goes_ret. Qed.

Lemma goes_add_raw V h e t : noalias V -> edge_in V e -> int64 t = true -> goes true V h (EAdd e t :: h) (add_raw e t) e.
Proof.
  intros HV He T c L I. pose proof (Inv_exists V _ h c e HV I eq_refl L He) as G.
  destruct (memb e (stored h)) eqn:M.
  - exists []. split; [now apply does_gives, add_old_does|]. apply Inv_add_present; [exact I|now apply memb_in].
  - exists (add_upds e t). split; [apply add_new_does; auto; now apply (edge_in_db V)|].
    apply Inv_add; [exact I|exact He|now apply memb_nin].
Qed.
Lemma goes_remove_raw V h e : noalias V -> edge_in V e -> goes false V h (ERem e :: h) (remove_raw e) tt.
Proof.
  intros HV He c L I. pose proof (Inv_exists V _ h c e HV I eq_refl L He) as G.
  destruct (memb e (stored h)) eqn:M.
  - exists (rem_upds e). split; [apply remove_old_does; auto; now apply (edge_in_db V)|].
    apply Inv_rem; [exact I|now apply memb_in].
  - exists []. split; [now apply does_gives, remove_absent_does|]. apply Inv_rem_absent; [exact I|now apply memb_nin].
Qed.
Lemma goes_destroy V h : goes true V h (EDestroy :: h) destroy tt.
Proof. intros c L I. exists [wipe_v; wipe_p]. split; [now apply destroy_does|apply (Inv_destroy V _ h)]. Qed.

Lemma goes_mfor {A} b V (l : list A) (f : A -> M unit) (g : list ev -> A -> list ev) :
  (forall x h, In x l -> goes b V h (g h x) (f x) tt) ->
  forall h, goes b V h (fold_left g l h) (mfor l f) tt.
Proof.
  induction l as [|x l IH]; intros H h; cbn [mfor fold_left]; [apply goes_ret|].
  eapply goes_bind; [apply H; now left|]. apply IH. intros y h' Hy. apply H. now right.
Qed.

Lemma index0_edge e : db_edge e = true -> exists a, index0 e = Ok a /\ is_tup a = false.
Proof.
  intros H. apply db_edge_inv in H as (a & b & l & -> & Ha & _). exists a. split; [reflexivity|now apply db_atom_not_tup].
Qed.
Lemma index0_edges V es : es <> [] -> Forall (edge_in V) es -> exists a, index0 (VTup es) = Ok a /\ is_tup a = true.
Proof.
  intros Hn H. destruct es as [|e es]; [easy|]. exists e. split; [reflexivity|]. inversion H as [|? ? [D _] _]; subst.
  apply db_edge_inv in D as (a & b & l & -> & _). reflexivity.
Qed.

Lemma goes_add V h e t : noalias V -> edge_in V e -> int64 t = true -> goes true V h (EAdd e t :: h) (add e t) e.
Proof.
  intros HV He T. destruct (index0_edge e (edge_in_db _ _ He)) as (a & E0 & Ea). unfold add.
  eapply goes_bind; [apply goes_lift, E0|]. cbn beta. rewrite Ea.
  eapply goes_bind; [|apply goes_ret].
  eapply goes_bind; [now apply goes_add_raw|apply goes_ret].
Qed.
Lemma goes_remove V h e : noalias V -> edge_in V e -> goes false V h (ERem e :: h) (remove e) tt.
Proof.
  intros HV He. destruct (index0_edge e (edge_in_db _ _ He)) as (a & E0 & Ea). unfold remove.
  eapply goes_bind; [apply goes_lift, E0|]. cbn beta. rewrite Ea. now apply goes_remove_raw.
Qed.
Lemma goes_remove_many V h es : noalias V -> es <> [] -> Forall (edge_in V) es ->
  goes false V h (fold_left (fun h e => ERem e :: h) es h) (remove (VTup es)) tt.
Proof.
  intros HV Hn Hes. destruct (index0_edges V es Hn Hes) as (a & E0 & Ea). unfold remove.
  eapply goes_bind; [apply goes_lift, E0|]. cbn beta. rewrite Ea.
  eapply goes_bind; [apply goes_lift; reflexivity|]. cbn beta.
  apply (goes_mfor false V es remove_raw (fun h e => ERem e :: h)). intros x h' Hx. apply goes_remove_raw; [exact HV|].
  rewrite Forall_forall in Hes. now apply Hes.
Qed.

(** ** top level: outside a batch *)

Record ready (V : value -> Prop) (c : conn) (h : list ev) : Prop := {
  rd_cur : c_cur c = CNone;
  rd_sync : c_comm c = c_work c;
  rd_inv : Inv V (c_work c) h }.

Lemma ready_live V c h : ready V c h -> live c.
Proof. intros [H _ _]. unfold live. now rewrite H. Qed.

(** [m] performs the updates [fs] and returns [a]; [tr]: the crash points *)
Record top {A} (V : value -> Prop) (h' : list ev) (m : M A) (a : A) (c : conn) (fs : list upd) (c' : conn) (tr : list db) : Prop := {
  tp_run : m c = (Ok a, c', tr);
  tp_auto : c_auto c' = c_auto c;
  tp_ready : ready V c' h';
  tp_work : c_work c' = runs fs (c_work c);
  tp_crash : forall d, In d tr -> In d (states fs (c_work c)) }.

Lemma goes_top {A} b V h h' (m : M A) a c : goes b V h h' m a -> ready V c h ->
  exists fs c' tr, top V h' m a c fs c' tr.
Proof.
  intros G [Hc Hs I]. destruct (G c) as (fs & (c' & tr & E & S) & I').
  { unfold live. now rewrite Hc. }
  { exact I. }
  exists fs, c', tr. destruct (st_sync _ _ _ _ _ S (or_introl Hc) Hs) as [Hs' Tr].
  constructor; [exact E|apply S| |apply S|exact Tr].
  constructor; [now rewrite (st_cur _ _ _ _ _ S)|exact Hs'|now rewrite (st_work _ _ _ _ _ S)].
Qed.

Lemma shared_top b V h h' (body : M unit) c : goes b V h h' body tt -> ready V c h ->
  exists fs c' tr, top V h' (do cur <- open_cursor false; body;; close_cursor cur false true) tt c fs c' tr
    /\ (b = true -> c_auto c = false -> forall d, In d tr -> d = c_comm c \/ d = c_comm c').
Proof.
  intros G [Hc Hs I]. set (c0 := Conn (c_auto c) (c_comm c) (c_work c) COpen).
  destruct (G c0) as (fs & (c1 & tr & E & S) & I'); [easy|exact I|].
  assert (O : open_cursor false c = (Ok HShared, c0, [])).
  { unfold open_cursor, bind, get_cur, set_cur, ret, c0. rewrite Hc. reflexivity. }
  pose proof (st_cur _ _ _ _ _ S) as Hc1. cbn in Hc1.
  assert (K : close_cursor HShared false true c1
              = (Ok tt, Conn (c_auto c1) (c_work c1) (c_work c1) CNone, [c_work c1])).
  { unfold close_cursor, bind, commit, get_cur, set_cur. cbn. now rewrite Hc1. }
  exists fs, (Conn (c_auto c1) (c_work c1) (c_work c1) CNone), (tr ++ [c_work c1]). split.
  - constructor.
    + unfold bind. now rewrite O, E, K.
    + cbn. rewrite (st_auto _ _ _ _ _ S). reflexivity.
    + constructor; [reflexivity|reflexivity|]. cbn. now rewrite (st_work _ _ _ _ _ S).
    + cbn. now rewrite (st_work _ _ _ _ _ S).
    + intros d Hd. apply in_app_iff in Hd as [Hd|[<-|[]]].
      * destruct (st_weak _ _ _ _ _ S d (or_intror Hd)) as [->|H]; [|exact H]. cbn. rewrite Hs. apply states_hd.
      * rewrite (st_work _ _ _ _ _ S). apply states_last.
  - intros Hb Ha d Hd. cbn. apply in_app_iff in Hd as [Hd|[<-|[]]]; [|now right]. left.
    destruct (st_open _ _ _ _ _ S Hb eq_refl Ha) as [_ T]. now apply T.
Qed.

Lemma top_bind_ret {A B} V h' (m : M A) a (x : B) c fs c' tr :
  top V h' m a c fs c' tr -> top V h' (m;; ret x) x c fs c' tr.
Proof.
  intros [R A1 Rd W C]. constructor; try assumption. unfold bind. rewrite R. cbn. now rewrite app_nil_r.
Qed.
Lemma top_eq {A} V h' (m m' : M A) a c fs c' tr : m c = m' c -> top V h' m a c fs c' tr -> top V h' m' a c fs c' tr.
Proof. intros E [R A1 Rd W C]. constructor; try assumption. now rewrite <- E. Qed.

Lemma bind_ext {A B} (m : M A) (k k' : A -> M B) c : (forall a c', k a c' = k' a c') -> bind m k c = bind m k' c.
Proof. intros H. unfold bind. destruct (m c) as [[[a|] c1] t1]; [now rewrite H|reflexivity]. Qed.
Lemma bind_ext_l {A B} (m m' : M A) (k : A -> M B) c : m c = m' c -> bind m k c = bind m' k c.
Proof. intros H. unfold bind. now rewrite H. Qed.

(** multi-edge add *)
Lemma add_many_top V h es t c : noalias V -> es <> [] -> Forall (edge_in V) es -> int64 t = true -> ready V c h ->
  exists fs c' tr, top V (fold_left (fun h e => EAdd e t :: h) es h) (add (VTup es) t) (VTup es) c fs c' tr
    /\ (c_auto c = false -> forall d, In d tr -> d = c_comm c \/ d = c_comm c').
Proof.
  intros HV Hn Hes Ts R. destruct (index0_edges V es Hn Hes) as (a & E0 & Ea).
  assert (G : goes true V h (fold_left (fun h e => EAdd e t :: h) es h)
                (mfor es (fun edge => add_raw edge t;; ret tt)) tt).
  { apply (goes_mfor true V es _ (fun h e => EAdd e t :: h)). intros x h' Hx.
    eapply goes_bind; [|apply goes_ret]. apply goes_add_raw; [exact HV| |exact Ts]. rewrite Forall_forall in Hes. now apply Hes. }
  destruct (shared_top true V h _ _ c G R) as (fs & c' & tr & T & At).
  exists fs, c', tr. split; [|now apply At].
  eapply top_eq; [|exact (top_bind_ret V _ _ tt (VTup es) c fs c' tr T)].
  unfold add. rewrite (bind_gives _ _ c a) by (now apply gives_lift). rewrite Ea.
  apply bind_ext_l. apply bind_ext. intros hd c2. symmetry. apply (bind_ret_l es (fun items => mfor items (fun edge => add_raw edge t;; ret tt);; close_cursor hd false true)).
Qed.

Lemma batch_top V h h' (funs : list (M unit)) c : goes false V h h' (mfor funs (fun f => f)) tt -> ready V c h ->
  exists fs c' tr, top V h' (batch_exec funs) tt c fs c' tr.
Proof.
  intros G R. destruct (shared_top false V h h' _ c G R) as (fs & c' & tr & T & _). now exists fs, c', tr.
Qed.

(** ** queries *)

Lemma matchb_spec p l : matchb p l = true <-> matches p l.
Proof.
  revert l. induction p as [|q p IH]; intros [|x l]; cbn [matchb].
  - split; [constructor|reflexivity].
  - split; [easy|]. intros H. inversion H.
  - split; [now destruct q|]. intros H. inversion H.
  - destruct q as [|s|z|f|m].
    1: { rewrite IH. split; intros H; [constructor; auto|now inversion H]. }
    all: rewrite andb_true_iff, veqb_eq, IH; split;
      [intros [<- H]; constructor; auto|intros H; inversion H as [|? ? ? ? [E|E] H']; subst; [discriminate|auto]].
Qed.

Lemma pattern_in_ok V p : pattern_in V p -> pattern_ok V p.
Proof.
  intros [F I]. constructor; [exact F| |].
  - unfold all_db. rewrite Forall_forall. intros x Hx. apply filter_In in Hx as [Hx Bx]. now apply I.
  - intros x Hx Bx. now apply I.
Qed.

Lemma hit_stored V w h s e : Inv V w h -> edge_in V e -> hit w s e -> In e (stored h).
Proof. intros I He (r & Hr & Rr & _). now apply (i_rows _ _ _ I e r). Qed.
Lemma stored_indexed V w h e : Inv V w h -> In e (stored h) -> indexed w e.
Proof. intros I He r Hr. apply (i_rows _ _ _ I e r); [now apply (i_edges _ _ _ I)|exact Hr|exact He]. Qed.

Lemma Inv_pattern V h p c : noalias V -> Inv V (c_work c) h -> live c -> pattern_in V p ->
  exists l, gives (pattern2edges (VTup p)) c l /\ NoDup l
    /\ forall e, In e l <-> In e (stored h) /\ matches p (elems e).
Proof.
  intros HV I L Hp. pose proof (pattern_in_ok V p Hp) as Hp'.
  destruct (pattern_run V (c_work c) c p HV (wf_rows _ _ (i_wf _ _ _ I)) eq_refl L Hp') as (l & G & N & Il).
  exists l. split; [exact G|]. split; [exact N|]. intros e. rewrite Il. split.
  - intros (He & Hh & M). split; [|exact M]. now apply (hit_stored V _ h _ e I He Hh).
  - intros (He & M). pose proof (i_edges _ _ _ I e He) as Hi. split; [exact Hi|]. split; [|exact M].
    destruct Hp' as [(a & rest & Ea & _) _ _].
    apply (indexed_hit_pattern V); [exact Hi|now apply (stored_indexed V _ h)| |exact M].
    exists a. apply filter_In. rewrite Ea. now left.
Qed.

Lemma Inv_star V h a c : noalias V -> Inv V (c_work c) h -> live c -> db_atom a = true ->
  exists l, gives (star a) c l /\ NoDup l
    /\ forall e, In e l <-> In e (stored h) /\ In a (elems e).
Proof.
  intros HV I L Ha.
  destruct (star_run V (c_work c) c a HV (wf_rows _ _ (i_wf _ _ _ I)) eq_refl L Ha) as (l & G & N & Il).
  exists l. split; [exact G|]. split; [exact N|]. intros e. rewrite Il. split.
  - intros (He & Hh). split; [now apply (hit_stored V _ h _ e I He Hh)|]. now apply (hit_star_elem V (c_work c)).
  - intros (He & M). split; [now apply (i_edges _ _ _ I)|]. apply indexed_hit_star; [now apply (stored_indexed V _ h)|exact M].
Qed.

Lemma degree_gives v c : c_cur c = CNone -> db_vertex v = true ->
  gives (degree v) c (match vlook (edge2str v) (c_work c) with Some (d, _) => d | None => 0%Z end).
Proof.
  intros Hc Hv. unfold gives, degree, bind, open_cursor, get_cur, bind, query, ret. rewrite Hc. unfold usable.
  cbn [negb forallb]. rewrite (vertex_bindable v Hv). cbn [andb negb].
  destruct (vlook (edge2str v) (c_work c)) as [[d s]|]; cbn.
  - reflexivity.
  - unfold close_cursor, bind, get_cur. now rewrite Hc.
Qed.
Lemma timestamp_gives v c : c_cur c = CNone -> db_vertex v = true ->
  gives (timestamp v) c (match vlook (edge2str v) (c_work c) with Some (_, s) => s | None => (-1)%Z end).
Proof.
  intros Hc Hv. unfold gives, timestamp, bind, open_cursor, get_cur, bind, query, ret. rewrite Hc. unfold usable.
  cbn [negb forallb]. rewrite (vertex_bindable v Hv). cbn [andb negb].
  destruct (vlook (edge2str v) (c_work c)) as [[d s]|]; cbn.
  - reflexivity.
  - unfold close_cursor, bind, get_cur. now rewrite Hc.
Qed.

Lemma source_atom : db_atom const_source = true.
Proof. vm_compute. reflexivity. Qed.

Lemma sources_pattern_in (V : value -> Prop) e : db_vertex e = true -> V e -> V const_source ->
  pattern_in V [const_source; e; VNone].
Proof.
  intros He Ve Vs. constructor.
  - exists const_source. eexists. split; [cbn; reflexivity|apply source_atom].
  - intros x [<-|[<-|[<-|[]]]] B; easy.
Qed.

Lemma sources_pure V h e w l : noalias V -> Inv V w h -> db_vertex e = true ->
  (forall x, In x l <-> In x (stored h) /\ matches [const_source; e; VNone] (elems x)) ->
  exists ss, mapr (fun x => let? l := as_seq x in nth_res l 2) l = Ok ss
    /\ NoDup (py_set ss) /\ forall s, In s (py_set ss) <-> In (link s e) (stored h).
Proof.
  intros HV I He Il.
  assert (F : forall x, In x l -> exists s, x = link s e /\ V s /\ db_vertex s = true).
  { intros x Hx. apply Il in Hx as [Hx M]. pose proof (i_edges _ _ _ I x Hx) as Hi.
    destruct (db_edge_elems x (edge_in_db _ _ Hi)) as (Ex & Ax & _).
    assert (Vx : forall y, In y (elems x) -> V y) by apply Hi. revert M Ex Ax Vx. generalize (elems x). clear -He.
    intros l0 M Ex Ax Vx. subst x.
    inversion M as [|p1 x1 q1 l1 [E1|E1] M1]; subst; [discriminate|].
    inversion M1 as [|p2 x2 q2 l2 [E2|E2] M2]; subst; [easy|].
    inversion M2 as [|p3 x3 q3 l3 _ M3]; subst. inversion M3; subst.
    exists x3. split; [reflexivity|]. split; [apply Vx; cbn; tauto|].
    inversion Ax as [|? ? _ A1]; subst. inversion A1 as [|? ? _ A2]; subst. now inversion A2. }
  assert (Ms : exists ss, mapr (fun x => let? l := as_seq x in nth_res l 2) l = Ok ss
    /\ (forall s, In s ss <-> In (link s e) l)).
  { clear Il. induction l as [|x l IH].
    - exists []. split; [reflexivity|]. cbn. tauto.
    - destruct IH as (ss & E & Is); [intros y Hy; apply F; now right|].
      destruct (F x ltac:(now left)) as (s & -> & _ & _). exists (s :: ss). cbn [mapr]. rewrite E. split; [reflexivity|].
      intros s'. cbn [In]. rewrite Is. split; intros [H|H]; try tauto; left.
      + now subst.
      + now injection H. }
  destruct Ms as (ss & Em & Is). exists ss. split; [exact Em|].
  assert (Hss : forall s, In s ss -> V s /\ db_vertex s = true).
  { intros s Hs. apply Is in Hs. apply F in Hs as (s' & E & Vs' & Ds). injection E as ->. now split. }
  destruct (py_set_spec ss) as [Ns Ps].
  { intros y z Hy Hz. apply HV; now apply Hss. }
  { intros y Hy. apply py_eq_refl_db. now apply Hss. }
  split; [exact Ns|].
  intros s. rewrite Ps, Is, Il. split; [tauto|]. intros H. split; [exact H|]. cbn.
  constructor; [now right|]. constructor; [now right|]. constructor; [now left|]. constructor.
Qed.
Lemma Inv_sources V h e c : noalias V -> Inv V (c_work c) h -> live c ->
  db_vertex e = true -> V e -> V const_source ->
  exists l, gives (sources e) c l /\ NoDup l
    /\ forall s, In s l <-> In (link s e) (stored h).
Proof.
  intros HV I L He Ve Vs.
  destruct (Inv_pattern V h _ c HV I L (sources_pattern_in V e He Ve Vs)) as (l & G & _ & Il).
  destruct (sources_pure V h e (c_work c) l HV I He Il) as (ss & Em & Ns & Is). exists (py_set ss). split; [|split; [exact Ns|exact Is]].
  unfold gives, sources. rewrite (bind_gives _ _ c l) by exact G.
  rewrite (bind_gives _ _ c ss) by (now apply gives_lift). reflexivity.
Qed.

(** ** symbols_with_root *)

Lemma no_slash_int z : ~ In c_slash (show_Z z).
Proof.
  intros H. assert (G : In c_slash (c_minus :: show_N (Z.to_N (Z.abs z)))).
  { unfold show_Z in H. destruct (z <? 0)%Z eqn:E.
    - replace (Z.abs z) with (-z)%Z by lia. exact H.
    - right. replace (Z.abs z) with z by lia. exact H. }
  destruct G as [G|G]; [discriminate|]. pose proof (show_N_digits (Z.to_N (Z.abs z))) as D.
  rewrite forallb_forall in D. apply D in G. discriminate.
Qed.

Lemma split_dot_eq r a b : split_dot r = Some (a, b) -> r = a ++ c_dot :: b.
Proof.
  revert a b. induction r as [|x r IH]; intros a b; cbn; [easy|].
  destruct (N.eqb_spec x c_dot) as [->|Hx]; [intros [= <- <-]; reflexivity|].
  destruct (split_dot r) as [[a' b']|]; [|easy]. intros [= <- <-]. now rewrite (IH a' b' eq_refl).
Qed.
Lemma no_slash_float f : flt_ok f = true -> ~ In c_slash (show_float f).
Proof.
  intros Hf H. pose proof (float_shape_show f Hf) as [_ S]. unfold dbl_shape in S.
  assert (G : In c_slash (snd (strip_minus (show_float f)))).
  { destruct (show_float f) as [|c s]; [easy|]. cbn. destruct (N.eqb_spec c c_minus) as [->|Hc]; [|exact H].
    destruct H as [H|H]; [discriminate|exact H]. }
  destruct (split_dot _) as [[a b]|] eqn:E; [|easy]. apply split_dot_eq in E. rewrite E in G.
  apply andb_true_iff in S as [Sa Sb]. rewrite forallb_forall in Sa, Sb.
  apply in_app_iff in G as [G|[G|G]]; [apply Sa in G| |apply Sb in G]; discriminate.
Qed.

Lemma prefix_word p x rest : nospace p = true -> prefixb p (x ++ c_space :: rest) = true -> prefixb p x = true.
Proof.
  revert x. induction p as [|c p IH]; intros x Hp H; [reflexivity|].
  cbn in Hp. apply andb_true_iff in Hp as [Hc Hp]. destruct x as [|y x].
  - cbn in H. apply andb_true_iff in H as [H _]. apply N.eqb_eq in H as ->. discriminate.
  - cbn in *. apply andb_true_iff in H as [-> H]. now apply IH.
Qed.

Lemma row_first V e r : edge_in V e -> is_row (elems e) r -> starts_with c_lpar r = false ->
  exists a toks t, In a (elems e) /\ db_atom a = true /\ r = edge2str a ++ c_space :: t
    /\ split_edge_str r = Ok (edge2str a :: toks).
Proof.
  intros He (k & p & Hk & Ep & ->) Hs.
  destruct (nthperm_ok _ k Hk) as (p' & _ & Ep' & Pp). assert (p' = p) by congruence. subst p'.
  destruct (db_edge_elems e (edge_in_db _ _ He)) as (Ee & Hl & Ll).
  destruct p as [|a p]; [apply Permutation_length in Pp; cbn in Pp; lia|].
  pose proof (all_db_perm _ _ Pp Hl) as Hp. inversion Hp as [|? ? Ha Hp']; subst.
  assert (Ha' : db_atom a = true).
  { apply db_vertex_atom; [exact Ha|]. destruct (is_tup a) eqn:Ea; [|reflexivity].
    apply edge2str_tup_start in Ea as [t Et]. destruct (nodes2str_first a (p ++ [VInt k])) as (t2 & E2 & _).
    cbn [app] in Hs. rewrite E2, Et in Hs. cbn in Hs. discriminate. }
  destruct (nodes2str_first a (p ++ [VInt k])) as (t2 & E2 & Ht2). destruct Ht2 as (t3 & ->).
  { intros E'. now apply app_eq_nil in E'. }
  exists a. eexists. exists t3. split; [eapply Permutation_in; [symmetry; exact Pp|now left]|].
  split; [exact Ha'|]. split; [exact E2|]. cbn [app]. rewrite split_edge_str_bare.
  - reflexivity.
  - now apply db_atom_wf.
  - apply Forall_app. split; [now apply all_db_wf|now repeat constructor].
Qed.

Lemma roots_pure V w st hi : wf_db V w -> st <> [] -> starts_with c_lpar st = false -> nospace st = true -> In c_slash st -> str_plus_1 st = Ok hi ->
  exists ss, mapr (fun row => let? toks := split_edge_str row in nth_res toks 0) (filter (in_range st hi) (perms w)) = Ok ss
     /\ forall s, In s ss <-> exists r e, In r (perms w) /\ edge_in V e /\ is_row (elems e) r
                               /\ In (VStr s) (elems e) /\ prefixb st s = true /\ exists t, r = s ++ c_space :: t.
Proof.
  intros Wf Hn Hl Hns Hsl Hhi.
    rewrite (filter_ext (in_range st hi) (prefixb st)) by (intros r; now apply in_range_prefix).
    pose proof (wf_rows _ _ Wf) as Wr. unfold rows_ok in Wr. revert Wr.
    generalize (perms w). induction l as [|r l IH]; intros Wr.
    - exists []. split; [reflexivity|]. intros s. split; [easy|]. intros (r & e & [] & _).
    - destruct IH as (ss & E & Is); [intros r' Hr'; apply Wr; now right|].
      assert (Mono : forall s, (exists r0 e, In r0 l /\ edge_in V e /\ is_row (elems e) r0
             /\ In (VStr s) (elems e) /\ prefixb st s = true /\ exists t, r0 = s ++ c_space :: t) ->
             exists r0 e, In r0 (r :: l) /\ edge_in V e /\ is_row (elems e) r0
             /\ In (VStr s) (elems e) /\ prefixb st s = true /\ exists t, r0 = s ++ c_space :: t).
      { intros s (r0 & e & H & X). exists r0, e. split; [now right|exact X]. }
      cbn [filter]. destruct (prefixb st r) eqn:P.
      + destruct (Wr r ltac:(now left)) as (e & He & Hr).
        destruct (row_first V e r He Hr (prefix_no_lpar st r Hn Hl P)) as (a & toks & t & Ha & Da & Er & Es).
        assert (Pa : prefixb st (edge2str a) = true) by (rewrite Er in P; now apply (prefix_word st _ t)).
        assert (Sa : exists s, a = VStr s).
        { pose proof Pa as Pb. apply prefixb_spec in Pb as [u Eu].
          assert (Hin : In c_slash (edge2str a)).
          { rewrite Eu, in_app_iff. now left. }
          destruct a as [|s|z|f|m]; try easy; [now exists s| |].
          - exfalso. now apply (no_slash_int z).
          - exfalso. now apply (no_slash_float f). }
        destruct Sa as [s ->]. cbn [edge2str show_atom] in *.
        exists (s :: ss). cbn [mapr]. rewrite Es. cbn [rbind nth_res nth_error]. rewrite E. split; [reflexivity|].
        intros s'. cbn [In]. rewrite Is. split.
        * intros [<-|H]; [|now apply Mono]. exists r, e. split; [now left|]. split; [exact He|]. split; [exact Hr|].
          split; [exact Ha|]. split; [exact Pa|]. now exists t.
        * intros (r0 & e0 & [<-|H0] & He0 & Hr0 & Hs0 & Ps0 & t0 & E0); [left|right; exists r0, e0; split; [exact H0|repeat split; auto; [apply He0|apply He0|now exists t0]]].
          (* the text before the first space *)
          assert (W1 : nospace s = true) by (destruct (atom_plain (VStr s) (db_atom_wf _ Da)) as (_ & W & _); exact W).
          assert (Da' : db_atom (VStr s') = true) by (apply (elems_db V e0 (VStr s') He0 Hs0)).
          assert (W2 : nospace s' = true) by (destruct (atom_plain (VStr s') (db_atom_wf _ Da')) as (_ & W & _); exact W).
          clear -W1 W2 Er E0. rewrite Er in E0. clear Er. revert s' W2 E0. induction s as [|x s IH]; intros [|y s'] W2 E0.
          -- reflexivity.
          -- injection E0 as <- _. discriminate.
          -- injection E0 as -> _. discriminate.
          -- cbn in W1, W2. apply andb_true_iff in W1 as [_ W1]. apply andb_true_iff in W2 as [_ W2].
             injection E0 as -> E0. f_equal. now apply IH.
      + exists ss. split; [exact E|]. intros s. rewrite Is. split; [apply Mono|].
        intros (r0 & e0 & [<-|H0] & X); [|exists r0, e0; now split].
        destruct X as (_ & _ & _ & Ps & t & ->). apply prefixb_spec in Ps as [u ->]. rewrite <- app_assoc, prefixb_app in P. easy.
Qed.

Lemma root_plus r : str_plus_1 (r ++ [c_slash]) = Ok (r ++ [c_0]).
Proof. rewrite str_plus_1_app. reflexivity. Qed.
Lemma root_binds r : root_in r -> forallb bindable [r ++ [c_slash]; r ++ [c_0]] = true.
Proof.
  intros (R & _). cbn [forallb]. unfold bindable. rewrite !forallb_app.
  assert (B : forallb (fun c => negb (is_surrogate c)) r = true).
  { rewrite forallb_forall in *. intros c Hc. specialize (R c Hc). unfold is_scalar in R. now apply andb_true_iff in R. }
  rewrite B. reflexivity.
Qed.
(** what symbols_with_root does with the rows *)
Definition first_tokens (rows : list str) : res (list str) := mapr (fun row => let? toks := split_edge_str row in nth_res toks 0) rows.
Lemma root_pure V w r : root_in r -> wf_db V w ->
  exists ss, first_tokens (filter (in_range (r ++ [c_slash]) (r ++ [c_0])) (perms w)) = Ok ss.
Proof.
  intros (R1 & R2 & R3) Wf. destruct (roots_pure V w (r ++ [c_slash]) (r ++ [c_0]) Wf) as (ss & E & _).
  - now destruct r.
  - now destruct r.
  - rewrite nospace_app. unfold no_white in R2. unfold nospace. now rewrite R2.
  - apply in_app_iff. right. now left.
  - apply root_plus.
  - now exists ss.
Qed.

Lemma Inv_symbols V h root c : Inv V (c_work c) h -> live c ->
  scalars root = true -> no_white root = true -> starts_with c_lpar root = false ->
  exists l, gives (symbols_with_root (VStr root)) c l /\ NoDup l
    /\ forall s, In s l <-> (exists e, In e (stored h) /\ In (VStr s) (elems e)) /\ exists t, s = root ++ c_slash :: t.
Proof.
  intros I L Hsc Hw Hp. set (st := root ++ [c_slash]).
  assert (Hn : st <> []) by (unfold st; intros E; now apply app_eq_nil in E).
  assert (Hl : starts_with c_lpar st = false) by (unfold st; now destruct root).
  assert (Ht : db_text st = true).
  { unfold st. rewrite db_text_split, scalars_app, Hsc. cbn [andb]. rewrite last_ok_snoc; [reflexivity|unfold c_slash; lia]. }
  destruct (db_text_plus_1 st Hn Ht) as (hi & Hhi & B1 & B2).
  assert (Hns : nospace st = true).
  { unfold st. rewrite nospace_app. unfold no_white in Hw. unfold nospace. rewrite Hw. reflexivity. }
  assert (Hsl : In c_slash st) by (unfold st; apply in_app_iff; right; now left).
  destruct (roots_pure V (c_work c) st hi (i_wf _ _ _ I) Hn Hl Hns Hsl Hhi) as (ss & E & Is). exists (str_set ss). destruct (str_set_spec ss) as [N S].
  split; [|split; [exact N|]].
  - unfold gives, symbols_with_root. cbn [show_atom]. fold st. cbv zeta. rewrite (bind_gives _ _ c hi) by (now apply gives_lift).
    apply query_shape; [exact L|cbn; now rewrite B1, B2|].
    intros hd Hh. rewrite (bind_gives _ _ c ss) by (now apply gives_lift).
    rewrite (bind_gives _ _ c tt) by (now apply close_query). reflexivity.
  - intros s. rewrite S, Is. split.
    + intros (r & e & Hr & He & Rr & Hs & Ps & _). split.
      * exists e. split; [now apply (i_rows _ _ _ I e r)|exact Hs].
      * apply prefixb_spec in Ps as [u ->]. exists u. unfold st. now rewrite <- app_assoc.
    + intros [(e & He & Hs) (t & Es)]. pose proof (i_edges _ _ _ I e He) as Hi.
      destruct (indexed_hit_star (c_work c) (VStr s) e (stored_indexed V _ h e I He) Hs) as (r & Hr & Rr & Pr).
      exists r, e. split; [exact Hr|]. split; [exact Hi|]. split; [exact Rr|]. split; [exact Hs|]. split.
      * apply prefixb_spec. exists t. subst s. unfold st. now rewrite <- app_assoc.
      * apply prefixb_spec in Pr as [u ->]. exists u. cbn. now rewrite <- app_assoc.
Qed.

(** ** f_all *)

Lemma find_nodup_in (l : list (str * (Z * Z))) id x : NoDup (List.map fst l) ->
  In (id, x) l <-> match find (vkey id) l with Some r => snd r = x | None => False end.
Proof.
  induction l as [|[k y] l IH]; intros N; [easy|]. cbn in N. inversion N as [|? ? Hk N']; subst.
  cbn [In find]. unfold vkey at 1. cbn [fst]. destruct (str_eqb id k) eqn:E.
  - apply str_eqb_eq in E as ->. cbn. split; [intros [H|H]; [now injection H|]|intros ->; now left].
    exfalso. apply Hk. apply in_map_iff. now exists (k, x).
  - apply str_eqb_neq in E. rewrite <- IH by exact N'. split; [intros [H|H]; [congruence|exact H]|tauto].
Qed.

Lemma all_pure {B} (f : value * Z -> B) V w : wf_db V w ->
  exists pairs,
     (mapr (fun '(id, d) => let? v := str2edge id in Ok (f (v, d)))
        (List.map (fun r => (fst r, fst (snd r))) (vertices w)) = Ok (List.map f pairs))
     /\ List.map (fun p => edge2str (fst p)) pairs = keys w
     /\ (forall v d, In (v, d) pairs <-> db_vertex v = true /\ exists t, In (edge2str v, (d, t)) (vertices w)).
Proof.
  intros Wf. pose proof (wf_ids _ _ Wf) as Ids. unfold keys in *. revert Ids. generalize (vertices w). clear. induction l as [|[id [d t]] l IH]; intros Ids.
    - exists []. split; [reflexivity|]. split; [reflexivity|]. intros v d. split; [easy|]. now intros [_ [t []]].
    - destruct IH as (ps & E & K & P); [intros id' Hid; apply Ids; now right|].
      destruct (Ids id ltac:(now left)) as (v0 & D0 & ->).
      exists ((v0, d) :: ps). cbn [List.map mapr fst snd]. rewrite (str2edge_edge2str v0 (db_vertex_wf v0 D0)). cbn [rbind].
      rewrite E. split; [reflexivity|]. split; [cbn; now f_equal|]. intros v d'. cbn [In]. rewrite P. split.
      + intros [[= <- <-]|[Dv [t' H]]]; [split; [exact D0|exists t; now left]|split; [exact Dv|exists t'; now right]].
      + intros [Dv [t' [H|H]]].
        * injection H as E1 <- <-. left. f_equal. now apply edge2str_inj; try apply db_vertex_wf.
        * right. split; [exact Dv|now exists t'].
Qed.
Lemma Inv_f_all {B} (f : value * Z -> B) V h c : Inv V (c_work c) h -> live c ->
  exists pairs, gives (f_all f) c (List.map f pairs) /\ NoDup (List.map fst pairs)
    /\ forall v d, In (v, d) pairs <-> db_vertex v = true /\ exists t, vrow h v = Some (d, t).
Proof.
  intros I L. destruct (i_wf _ _ _ I) as [_ _ Nk Ids].
  destruct (all_pure f V (c_work c) (i_wf _ _ _ I)) as (ps & E & K & P). exists ps. split; [|split].
  - unfold gives, f_all. apply query_shape; [exact L|reflexivity|]. intros hd Hh.
    rewrite (bind_gives _ _ c _ (gives_lift _ c _ E)).
    rewrite (bind_gives _ _ c tt) by (now apply close_query). reflexivity.
  - rewrite <- K in Nk. clear -Nk. induction ps as [|[v d] ps IH]; cbn in *; [constructor|].
    inversion Nk as [|? ? Hn N]; subst. constructor; [|now apply IH]. intros H. apply Hn.
    apply in_map_iff in H as ([v' d'] & E & H). cbn in E. subst v'. apply in_map_iff. now exists (v, d').
  - intros v d. rewrite P. split; intros [Dv [t H]]; (split; [exact Dv|exists t]).
    + rewrite <- (i_vert _ _ _ I v Dv). unfold vlook. apply find_nodup_in in H; [|exact Nk].
      destruct (find _ _) as [r|]; [now rewrite H|easy].
    + rewrite <- (i_vert _ _ _ I v Dv) in H. unfold vlook in H. apply find_nodup_in; [exact Nk|].
      destruct (find _ _) as [r|]; [now injection H|easy].
Qed.

(** ** every operation *)

Lemma goes_ask b V h q : noalias V -> ask_in V q ->
  match q with QDegree _ | QTimestamp _ => False | _ => True end -> goes b V h h (run_ask q) tt.
Proof.
  intros HV Hq Hk. apply goes_gives. intros c L I. unfold gives.
  destruct q as [e|p|a|v|v|e|r|]; cbn [run_ask ask_in] in *; try easy.
  - rewrite (bind_gives _ _ c _ (Inv_exists V _ h c e HV I eq_refl L Hq)). reflexivity.
  - destruct (Inv_pattern V h p c HV I L Hq) as (l & G & _). rewrite (bind_gives _ _ c _ G). reflexivity.
  - destruct (Inv_star V h a c HV I L Hq) as (l & G & _). rewrite (bind_gives _ _ c _ G). reflexivity.
  - destruct Hq as (D & Ve & Vs). destruct (Inv_sources V h e c HV I L D Ve Vs) as (l & G & _).
    rewrite (bind_gives _ _ c _ G). reflexivity.
  - destruct Hq as (R1 & R2 & R3). destruct (Inv_symbols V h r c I L R1 R2 R3) as (l & G & _). rewrite (bind_gives _ _ c _ G). reflexivity.
  - destruct (Inv_f_all (fun x => x) V h c I L) as (l & G & _). rewrite (bind_gives _ _ c _ G). reflexivity.
Qed.
Lemma ask_top V h q c : noalias V -> ask_in V q -> ready V c h -> gives (run_ask q) c tt.
Proof.
  intros HV Hq [Hc Hs I]. assert (L : live c) by (unfold live; now rewrite Hc). unfold gives.
  destruct q as [e|p|a|v|v|e|r|]; cbn [run_ask ask_in] in *.
  - rewrite (bind_gives _ _ c _ (Inv_exists V _ h c e HV I eq_refl L Hq)). reflexivity.
  - destruct (Inv_pattern V h p c HV I L Hq) as (l & G & _). rewrite (bind_gives _ _ c _ G). reflexivity.
  - destruct (Inv_star V h a c HV I L Hq) as (l & G & _). rewrite (bind_gives _ _ c _ G). reflexivity.
  - rewrite (bind_gives _ _ c _ (degree_gives v c Hc Hq)). reflexivity.
  - rewrite (bind_gives _ _ c _ (timestamp_gives v c Hc Hq)). reflexivity.
  - destruct Hq as (D & Ve & Vs). destruct (Inv_sources V h e c HV I L D Ve Vs) as (l & G & _).
    rewrite (bind_gives _ _ c _ G). reflexivity.
  - destruct Hq as (R1 & R2 & R3). destruct (Inv_symbols V h r c I L R1 R2 R3) as (l & G & _). rewrite (bind_gives _ _ c _ G). reflexivity.
  - destruct (Inv_f_all (fun x => x) V h c I L) as (l & G & _). rewrite (bind_gives _ _ c _ G). reflexivity.
Qed.

Lemma goes_bop V h b : noalias V -> bop_in V b -> goes false V h (after_bop h b) (run_bop b) tt.
Proof.
  intros HV Hb. destruct b as [e t|e|es| |e|p|a|r|]; cbn [run_bop after_bop bop_in] in *.
  - apply goes_weaken. eapply goes_bind; [now apply goes_add|apply goes_ret].
  - now apply goes_remove.
  - now apply goes_remove_many.
  - apply goes_weaken, goes_destroy.
  - apply (goes_ask false V h (QExists e)); [exact HV|exact Hb|exact I].
  - apply (goes_ask false V h (QPattern p)); [exact HV|exact Hb|exact I].
  - apply (goes_ask false V h (QStar a)); [exact HV|exact Hb|exact I].
  - apply (goes_ask false V h (QRoot r)); [exact HV|exact Hb|exact I].
  - apply (goes_ask false V h QAll); [exact HV|exact I|exact I].
Qed.

Lemma mfor_concat {A} (fs : list (list A)) (f : A -> M unit) V h h' :
  goes false V h h' (mfor (List.concat fs) f) tt -> goes false V h h' (mfor (List.map (fun l => mfor l f) fs) (fun f => f)) tt.
Proof.
  intros G c L I. destruct (G c L I) as (us & (c' & tr & E & S) & I'). exists us. split; [|exact I'].
  exists c', tr. split; [|exact S]. rewrite <- E. clear.
  revert c. induction fs as [|l fs IH]; intros c; [reflexivity|]. cbn [List.map mfor List.concat].
  assert (X : forall c, mfor (l ++ List.concat fs) f c = bind (mfor l f) (fun _ => mfor (List.concat fs) f) c).
  { clear. induction l as [|x l IH]; intros c; cbn [app mfor].
    - unfold bind, ret. destruct (mfor (List.concat fs) f c) as [[r c'] t]. reflexivity.
    - unfold bind at 1. unfold bind at 2. destruct (f x c) as [[[u|] c1] t1] eqn:E.
      + rewrite IH. unfold bind at 1. unfold bind at 1. rewrite E. destruct (mfor l f c1) as [[[u1|] c2] t2]; [|reflexivity].
        destruct (mfor (List.concat fs) f c2) as [[r c3] t3]. now rewrite app_assoc.
      + unfold bind. now rewrite E. }
  rewrite X. unfold bind. destruct (mfor l f c) as [[[u|] c1] t1]; [|reflexivity]. now rewrite IH.
Qed.

Lemma goes_belief_loop V s es t h : noalias V -> int64 t = true ->
  Forall (fun e => edge_in V e /\ edge_in V (link s e)) es ->
  goes true V h (fold_left (fun h e => EAdd (link_edge s e) t :: EAdd e t :: h) es h)
    (mfor (flat_map (fun edge => [edge; link s edge]) es) (fun edge => add_raw edge t;; ret tt)) tt.
Proof.
  intros HV Ts H. revert h. induction H as [|e es [He Hl] _ IH]; intros h; cbn [flat_map app mfor fold_left].
  - apply goes_ret.
  - eapply goes_bind; [eapply goes_bind; [now apply goes_add_raw|apply goes_ret]|].
    eapply goes_bind; [eapply goes_bind; [now apply goes_add_raw|apply goes_ret]|]. apply IH.
Qed.

Lemma fold_flat {A B} (f : A -> list B) (g : list ev -> B -> list ev) l : forall h,
  fold_left g (flat_map f l) h = fold_left (fun h x => fold_left g (f x) h) l h.
Proof. induction l as [|x l IH]; intros h; cbn; [reflexivity|]. rewrite fold_left_app. apply IH. Qed.

Lemma add_belief_top V h s es t c : noalias V -> es <> [] ->
  Forall (fun e => edge_in V e /\ edge_in V (link_edge s e)) es -> int64 t = true -> ready V c h ->
  exists fs c' tr, top V (fold_left (fun h e => EAdd (link_edge s e) t :: EAdd e t :: h) es h)
      (add (VTup (flat_map (fun edge => [edge; link s edge]) es)) t) (VTup (flat_map (fun edge => [edge; link s edge]) es)) c fs c' tr
    /\ (c_auto c = false -> forall d, In d tr -> d = c_comm c \/ d = c_comm c').
Proof.
  intros HV Hn Hes Ts R.
  destruct (add_many_top V h (flat_map (fun edge => [edge; link s edge]) es) t c HV) as (fs & c' & tr & T & At); [| |exact Ts|exact R|].
  - destruct es; [easy|discriminate].
  - rewrite Forall_forall in *. intros x Hx. apply in_flat_map in Hx as (e & He & [<-|[<-|[]]]); now apply (Hes e).
  - exists fs, c', tr. split; [|exact At]. rewrite fold_flat in T. exact T.
Qed.

Lemma link_is (s e x : value) : (exists s', x = link s' e) <-> is_link_of e x = true.
Proof.
  unfold is_link_of, link. split.
  - intros [s' ->]. now rewrite !veqb_refl.
  - destruct x as [| | | |[|a [|b [|d [|? ?]]]]]; try easy. rewrite andb_true_iff, !veqb_eq.
    intros [-> ->]. now exists d.
Qed.

Lemma goes_remove_belief V h s e : noalias V -> edge_in V e -> edge_in V (link_edge s e) ->
  goes false V h (after h (ORemoveBelief s e)) (remove_belief s e) tt.
Proof.
  intros HV He Hl. unfold remove_belief. cbn [after].
  eapply goes_bind; [now apply goes_remove|]. change (link_edge s e) with (link s e). set (h1 := ERem (link s e) :: h).
  intros c L I.
  assert (V e /\ V const_source) as [Ve Vs].
  { split; apply Hl; cbn; tauto. }
  destruct (Inv_sources V h1 e c HV I L (db_edge_vertex _ (edge_in_db _ _ He)) Ve Vs) as (l & G & N & Il).
  unfold does. rewrite (bind_gives _ _ c _ G).
  assert (X : Nat.eqb (List.length l) 0 = negb (existsb (is_link_of e) (stored h1))).
  { destruct (existsb (is_link_of e) (stored h1)) eqn:E.
    - apply existsb_exists in E as (x & Hx & Ex). apply (link_is s) in Ex as [s' ->]. apply Il in Hx.
      now destruct l.
    - destruct l as [|s' l]; [reflexivity|]. exfalso.
      assert (In (link s' e) (stored h1)) by (apply Il; now left).
      assert (existsb (is_link_of e) (stored h1) = true); [|congruence].
      apply existsb_exists. exists (link s' e). split; [exact H|]. apply (link_is s). now exists s'. }
  rewrite X. destruct (existsb (is_link_of e) (stored h1)); cbn [negb].
  - apply (goes_ret false V h1 tt c L I).
  - apply (goes_remove V h1 e HV He c L I).
Qed.

(** removing several edges: the order is irrelevant *)
Definition rems (es : list value) (h : list ev) : list ev := fold_left (fun h e => ERem e :: h) es h.

Lemma stored_rems es h x : In x (stored (rems es h)) <-> ~ In x es /\ In x (stored h).
Proof.
  revert h. induction es as [|e es IH]; intros h; cbn [rems fold_left]; [cbn; tauto|].
  change (fold_left (fun h e => ERem e :: h) es ?h) with (rems es h). rewrite IH, stored_rem. cbn.
  split; [intros (A & B & C); split; [intros [<-|D]; tauto|tauto]|].
  intros (A & C). split; [tauto|]. split; [|tauto]. intros ->. tauto.
Qed.

Definition same_graph (h h' : list ev) : Prop :=
  (forall x, In x (stored h) <-> In x (stored h')) /\ forall v, vrow h v = vrow h' v.

Lemma same_memb h h' x : (forall x, In x (stored h) <-> In x (stored h')) -> memb x (stored h) = memb x (stored h').
Proof.
  intros H. destruct (memb x (stored h')) eqn:E.
  - apply memb_in, H, memb_in. exact E.
  - apply memb_nin. rewrite H. now apply memb_nin.
Qed.

Lemma same_cons a h h' : same_graph h h' -> same_graph (a :: h) (a :: h').
Proof.
  intros [S R]. destruct a as [e t|e|].
  - split.
    + intros x. now rewrite !stored_add, S.
    + intros v. cbn [vrow]. now rewrite (same_memb h h' e S), R.
  - split.
    + intros x. now rewrite !stored_rem, S.
    + intros v. cbn [vrow]. now rewrite (same_memb h h' e S), R.
  - split; reflexivity.
Qed.
Lemma same_refl h : same_graph h h.
Proof. split; reflexivity. Qed.
Lemma same_trans a b c : same_graph a b -> same_graph b c -> same_graph a c.
Proof. intros [A1 A2] [B1 B2]. split; [intros x; now rewrite A1, B1|intros v; now rewrite A2, B2]. Qed.

Lemma rem_swap a b h : same_graph (ERem a :: ERem b :: h) (ERem b :: ERem a :: h).
Proof.
  split; [intros x; rewrite !stored_rem; tauto|]. intros v.
  destruct (veqb a b) eqn:E; [apply veqb_eq in E as ->; reflexivity|]. pose proof E as E0. apply veqb_neq in E.
  assert (M : forall x y, x <> y -> memb x (stored (ERem y :: h)) = memb x (stored h)).
  { intros x y N. destruct (memb x (stored h)) eqn:F.
    - apply memb_in. apply stored_rem. split; [exact N|now apply memb_in].
    - apply memb_nin. rewrite stored_rem. apply memb_nin in F. tauto. }
  cbn [vrow]. rewrite (M a b E), (M b a) by congruence.
  destruct (memb a (stored h)), (memb b (stored h)); try reflexivity.
  destruct (veqb v a) eqn:Va, (veqb v b) eqn:Vb; try reflexivity.
  destruct (vrow h v) as [[d s]|]; cbn; [|reflexivity]. f_equal. f_equal. lia.
Qed.

Lemma rems_perm es es' : Permutation es es' -> forall h h', same_graph h h' -> same_graph (rems es h) (rems es' h').
Proof.
  unfold rems. induction 1 as [|x l l' P IH|x y l|l1 l2 l3 P1 IH1 P2 IH2]; intros h h' S; cbn [fold_left].
  - exact S.
  - apply IH. now apply same_cons.
  - assert (G : forall l h h', same_graph h h' -> same_graph (rems l h) (rems l h')).
    { clear. unfold rems. induction l as [|z l IH]; intros h h' S; cbn [fold_left]; [exact S|]. apply IH. now apply same_cons. }
    apply G. eapply same_trans; [apply rem_swap|]. now apply same_cons, same_cons.
  - eapply same_trans; [apply IH1, same_refl|apply IH2, S].
Qed.

Lemma Inv_same V w h h' : same_graph h h' -> Inv V w h -> Inv V w h'.
Proof.
  intros [S R] [A B C D]. constructor.
  - exact A.
  - intros e He. apply B. now apply S.
  - intros e r He Hr. rewrite <- S. now apply C.
  - intros v Hv. rewrite <- R. now apply D.
Qed.
Lemma goes_same {A} b V h h1 h2 (m : M A) a : same_graph h1 h2 -> goes b V h h1 m a -> goes b V h h2 m a.
Proof.
  intros S G c L I. destruct (G c L I) as (fs & D & I'). exists fs. split; [exact D|now apply (Inv_same V _ h1)].
Qed.

Lemma goes_remove_by_pattern ord V h p : noalias V -> pattern_in V p -> (forall l, Permutation (ord l) l) ->
  goes false V h (after h (ORemovePattern p)) (remove_by_pattern ord (VTup p)) tt.
Proof.
  intros HV Hp Ho c L I. destruct (Inv_pattern V h p c HV I L Hp) as (l & G & N & Il).
  unfold remove_by_pattern, does. rewrite (bind_gives _ _ c _ G). cbn [after].
  assert (P : Permutation (ord l) (filter (fun e => matchb p (elems e)) (stored h))).
  { eapply Permutation_trans; [apply Ho|]. apply NoDup_Permutation; [exact N|apply NoDup_filter, stored_nodup|].
    intros x. rewrite filter_In, matchb_spec. apply Il. }
  assert (Gl : goes false V h (rems (ord l) h) (mfor (ord l) remove) tt).
  { apply (goes_mfor false V (ord l) remove (fun h e => ERem e :: h)). intros x h' Hx. apply goes_remove; [exact HV|].
    apply (i_edges _ _ _ I). apply Il. now apply (Permutation_in x (Ho l)). }
  apply (goes_same false V h _ _ _ _ (rems_perm _ _ P h h (same_refl h)) Gl c L I).
Qed.

(** ** one operation, any operation *)

Lemma op_top ord V h o c : noalias V -> (forall l, Permutation (ord l) l) -> op_in V o -> ready V c h ->
  exists fs c' tr, top V (after h o) (run_op ord o) tt c fs c' tr.
Proof.
  intros HV Ho Hi R. destruct o as [e t|es t|e|es| |s e t|s es t|s e|p|fs|q|]; cbn [run_op op_in] in *.
  - apply (goes_top true V h); [|exact R]. eapply goes_bind; [now apply goes_add|apply goes_ret].
  - destruct Hi as [[Hn Hes] Ts]. destruct (add_many_top V h es t c HV Hn Hes Ts R) as (us & c' & tr & T & _).
    exists us, c', tr. now apply (top_bind_ret V _ _ (VTup es)).
  - apply (goes_top false V h); [|exact R]. now apply goes_remove.
  - apply (goes_top false V h); [|exact R]. now apply goes_remove_many.
  - apply (goes_top true V h); [|exact R]. apply goes_destroy.
  - destruct Hi as [[He Hl] Ts].
    destruct (add_belief_top V h s [e] t c HV ltac:(easy) ltac:(repeat constructor; auto; apply He || apply Hl) Ts R) as (us & c' & tr & T & _).
    exists us, c', tr. destruct (index0_edge e (edge_in_db _ _ He)) as (a & E0 & Ea).
    eapply top_eq; [|exact (top_bind_ret V _ _ _ tt c us c' tr T)].
    unfold add_belief. rewrite (bind_gives (lift (index0 e)) _ c a) by (now apply gives_lift). rewrite Ea. reflexivity.
  - destruct Hi as [[Hn Hes] Ts].
    destruct (add_belief_top V h s es t c HV Hn Hes Ts R) as (us & c' & tr & T & _).
    exists us, c', tr. destruct (index0_edges V es Hn) as (a & E0 & Ea).
    { eapply Forall_impl; [|exact Hes]. now intros x [H _]. }
    eapply top_eq; [|exact (top_bind_ret V _ _ _ tt c us c' tr T)].
    unfold add_belief. rewrite (bind_gives (lift (index0 (VTup es))) _ c a) by (now apply gives_lift). rewrite Ea.
    rewrite (bind_gives (lift (as_seq (VTup es))) _ c es) by (now apply gives_lift). reflexivity.
  - destruct Hi as [He Hl]. apply (goes_top false V h); [|exact R]. now apply goes_remove_belief.
  - apply (goes_top false V h); [|exact R]. now apply goes_remove_by_pattern.
  - apply (batch_top V h); [|exact R]. apply mfor_concat. apply (goes_mfor false V _ run_bop after_bop).
    intros b h' Hb. apply goes_bop; [exact HV|]. rewrite Forall_forall in Hi. now apply Hi.
  - pose proof (ask_top V h q c HV Hi R) as G. exists [], c, []. constructor; try easy.
  - destruct R as [Hc Hs I]. exists [], c, [c_comm c]. constructor; try easy.
    + unfold reopen_op, reopen, open_db. destruct c as [au cm wk cu]; cbn in *. now subst.
    + rewrite Hs. intros d [<-|[]]. now left.
Qed.

(** all reachable states *)

Theorem reachable_ready ord V auto ops : noalias V -> (forall l, Permutation (ord l) l) ->
  Forall (op_in V) ops ->
  exists c tr, run_ops ord ops (start auto) = (Ok tt, c, tr) /\ ready V c (history ops) /\ c_auto c = auto.
Proof.
  intros HV Ho H. unfold history.
  assert (G : forall h c, ready V c h -> exists c' tr, run_ops ord ops c = (Ok tt, c', tr)
                /\ ready V c' (fold_left after ops h) /\ c_auto c' = c_auto c).
  { induction H as [|o ops Hi _ IH]; intros h c R.
    - exists c, []. split; [reflexivity|]. split; [exact R|reflexivity].
    - destruct (op_top ord V h o c HV Ho Hi R) as (us & c1 & t1 & [E1 A1 R1 _ _]).
      destruct (IH _ c1 R1) as (c2 & t2 & E2 & R2 & A2). exists c2, (t1 ++ t2).
      split; [|split; [exact R2|congruence]]. unfold run_ops in *. cbn [mfor]. unfold bind. now rewrite E1, E2. }
  apply (G [] (start auto)). constructor; [reflexivity|reflexivity|apply Inv_empty].
Qed.

Lemma reached_ready V ops c : noalias V -> reached V ops c -> ready V c (history ops).
Proof.
  intros HV (ord & auto & tr & Ho & Hi & E).
  destruct (reachable_ready ord V auto ops HV Ho Hi) as (c' & tr' & E' & R & _).
  rewrite E in E'. now injection E' as -> ->.
Qed.
