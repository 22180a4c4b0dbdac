(** * P_graph.v -- degrees, timestamps *)

From Verif Require Import Py M_symbol M_edge M_sql M_hypergraph P_py Spec P_edge P_perm P_range P_query
  S_history M_driver P_ops P_hist.
From Coq Require Import Permutation Factorial String.
Open Scope list_scope.

(** ** events in scope *)

Definition ev_in (V : value -> Prop) (x : ev) : Prop :=
  match x with EAdd e _ | ERem e => edge_in V e | EDestroy => True end.

Lemma stored_in V h : Forall (ev_in V) h -> forall e, In e (stored h) -> edge_in V e.
Proof.
  induction 1 as [|x h Hx _ IH]; intros e He; [easy|]. destruct x as [e' t|e'|].
  - apply stored_add in He as [->|He]; [exact Hx|now apply IH].
  - apply stored_rem in He as [_ He]. now apply IH.
  - easy.
Qed.

Lemma fold_in {A} V (P : A -> Prop) (g : list ev -> A -> list ev) l h :
  (forall h x, P x -> Forall (ev_in V) h -> Forall (ev_in V) (g h x)) ->
  Forall P l -> Forall (ev_in V) h -> Forall (ev_in V) (fold_left g l h).
Proof.
  intros H Hl. revert h. induction Hl as [|x l Hx _ IH]; intros h Hh; cbn [fold_left]; [exact Hh|].
  apply IH. now apply H.
Qed.

Lemma after_in V h o : op_in V o -> Forall (ev_in V) h -> Forall (ev_in V) (after h o).
Proof.
  intros Hi Hh. destruct o as [e t|es t|e|es| |s e t|s es t|s e|p|fs|q|]; cbn [op_in after] in *; try exact Hh.
  - now constructor.
  - apply (fold_in V (edge_in V)); [|apply Hi|exact Hh]. intros h' x Hx Hh'. now constructor.
  - now constructor.
  - apply (fold_in V (edge_in V)); [|apply Hi|exact Hh]. intros h' x Hx Hh'. now constructor.
  - now constructor.
  - destruct Hi as [[? ?] _]. now apply Forall_cons; [|apply Forall_cons].
  - apply (fold_in V (fun e => edge_in V e /\ edge_in V (link_edge s e))); [|apply Hi|exact Hh].
    intros h' x [H1 H2] Hh'. now apply Forall_cons; [|apply Forall_cons].
  - destruct Hi as [He Hl]. destruct (existsb _ _); now repeat apply Forall_cons.
  - apply (fold_in V (edge_in V)); [| |exact Hh].
    + intros h' x Hx Hh'. now constructor.
    + rewrite Forall_forall. intros x Hx. apply filter_In in Hx as [Hx _]. now apply (stored_in V h).
  - apply (fold_in V (bop_in V)); [|exact Hi|exact Hh]. intros h' b Hb Hh'.
    destruct b as [e t|e|es| |e|p|a|r|]; cbn [bop_in after_bop] in *; try exact Hh'; try now constructor.
    apply (fold_in V (edge_in V)); [|apply Hb|exact Hh']. intros h2 x Hx Hh2. now constructor.
Qed.

Lemma history_in V ops : Forall (op_in V) ops -> Forall (ev_in V) (history ops).
Proof.
  intros H. unfold history. assert (G : forall h, Forall (ev_in V) h -> Forall (ev_in V) (fold_left after ops h)).
  { induction H as [|o ops Ho _ IH]; intros h Hh; [exact Hh|]. cbn. apply IH. now apply after_in. }
  now apply G.
Qed.
Lemma reached_in V ops c : reached V ops c -> Forall (ev_in V) (history ops).
Proof. intros (ord & auto & tr & _ & H & _). now apply history_in. Qed.

(** ** occurrences *)

Lemma occ_filter v e E : NoDup E -> In e E ->
  (occurrences v (filter (fun x => negb (veqb e x)) E) + count v (elems e) = occurrences v E)%nat.
Proof.
  induction 1 as [|x E Hx N IH]; [easy|]. intros [->|He]; cbn [filter occurrences].
  - rewrite veqb_refl. cbn [negb]. rewrite filter_id; [lia|]. intros y Hy. apply negb_true_iff, veqb_neq. now intros ->.
  - destruct (veqb e x) eqn:E1; [apply veqb_eq in E1 as ->; easy|]. cbn [negb occurrences]. rewrite <- IH by exact He. lia.
Qed.
Lemma occ_pos v e E : In e E -> In v (elems e) -> (0 < occurrences v E)%nat.
Proof.
  induction E as [|x E IH]; [easy|]. intros [->|He] Hv; cbn; [apply count_pos in Hv; lia|].
  specialize (IH He Hv). lia.
Qed.
Lemma occ_0 v E : (forall e, In e E -> ~ In v (elems e)) -> occurrences v E = O.
Proof.
  induction E as [|x E IH]; intros H; [reflexivity|]. cbn. rewrite count_0 by (apply H; now left).
  apply IH. intros e He. apply H. now right.
Qed.

Definition degree_of (h : list ev) (v : value) : Z := match vrow h v with Some (d, _) => d | None => 0%Z end.

Fixpoint vsize (v : value) : nat := match v with VTup l => S (list_sum (List.map vsize l)) | _ => 1%nat end.
Lemma vsize_in v l : In v l -> (vsize v <= list_sum (List.map vsize l))%nat.
Proof.
  induction l as [|y l IH]; [easy|]. change (list_sum (List.map vsize (y :: l))) with (vsize y + list_sum (List.map vsize l))%nat.
  intros [->|H]; [lia|]. specialize (IH H). lia.
Qed.
Lemma not_self v : db_edge v = true -> ~ In v (elems v).
Proof.
  intros H. destruct (db_edge_elems v H) as (E & _ & _). intros Hi. apply vsize_in in Hi. rewrite E in Hi at 1.
  cbn [vsize] in Hi. lia.
Qed.

Lemma degree_quiet V h v : Forall (ev_in V) h -> quiet v h ->
  match vrow h v with
  | Some (d, _) => d = Z.of_nat (occurrences v (stored h))
  | None => occurrences v (stored h) = O
  end.
Proof.
  induction 1 as [|x h Hx Hh IH]; intros Q; [reflexivity|].
  destruct x as [e t|e|]; cbn [quiet ev_in] in *.
  - destruct Q as [Q1 Q]. specialize (IH Q). cbn [vrow stored]. destruct (memb e (stored h)) eqn:M; [exact IH|].
    destruct (veqb v e) eqn:Ev.
    + apply veqb_eq in Ev as <-. cbn [occurrences]. apply memb_nin in M. rewrite (Q1 eq_refl M).
      rewrite count_0 by (apply not_self, (edge_in_db V), Hx). reflexivity.
    + cbn [occurrences]. destruct (count v (elems e)) as [|n]; [exact IH|]. destruct (vrow h v) as [[d s]|]; lia.
  - destruct Q as [Q1 Q]. specialize (IH Q). cbn [vrow]. destruct (memb e (stored h)) eqn:M.
    + apply memb_in in M. pose proof (occ_filter v e (stored h) (stored_nodup h) M) as O. cbn [stored].
      destruct (veqb v e) eqn:Ev.
      * apply veqb_eq in Ev as <-. rewrite (Q1 eq_refl M) in O. lia.
      * destruct (vrow h v) as [[d s]|]; cbn [option_map fst]; lia.
    + apply memb_nin in M. rewrite (stored_rem_absent e h M). exact IH.
  - reflexivity.
Qed.

Lemma quiet_atom V h a : Forall (ev_in V) h -> db_atom a = true -> quiet a h.
Proof.
  intros H Ha. induction H as [|x h Hx Hh IH]; [exact I|].
  assert (N : forall e, edge_in V e -> e = a -> False).
  { intros e [De _] ->. apply db_edge_inv in De as (b & d & l & -> & _). easy. }
  destruct x as [e t|e|]; cbn; [| |exact I]; (split; [|exact IH]); intros E _; exfalso; now apply (N e).
Qed.

(** never more than the occurrences *)
Lemma degree_upper V h v : Forall (ev_in V) h -> (degree_of h v <= Z.of_nat (occurrences v (stored h)))%Z.
Proof.
  unfold degree_of. induction 1 as [|x h Hx Hh IH]; [cbn; lia|].
  destruct x as [e t|e|]; cbn [ev_in] in *.
  - cbn [vrow stored]. destruct (memb e (stored h)); [exact IH|].
    cbn [occurrences]. destruct (veqb v e); [lia|]. destruct (count v (elems e)) as [|n]; [exact IH|].
    destruct (vrow h v) as [[d s]|]; lia.
  - cbn [vrow]. destruct (memb e (stored h)) eqn:M.
    + apply memb_in in M. pose proof (occ_filter v e (stored h) (stored_nodup h) M) as O. cbn [stored].
      destruct (veqb v e); [lia|]. destruct (vrow h v) as [[d s]|]; cbn [option_map fst]; lia.
    + apply memb_nin in M. rewrite (stored_rem_absent e h M). exact IH.
  - cbn. lia.
Qed.

(** ** timestamps *)

Lemma vrow_atom V h a : Forall (ev_in V) h -> db_atom a = true ->
  option_map snd (vrow h a) = first_seen a h /\ (first_seen a h = None -> forall e, In e (stored h) -> ~ In a (elems e)).
Proof.
  intros H Ha. induction H as [|x h Hx Hh [IH1 IH2]]; [split; [reflexivity|easy]|].
  assert (N : forall e, edge_in V e -> veqb a e = false).
  { intros e [De _]. apply db_edge_inv in De as (b & d & l & -> & _). now destruct a. }
  destruct x as [e t|e|]; cbn [ev_in] in *.
  - cbn [vrow first_seen]. rewrite (N e Hx). destruct (memb e (stored h)) eqn:M.
    + apply memb_in in M. rewrite IH1. destruct (first_seen a h) eqn:F.
      * split; [reflexivity|easy].
      * assert (Na : memb a (elems e) = false) by (apply memb_nin; now apply IH2). rewrite Na. split; [reflexivity|].
        intros _ x Hx'. apply stored_add in Hx' as [->|Hx']; now apply IH2.
    + destruct (memb a (elems e)) eqn:Ma.
      * apply memb_in in Ma. apply count_pos in Ma. destruct (count a (elems e)) as [|n]; [lia|].
        destruct (vrow h a) as [[d s]|]; cbn in IH1; rewrite <- IH1; (split; [reflexivity|easy]).
      * apply memb_nin in Ma. rewrite (count_0 a (elems e) Ma). rewrite IH1. destruct (first_seen a h).
        -- split; [reflexivity|easy].
        -- split; [reflexivity|]. intros _ x Hx'. apply stored_add in Hx' as [->|Hx']; [exact Ma|now apply IH2].
  - cbn [vrow first_seen]. rewrite (N e Hx). split.
    + destruct (memb e (stored h)); [|exact IH1]. rewrite <- IH1. now destruct (vrow h a) as [[d s]|].
    + intros F y Hy. apply stored_rem in Hy as [_ Hy]. now apply IH2.
  - split; [reflexivity|easy].
Qed.

Lemma vrow_edge h e : In e (stored h) -> exists d t, vrow h e = Some (d, t) /\ inserted e h = Some t.
Proof.
  induction h as [|x h IH]; [easy|]. destruct x as [e' t|e'|]; intros He.
  - cbn [vrow inserted]. destruct (memb e' (stored h)) eqn:M.
    + assert (He' : In e (stored h)).
      { apply stored_add in He as [->|He]; [now apply memb_in|exact He]. }
      destruct (IH He') as (d & t' & E1 & E2). exists d, t'. split; [exact E1|].
      apply memb_in in He'. rewrite He'. cbn. now rewrite andb_false_r.
    + destruct (veqb e e') eqn:Ee.
      * apply veqb_eq in Ee as <-. rewrite M. cbn. now exists 0%Z, t.
      * apply stored_add in He as [->|He]; [now rewrite veqb_refl in Ee|].
        destruct (IH He) as (d & t' & E1 & E2). cbn [andb]. rewrite E1, E2.
        destruct (count e (elems e')) as [|n]; eexists; eexists; (split; reflexivity).
  - apply stored_rem in He as [Ne He]. destruct (IH He) as (d & t' & E1 & E2). cbn [vrow inserted].
    apply veqb_neq in Ne. rewrite Ne, E1, E2. destruct (memb e' (stored h)); eexists; eexists; (split; reflexivity).
  - easy.
Qed.

(** no add since the last destroy mentions [v] *)
Fixpoint mentioned (v : value) (h : list ev) : bool :=
  match h with
  | [] => false
  | EAdd e _ :: h' => veqb v e || memb v (elems e) || mentioned v h'
  | ERem _ :: h' => mentioned v h'
  | EDestroy :: _ => false
  end.
Lemma vrow_unmentioned h v : mentioned v h = false -> vrow h v = None.
Proof.
  induction h as [|x h IH]; [reflexivity|]. destruct x as [e t|e|]; cbn [mentioned vrow]; intros H.
  - apply orb_false_iff in H as [H1 H2]. apply orb_false_iff in H1 as [H0 H1]. rewrite H0, (IH H2).
    apply memb_nin in H1. rewrite (count_0 _ _ H1). now destruct (memb e (stored h)).
  - rewrite (IH H). destruct (memb e (stored h)); [|reflexivity]. now destruct (veqb v e).
  - reflexivity.
Qed.

Lemma vrow_forgotten h v : forgotten v h -> vrow h v = None.
Proof.
  induction h as [|x h IH]; [reflexivity|]. destruct x as [e t|e|]; cbn [forgotten vrow]; intros H.
  - destruct H as (H1 & H2 & H3). apply veqb_neq in H1. rewrite H1, (IH H3), (count_0 _ _ H2). now destruct (memb e (stored h)).
  - destruct H as [[-> H]|H].
    + apply memb_in in H. now rewrite H, veqb_refl.
    + rewrite (IH H). destruct (memb e (stored h)); [|reflexivity]. now destruct (veqb v e).
  - reflexivity.
Qed.

(** ** same updates in different modes *)

Definition add_fs (h : list ev) (e : value) (t : Z) : list upd := if memb e (stored h) then [] else add_upds e t.
Definition rem_fs (h : list ev) (e : value) : list upd := if memb e (stored h) then rem_upds e else [].

(** like [goes], with the updates fixed by the history *)
Definition goesf {A} (V : value -> Prop) (h h' : list ev) (m : M A) (a : A) (fs : list upd) : Prop :=
  forall c, live c -> Inv V (c_work c) h -> does false m c a fs /\ Inv V (runs fs (c_work c)) h'.

Lemma goesf_bind {A B} V h h1 h2 (m : M A) (k : A -> M B) a x fs gs :
  goesf V h h1 m a fs -> goesf V h1 h2 (k a) x gs -> goesf V h h2 (bind m k) x (fs ++ gs).
Proof.
  intros H1 H2 c L I. destruct (H1 c L I) as ((c1 & t1 & E1 & S1) & I1).
  destruct (H2 c1) as ((c2 & t2 & E2 & S2) & I2).
  - unfold live. now rewrite (st_cur _ _ _ _ _ S1).
  - now rewrite (st_work _ _ _ _ _ S1).
  - split.
    + exists c2, (t1 ++ t2). split; [unfold bind; now rewrite E1, E2|now apply (step_app false c fs c1)].
    + rewrite runs_app. now rewrite (st_work _ _ _ _ _ S1) in I2.
Qed.
Lemma goesf_ret {A} V h (a : A) : goesf V h h (ret a) a [].
Proof. intros c L I. split; [apply does_ret|exact I]. Qed.
Lemma goesf_bind_ret {A B} V h h1 (m : M A) a (x : B) fs : goesf V h h1 m a fs -> goesf V h h1 (m;; ret x) x fs.
Proof. intros H. rewrite <- (app_nil_r fs). eapply goesf_bind; [exact H|apply goesf_ret]. Qed.
Lemma goesf_lift {A B} V h h1 (r : res A) (k : A -> M B) a x fs : r = Ok a -> goesf V h h1 (k a) x fs -> goesf V h h1 (bind (lift r) k) x fs.
Proof.
  intros E H. change fs with ([] ++ fs). eapply goesf_bind; [|exact H]. rewrite E. apply goesf_ret.
Qed.
Lemma goesf_gives {A} V h (m : M A) a :
  (forall c, live c -> Inv V (c_work c) h -> gives m c a) -> goesf V h h m a [].
Proof. intros H c L I. split; [apply does_gives, H; assumption|exact I]. Qed.

Lemma goesf_add_raw V h e t : noalias V -> edge_in V e -> int64 t = true -> goesf V h (EAdd e t :: h) (add_raw e t) e (add_fs h e t).
Proof.
  intros HV He T c L I. pose proof (Inv_exists V _ h c e HV I eq_refl L He) as G. unfold add_fs.
  destruct (memb e (stored h)) eqn:M.
  - split; [now apply does_gives, add_old_does|]. apply Inv_add_present; [exact I|now apply memb_in].
  - split; [apply does_weaken, add_new_does; auto; now apply (edge_in_db V)|].
    apply Inv_add; [exact I|exact He|now apply memb_nin].
Qed.
Lemma goesf_remove_raw V h e : noalias V -> edge_in V e -> goesf V h (ERem e :: h) (remove_raw e) tt (rem_fs h e).
Proof.
  intros HV He c L I. pose proof (Inv_exists V _ h c e HV I eq_refl L He) as G. unfold rem_fs.
  destruct (memb e (stored h)) eqn:M.
  - split; [apply remove_old_does; auto; now apply (edge_in_db V)|]. apply Inv_rem; [exact I|now apply memb_in].
  - split; [now apply does_gives, remove_absent_does|]. apply Inv_rem_absent; [exact I|now apply memb_nin].
Qed.
Lemma goesf_add V h e t : noalias V -> edge_in V e -> int64 t = true -> goesf V h (EAdd e t :: h) (add e t) e (add_fs h e t).
Proof.
  intros HV He T. destruct (index0_edge e (edge_in_db _ _ He)) as (a & E0 & Ea). unfold add.
  eapply goesf_lift; [exact E0|]. cbn beta. rewrite Ea. apply (goesf_bind_ret V h _ _ tt).
  apply (goesf_bind_ret V h _ _ e). now apply goesf_add_raw.
Qed.
Lemma goesf_remove V h e : noalias V -> edge_in V e -> goesf V h (ERem e :: h) (remove e) tt (rem_fs h e).
Proof.
  intros HV He. destruct (index0_edge e (edge_in_db _ _ He)) as (a & E0 & Ea). unfold remove.
  eapply goesf_lift; [exact E0|]. cbn beta. rewrite Ea. now apply goesf_remove_raw.
Qed.

Fixpoint loop_fs {A} (g : list ev -> A -> list ev) (u : list ev -> A -> list upd) (l : list A) (h : list ev) : list upd :=
  match l with [] => [] | x :: l' => u h x ++ loop_fs g u l' (g h x) end.
Lemma goesf_mfor {A} V (l : list A) (f : A -> M unit) g u :
  (forall x h, In x l -> goesf V h (g h x) (f x) tt (u h x)) ->
  forall h, goesf V h (fold_left g l h) (mfor l f) tt (loop_fs g u l h).
Proof.
  induction l as [|x l IH]; intros H h; cbn [mfor fold_left loop_fs]; [apply goesf_ret|].
  eapply goesf_bind; [apply H; now left|]. apply IH. intros y h' Hy. apply H. now right.
Qed.

Lemma goesf_top {A} V h h' (m : M A) a c fs : goesf V h h' m a fs -> ready V c h ->
  exists tr, m c = (Ok a, Conn (c_auto c) (runs fs (c_work c)) (runs fs (c_work c)) CNone, tr).
Proof.
  intros G [Hc Hs I]. destruct (G c) as ((c' & tr & E & S) & I').
  { unfold live. now rewrite Hc. }
  { exact I. }
  exists tr. rewrite E. repeat f_equal. destruct (st_sync _ _ _ _ _ S (or_introl Hc) Hs) as [Hs' _].
  pose proof (st_cur _ _ _ _ _ S) as C. pose proof (st_auto _ _ _ _ _ S) as Au. pose proof (st_work _ _ _ _ _ S) as W.
  destruct c' as [a' cm' wk' cu']; cbn in *. rewrite <- W, <- Au, Hs', C, Hc. reflexivity.
Qed.
Lemma goesf_shared V h h' (body : M unit) c fs : goesf V h h' body tt fs -> ready V c h ->
  exists tr, (do cur <- open_cursor false; body;; close_cursor cur false true) c
     = (Ok tt, Conn (c_auto c) (runs fs (c_work c)) (runs fs (c_work c)) CNone, tr).
Proof.
  intros G [Hc Hs I]. set (c0 := Conn (c_auto c) (c_comm c) (c_work c) COpen).
  destruct (G c0) as ((c1 & tr & E & S) & I'); [easy|exact I|].
  assert (O : open_cursor false c = (Ok HShared, c0, [])).
  { unfold open_cursor, bind, get_cur, set_cur, ret, c0. rewrite Hc. reflexivity. }
  pose proof (st_cur _ _ _ _ _ S) as Hc1. cbn in Hc1.
  pose proof (st_work _ _ _ _ _ S) as Hw1. pose proof (st_auto _ _ _ _ _ S) as Ha1. cbn in Hw1, Ha1.
  assert (K : close_cursor HShared false true c1
              = (Ok tt, Conn (c_auto c1) (c_work c1) (c_work c1) CNone, [c_work c1])).
  { unfold close_cursor, bind, commit, get_cur, set_cur. cbn. now rewrite Hc1. }
  eexists. unfold bind. rewrite O, E, K. rewrite Hw1, Ha1. reflexivity.
Qed.

Definition bop_fs (h : list ev) (b : bop) : list upd :=
  match b with
  | BAdd e t => add_fs h e t
  | BRemove e => rem_fs h e
  | BRemoveMany es => loop_fs (fun h e => ERem e :: h) rem_fs es h
  | BDestroy => [wipe_v; wipe_p]
  | BExists _ | BPattern _ | BStar _ | BRoot _ | BAll => []
  end.
Lemma goesf_bop V h b : noalias V -> bop_in V b -> goesf V h (after_bop h b) (run_bop b) tt (bop_fs h b).
Proof.
  intros HV Hb. destruct b as [e t|e|es| |e|p|a|r|]; cbn [run_bop after_bop bop_in bop_fs] in *.
  - apply (goesf_bind_ret V h _ _ e). now apply goesf_add.
  - now apply goesf_remove.
  - destruct Hb as [Hn Hes]. destruct (index0_edges V es Hn Hes) as (a & E0 & Ea). unfold remove.
    eapply goesf_lift; [exact E0|]. cbn beta. rewrite Ea. eapply goesf_lift; [reflexivity|]. cbn beta.
    apply goesf_mfor. intros x h' Hx. apply goesf_remove_raw; [exact HV|]. rewrite Forall_forall in Hes. now apply Hes.
  - intros c L I. split; [apply does_weaken; now apply destroy_does|apply (Inv_destroy V _ h)].
  - apply (goesf_gives V h). intros c L I. unfold gives.
    rewrite (bind_gives _ _ c _ (Inv_exists V _ h c e HV I eq_refl L Hb)). reflexivity.
  - apply (goesf_gives V h). intros c L I. unfold gives.
    destruct (Inv_pattern V h p c HV I L Hb) as (l & G & _). rewrite (bind_gives _ _ c _ G). reflexivity.
  - apply (goesf_gives V h). intros c L I. unfold gives.
    destruct (Inv_star V h a c HV I L Hb) as (l & G & _). rewrite (bind_gives _ _ c _ G). reflexivity.
  - apply (goesf_gives V h). intros c L I. unfold gives. destruct Hb as (R1 & R2 & R3).
    destruct (Inv_symbols V h r c I L R1 R2 R3) as (l & G & _). rewrite (bind_gives _ _ c _ G). reflexivity.
  - apply (goesf_gives V h). intros c L I. unfold gives.
    destruct (Inv_f_all (fun x => x) V h c I L) as (l & G & _). rewrite (bind_gives _ _ c _ G). reflexivity.
Qed.

Lemma mfor_app {A} (l m : list A) (f : A -> M unit) c : mfor (l ++ m) f c = bind (mfor l f) (fun _ => mfor m f) c.
Proof.
  revert c. induction l as [|x l IH]; intros c; cbn [app mfor].
  - unfold bind, ret. destruct (mfor m f c) as [[r c'] t]. reflexivity.
  - unfold bind at 1. unfold bind at 2. destruct (f x c) as [[[u|] c1] t1] eqn:E.
    + rewrite IH. unfold bind at 1. unfold bind at 1. rewrite E. destruct (mfor l f c1) as [[[u1|] c2] t2]; [|reflexivity].
      destruct (mfor m f c2) as [[r c3] t3]. now rewrite app_assoc.
    + unfold bind. now rewrite E.
Qed.
Lemma mfor_nested {A} (fs : list (list A)) (f : A -> M unit) c :
  mfor (List.map (fun l => mfor l f) fs) (fun f => f) c = mfor (List.concat fs) f c.
Proof.
  revert c. induction fs as [|l fs IH]; intros c; [reflexivity|]. cbn [List.map mfor List.concat].
  rewrite mfor_app. apply bind_ext. intros a c'. apply IH.
Qed.

(** ** membership in words *)

Lemma stored_present h e : In e (stored h) <-> present h e.
Proof.
  unfold present. induction h as [|x h IH].
  - split; [easy|]. intros (l & t & r & E & _). now destruct l.
  - split.
    + intros H. destruct x as [e' t|e'|]; [| |easy].
      * destruct (veqb e e') eqn:Ee.
        -- apply veqb_eq in Ee as <-. exists [], t, h. split; [reflexivity|]. now split.
        -- apply veqb_neq in Ee. apply stored_add in H as [H|H]; [easy|].
           apply IH in H as (l & t' & r & -> & H1 & H2). exists (EAdd e' t :: l), t', r.
           split; [reflexivity|]. split; intros [X|X]; try discriminate; tauto.
      * apply stored_rem in H as [Ne H]. apply IH in H as (l & t' & r & -> & H1 & H2).
        exists (ERem e' :: l), t', r. split; [reflexivity|].
        split; (intros [X|X]; [|tauto]); [injection X as ->; easy|discriminate].
    + intros (l & t & r & E & H1 & H2). destruct l as [|y l].
      * injection E as -> ->. apply stored_add. now left.
      * injection E as -> ->. assert (H : In e (stored (l ++ EAdd e t :: r))).
        { apply IH. exists l, t, r. split; [reflexivity|]. split; intros X; [apply H1|apply H2]; now right. }
        destruct y as [e' t'|e'|].
        -- apply stored_add. now right.
        -- apply stored_rem. split; [|exact H]. intros ->. apply H1. now left.
        -- exfalso. apply H2. now left.
Qed.

(** ** the row prefix of an edge used as star centre *)

Lemma join_word_prefix ws us t : Forall is_word ws -> Forall is_word us ->
  join [c_space] us = join [c_space] ws ++ c_space :: t -> ws <> [] -> exists vs, us = ws ++ vs.
Proof.
  intros Hw Hu. revert us Hu. induction Hw as [|w ws Hw1 Hw IH]; intros us Hu E Hn; [easy|].
  assert (Split : forall a b x y, nospace a = true -> nospace b = true ->
            a ++ c_space :: x = b ++ c_space :: y -> a = b /\ x = y).
  { clear. induction a as [|p a IH]; intros [|q b] x y Ha Hb E; cbn in *.
    - injection E as ->. now split.
    - injection E as <- _. cbn in Hb. now apply andb_true_iff in Hb.
    - injection E as -> _. cbn in Ha. now apply andb_true_iff in Ha.
    - apply andb_true_iff in Ha as [_ Ha]. apply andb_true_iff in Hb as [_ Hb].
      injection E as -> E. destruct (IH b x y Ha Hb E) as [-> ->]. now split. }
  assert (NoS : forall a x y, nospace a = true -> a <> x ++ c_space :: y).
  { clear. intros a x y Ha ->. rewrite nospace_app in Ha. apply andb_true_iff in Ha as [_ Ha]. cbn in Ha. discriminate. }
  destruct us as [|u us].
  { exfalso. cbn [join] in E. now apply app_cons_not_nil in E. }
  inversion Hu as [|? ? Hu1 Hu']; subst. destruct Hw1 as [_ Nw], Hu1 as [_ Nu].
  destruct us as [|u2 us].
  { change (join [c_space] [u]) with u in E. exfalso. destruct ws as [|w2 ws].
    - cbn in E. now apply (NoS u w t).
    - rewrite join_cons, <- !app_assoc in E. cbn [app] in E. now apply (NoS u w (join [c_space] (w2 :: ws) ++ c_space :: t)). }
  rewrite join_cons in E. destruct ws as [|w2 ws].
  - change (join [c_space] [w]) with w in E. cbn [app] in E. destruct (Split _ _ _ _ Nu Nw E) as [-> _]. now exists (u2 :: us).
  - rewrite join_cons, <- !app_assoc in E. cbn [app] in E.
    destruct (Split _ _ _ _ Nu Nw E) as [-> E2].
    destruct (IH (u2 :: us) Hu' E2 ltac:(easy)) as [vs ->]. now exists vs.
Qed.

Lemma vertex_prefix v w l : db_vertex v = true -> db_vertex w = true -> Forall (fun x => wf_vertex x = true) l ->
  prefixb (edge2str v ++ [c_space]) (nodes2str (w :: l)) = true -> v = w.
Proof.
  intros Hv Hw Hl P. apply db_vertex_wf in Hv, Hw. apply prefixb_spec in P as [t P].
  rewrite nodes2str_words in P by (now constructor). rewrite edge2str_words in P by exact Hv.
  rewrite <- app_assoc in P. cbn [app] in P.
  pose proof (words_bal v Hv) as Bv. pose proof (words_bal w Hw) as Bw.
  assert (Fv : Forall is_word (words v)).
  { pose proof (flat_map_words_word [v] ltac:(repeat constructor; exact Hv)) as X. cbn in X. now rewrite app_nil_r in X. }
  destruct (join_word_prefix (words v) _ t Fv (flat_map_words_word (w :: l) ltac:(now constructor)) P (words_nonnil v Hv)) as [vs E].
  cbn [flat_map] in E. apply edge2str_inj; [exact Hv|exact Hw|]. rewrite !edge2str_words by assumption. f_equal.
  destruct Bv as (_ & Nv & Sv & Pv), Bw as (_ & Nw & Sw & Pw).
  apply app_split in E as [(r & E1 & _)|(r & E1 & _)].
  - destruct r as [|x r]; [now rewrite app_nil_r in E1|].
    specialize (Pv _ _ E1 Nw ltac:(easy)). lia.
  - destruct r as [|x r]; [now rewrite app_nil_r in E1|].
    specialize (Pw _ _ E1 Nv ltac:(easy)). lia.
Qed.

Lemma Inv_star_edge_empty V h v c : Inv V (c_work c) h -> live c -> db_vertex v = true ->
  (forall e, In e (stored h) -> ~ In v (elems e)) -> gives (star v) c [].
Proof.
  intros I L Hv Hno. set (s := edge2str v ++ [c_space]).
  assert (Hn : s <> []) by (unfold s; intros E; now apply app_eq_nil in E).
  assert (Ht : db_text s = true).
  { unfold s. rewrite db_text_split, scalars_app, (db_vertex_scalar v Hv). cbn [andb].
    rewrite last_ok_snoc; [reflexivity|unfold c_space; lia]. }
  destruct (db_text_plus_1 s Hn Ht) as (hi & Hhi & B1 & B2).
  unfold gives, star, str2perms. fold s. rewrite (bind_gives _ _ c hi) by (now apply gives_lift).
  apply query_shape; [exact L|cbn; now rewrite B1, B2|]. intros hd Hh.
  rewrite (filter_ext (in_range s hi) (prefixb s)) by (intros r; now apply in_range_prefix).
  assert (E : filter (prefixb s) (perms (c_work c)) = []).
  { destruct (filter (prefixb s) (perms (c_work c))) as [|r rs] eqn:F; [reflexivity|]. exfalso.
    assert (In r (filter (prefixb s) (perms (c_work c)))) as H by (rewrite F; now left).
    apply filter_In in H as [Hr P]. destruct (wf_rows _ _ (i_wf _ _ _ I) r Hr) as (e & He & Rr).
    pose proof (proj1 (i_rows _ _ _ I e r He Rr) Hr) as Hs. apply (Hno e Hs).
    destruct Rr as (k & p & Hk & Ep & ->).
    destruct (nthperm_ok _ k Hk) as (p' & _ & Ep' & Pp). assert (p' = p) by congruence. subst p'.
    destruct (db_edge_elems e (edge_in_db _ _ He)) as (Ee & Ae & Le).
    destruct p as [|x p]; [apply Permutation_length in Pp; cbn in Pp; lia|].
    pose proof (all_db_perm _ _ Pp Ae) as Ap. inversion Ap as [|? ? Hx Hp]; subst.
    cbn [app] in P. apply vertex_prefix in P; [|exact Hv|exact Hx|].
    - subst x. eapply Permutation_in; [symmetry; exact Pp|now left].
    - apply Forall_app. split; [now apply all_db_wf|now repeat constructor]. }
  rewrite E. rewrite (bind_gives _ _ c []) by (now apply gives_lift).
  rewrite (bind_gives _ _ c tt) by (now apply close_query). reflexivity.
Qed.
