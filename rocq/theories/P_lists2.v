(** * P_lists2.v -- the tables after calls with lists *)
From Verif Require Import Py M_symbol M_edge M_sql M_hypergraph P_py Spec P_edge P_perm P_range P_query
  S_history M_driver P_ops P_hist P_graph P_answers M_lists S_lists P_lists.
From Coq Require Import Permutation Factorial String.
Open Scope list_scope.

Record Book (V : value -> Prop) (w : db) (m : list mark) : Prop := {
  b_wf : wf_db V w;
  b_edges : forall e, In e (stored (events m)) -> edge_in V e;
  b_rows : forall e r, edge_in V e -> is_row (elems e) r -> (In r (perms w) <-> In e (stored (events m)));
  b_vert : forall v, db_vertex v = true -> vlook (edge2str v) w = ledger m v }.

Lemma Book_empty V : Book V db_empty [].
Proof. constructor; try easy. constructor; try easy; constructor. Qed.

Lemma Book_exists V w m c e : noalias V -> Book V w m -> c_work c = w -> live c -> edge_in V e ->
  gives (exists_ e) c (memb e (stored (events m))).
Proof.
  intros HV I Ew L He. destruct (exists_run V w c e HV (wf_rows V w (b_wf _ _ _ I)) Ew L He) as (b & G & Hb).
  assert (b = memb e (stored (events m))); [|now subst b].
  destruct (memb e (stored (events m))) eqn:M.
  - apply Hb. apply memb_in in M. destruct (row_exists V e He) as (r & Hr & Pr). exists r.
    split; [now apply (b_rows _ _ _ I e r)|]. now split.
  - destruct b; [|reflexivity]. exfalso. apply memb_nin in M. apply M.
    destruct (proj1 Hb eq_refl) as (r & Hr & Rr & _). now apply (b_rows _ _ _ I e r).
Qed.

Lemma Book_add V w m p t : Book V w m -> edge_in V (tuples p) -> shallow p && there p m = false ->
  Book V (runs (add_upds (tuples p) t) w) (MAdd p t :: m).
Proof.
  intros I He Hn. set (e := tuples p) in *. pose proof (edge_in_db _ _ He) as De.
  assert (Hv : db_vertex e = true) by (now apply db_edge_vertex).
  assert (Pt : perms (runs (List.map (fun x => touch (edge2str x) t) (elems e)) w) = perms w).
  { apply perms_same_runs. intros f d Hf. apply in_map_iff in Hf as (x & <- & _). apply perms_touch. }
  constructor.
  - apply runs_inv; [apply I|]. intros f d. now apply add_upds_wf.
  - intros x Hx. cbn [events] in Hx. apply stored_add in Hx as [->|Hx]; [exact He|]. now apply (b_edges _ _ _ I).
  - intros x r Hx Hr. cbn [events]. rewrite stored_add. unfold add_upds. rewrite !runs_app, perms_ins_runs.
    cbn [runs fold_left]. rewrite perms_set. change (fold_left (fun w0 f => f w0) ?a ?b) with (runs a b).
    rewrite Pt, rows_of_spec by (now apply (elems_nonnil V)). rewrite (b_rows _ _ _ I x r Hx Hr). split.
    + intros [H|H]; [left; now apply (row_other V x e r)|now right].
    + intros [->|H]; [now left|now right].
  - intros v Dv. cbn [ledger]. rewrite Hn. unfold add_upds. rewrite !runs_app, vlook_ins_runs. cbn [runs fold_left].
    rewrite vlook_set. change (fold_left (fun w0 f => f w0) ?a ?b) with (runs a b).
    rewrite (id_eqb v e Dv Hv). fold e. destruct (veqb v e); [reflexivity|].
    rewrite touch_runs; [|now apply db_edge_elems|exact Dv]. now rewrite (b_vert _ _ _ I v Dv).
Qed.
Lemma Book_add_present V w m p t : Book V w m -> shallow p && there p m = true -> Book V w (MAdd p t :: m).
Proof.
  intros I H. assert (P : In (tuples p) (stored (events m))) by (apply andb_true_iff in H as [_ H]; now apply memb_in).
  pose proof (stored_add_present (tuples p) t _ P) as S. constructor; cbn [events]; try rewrite S; try apply I.
  intros v Dv. cbn [ledger]. rewrite H. now apply I.
Qed.
Lemma Book_rem V w m p : Book V w m -> shallow p && there p m = true -> Book V (runs (rem_upds (tuples p)) w) (MRem p :: m).
Proof.
  intros I Hn. destruct (andb_prop _ _ Hn) as [Hs Ht]. set (e := tuples p) in *.
  assert (He : edge_in V e) by (apply (b_edges _ _ _ I); now apply memb_in). pose proof (edge_in_db _ _ He) as De.
  assert (Hv : db_vertex e = true) by (now apply db_edge_vertex).
  assert (Pt : perms (runs (List.map (fun x => inc_row (edge2str x) (-1)) (elems e)) w) = perms w).
  { apply perms_same_runs. intros f d Hf. apply in_map_iff in Hf as (x & <- & _). reflexivity. }
  constructor.
  - apply runs_inv; [apply I|]. intros f d. apply rem_upds_wf.
  - intros x Hx. cbn [events] in Hx. rewrite Hs in Hx. apply stored_rem in Hx as [_ Hx]. now apply (b_edges _ _ _ I).
  - intros x r Hx Hr. cbn [events]. rewrite Hs. rewrite stored_rem. unfold rem_upds. rewrite !runs_app. cbn [runs fold_left].
    rewrite perms_del. change (fold_left (fun w0 f => f w0) ?a ?b) with (runs a b).
    rewrite perms_del_runs, Pt, rows_of_spec by (now apply (elems_nonnil V)).
    rewrite (b_rows _ _ _ I x r Hx Hr). split; intros [A B]; split; try exact B.
    + intros ->. easy.
    + intros R. apply A. now apply (row_other V x e r).
  - intros v Dv. cbn [ledger]. rewrite Hn. unfold rem_upds. rewrite !runs_app. cbn [runs fold_left].
    rewrite vlook_del. change (fold_left (fun w0 f => f w0) ?a ?b) with (runs a b).
    rewrite (id_eqb v e Dv Hv). fold e. destruct (veqb v e); [reflexivity|].
    rewrite vlook_delp_runs, inc_runs; [|now apply db_edge_elems|exact Dv]. now rewrite (b_vert _ _ _ I v Dv).
Qed.
Lemma Book_rem_absent V w m p : Book V w m -> shallow p && there p m = false -> Book V w (MRem p :: m).
Proof.
  intros I H. assert (S : stored (events (MRem p :: m)) = stored (events m)).
  { cbn [events]. destruct (shallow p); [|reflexivity]. apply stored_rem_absent. now apply memb_nin. }
  constructor; try rewrite S; try apply I. intros v Dv. cbn [ledger]. rewrite H. now apply I.
Qed.
Lemma Book_destroy V w m : Book V (runs [wipe_v; wipe_p] w) (MWipe :: m).
Proof. constructor; try easy. constructor; try easy; constructor. Qed.

(** ** the methods *)
Lemma put_does e t c : live c -> db_edge e = true -> int64 t = true -> does true (put e (elems e) t) c tt (add_upds e t).
Proof.
  intros L He T. destruct (db_edge_elems e He) as (Ee & Ae & Le).
  assert (Hn : elems e <> []) by (intros E; rewrite E in Le; cbn in Le; lia).
  unfold put. unfold add_upds. rewrite <- flat_map_single. eapply does_bind.
  { apply (mfor_does true _ _ (fun x => [touch (edge2str x) t])); [exact L|].
    intros x c' Hx L'. apply touch_does; [exact L'| |exact T]. unfold all_db in Ae. rewrite Forall_forall in Ae. now apply Ae. }
  intros c1 N1. pose proof (next_live _ _ _ N1 L) as L1. eapply does_bind.
  { apply add_str_does; [exact L1| |exact T]. now apply vertex_bindable, db_edge_vertex. }
  intros c2 N2. pose proof (next_live _ _ _ N2 L1) as L2.
  unfold write_edge_permutations. rewrite <- flat_map_single. apply do_with_does; [exact Hn|exact L2|].
  intros r c' Hr L'. apply write_perm_does; [exact L'|]. now apply (row_bindable (elems e)).
Qed.

Lemma Book_pexists V m c p : noalias V -> Book V (c_work c) m -> live c -> edge_in V (tuples p) ->
  gives (pexists p) c (shallow p && there p m).
Proof.
  intros HV I L He. pose proof (Book_exists V _ m c (tuples p) HV I eq_refl L He) as G. destruct (shallow p) eqn:S; cbn [andb].
  - unfold gives. rewrite (pexists_shallow p c S). exact G.
  - exact (pexists_lists p _ c c [] S G).
Qed.
Lemma pitems_edge p : db_edge (tuples p) = true -> exists items, pitems p = Ok items /\ List.map tuples items = elems (tuples p).
Proof.
  intros H. apply db_edge_inv in H as (a & b & l & E & _). destruct p as [| | | |m|m]; try discriminate; now exists m.
Qed.
Lemma pindex0_edge p : db_edge (tuples p) = true -> exists x, pindex0 p = Ok x /\ is_seq x = false.
Proof.
  intros H. destruct (index0_edge _ H) as (a & E & Na). rewrite pindex0_tuples in E. destruct (pindex0 p) as [x|]; [|discriminate].
  injection E as <-. exists x. split; [reflexivity|]. now rewrite <- is_seq_tuples.
Qed.

Definition moves {A} (b : bool) (V : value -> Prop) (m m' : list mark) (g : M A) (a : A) : Prop :=
  forall c, live c -> Book V (c_work c) m -> exists fs, does b g c a fs /\ Book V (runs fs (c_work c)) m'.
Lemma moves_bind {A B} b V h h1 h2 (m : M A) (k : A -> M B) a x :
  moves b V h h1 m a -> moves b V h1 h2 (k a) x -> moves b V h h2 (bind m k) x.
Proof.
  intros H1 H2 c L I. destruct (H1 c L I) as (fs & (c1 & t1 & E1 & S1) & I1).
  destruct (H2 c1) as (gs & (c2 & t2 & E2 & S2) & I2).
  - unfold live. now rewrite (st_cur _ _ _ _ _ S1).
  - now rewrite (st_work _ _ _ _ _ S1).
  - exists (fs ++ gs). split.
    + exists c2, (t1 ++ t2). split; [unfold bind; now rewrite E1, E2|now apply (step_app b c fs c1)].
    + rewrite runs_app. now rewrite (st_work _ _ _ _ _ S1) in I2.
Qed.
Lemma moves_ret {A} b V h (a : A) : moves b V h h (ret a) a.
Proof. intros c L I. exists []. split; [apply does_ret|exact I]. Qed.
Lemma moves_lift {A} b V h (r : res A) a : r = Ok a -> moves b V h h (lift r) a.
Proof. intros ->. apply moves_ret. Qed.
Lemma moves_weaken {A} V h h' (m : M A) a : moves true V h h' m a -> moves false V h h' m a.
Proof. intros H c L I. destruct (H c L I) as (fs & D & I'). exists fs. split; [now apply does_weaken|exact I']. Qed.
Lemma moves_mfor {A} b V (l : list A) (f : A -> M unit) (g : A -> mark) :
  (forall x h, In x l -> moves b V h (g x :: h) (f x) tt) ->
  forall h, moves b V h (rev (List.map g l) ++ h) (mfor l f) tt.
Proof.
  induction l as [|x l IH]; intros H h; cbn [mfor List.map rev app]; [apply moves_ret|].
  eapply moves_bind; [apply H; now left|]. rewrite <- app_assoc. cbn [app]. apply IH. intros y h' Hy. apply H. now right.
Qed.

Lemma moves_padd_raw V m p t : noalias V -> edge_in V (tuples p) -> int64 t = true -> moves true V m (MAdd p t :: m) (padd_raw p t) p.
Proof.
  intros HV He T c L I. pose proof (Book_pexists V m c p HV I L He) as G. pose proof (edge_in_db _ _ He) as De.
  destruct (pitems_edge p De) as (items & E & Ei).
  destruct (shallow p && there p m) eqn:B.
  - exists []. split; [|now apply Book_add_present]. apply does_gives. unfold gives. rewrite (padd_raw_put p items t c E), (bind_gives _ _ c _ G). reflexivity.
  - exists (add_upds (tuples p) t). split; [|now apply Book_add].
    destruct (put_does (tuples p) t c L De T) as (c' & tr & R & S). exists c', tr. split; [|exact S].
    rewrite (padd_raw_put p items t c E), (bind_gives _ _ c _ G), Ei. unfold bind. rewrite R. cbn [ret]. now rewrite app_nil_r.
Qed.
Lemma moves_premove_raw V m p : noalias V -> edge_in V (tuples p) -> moves false V m (MRem p :: m) (premove_raw p) tt.
Proof.
  intros HV He c L I. pose proof (edge_in_db _ _ He) as De. pose proof (Book_exists V _ m c (tuples p) HV I eq_refl L He) as G0.
  pose proof (Book_pexists V m c p HV I L He) as G. destruct (shallow p && there p m) eqn:B.
  - exists (rem_upds (tuples p)). split; [|now apply Book_rem]. destruct (andb_prop _ _ B) as [S Th]. unfold there in Th. rewrite Th in G0.
    unfold does. rewrite (premove_raw_shallow p c S). exact (remove_old_does (tuples p) c L De G0).
  - exists []. split; [|now apply Book_rem_absent]. apply does_gives. unfold gives, premove_raw. rewrite (bind_gives _ _ c _ G). reflexivity.
Qed.
Lemma moves_destroy V m : moves true V m (MWipe :: m) destroy tt.
Proof. intros c L I. exists [wipe_v; wipe_p]. split; [now apply destroy_does|apply (Book_destroy V _ m)]. Qed.

(** ** at top level *)
Record settled (V : value -> Prop) (c : conn) (m : list mark) : Prop := {
  se_cur : c_cur c = CNone; se_sync : c_comm c = c_work c; se_book : Book V (c_work c) m }.
Lemma settled_live V c m : settled V c m -> live c.
Proof. intros [H _ _]. unfold live. now rewrite H. Qed.
Lemma moves_top {A} b V m m' (g : M A) a c : moves b V m m' g a -> settled V c m ->
  exists c' tr, g c = (Ok a, c', tr) /\ settled V c' m' /\ c_auto c' = c_auto c.
Proof.
  intros G [Hc Hs I]. destruct (G c) as (fs & (c' & tr & E & S) & I'); [unfold live; now rewrite Hc|exact I|].
  exists c', tr. destruct (st_sync _ _ _ _ _ S (or_introl Hc) Hs) as [Hs' Tr]. split; [exact E|]. split; [|apply S].
  constructor; [now rewrite (st_cur _ _ _ _ _ S)|exact Hs'|now rewrite (st_work _ _ _ _ _ S)].
Qed.
Lemma moves_shared b V m m' (body : M unit) c : moves b V m m' body tt -> settled V c m ->
  exists c' tr, (do cur <- open_cursor false; body;; close_cursor cur false true) c = (Ok tt, c', tr) /\ settled V c' m' /\ c_auto c' = c_auto c.
Proof.
  intros G [Hc Hs I]. set (c0 := Conn (c_auto c) (c_comm c) (c_work c) COpen).
  destruct (G c0) as (fs & (c1 & tr & E & S) & I'); [easy|exact I|].
  assert (O : open_cursor false c = (Ok HShared, c0, [])).
  { unfold open_cursor, bind, get_cur, set_cur, ret, c0. rewrite Hc. reflexivity. }
  pose proof (st_cur _ _ _ _ _ S) as Hc1. cbn in Hc1.
  assert (K : close_cursor HShared false true c1
              = (Ok tt, Conn (c_auto c1) (c_work c1) (c_work c1) CNone, [c_work c1])).
  { unfold close_cursor, bind, commit, get_cur, set_cur. cbn. now rewrite Hc1. }
  exists (Conn (c_auto c1) (c_work c1) (c_work c1) CNone), (tr ++ [c_work c1]). split.
  - unfold bind. now rewrite O, E, K.
  - split.
    + constructor; [reflexivity|reflexivity|]. cbn. now rewrite (st_work _ _ _ _ _ S).
    + cbn. rewrite (st_auto _ _ _ _ _ S). reflexivity.
Qed.

Lemma edges_of_cases V p : Forall (fun q => edge_in V (tuples q)) (edges_of p) ->
  exists x l, pindex0 p = Ok x /\ pitems p = Ok l /\ edges_of p = if is_seq x then l else [p].
Proof.
  intros F. assert (C : exists x, pindex0 p = Ok x).
  { destruct p as [|s| | |m|m]; try (cbn in F; inversion F as [|? ? [H _] _]; discriminate H).
    - destruct m as [|y m]; [cbn in F; inversion F as [|? ? [H _] _]; discriminate H|now exists y].
    - destruct m as [|y m]; [cbn in F; inversion F as [|? ? [H _] _]; discriminate H|now exists y]. }
  destruct C as (x & Ex). assert (exists items, pitems p = Ok items) as [l I] by (unfold pindex0 in Ex; destruct (pitems p) as [l|]; [now exists l|discriminate]).
  exists x, l. split; [exact Ex|]. split; [exact I|]. exact (edges_of_items p x l Ex I).
Qed.
Lemma padd_many p x l t c : pindex0 p = Ok x -> is_seq x = true -> pitems p = Ok l ->
  padd p t c = ((do cur <- open_cursor false; mfor l (fun edge => padd_raw edge t;; ret tt);; close_cursor cur false true);; ret p) c.
Proof.
  intros E S I. unfold padd. rewrite E. cbn [lift]. rewrite (bind_gives _ _ c x eq_refl), S. apply bind_ext_l. apply bind_ext. intros cur c1.
  rewrite I. cbn [lift]. now rewrite (bind_gives _ _ c1 l eq_refl).
Qed.
Lemma padd_one p x t c : pindex0 p = Ok x -> is_seq x = false -> padd p t c = ((padd_raw p t;; ret tt);; ret p) c.
Proof. intros E S. unfold padd. rewrite E. cbn [lift]. now rewrite (bind_gives _ _ c x eq_refl), S. Qed.
Lemma premove_many p x l c : pindex0 p = Ok x -> is_seq x = true -> pitems p = Ok l -> premove p c = mfor l premove_raw c.
Proof.
  intros E S I. unfold premove. rewrite E. cbn [lift]. rewrite (bind_gives _ _ c x eq_refl), S, I. cbn [lift]. now rewrite (bind_gives _ _ c l eq_refl).
Qed.
Lemma premove_one p x c : pindex0 p = Ok x -> is_seq x = false -> premove p c = premove_raw p c.
Proof. intros E S. unfold premove. rewrite E. cbn [lift]. now rewrite (bind_gives _ _ c x eq_refl), S. Qed.

Lemma padd_settled V p t m c : noalias V -> call_in V (CAdd p t) -> settled V c m ->
  exists c' tr, padd p t c = (Ok p, c', tr) /\ settled V c' (rev (marks_of (CAdd p t)) ++ m) /\ c_auto c' = c_auto c.
Proof.
  intros HV [F T] R. cbn [marks_of]. destruct (edges_of_cases V p F) as (x & l & Ex & I & E). rewrite E in F |- *.
  assert (W : forall (q : M unit) c' tr, q c = (Ok tt, c', tr) -> (q;; ret p) c = (Ok p, c', tr)).
  { intros q c' tr H. unfold bind. rewrite H. cbn [ret]. now rewrite app_nil_r. }
  destruct (is_seq x) eqn:Sx.
  - destruct (moves_shared true V m (rev (List.map (fun q => MAdd q t) l) ++ m) (mfor l (fun edge => padd_raw edge t;; ret tt)) c) as (c' & tr & H & S).
    { apply (moves_mfor true V l _ (fun q => MAdd q t)). intros q h Hq. eapply moves_bind; [|apply moves_ret]. apply moves_padd_raw; [exact HV| |exact T].
      rewrite Forall_forall in F. now apply F. }
    { exact R. }
    exists c', tr. split; [|exact S]. rewrite (padd_many p x l t c Ex Sx I). exact (W _ c' tr H).
  - inversion F as [|? ? He _]; subst. destruct (moves_top true V m (MAdd p t :: m) (padd_raw p t;; ret tt) tt c) as (c' & tr & H & S).
    { eapply moves_bind; [|apply moves_ret]. now apply moves_padd_raw. }
    { exact R. }
    exists c', tr. split; [|exact S]. rewrite (padd_one p x t c Ex Sx). exact (W _ c' tr H).
Qed.
Lemma premove_settled V p m c : noalias V -> call_in V (CRemove p) -> settled V c m ->
  exists c' tr, premove p c = (Ok tt, c', tr) /\ settled V c' (rev (marks_of (CRemove p)) ++ m) /\ c_auto c' = c_auto c.
Proof.
  intros HV F R. cbn [marks_of call_in] in *. destruct (edges_of_cases V p F) as (x & l & Ex & I & E). rewrite E in F |- *.
  destruct (is_seq x) eqn:Sx.
  - destruct (moves_top false V m (rev (List.map MRem l) ++ m) (mfor l premove_raw) tt c) as (c' & tr & H & S).
    { apply (moves_mfor false V l _ MRem). intros q h Hq. apply moves_premove_raw; [exact HV|]. rewrite Forall_forall in F. now apply F. }
    { exact R. }
    exists c', tr. split; [|exact S]. now rewrite (premove_many p x l c Ex Sx I).
  - inversion F as [|? ? He _]; subst. destruct (moves_top false V m (MRem p :: m) (premove_raw p) tt c) as (c' & tr & H & S).
    { now apply moves_premove_raw. }
    { exact R. }
    exists c', tr. split; [|exact S]. now rewrite (premove_one p x c Ex Sx).
Qed.
(** inside a batch *)
Lemma moves_eq {A} b V m m' (g g' : M A) a : (forall c, g' c = g c) -> moves b V m m' g a -> moves b V m m' g' a.
Proof.
  intros E G c L I. destruct (G c L I) as (fs & (c' & tr & R & S) & I'). exists fs. split; [|exact I']. exists c', tr. split; [|exact S]. now rewrite E.
Qed.
Lemma moves_padd V m p t : noalias V -> edge_in V (tuples p) -> int64 t = true -> moves true V m (MAdd p t :: m) (padd p t;; ret tt) tt.
Proof.
  intros HV He T. destruct (pindex0_edge p (edge_in_db _ _ He)) as (x & Ex & Sx). eapply moves_bind; [|apply moves_ret].
  apply (moves_eq true V m _ ((padd_raw p t;; ret tt);; ret p)); [intros c; exact (padd_one p x t c Ex Sx)|].
  eapply moves_bind; [|apply moves_ret]. eapply moves_bind; [exact (moves_padd_raw V m p t HV He T)|apply moves_ret].
Qed.
Lemma moves_premove V m p : noalias V -> Forall (fun q => edge_in V (tuples q)) (edges_of p) ->
  moves false V m (rev (List.map MRem (edges_of p)) ++ m) (premove p) tt.
Proof.
  intros HV F. destruct (edges_of_cases V p F) as (x & l & Ex & I & E). rewrite E in F |- *. destruct (is_seq x) eqn:Sx.
  - apply (moves_eq false V m _ (mfor l premove_raw)); [intros c; exact (premove_many p x l c Ex Sx I)|].
    apply (moves_mfor false V l _ MRem). intros q h Hq. apply moves_premove_raw; [exact HV|]. rewrite Forall_forall in F. now apply F.
  - inversion F as [|? ? He _]; subst. apply (moves_eq false V m _ (premove_raw p)); [intros c; exact (premove_one p x c Ex Sx)|].
    now apply moves_premove_raw.
Qed.
Lemma moves_step V m b : noalias V -> step_in V b -> moves false V m (rev (step_marks b) ++ m) (run_step b) tt.
Proof.
  intros HV H. destruct b as [p t|p|]; cbn [run_step step_marks].
  - destruct H as [Hp T]. apply moves_weaken. now apply moves_padd.
  - now apply moves_premove.
  - apply moves_weaken, moves_destroy.
Qed.
Lemma moves_steps V l : noalias V -> Forall (step_in V) l -> forall m,
  moves false V m (rev (flat_map step_marks l) ++ m) (mfor (List.map run_step l) (fun f => f)) tt.
Proof.
  intros HV F. induction F as [|b l Hb _ IH]; intros m; cbn [List.map mfor flat_map]; [apply moves_ret|].
  rewrite rev_app_distr, <- app_assoc. eapply moves_bind; [now apply moves_step|]. apply IH.
Qed.
Lemma call_settled V k m c : noalias V -> call_in V k -> settled V c m ->
  exists c' tr, run_call k c = (Ok tt, c', tr) /\ settled V c' (rev (marks_of k) ++ m) /\ c_auto c' = c_auto c.
Proof.
  intros HV Hk R. destruct k as [p t|p| |l]; cbn [run_call].
  - destruct (padd_settled V p t m c HV Hk R) as (c' & tr & H & S). exists c', tr. split; [|exact S]. unfold bind. rewrite H. cbn [ret]. now rewrite app_nil_r.
  - exact (premove_settled V p m c HV Hk R).
  - destruct (moves_top true V m (MWipe :: m) destroy tt c (moves_destroy V m) R) as (c' & tr & H). now exists c', tr.
  - exact (moves_shared false V m _ (mfor (List.map run_step l) (fun f => f)) c (moves_steps V l HV Hk m) R).
Qed.
Lemma calls_settled V ks m c : noalias V -> Forall (call_in V) ks -> settled V c m ->
  exists c' tr, run_calls ks c = (Ok tt, c', tr) /\ settled V c' (marks ks ++ m).
Proof.
  intros HV F. revert m c. induction F as [|k ks Hk _ IH]; intros m c R.
  - exists c, []. split; [reflexivity|exact R].
  - destruct (call_settled V k m c HV Hk R) as (c1 & t1 & H1 & S1 & _). destruct (IH _ c1 S1) as (c2 & t2 & H2 & S2).
    exists c2, (t1 ++ t2). split.
    + unfold run_calls. cbn [mfor]. unfold bind. rewrite H1. unfold run_calls in H2. now rewrite H2.
    + unfold marks in *. cbn [flat_map]. now rewrite rev_app_distr, <- app_assoc.
Qed.
Lemma start_settled V auto : settled V (start auto) [].
Proof. constructor; [reflexivity|reflexivity|apply Book_empty]. Qed.

(** ** answers *)
Lemma settled_exists V c m e : noalias V -> settled V c m -> edge_in V e ->
  exists b, exists_ e c = (Ok b, c, []) /\ (b = true <-> present (events m) e).
Proof.
  intros HV R He. exists (memb e (stored (events m))).
  split; [exact (Book_exists V _ m c e HV (se_book _ _ _ R) eq_refl (settled_live _ _ _ R) He)|]. rewrite memb_in. apply stored_present.
Qed.
Lemma settled_pattern V c m p : noalias V -> settled V c m -> pattern_in V p ->
  exists l, pattern2edges (VTup p) c = (Ok l, c, []) /\ NoDup l /\ forall e, In e l <-> present (events m) e /\ matches p (elems e).
Proof.
  intros HV R Hp. pose proof (se_book _ _ _ R) as I. pose proof (settled_live _ _ _ R) as L. pose proof (pattern_in_ok V p Hp) as Hp'.
  destruct (pattern_run V (c_work c) c p HV (wf_rows _ _ (b_wf _ _ _ I)) eq_refl L Hp') as (l & G & N & Il).
  exists l. split; [exact G|]. split; [exact N|]. intros e. rewrite Il, <- stored_present. split.
  - intros (He & (r & Hr & Rr & _) & M). split; [|exact M]. now apply (b_rows _ _ _ I e r).
  - intros (He & M). pose proof (b_edges _ _ _ I e He) as Hi. split; [exact Hi|]. split; [|exact M].
    destruct Hp' as [(a & rest & Ea & _) _ _].
    apply (indexed_hit_pattern V); [exact Hi| | |exact M].
    + intros r Hr. now apply (b_rows _ _ _ I e r).
    + exists a. apply filter_In. rewrite Ea. now left.
Qed.
Lemma settled_star V c m a : noalias V -> settled V c m -> db_atom a = true ->
  exists l, star a c = (Ok l, c, []) /\ NoDup l /\ forall e, In e l <-> present (events m) e /\ In a (elems e).
Proof.
  intros HV R Ha. pose proof (se_book _ _ _ R) as I. pose proof (settled_live _ _ _ R) as L.
  destruct (star_run V (c_work c) c a HV (wf_rows _ _ (b_wf _ _ _ I)) eq_refl L Ha) as (l & G & N & Il).
  exists l. split; [exact G|]. split; [exact N|]. intros e. rewrite Il, <- stored_present. split.
  - intros (He & Hh). split; [|now apply (hit_star_elem V (c_work c))]. destruct Hh as (r & Hr & Rr & _). now apply (b_rows _ _ _ I e r).
  - intros (He & M). split; [now apply (b_edges _ _ _ I)|]. apply indexed_hit_star; [|exact M].
    intros r Hr. apply (b_rows _ _ _ I e r); [now apply (b_edges _ _ _ I)|exact Hr|exact He].
Qed.
Lemma settled_degree V c m v : settled V c m -> db_vertex v = true ->
  degree v c = (Ok (match ledger m v with Some (d, _) => d | None => 0%Z end), c, []).
Proof. intros R Hv. rewrite <- (b_vert _ _ _ (se_book _ _ _ R) v Hv). apply degree_gives; [apply R|exact Hv]. Qed.
Lemma settled_timestamp V c m v : settled V c m -> db_vertex v = true ->
  timestamp v c = (Ok (match ledger m v with Some (_, t) => t | None => (-1)%Z end), c, []).
Proof. intros R Hv. rewrite <- (b_vert _ _ _ (se_book _ _ _ R) v Hv). apply timestamp_gives; [apply R|exact Hv]. Qed.
