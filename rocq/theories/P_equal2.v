(** * P_equal2.v -- histories that mix equal numbers: the tables and the answers *)
From Verif Require Import Py M_symbol M_edge M_sql M_hypergraph P_py Spec P_edge P_perm P_range P_query
  S_history M_driver P_ops P_hist P_graph P_answers P_alias S_equal P_equal.
From Coq Require Import Permutation Factorial String.
Open Scope list_scope.

(** ** the texts of the rows *)
Lemma row_prefix_any Q p k : all_db Q -> all_db p -> db_vertex k = true -> (List.length Q <= List.length p)%nat -> Q <> [] ->
  prefixb (nodes2str Q) (nodes2str (p ++ [k])) = true ->
  exists x rest, p = removelast Q ++ x :: rest /\ prefixb (edge2str (List.last Q VNone)) (edge2str x) = true.
Proof.
  revert p. induction Q as [|y Q IH]; intros p HQ Hp Hk L Hn P; [easy|]. destruct p as [|z p]; [cbn in L; lia|].
  inversion HQ as [|? ? Hy HQ']; inversion Hp as [|? ? Hz Hp']; subst.
  destruct Q as [|y2 Q].
  - exists z, p. split; [reflexivity|]. cbn [List.last].
    change (nodes2str [y]) with (edge2str y) in P.
    assert (S : exists u, nodes2str ((z :: p) ++ [k]) = edge2str z ++ c_space :: u).
    { destruct p as [|z2 p]; [exists (nodes2str [k])|exists (nodes2str ((z2 :: p) ++ [k]))]; apply nodes2str_cons. }
    destruct S as (u & S). rewrite S in P.
    apply prefixb_spec in P as [t P]. apply prefixb_spec. symmetry in P. apply app_split in P as [(r & E & _)|(r & E1 & E2)].
    + now exists r.
    + destruct r as [|c r]; [rewrite app_nil_r in E1; exists []; now rewrite E1, app_nil_r|]. injection E2 as <- _.
      assert (X : z = y). { apply (vertex_prefix z y []); [exact Hz|exact Hy|constructor|]. apply prefixb_spec. exists r. change (nodes2str [y]) with (edge2str y). rewrite E1, <- app_assoc. reflexivity. }
      subst z. exists []. now rewrite app_nil_r.
  - destruct p as [|z2 p]; [cbn in L; lia|]. rewrite nodes2str_cons in P. change ((z :: z2 :: p) ++ [k]) with (z :: (z2 :: p) ++ [k]) in P.
    assert (X : y = z).
    { apply (vertex_prefix y z ((z2 :: p) ++ [k])); [exact Hy|exact Hz| |].
      - apply Forall_app. split; [now apply all_db_wf|]. constructor; [now apply db_vertex_wf|constructor].
      - apply prefixb_spec in P as [t P]. apply prefixb_spec. exists (nodes2str (y2 :: Q) ++ t). rewrite P, <- !app_assoc. reflexivity. }
    subst z. change (y :: (z2 :: p) ++ [k]) with (y :: z2 :: (p ++ [k])) in P. rewrite nodes2str_cons in P.
    assert (P' : prefixb (nodes2str (y2 :: Q)) (nodes2str ((z2 :: p) ++ [k])) = true).
    { apply prefixb_spec in P as [t P]. apply prefixb_spec. exists t. rewrite <- app_assoc in P. cbn [app] in P.
      apply app_inv_head in P. now injection P. }
    assert (L' : (List.length (y2 :: Q) <= List.length (z2 :: p))%nat) by (cbn in *; lia).
    destruct (IH (z2 :: p) HQ' Hp' Hk L' ltac:(easy) P') as (x & rest & E & Px).
    exists x, rest. split; [|exact Px]. change (removelast (y :: y2 :: Q)) with (y :: removelast (y2 :: Q)). now rewrite E.
Qed.
Lemma row_prefix_any_conv Q x rest k : Q <> [] -> prefixb (edge2str (List.last Q VNone)) (edge2str x) = true ->
  prefixb (nodes2str Q) (nodes2str ((removelast Q ++ x :: rest) ++ [k])) = true.
Proof.
  intros Hn P.
  assert (E : (removelast Q ++ x :: rest) ++ [k] = (removelast Q ++ [x]) ++ (rest ++ [k])) by (now rewrite <- !app_assoc).
  rewrite E, nodes2str_app; [|intros F; now apply app_eq_nil in F|intros F; now apply app_eq_nil in F].
  apply prefixb_spec in P as [t P].
  rewrite (app_removelast_last VNone Hn) at 1. set (m := removelast Q) in *. set (l := List.last Q VNone) in *.
  apply prefixb_spec. exists (t ++ c_space :: nodes2str (rest ++ [k])). destruct m as [|y m].
  - cbn [app]. change (nodes2str [x]) with (edge2str x). change (nodes2str [l]) with (edge2str l). rewrite P. now rewrite <- app_assoc.
  - rewrite (nodes2str_snoc (y :: m) x) by easy. rewrite (nodes2str_snoc (y :: m) l) by easy. change (nodes2str [x]) with (edge2str x). change (nodes2str [l]) with (edge2str l). rewrite P.
    rewrite <- !app_assoc. cbn [app]. now rewrite <- !app_assoc.
Qed.
Lemma hit_spelled w p e : pattern_any p -> db_edge e = true -> equal_match p (elems e) ->
  hit w (nodes2str (filter not_none p)) e -> spelled p (elems e).
Proof.
  intros [(a & rest & Ea & Ha) Hd] He M (r & _ & (k & q & Hk & Eq & ->) & P).
  destruct (nthperm_ok _ k Hk) as (q' & _ & Eq' & Pq). assert (q' = q) by congruence. subst q'.
  destruct (db_edge_elems e He) as (Ee & Ae & Le).
  assert (Hdf : all_db (filter not_none p)) by (apply Forall_forall; intros x Hx; apply filter_In in Hx as [Hx Nx]; now apply Hd).
  assert (Len : (List.length (filter not_none p) <= List.length q)%nat).
  { rewrite <- (Permutation_length Pq). apply F2_len in M. rewrite <- M. clear. induction p as [|x p IH]; cbn; [lia|]. destruct (not_none x); cbn; lia. }
  destruct (row_prefix_any (filter not_none p) q (VInt k) Hdf (all_db_perm _ _ Pq Ae) eq_refl Len) as (x & rs & E & Px); [now rewrite Ea|exact P|].
  apply prefixb_spec in Px as [t Px]. exists x, t, rs. split; [|exact Px]. now rewrite E in Pq.
Qed.
Lemma spelled_hit w p e : pattern_any p -> (forall r, is_row (elems e) r -> In r (perms w)) -> spelled p (elems e) ->
  hit w (nodes2str (filter not_none p)) e.
Proof.
  intros [(a & rest & Ea & Ha) Hd] I (x & t & rs & P & Ex). change (filter bound p) with (filter not_none p) in *.
  destruct (nthperm_complete _ _ P) as (k & Hk & Ek).
  exists (nodes2str ((removelast (filter not_none p) ++ x :: rs) ++ [VInt k])).
  assert (R : is_row (elems e) (nodes2str ((removelast (filter not_none p) ++ x :: rs) ++ [VInt k]))).
  { exists k, (removelast (filter not_none p) ++ x :: rs). split; [exact Hk|]. split; [exact Ek|reflexivity]. }
  split; [exact (I _ R)|]. split; [exact R|]. apply row_prefix_any_conv; [now rewrite Ea|]. apply prefixb_spec. now exists t.
Qed.

(** ** the function [foundb] *)
Lemma remove1_some v l : forall m, remove1 v l = Some m -> Permutation l (v :: m).
Proof.
  induction l as [|x l IH]; intros m E; [discriminate|]. cbn [remove1] in E. destruct (veqb v x) eqn:V.
  - injection E as <-. apply veqb_eq in V as ->. apply Permutation_refl.
  - destruct (remove1 v l) as [m'|]; [|discriminate]. injection E as <-.
    eapply Permutation_trans; [apply perm_skip, (IH m' eq_refl)|apply perm_swap].
Qed.
Lemma remove1_in v l : In v l -> exists m, remove1 v l = Some m.
Proof.
  induction l as [|x l IH]; intros H; [destruct H|]. cbn [remove1]. destruct (veqb v x) eqn:V; [now exists l|].
  destruct H as [->|H]; [rewrite veqb_refl in V; discriminate|]. destruct (IH H) as (m & ->). now exists (x :: m).
Qed.
Lemma permb_spec l : forall m, permb l m = true <-> Permutation l m.
Proof.
  induction l as [|x l IH]; intros m; cbn [permb].
  - destruct m; split; try reflexivity; [discriminate|]. intros P. now apply Permutation_nil in P.
  - split.
    + destruct (remove1 x m) as [m'|] eqn:E; [|discriminate]. intros P. apply IH in P. apply remove1_some in E.
      symmetry. eapply Permutation_trans; [exact E|]. now constructor.
    + intros P. destruct (remove1_in x m) as (m' & E); [apply (Permutation_in x P); now left|]. rewrite E. apply IH.
      apply remove1_some in E. apply (Permutation_cons_inv (a := x)). now rewrite <- E.
Qed.
Lemma findsb_spec q e : findsb q e = true <-> finds q e.
Proof.
  unfold findsb, finds. rewrite andb_true_iff, existsb_exists. split.
  - intros (E & x & _ & H). apply andb_true_iff in H as [P H]. split; [exact E|]. apply permb_spec in P. apply prefixb_spec in H as [t H].
    exists x, t. split; [now symmetry|exact H].
  - intros (E & x & t & P & H). split; [exact E|]. exists x. split.
    + apply (Permutation_in x (Permutation_sym P)). apply in_app_iff. right. now left.
    + apply andb_true_iff. split; [apply permb_spec; now symmetry|]. apply prefixb_spec. now exists t.
Qed.
Lemma foundb_spec q E : foundb q E = true <-> exists e, In e E /\ finds q e.
Proof.
  unfold foundb. rewrite existsb_exists. split; intros (e & He & F); exists e; (split; [exact He|now apply findsb_spec]).
Qed.
Lemma finds_self e : db_edge e = true -> finds e e.
Proof.
  intros He. split; [now apply py_eq_refl_db, db_edge_vertex|]. exists (List.last (elems e) VNone), [].
  destruct (db_edge_elems e He) as (_ & _ & L). split; [|now rewrite app_nil_r].
  rewrite <- app_removelast_last; [apply Permutation_refl|]. intros E. rewrite E in L. cbn in L. lia.
Qed.

(** ** the tables after a history *)
Record Tab (w : db) (h : list ev) : Prop := {
  t_wf : wf_db Any w;
  t_edges : forall e, In e (held h) -> db_edge e = true;
  t_rows : forall e r, db_edge e = true -> is_row (elems e) r -> (In r (perms w) <-> In e (held h));
  t_vert : forall v, db_vertex v = true -> vlook (edge2str v) w = account h v }.
Lemma Tab_empty : Tab db_empty [].
Proof. constructor; try easy. constructor; try easy; constructor. Qed.

Lemma any_of q : db_edge q = true -> pattern_any (elems q).
Proof.
  intros Hq. destruct (db_edge_elems q Hq) as (_ & Aq & _). destruct (db_edge_inv q Hq) as (a & b & l & E & Ha & _).
  constructor; [|intros x Hx _; unfold all_db in Aq; rewrite Forall_forall in Aq; now apply Aq].
  exists a, (b :: l). split; [|exact Ha]. rewrite (filter_all_db _ Aq). now rewrite E.
Qed.
Lemma equal_all q e : db_edge q = true -> db_edge e = true -> (equal_match (elems q) (elems e) <-> py_eq q e = true).
Proof.
  intros Hq He. destruct (db_edge_elems q Hq) as (Eq & Aq & _). destruct (db_edge_elems e He) as (Ee & _ & _).
  assert (X : py_eq q e = py_eq (VTup (elems q)) (VTup (elems e))) by (rewrite <- Eq, <- Ee; reflexivity).
  rewrite X, P_alias.py_eq_tup. revert Aq. generalize (elems q), (elems e). clear. intros l m Aq. split; intros H.
  - induction H as [|x y l m [->|Hxy] _ IH]; constructor; inversion Aq; subst; try assumption; [discriminate|now apply IH|now apply IH].
  - induction H as [|x y l m Hxy _ IH]; constructor; inversion Aq; subst; [now right|now apply IH].
Qed.
Lemma spelled_all q e : db_edge q = true -> db_edge e = true -> py_eq q e = true -> (spelled (elems q) (elems e) <-> finds q e).
Proof.
  intros Hq He E. destruct (db_edge_elems q Hq) as (_ & Aq & Lq). unfold spelled, finds. change (filter bound (elems q)) with (filter not_none (elems q)).
  rewrite (filter_all_db _ Aq). split.
  - intros (x & t & rest & P & Ex). split; [exact E|]. exists x, t. split; [|exact Ex].
    assert (rest = []); [|now subst rest].
    apply (equal_all q e Hq He) in E. apply F2_len in E. apply Permutation_length in P. rewrite <- E, app_length in P. cbn in P.
    assert (L : (S (List.length (removelast (elems q))) = List.length (elems q))%nat).
    { destruct (elems q) as [|y l]; [cbn in Lq; lia|]. rewrite (app_removelast_last VNone (l := y :: l)) at 2 by easy. rewrite app_length. cbn [List.length]. lia. }
    destruct rest; [reflexivity|cbn in P; lia].
  - intros (_ & x & t & P & Ex). exists x, t, []. split; [exact P|exact Ex].
Qed.

Lemma Tab_pattern w h c p : Tab w h -> c_work c = w -> live c -> pattern_any p ->
  exists l, gives (pattern2edges (VTup p)) c l /\ NoDup l
    /\ (forall e, In e l -> In e (held h) /\ equal_match p (elems e) /\ spelled p (elems e))
    /\ (forall e, In e (held h) -> equal_match p (elems e) -> spelled p (elems e) -> exists e', In e' l /\ py_eq e e' = true)
    /\ (forall x y, In x l -> In y l -> py_eq x y = true -> x = y).
Proof.
  intros I Ew L Hp. destruct (equal_pattern w c p (wf_rows _ _ (t_wf _ _ I)) Ew L Hp) as (l & G & N & I1 & I2 & I3).
  exists l. split; [exact G|]. split; [exact N|]. split; [|split; [|exact I3]].
  - intros e He. destruct (I1 e He) as (De & Hh & M). split; [|split; [exact M|exact (hit_spelled w p e Hp De M Hh)]].
    destruct Hh as (r & Hr & Rr & _). now apply (t_rows _ _ I e r).
  - intros e He M S. pose proof (t_edges _ _ I e He) as De. apply (I2 e De); [|exact M]. apply spelled_hit; [exact Hp| |exact S].
    intros r Hr. now apply (t_rows _ _ I e r).
Qed.
Lemma Tab_star w h c v : Tab w h -> c_work c = w -> live c -> db_atom v = true ->
  exists l, gives (star v) c l /\ NoDup l
    /\ (forall e, In e l -> In e (held h) /\ In v (elems e))
    /\ (forall e, In e (held h) -> In v (elems e) -> exists e', In e' l /\ py_eq e e' = true)
    /\ (forall x y, In x l -> In y l -> py_eq x y = true -> x = y).
Proof.
  intros I Ew L Hv. destruct (equal_star w c v (wf_rows _ _ (t_wf _ _ I)) Ew L Hv) as (l & G & N & I1 & I2 & I3).
  exists l. split; [exact G|]. split; [exact N|]. split; [|split; [|exact I3]].
  - intros e He. destruct (I1 e He) as (De & Hh). split; [|exact (hit_star_elem Any w v e Hv (proj2 (any_edge e) De) Hh)].
    destruct Hh as (r & Hr & Rr & _). now apply (t_rows _ _ I e r).
  - intros e He M. pose proof (t_edges _ _ I e He) as De. apply (I2 e De). apply indexed_hit_star; [|exact M].
    intros r Hr. now apply (t_rows _ _ I e r).
Qed.
Lemma Tab_exists w h c q : Tab w h -> c_work c = w -> live c -> db_edge q = true -> gives (exists_ q) c (foundb q (held h)).
Proof.
  intros I Ew L Hq. destruct (Tab_pattern w h c (elems q) I Ew L (any_of q Hq)) as (l & G & _ & I1 & I2 & _).
  destruct (db_edge_elems q Hq) as (Eq & _ & _). rewrite <- Eq in G.
  assert (B : Nat.ltb 0 (List.length l) = foundb q (held h)).
  { destruct (foundb q (held h)) eqn:F.
    - apply foundb_spec in F as (e & He & Fe). pose proof (t_edges _ _ I e He) as De. pose proof (proj1 Fe) as E.
      destruct (I2 e He (proj2 (equal_all q e Hq De) E) (proj2 (spelled_all q e Hq De E) Fe)) as (e' & He' & _). now destruct l.
    - destruct l as [|e l]; [reflexivity|]. exfalso. destruct (I1 e (or_introl eq_refl)) as (He & M & S). pose proof (t_edges _ _ I e He) as De.
      apply (equal_all q e Hq De) in M. apply (spelled_all q e Hq De M) in S.
      assert (foundb q (held h) = true); [apply foundb_spec; now exists e|congruence]. }
  unfold gives, exists_. rewrite (bind_gives _ _ c l G). now rewrite B.
Qed.

Lemma Tab_add w h e t : Tab w h -> db_edge e = true -> foundb e (held h) = false -> Tab (runs (add_upds e t) w) (EAdd e t :: h).
Proof.
  intros I De Hn. pose proof (proj2 (any_edge e) De) as He.
  assert (Hv : db_vertex e = true) by (now apply db_edge_vertex).
  assert (Pt : perms (runs (List.map (fun x => touch (edge2str x) t) (elems e)) w) = perms w).
  { apply perms_same_runs. intros f d Hf. apply in_map_iff in Hf as (x & <- & _). apply perms_touch. }
  constructor.
  - apply runs_inv; [apply I|]. intros f d. now apply add_upds_wf.
  - intros x Hx. cbn [held] in Hx. rewrite Hn in Hx. destruct Hx as [<-|Hx]; [exact De|]. now apply (t_edges _ _ I).
  - intros x r Hx Hr. cbn [held]. rewrite Hn. unfold add_upds. rewrite !runs_app, perms_ins_runs.
    cbn [runs fold_left In]. rewrite perms_set. change (fold_left (fun w0 f => f w0) ?a ?b) with (runs a b).
    rewrite Pt, rows_of_spec by (now apply (elems_nonnil Any)). rewrite (t_rows _ _ I x r Hx Hr). split.
    + intros [H|H]; [left; exact (row_other Any e x r He (proj2 (any_edge x) Hx) H Hr)|now right].
    + intros [->|H]; [now left|now right].
  - intros v Dv. cbn [account]. rewrite Hn. unfold add_upds. rewrite !runs_app, vlook_ins_runs. cbn [runs fold_left].
    rewrite vlook_set. change (fold_left (fun w0 f => f w0) ?a ?b) with (runs a b).
    rewrite (id_eqb v e Dv Hv). destruct (veqb v e); [reflexivity|].
    rewrite touch_runs; [|now apply db_edge_elems|exact Dv]. now rewrite (t_vert _ _ I v Dv).
Qed.
Lemma Tab_add_found w h e t : Tab w h -> foundb e (held h) = true -> Tab w (EAdd e t :: h).
Proof.
  intros I H. assert (S : held (EAdd e t :: h) = held h) by (cbn [held]; now rewrite H).
  constructor; try rewrite S; try apply I. intros v Dv. cbn [account]. rewrite H. now apply I.
Qed.
Lemma held_rem e h x : In x (held (ERem e :: h)) <-> x <> e /\ In x (held h).
Proof.
  cbn [held]. rewrite filter_In, negb_true_iff. split.
  - intros [A B]. split; [|exact A]. intros ->. rewrite veqb_refl in B. discriminate.
  - intros [A B]. split; [exact B|]. destruct (veqb e x) eqn:V; [|reflexivity]. apply veqb_eq in V. congruence.
Qed.
Lemma Tab_rem w h e : Tab w h -> db_edge e = true -> foundb e (held h) = true -> Tab (runs (rem_upds e) w) (ERem e :: h).
Proof.
  intros I De Hn. pose proof (proj2 (any_edge e) De) as He.
  assert (Hv : db_vertex e = true) by (now apply db_edge_vertex).
  assert (Pt : perms (runs (List.map (fun x => inc_row (edge2str x) (-1)) (elems e)) w) = perms w).
  { apply perms_same_runs. intros f d Hf. apply in_map_iff in Hf as (x & <- & _). reflexivity. }
  constructor.
  - apply runs_inv; [apply I|]. intros f d. apply rem_upds_wf.
  - intros x Hx. apply held_rem in Hx as [_ Hx]. now apply (t_edges _ _ I).
  - intros x r Hx Hr. rewrite held_rem. unfold rem_upds. rewrite !runs_app. cbn [runs fold_left].
    rewrite perms_del. change (fold_left (fun w0 f => f w0) ?a ?b) with (runs a b).
    rewrite perms_del_runs, Pt, rows_of_spec by (now apply (elems_nonnil Any)).
    rewrite (t_rows _ _ I x r Hx Hr). split; intros [A B]; (split; [|exact B]).
    + intros ->. exact (A Hr).
    + intros R. apply A. exact (row_other Any x e r (proj2 (any_edge x) Hx) He Hr R).
  - intros v Dv. cbn [account]. rewrite Hn. unfold rem_upds. rewrite !runs_app. cbn [runs fold_left].
    rewrite vlook_del. change (fold_left (fun w0 f => f w0) ?a ?b) with (runs a b).
    rewrite (id_eqb v e Dv Hv). destruct (veqb v e); [reflexivity|].
    rewrite vlook_delp_runs, inc_runs; [|now apply db_edge_elems|exact Dv]. now rewrite (t_vert _ _ I v Dv).
Qed.
Lemma Tab_rem_absent w h e : Tab w h -> foundb e (held h) = false -> db_edge e = true -> Tab w (ERem e :: h).
Proof.
  intros I H De. assert (Ni : forall x, In x (held (ERem e :: h)) <-> In x (held h)).
  { intros x. rewrite held_rem. split; [now intros [_ G]|]. intros G. split; [|exact G]. intros ->.
    assert (foundb e (held h) = true); [|congruence]. apply foundb_spec. exists e. split; [exact G|now apply finds_self]. }
  constructor; try apply I.
  - intros x Hx. apply Ni in Hx. now apply (t_edges _ _ I).
  - intros x r Hx Hr. rewrite Ni. now apply (t_rows _ _ I x r).
  - intros v Dv. cbn [account]. rewrite H. now apply I.
Qed.
Lemma Tab_destroy w h : Tab (runs [wipe_v; wipe_p] w) (EDestroy :: h).
Proof. constructor; try easy. constructor; try easy; constructor. Qed.

(** ** the methods *)
Definition carries {A} (b : bool) (h h' : list ev) (g : M A) (a : A) : Prop :=
  forall c, live c -> Tab (c_work c) h -> exists fs, does b g c a fs /\ Tab (runs fs (c_work c)) h'.
Lemma carries_bind {A B} b h h1 h2 (m : M A) (k : A -> M B) a x :
  carries b h h1 m a -> carries b h1 h2 (k a) x -> carries b h h2 (bind m k) x.
Proof.
  intros H1 H2 c L I. destruct (H1 c L I) as (fs & (c1 & t1 & E1 & S1) & I1).
  destruct (H2 c1) as (gs & (c2 & t2 & E2 & S2) & I2).
  - unfold live. now rewrite (st_cur _ _ _ _ _ S1).
  - now rewrite (st_work _ _ _ _ _ S1).
  - exists (fs ++ gs). split.
    + exists c2, (t1 ++ t2). split; [unfold bind; now rewrite E1, E2|now apply (step_app b c fs c1)].
    + rewrite runs_app. now rewrite (st_work _ _ _ _ _ S1) in I2.
Qed.
Lemma carries_ret {A} b h (a : A) : carries b h h (ret a) a.
Proof. intros c L I. exists []. split; [apply does_ret|exact I]. Qed.
Lemma carries_lift {A} b h (r : res A) a : r = Ok a -> carries b h h (lift r) a.
Proof. intros ->. apply carries_ret. Qed.
Lemma carries_mfor {A} b (l : list A) (f : A -> M unit) (g : list ev -> A -> list ev) :
  (forall x h, In x l -> carries b h (g h x) (f x) tt) -> forall h, carries b h (fold_left g l h) (mfor l f) tt.
Proof.
  induction l as [|x l IH]; intros H h; cbn [mfor fold_left]; [apply carries_ret|].
  eapply carries_bind; [apply H; now left|]. apply IH. intros y h' Hy. apply H. now right.
Qed.
Lemma carries_add_raw h e t : db_edge e = true -> int64 t = true -> carries true h (EAdd e t :: h) (add_raw e t) e.
Proof.
  intros He T c L I. pose proof (Tab_exists _ h c e I eq_refl L He) as G. destruct (foundb e (held h)) eqn:B.
  - exists []. split; [now apply does_gives, add_old_does|now apply Tab_add_found].
  - exists (add_upds e t). split; [now apply add_new_does|now apply Tab_add].
Qed.
Lemma carries_remove_raw h e : db_edge e = true -> carries false h (ERem e :: h) (remove_raw e) tt.
Proof.
  intros He c L I. pose proof (Tab_exists _ h c e I eq_refl L He) as G. destruct (foundb e (held h)) eqn:B.
  - exists (rem_upds e). split; [now apply remove_old_does|now apply Tab_rem].
  - exists []. split; [|now apply Tab_rem_absent]. apply does_gives. unfold gives, remove_raw. rewrite (bind_gives _ _ c _ G). reflexivity.
Qed.
Lemma carries_add h e t : db_edge e = true -> int64 t = true -> carries true h (EAdd e t :: h) (add e t) e.
Proof.
  intros He T. destruct (index0_edge e He) as (a & E0 & Ea). unfold add.
  eapply carries_bind; [apply carries_lift, E0|]. cbn beta. rewrite Ea.
  eapply carries_bind; [|apply carries_ret]. eapply carries_bind; [now apply carries_add_raw|apply carries_ret].
Qed.
Lemma carries_remove h e : db_edge e = true -> carries false h (ERem e :: h) (remove e) tt.
Proof.
  intros He. destruct (index0_edge e He) as (a & E0 & Ea). unfold remove.
  eapply carries_bind; [apply carries_lift, E0|]. cbn beta. rewrite Ea. now apply carries_remove_raw.
Qed.
Lemma any_edges es : Forall (fun e => db_edge e = true) es -> Forall (edge_in Any) es.
Proof. intros H. eapply Forall_impl; [|exact H]. intros e. exact (proj2 (any_edge e)). Qed.
Lemma carries_remove_many h es : es <> [] -> Forall (fun e => db_edge e = true) es ->
  carries false h (fold_left (fun h e => ERem e :: h) es h) (remove (VTup es)) tt.
Proof.
  intros Hn Hes. destruct (index0_edges Any es Hn (any_edges es Hes)) as (a & E0 & Ea). unfold remove.
  eapply carries_bind; [apply carries_lift, E0|]. cbn beta. rewrite Ea.
  eapply carries_bind; [apply carries_lift; reflexivity|]. cbn beta.
  apply (carries_mfor false es remove_raw (fun h e => ERem e :: h)). intros x h' Hx. apply carries_remove_raw.
  rewrite Forall_forall in Hes. now apply Hes.
Qed.
Lemma carries_destroy h : carries true h (EDestroy :: h) destroy tt.
Proof. intros c L I. exists [wipe_v; wipe_p]. split; [now apply destroy_does|apply (Tab_destroy _ h)]. Qed.

(** ** at top level *)
Record rests (c : conn) (h : list ev) : Prop := { re_cur : c_cur c = CNone; re_sync : c_comm c = c_work c; re_tab : Tab (c_work c) h }.
Lemma rests_live c h : rests c h -> live c.
Proof. intros [H _ _]. unfold live. now rewrite H. Qed.
Lemma carries_top {A} b h h' (g : M A) a c : carries b h h' g a -> rests c h -> exists c' tr, g c = (Ok a, c', tr) /\ rests c' h'.
Proof.
  intros G [Hc Hs I]. destruct (G c) as (fs & (c' & tr & E & S) & I'); [unfold live; now rewrite Hc|exact I|].
  exists c', tr. destruct (st_sync _ _ _ _ _ S (or_introl Hc) Hs) as [Hs' Tr]. split; [exact E|].
  constructor; [now rewrite (st_cur _ _ _ _ _ S)|exact Hs'|now rewrite (st_work _ _ _ _ _ S)].
Qed.
Lemma carries_shared b h h' (body : M unit) c : carries b h h' body tt -> rests c h ->
  exists c' tr, (do cur <- open_cursor false; body;; close_cursor cur false true) c = (Ok tt, c', tr) /\ rests c' h'.
Proof.
  intros G [Hc Hs I]. set (c0 := Conn (c_auto c) (c_comm c) (c_work c) COpen).
  destruct (G c0) as (fs & (c1 & tr & E & S) & I'); [easy|exact I|].
  assert (O : open_cursor false c = (Ok HShared, c0, [])).
  { unfold open_cursor, bind, get_cur, set_cur, ret, c0. rewrite Hc. reflexivity. }
  pose proof (st_cur _ _ _ _ _ S) as Hc1. cbn in Hc1.
  assert (K : close_cursor HShared false true c1
              = (Ok tt, Conn (c_auto c1) (c_work c1) (c_work c1) CNone, [c_work c1])).
  { unfold close_cursor, bind, commit, get_cur, set_cur. cbn. now rewrite Hc1. }
  exists (Conn (c_auto c1) (c_work c1) (c_work c1) CNone), (tr ++ [c_work c1]). split.
  - unfold bind. now rewrite O, E, K.
  - constructor; [reflexivity|reflexivity|]. cbn. now rewrite (st_work _ _ _ _ _ S).
Qed.
Lemma rests_add_many h es t c : es <> [] -> Forall (fun e => db_edge e = true) es -> int64 t = true -> rests c h ->
  exists c' tr, add (VTup es) t c = (Ok (VTup es), c', tr) /\ rests c' (fold_left (fun h e => EAdd e t :: h) es h).
Proof.
  intros Hn Hes T R. destruct (index0_edges Any es Hn (any_edges es Hes)) as (a & E0 & Ea).
  destruct (carries_shared true h (fold_left (fun h e => EAdd e t :: h) es h) (mfor es (fun edge => add_raw edge t;; ret tt)) c) as (c' & tr & E & R').
  { apply (carries_mfor true es _ (fun h e => EAdd e t :: h)). intros x h' Hx.
    eapply carries_bind; [|apply carries_ret]. apply carries_add_raw; [|exact T]. rewrite Forall_forall in Hes. now apply Hes. }
  { exact R. }
  exists c', tr. split; [|exact R'].
  unfold add. rewrite (bind_gives _ _ c a) by (now apply gives_lift). rewrite Ea.
  assert (X : forall c, (do cur <- open_cursor false; do items <- lift (as_seq (VTup es)); mfor items (fun edge => add_raw edge t;; ret tt);; close_cursor cur false true) c
     = (do cur <- open_cursor false; mfor es (fun edge => add_raw edge t;; ret tt);; close_cursor cur false true) c).
  { intros c0. apply bind_ext. intros hd c2. apply (bind_ret_l es (fun items => mfor items (fun edge => add_raw edge t;; ret tt);; close_cursor hd false true)). }
  rewrite (bind_ext_l _ _ _ c (X c)). unfold bind at 1. rewrite E. cbn [ret]. now rewrite app_nil_r.
Qed.
Lemma carries_weaken {A} h h' (m : M A) a : carries true h h' m a -> carries false h h' m a.
Proof. intros H c L I. destruct (H c L I) as (fs & D & I'). exists fs. split; [now apply does_weaken|exact I']. Qed.
Lemma carries_bop h b : plain_bop b -> carries false h (after_bop h b) (run_bop b) tt.
Proof.
  intros Hb. destruct b as [e t|e|es| |e|p|a|r|]; try contradiction; cbn [run_bop after_bop plain_bop] in *.
  - destruct Hb as [He T]. apply carries_weaken. eapply carries_bind; [now apply carries_add|apply carries_ret].
  - now apply carries_remove.
  - destruct Hb as [Hn Hes]. now apply carries_remove_many.
  - apply carries_weaken, carries_destroy.
Qed.
Lemma carries_concat {A} (fs : list (list A)) (f : A -> M unit) (g : list ev -> A -> list ev) :
  (forall x h, In x (List.concat fs) -> carries false h (g h x) (f x) tt) ->
  forall h, carries false h (fold_left g (List.concat fs) h) (mfor (List.map (fun l => mfor l f) fs) (fun f => f)) tt.
Proof.
  induction fs as [|l fs IH]; intros H h; cbn [List.map mfor List.concat]; [apply carries_ret|].
  rewrite fold_left_app. eapply carries_bind.
  - apply carries_mfor. intros x h' Hx. apply H. cbn [List.concat]. apply in_app_iff. now left.
  - apply IH. intros x h' Hx. apply H. cbn [List.concat]. apply in_app_iff. now right.
Qed.
Lemma link_db s e : db_vertex s = true -> db_edge e = true -> db_edge (link_edge s e) = true.
Proof.
  intros Hs He. pose proof (db_edge_vertex e He) as Hv. unfold link_edge.
  change (db_vertex (VStr (lit "src/1")) && (db_vertex e && (db_vertex s && true)) = true). now rewrite Hv, Hs.
Qed.
Lemma rests_beliefs h s es t c : es <> [] -> Forall (fun e => db_edge e = true) es -> db_vertex s = true -> int64 t = true -> rests c h ->
  exists c' tr, add (VTup (flat_map (fun edge => [edge; link s edge]) es)) t c = (Ok (VTup (flat_map (fun edge => [edge; link s edge]) es)), c', tr)
    /\ rests c' (fold_left (fun h e => EAdd (link_edge s e) t :: EAdd e t :: h) es h).
Proof.
  intros Hn Hes Hs T R. destruct (rests_add_many h (flat_map (fun edge => [edge; link s edge]) es) t c) as (c' & tr & E & R').
  - destruct es; [easy|discriminate].
  - rewrite Forall_forall in *. intros x Hx. apply in_flat_map in Hx as (e & He & [<-|[<-|[]]]); [now apply Hes|]. apply link_db; [exact Hs|now apply Hes].
  - exact T.
  - exact R.
  - exists c', tr. split; [exact E|]. rewrite fold_flat in R'. exact R'.
Qed.
Lemma rests_op ord h o c : plain_call o -> rests c h -> exists c' tr, run_op ord o c = (Ok tt, c', tr) /\ rests c' (after h o).
Proof.
  intros Ho R. destruct o as [e t|es t|e|es| |s e t|s es t|s e|p|fs|q|]; try contradiction; cbn [run_op plain_call after] in *.
  - destruct Ho as [He T]. apply (carries_top true h); [|exact R]. eapply carries_bind; [now apply carries_add|apply carries_ret].
  - destruct Ho as (Hn & Hes & T). destruct (rests_add_many h es t c Hn Hes T R) as (c' & tr & E & R'). exists c', tr. split; [|exact R'].
    unfold bind. rewrite E. cbn [ret]. now rewrite app_nil_r.
  - apply (carries_top false h); [|exact R]. now apply carries_remove.
  - destruct Ho as [Hn Hes]. apply (carries_top false h); [|exact R]. now apply carries_remove_many.
  - apply (carries_top true h); [apply carries_destroy|exact R].
  - destruct Ho as (He & Hs & T).
    destruct (rests_beliefs h s [e] t c ltac:(easy) ltac:(now constructor) Hs T R) as (c' & tr & E & R'). exists c', tr. split; [|exact R'].
    destruct (index0_edge e He) as (a & E0 & Ea).
    unfold add_belief. rewrite (bind_gives (lift (index0 e)) _ c a) by (now apply gives_lift). rewrite Ea.
    change (VTup [e; link s e]) with (VTup (flat_map (fun edge => [edge; link s edge]) [e])). unfold bind. rewrite E. cbn [ret]. now rewrite app_nil_r.
  - destruct Ho as (Hn & Hes & Hs & T).
    destruct (rests_beliefs h s es t c Hn Hes Hs T R) as (c' & tr & E & R'). exists c', tr. split; [|exact R'].
    destruct (index0_edges Any es Hn (any_edges es Hes)) as (a & E0 & Ea).
    unfold add_belief. rewrite (bind_gives (lift (index0 (VTup es))) _ c a) by (now apply gives_lift). rewrite Ea.
    rewrite (bind_gives (lift (as_seq (VTup es))) _ c es) by (now apply gives_lift). unfold bind. rewrite E. cbn [ret]. now rewrite app_nil_r.
  - apply (carries_shared false h); [|exact R]. apply carries_concat. intros b h' Hb. apply carries_bop.
    rewrite Forall_forall in Ho. now apply Ho.
  - destruct R as [Hc Hs I]. exists (reopen (c_auto c) (c_comm c)), [c_comm c]. split; [reflexivity|]. constructor; [reflexivity|reflexivity|].
    cbn. now rewrite Hs.
Qed.
Lemma any_pattern_ok p : any_pattern p -> pattern_any p.
Proof. intros [F I]. constructor; [exact F|]. intros x Hx N. exact (proj1 (I x Hx N)). Qed.
Lemma facts_ok e : db_vertex e = true -> any_pattern (facts_of e).
Proof.
  intros He. constructor.
  - exists (VStr (lit "src/1")), [e]. split; [|reflexivity]. unfold facts_of. cbn [filter bound]. now rewrite (db_vertex_not_none e He : bound e = true).
  - intros x [<-|[<-|[<-|[]]]] B; (split; [|exact I]); [reflexivity|exact He|discriminate B].
Qed.
Lemma Tab_answer w h c p : Tab w h -> c_work c = w -> live c -> any_pattern p ->
  exists l, gives (pattern2edges (VTup p)) c l /\ answer (held h) (suits p) l.
Proof.
  intros I Ew L Hp. destruct (Tab_pattern w h c p I Ew L (any_pattern_ok p Hp)) as (l & G & N & I1 & I2 & I3).
  exists l. split; [exact G|]. constructor; [exact N|exact I1| |exact I3]. intros e He [M S]. exact (I2 e He M S).
Qed.
Lemma Tab_sources w h c e : Tab w h -> c_work c = w -> live c -> db_vertex e = true ->
  exists ss, gives (sources e) c ss /\ (ss = [] <-> forall x, In x (held h) -> ~ suits (facts_of e) x).
Proof.
  intros I Ew L He. destruct (Tab_answer w h c (facts_of e) I Ew L (facts_ok e He)) as (l & G & [_ An Al _]).
  assert (M : exists ss, mapr (fun e => let? l := as_seq e in nth_res l 2) l = Ok ss /\ (ss = [] <-> l = [])).
  { clear G Al. induction l as [|x l IH]; [now exists []|]. destruct IH as (ss & E & _); [intros y Hy; apply An; now right|].
    destruct (An x (or_introl eq_refl)) as [Hx [M _]]. pose proof (t_edges _ _ I x Hx) as Dx. destruct (db_edge_elems x Dx) as (Ex & _ & _).
    apply F2_len in M. destruct (elems x) as [|a [|b [|d [|? ?]]]] eqn:El; try discriminate M.
    exists (d :: ss). split; [|split; discriminate]. cbn [mapr]. rewrite Ex. cbn [as_seq rbind]. rewrite E. reflexivity. }
  destruct M as (ss & E & Z). exists (py_set ss). split.
  - unfold gives, sources. unfold facts_of in G. rewrite (bind_gives _ _ c l) by exact G. rewrite (bind_gives _ _ c ss) by (now apply gives_lift). reflexivity.
  - transitivity (ss = []); [destruct ss; split; try reflexivity; discriminate|]. rewrite Z. split.
    + intros -> x Hx S. destruct (Al x Hx S) as (e' & [] & _).
    + intros H. destruct l as [|x l]; [reflexivity|]. destruct (An x (or_introl eq_refl)) as [Hx S]. exfalso. exact (H x Hx S).
Qed.
Lemma Tab_symbols w h c r : Tab w h -> c_work c = w -> live c -> root_in r ->
  exists l, gives (symbols_with_root (VStr r)) c l /\ NoDup l
    /\ forall s, In s l <-> (exists e, In e (held h) /\ In (VStr s) (elems e)) /\ exists t, s = r ++ c_slash :: t.
Proof.
  intros I Ew L (Hsc & Hw & Hp). set (st := r ++ [c_slash]).
  assert (Hn : st <> []) by (unfold st; intros E; now apply app_eq_nil in E).
  assert (Hl : starts_with c_lpar st = false) by (unfold st; now destruct r).
  assert (Ht : db_text st = true).
  { unfold st. rewrite db_text_split. change (scalars (r ++ [c_slash]) && last_ok (r ++ [c_slash]) = true). rewrite scalars_app. unfold scalars at 1. rewrite Hsc. cbn [andb]. rewrite last_ok_snoc; [reflexivity|unfold c_slash; lia]. }
  destruct (db_text_plus_1 st Hn Ht) as (hi & Hhi & B1 & B2).
  assert (Hns : nospace st = true).
  { unfold st. rewrite nospace_app. unfold no_white in Hw. unfold nospace. rewrite Hw. reflexivity. }
  assert (Hsl : In c_slash st) by (unfold st; apply in_app_iff; right; now left).
  destruct (roots_pure Any w st hi (t_wf _ _ I) Hn Hl Hns Hsl Hhi) as (ss & E & Is). exists (str_set ss). destruct (str_set_spec ss) as [N S].
  split; [|split; [exact N|]].
  - unfold gives, symbols_with_root. cbn [show_atom]. fold st. cbv zeta. rewrite (bind_gives _ _ c hi) by (now apply gives_lift).
    apply query_shape; [exact L|cbn; now rewrite B1, B2|]. rewrite Ew.
    intros hd Hh. rewrite (bind_gives _ _ c ss) by (now apply gives_lift).
    rewrite (bind_gives _ _ c tt) by (now apply close_query). reflexivity.
  - intros s. rewrite S, Is. split.
    + intros (x & e & Hr & He & Rr & Hs & Ps & _). split.
      * exists e. split; [|exact Hs]. apply (t_rows _ _ I e x); [exact (proj1 (any_edge e) He)|exact Rr|exact Hr].
      * apply prefixb_spec in Ps as [u ->]. exists u. unfold st. now rewrite <- app_assoc.
    + intros [(e & He & Hs) (t & Es)]. pose proof (t_edges _ _ I e He) as De.
      assert (Ix : forall x, is_row (elems e) x -> In x (perms w)) by (intros x Hx; now apply (t_rows _ _ I e x)).
      destruct (indexed_hit_star w (VStr s) e Ix Hs) as (x & Hr & Rr & Pr).
      exists x, e. split; [exact Hr|]. split; [exact (proj2 (any_edge e) De)|]. split; [exact Rr|]. split; [exact Hs|]. split.
      * apply prefixb_spec. exists t. subst s. unfold st. now rewrite <- app_assoc.
      * apply prefixb_spec in Pr as [u ->]. exists u. cbn. now rewrite <- app_assoc.
Qed.
Lemma Tab_all {B} (f : value * Z -> B) w h c : Tab w h -> c_work c = w -> live c ->
  exists pairs, gives (f_all f) c (List.map f pairs) /\ NoDup (List.map fst pairs)
    /\ forall v d, In (v, d) pairs <-> db_vertex v = true /\ exists t, account h v = Some (d, t).
Proof.
  intros I Ew L. destruct (t_wf _ _ I) as [_ _ Nk Ids].
  destruct (all_pure f Any w (t_wf _ _ I)) as (ps & E & K & P). exists ps. split; [|split].
  - unfold gives, f_all. apply query_shape; [exact L|reflexivity|]. rewrite Ew. intros hd Hh.
    rewrite (bind_gives _ _ c _ (gives_lift _ c _ E)).
    rewrite (bind_gives _ _ c tt) by (now apply close_query). reflexivity.
  - rewrite <- K in Nk. clear -Nk. induction ps as [|[v d] ps IH]; cbn in *; [constructor|].
    inversion Nk as [|? ? Hn N]; subst. constructor; [|now apply IH]. intros H. apply Hn.
    apply in_map_iff in H as ([v' d'] & E & H). cbn in E. subst v'. apply in_map_iff. now exists (v, d').
  - intros v d. rewrite P. split; intros [Dv [t H]]; (split; [exact Dv|exists t]).
    + rewrite <- (t_vert _ _ I v Dv). unfold vlook. apply find_nodup_in in H; [|exact Nk].
      destruct (find _ _) as [r|]; [now rewrite H|easy].
    + rewrite <- (t_vert _ _ I v Dv) in H. unfold vlook in H. apply find_nodup_in; [exact Nk|].
      destruct (find _ _) as [r|]; [now injection H|easy].
Qed.
Lemma carries_gives {A} h (g : M A) a : (forall c, live c -> Tab (c_work c) h -> gives g c a) -> carries true h h g a.
Proof. intros H c L I. exists []. split; [apply does_gives; now apply H|exact I]. Qed.
Lemma rests_call ord h o c : (forall l, Permutation (ord l) l) -> db_call o -> rests c h ->
  exists c' tr h', run_op ord o c = (Ok tt, c', tr) /\ log h o h' /\ rests c' h'.
Proof.
  intros Ho D R. pose proof (rests_live _ _ R) as L. pose proof (re_tab _ _ R) as I.
  destruct D as [P|D].
  - destruct (rests_op ord h o c P R) as (c' & tr & E & R'). exists c', tr, (after h o). split; [exact E|]. split; [now constructor|exact R'].
  - destruct o as [e t|es t|e|es| |s e t|s es t|s e|p|fs|q|]; try contradiction; cbn [run_op].
    + (* remove_belief *) destruct D as [He Hs]. pose proof (link_db s e Hs He) as Hl. pose proof (db_edge_vertex e He) as Hv.
      set (h1 := ERem (link_edge s e) :: h).
      destruct (carries_top false h h1 (remove (link s e)) tt c (carries_remove h (link_edge s e) Hl) R) as (c1 & t1 & E1 & R1).
      destruct (Tab_sources _ h1 c1 e (re_tab _ _ R1) eq_refl (rests_live _ _ R1) Hv) as (ss & G & Z).
      assert (K : forall r c2 t2, (if Nat.eqb (List.length ss) 0 then remove e else ret tt) c1 = (r, c2, t2) -> remove_belief s e c = (r, c2, t1 ++ t2)).
      { intros r c2 t2 E2. unfold remove_belief, bind at 1. rewrite E1, (bind_gives _ _ c1 ss G), E2. reflexivity. }
      destruct ss as [|x0 ss].
      * destruct (carries_top false h1 (ERem e :: h1) (remove e) tt c1 (carries_remove h1 e He) R1) as (c2 & t2 & E2 & R2).
        exists c2, (t1 ++ t2), (ERem e :: h1). split; [exact (K _ _ _ E2)|]. split; [|exact R2]. apply log_belief_last. now apply Z.
      * exists c1, (t1 ++ []), h1. split; [exact (K _ _ _ eq_refl)|]. split; [|exact R1].
        destruct (Tab_answer _ h1 c1 (facts_of e) (re_tab _ _ R1) eq_refl (rests_live _ _ R1) (facts_ok e Hv)) as (l & _ & [_ An Al _]).
        destruct l as [|x l].
        -- exfalso. assert (x0 :: ss = []) as X; [|discriminate X]. apply Z. intros x Hx S. destruct (Al x Hx S) as (e' & [] & _).
        -- destruct (An x (or_introl eq_refl)) as [Hx S]. now apply (log_belief_kept h s e x).
    + (* remove_by_pattern *) destruct (Tab_answer _ h c p I eq_refl L D) as (l & G & A).
      destruct (carries_top false h (fold_left (fun h e => ERem e :: h) (ord l) h) (mfor (ord l) remove) tt c) as (c' & tr & E & R').
      { apply (carries_mfor false (ord l) remove (fun h e => ERem e :: h)). intros x h' Hx. apply carries_remove.
        apply (t_edges _ _ I). apply (an_only _ _ _ A). now apply (Permutation_in x (Ho l)). }
      { exact R. }
      exists c', tr, (fold_left (fun h e => ERem e :: h) (ord l) h). split.
      * unfold remove_by_pattern. now rewrite (bind_gives _ _ c l G).
      * split; [|exact R']. now apply (log_pattern h p l).
    + (* queries *) assert (K : forall (A : Type) (g : M A) a, gives g c a -> (g;; ret tt) c = (Ok tt, c, [])).
      { intros A g a G. now rewrite (bind_gives _ _ c a G). }
      exists c, [], h. split; [|split; [exact (log_ask h q)|exact R]].
      destruct q as [e|p|a|v|v|e|r|]; cbn [run_ask].
      * exact (K _ _ _ (Tab_exists _ h c e I eq_refl L D)).
      * destruct (Tab_answer _ h c p I eq_refl L D) as (l & G & _). exact (K _ _ _ G).
      * destruct (Tab_star _ h c a I eq_refl L D) as (l & G & _). exact (K _ _ _ G).
      * exact (K _ _ _ (degree_gives v c (re_cur _ _ R) D)).
      * exact (K _ _ _ (timestamp_gives v c (re_cur _ _ R) D)).
      * destruct (Tab_sources _ h c e I eq_refl L D) as (l & G & _). exact (K _ _ _ G).
      * destruct (Tab_symbols _ h c r I eq_refl L D) as (l & G & _). exact (K _ _ _ G).
      * destruct (Tab_all (fun x => x) _ h c I eq_refl L) as (l & G & _). exact (K _ _ _ G).
Qed.
Lemma rests_ops ord ops : (forall l, Permutation (ord l) l) -> Forall db_call ops -> forall h c, rests c h ->
  exists c' tr h', run_ops ord ops c = (Ok tt, c', tr) /\ logs h ops h' /\ rests c' h'.
Proof.
  intros Ho. induction 1 as [|o ops D _ IH]; intros h c R; [exists c, [], h; split; [reflexivity|split; [constructor|exact R]]|].
  destruct (rests_call ord h o c Ho D R) as (c1 & t1 & h1 & E1 & G1 & R1). destruct (IH _ c1 R1) as (c2 & t2 & h2 & E2 & G2 & R2).
  exists c2, (t1 ++ t2), h2. split; [|split; [exact (logs_more _ _ _ _ _ G1 G2)|exact R2]]. unfold run_ops in *. cbn [mfor]. unfold bind. now rewrite E1, E2.
Qed.
Lemma logs_plain h ops h' : Forall plain_call ops -> logs h ops h' -> h' = fold_left after ops h.
Proof.
  intros F G. induction G as [h|h o h1 ops h2 S _ IH]; [reflexivity|]. inversion F as [|? ? P F']; subst. rewrite (IH F'). cbn [fold_left]. f_equal.
  inversion S; subst; try reflexivity; cbn [plain_call] in P; contradiction.
Qed.
Lemma rests_start auto : rests (start auto) [].
Proof. constructor; [reflexivity|reflexivity|apply Tab_empty]. Qed.

(** ** the history in words *)
Lemma held_words h e : In e (held h) <->
  exists later t earlier, h = later ++ EAdd e t :: earlier /\ (forall x, In x (held earlier) -> ~ finds e x)
    /\ ~ In (ERem e) later /\ ~ In EDestroy later.
Proof.
  induction h as [|x h IH].
  - split; [intros []|]. intros (l & t & b & E & _). now destruct l.
  - assert (Step : forall A, x <> ERem e -> x <> EDestroy ->
      (exists later t earlier, h = later ++ EAdd e t :: earlier /\ A earlier /\ ~ In (ERem e) later /\ ~ In EDestroy later) ->
      exists later t earlier, x :: h = later ++ EAdd e t :: earlier /\ A earlier /\ ~ In (ERem e) later /\ ~ In EDestroy later).
    { intros A N1 N2 (l & t & b & E & F & R & D). exists (x :: l), t, b. split; [now rewrite E|]. split; [exact F|].
      split; intros [G|G]; [exact (N1 G)|exact (R G)|exact (N2 G)|exact (D G)]. }
    destruct x as [e' t'|e'|]; cbn [held].
    + destruct (foundb e' (held h)) eqn:F.
      * rewrite IH. split; [apply (Step (fun b => forall x, In x (held b) -> ~ finds e x)); discriminate|].
        intros (l & t & b & E & A & R & D). destruct l as [|y l].
        -- exfalso. injection E as -> _ <-. apply foundb_spec in F as (x & Hx & Fx). exact (A x Hx Fx).
        -- injection E as <- E. exists l, t, b. split; [exact E|]. split; [exact A|]. split; intros G; [apply R|apply D]; now right.
      * cbn [In]. rewrite IH. split.
        -- intros [->|H].
           ++ exists [], t', h. split; [reflexivity|]. split; [|now split].
              intros x Hx Fx. assert (foundb e (held h) = true); [|congruence]. apply foundb_spec. now exists x.
           ++ revert H. apply (Step (fun b => forall x, In x (held b) -> ~ finds e x)); discriminate.
        -- intros (l & t & b & E & A & R & D). destruct l as [|y l].
           ++ injection E as -> _ _. now left.
           ++ right. injection E as <- E. exists l, t, b. split; [exact E|]. split; [exact A|]. split; intros G; [apply R|apply D]; now right.
    + change (filter (fun x => negb (veqb e' x)) (held h)) with (held (ERem e' :: h)). rewrite held_rem, IH. split.
      * intros [N H]. revert H. apply (Step (fun b => forall x, In x (held b) -> ~ finds e x)); [congruence|discriminate].
      * intros (l & t & b & E & A & R & D). destruct l as [|y l]; [discriminate|]. injection E as <- E. split; [intros ->; apply R; now left|].
        exists l, t, b. split; [exact E|]. split; [exact A|]. split; intros G; [apply R|apply D]; now right.
    + split; [intros []|]. intros (l & t & b & E & A & R & D). destruct l as [|y l]; [discriminate|]. injection E as <- E. exfalso. apply D. now left.
Qed.

(** ** without equal numbers it is the usual account *)
Lemma held_agrees V h : noalias V -> Forall (ev_in V) h -> held h = stored h /\ forall v, account h v = vrow h v.
Proof.
  intros HV. induction 1 as [|x h Hx Hh [IH1 IH2]]; [now split|].
  assert (F : forall e, edge_in V e -> foundb e (stored h) = memb e (stored h)).
  { intros e He. destruct (memb e (stored h)) eqn:M.
    - apply memb_in in M. apply foundb_spec. exists e. split; [exact M|]. apply finds_self. exact (edge_in_db _ _ He).
    - destruct (foundb e (stored h)) eqn:B; [|reflexivity]. apply foundb_spec in B as (f & Hf & E & _). apply memb_nin in M. exfalso. apply M.
      pose proof (stored_in V h Hh f Hf) as Hi. now rewrite (edge_noalias V e f HV He Hi E). }
  destruct x as [e t|e|]; cbn [held account stored vrow ev_in] in *.
  - rewrite IH1, (F e Hx). split; [destruct (memb e (stored h)); [reflexivity|now rewrite ?IH1]|]. intros v. now rewrite IH2.
  - rewrite IH1, (F e Hx). split; [reflexivity|]. intros v. now rewrite IH2.
  - now split.
Qed.
