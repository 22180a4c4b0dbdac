(** * P_numtext.v -- the tables after calls that spell numbers as texts *)
From Verif Require Import Py M_symbol M_edge M_sql M_hypergraph P_py Spec P_edge P_perm P_range P_query
  S_history M_driver P_ops P_hist P_graph P_answers M_lists S_numtext P_lists.
From Coq Require Import Permutation Factorial String.
Open Scope list_scope.

(** [spells] *)
Notation spells_all := (Forall2 spells).
Lemma spells_text v w : spells v w -> edge2str v = edge2str w.
Proof. now intros [H _]. Qed.
Lemma spells_all_texts l m : spells_all l m -> List.map edge2str l = List.map edge2str m.
Proof. induction 1 as [|x y l m H _ IH]; [reflexivity|]. cbn [List.map]. f_equal; [now apply spells_text|exact IH]. Qed.
Lemma db_floats_ok v : db_vertex v = true -> floats_ok v = true.
Proof.
  induction v as [| | | |l IH] using value_nested_ind; intros H; try exact H; try reflexivity. apply db_vertex_tup in H as [_ H].
  cbn [floats_ok]. apply forallb_forall. intros x Hx. unfold all_db in H. rewrite Forall_forall in IH, H. now apply IH; [|apply H].
Qed.
Lemma spells_refl v : db_vertex v = true -> spells v v.
Proof. intros H. split; [reflexivity|]. split; [now apply db_floats_ok|reflexivity]. Qed.
(** what is equal to a storable value is storable *)
Lemma equal_db v : forall x, py_eq v x = true -> floats_ok v = true -> db_vertex x = true -> db_vertex v = true.
Proof.
  induction v as [|s|z|f|l IH] using value_nested_ind; intros x E Fl D; try exact Fl; try reflexivity.
  - destruct x; discriminate.
  - destruct x as [|t| | |]; try discriminate. cbn [py_eq] in E. apply str_eqb_eq in E as ->. exact D.
  - destruct x as [| | | |m]; try discriminate. cbn [floats_ok] in Fl. apply db_vertex_tup in D as [Ln D]. apply db_vertex_tup. cbn [py_eq] in E.
    assert (G : List.length l = List.length m /\ all_db l); [|destruct G as [-> G]; now split].
    clear Ln. revert m E D. induction IH as [|a l Ha _ IH]; intros [|b m] E D; try discriminate; [split; [reflexivity|constructor]|].
    cbn [forallb] in Fl. apply andb_true_iff in Fl as [F1 F2]. apply andb_true_iff in E as [E1 E2]. inversion D as [|? ? Db Dm]; subst.
    destruct (IH F2 m E2 Dm) as [L A]. split; [cbn; now rewrite L|]. constructor; [exact (Ha b E1 F1 Db)|exact A].
Qed.
(** what is not the value itself is equal to nothing stored *)
Lemma spells_unequal v w x : spells v w -> v <> w -> db_vertex w = true -> db_vertex x = true -> py_eq v x = false.
Proof.
  intros (T & Fl & _) N Dw Dx. destruct (py_eq v x) eqn:E; [|reflexivity]. exfalso. apply N.
  apply edge2str_inj; [|now apply db_vertex_wf|exact T]. apply db_vertex_wf. exact (equal_db v x E Fl Dx).
Qed.

Lemma spells_edge v w : (exists l, v = VTup l /\ spells_all l (elems w)) -> db_edge w = true ->
  exists a l, v = VTup (a :: l) /\ is_tup a = false /\ spells_all (a :: l) (elems w).
Proof.
  intros (k & -> & H) D. apply db_edge_inv in D as (a & b & l & -> & Ha & _). cbn [elems] in *.
  inversion H as [|x ? k' ? H1 H2]; subst. exists x, k'. split; [reflexivity|]. split; [|exact H].
  destruct (atom_text_start a (db_atom_wf a Ha)) as (Et & ch & r & E2 & Hc). destruct H1 as [T _].
  destruct x; try reflexivity. exfalso. rewrite Et, E2 in T. cbn [edge2str] in T. injection T as <- _. discriminate.
Qed.
Lemma spells_edge_text v w : (exists l, v = VTup l /\ spells_all l (elems w)) -> db_edge w = true -> edge2str v = edge2str w.
Proof.
  intros (l & -> & H) D. rewrite (proj1 (db_edge_elems w D)). cbn [edge2str]. f_equal. f_equal. f_equal. now apply spells_all_texts.
Qed.

(** ** a pattern that spells a number: no answer *)
Lemma spells_all_bound l m : spells_all l m -> spells_all (filter not_none l) (filter not_none m).
Proof.
  induction 1 as [|x y l m H _ IH]; [constructor|]. cbn [filter]. pose proof H as (_ & _ & N). rewrite N.
  destruct (not_none y); [now constructor|exact IH].
Qed.
Lemma spelled_loop e : forall l m, spells_all l m -> l <> m -> all_db e -> List.length e = List.length l ->
  (forall x, In x m -> not_none x = true -> db_vertex x = true) -> matches_loop e l = false.
Proof.
  induction e as [|x e IH]; intros l m H N A L D; inversion H as [|p q l' m' H1 H2]; subst; try easy. cbn [matches_loop].
  inversion A as [|? ? Dx Ae]; subst. injection L as L.
  change (match p with VNone => false | _ => true end) with (not_none p).
  destruct (veqb p q) eqn:E.
  - apply veqb_eq in E as ->. rewrite (IH l' m' H2); [now destruct (not_none q && negb (py_eq q x))|intros ->; now apply N|exact Ae|exact L|].
    intros y Hy. apply D. now right.
  - apply veqb_neq in E. pose proof H1 as (_ & _ & Npq).
    assert (Nq : not_none q = true).
    { destruct (not_none q) eqn:Nq; [reflexivity|]. exfalso. apply E. destruct p, q; try discriminate; reflexivity. }
    rewrite Npq, Nq, (spells_unequal p q x H1 E (D q (or_introl eq_refl) Nq) Dx). reflexivity.
Qed.
Lemma spelled_flags V l m es : spells_all l m -> l <> m -> (forall x, In x m -> not_none x = true -> db_vertex x = true) ->
  (forall e, In e es -> edge_in V e) -> mapr (fun e => edge_matches_pattern e l) es = Ok (List.map (fun _ => false) es).
Proof.
  intros H N D. induction es as [|e es IH]; intros F; [reflexivity|]. cbn [mapr List.map].
  destruct (db_edge_elems e (edge_in_db _ _ (F e (or_introl eq_refl)))) as (Ee & Ae & _).
  assert (edge_matches_pattern e l = Ok false) as ->.
  { rewrite Ee. unfold edge_matches_pattern. cbn [as_seq rbind]. destruct (Nat.eqb_spec (List.length (elems e)) (List.length l)) as [El|El]; [|reflexivity].
    cbn [negb]. now rewrite (spelled_loop _ l m H N Ae El D). }
  cbn [rbind]. rewrite IH; [reflexivity|]. intros x Hx. apply F. now right.
Qed.
Lemma spelled_pattern_run V w c l m : noalias V -> rows_ok V w -> c_work c = w -> live c -> pattern_ok V m ->
  spells_all l m -> l <> m -> gives (pattern2edges (VTup l)) c [].
Proof.
  intros HV Hw <- Lc [(a & rest & Ea & Ha) Hd Hi] H N.
  assert (D : forall x, In x m -> not_none x = true -> db_vertex x = true).
  { intros x Hx Nx. unfold all_db in Hd. rewrite Forall_forall in Hd. apply Hd. now apply filter_In. }
  set (s := nodes2str (filter not_none l)).
  assert (Es : s = nodes2str (filter not_none m)).
  { unfold s, nodes2str. f_equal. apply spells_all_texts. now apply spells_all_bound. }
  destruct (nodes2str_text (filter not_none m)) as [Hn Ht]; [now rewrite Ea|exact Hd|]. rewrite <- Es in Hn, Ht.
  assert (Hl : starts_with c_lpar s = false).
  { rewrite Es, Ea. destruct (nodes2str_first a rest) as (t & E & _). rewrite E.
    destruct (atom_text_start a (db_atom_wf a Ha)) as (Et & ch & r & E2 & Hc). rewrite Et, E2. exact Hc. }
  destruct (db_text_plus_1 s Hn Ht) as (hi & Hhi & B1 & B2).
  destruct (cur2edges_spec V (c_work c) s hi HV Hw Hn Hl Hhi) as (es & Ec & Nes & Ies).
  pose proof (spelled_flags V l m es H N D (fun e He => proj1 (proj1 (Ies e) He))) as Ef.
  unfold gives, pattern2edges. rewrite (bind_gives _ _ c l) by (now apply gives_lift).
  cbv zeta. fold s. rewrite (bind_gives _ _ c hi) by (now apply gives_lift).
  apply query_shape; [exact Lc|cbn; now rewrite B1, B2|].
  intros h Hh. rewrite (bind_gives _ _ c es) by (now apply gives_lift).
  rewrite (bind_gives _ _ c tt) by (now apply close_query).
  rewrite (bind_gives _ _ c _) by (apply gives_lift; exact Ef). unfold ret. f_equal. f_equal. f_equal.
  clear. induction es as [|x l IH]; [reflexivity|]. cbn [List.map combine filter snd]. exact IH.
Qed.

Record Book (V : value -> Prop) (w : db) (m : list mark) : Prop := {
  b_wf : wf_db V w;
  b_edges : forall e, In e (stored (events m)) -> edge_in V e;
  b_rows : forall e r, edge_in V e -> is_row (elems e) r -> (In r (perms w) <-> In e (stored (events m)));
  b_vert : forall v, db_vertex v = true -> vlook (edge2str v) w = ledger m v }.

Lemma Book_empty V : Book V db_empty [].
Proof. constructor; try easy. constructor; try easy; constructor. Qed.

Lemma Book_exists V w m c e : noalias V -> Book V w m -> c_work c = w -> live c -> edge_in V e ->
  gives (exists_ e) c (memb e (stored (events m))).
Proof.
  intros HV I Ew L He. destruct (exists_run V w c e HV (wf_rows V w (b_wf _ _ _ I)) Ew L He) as (b & G & Hb).
  assert (b = memb e (stored (events m))); [|now subst b].
  destruct (memb e (stored (events m))) eqn:M.
  - apply Hb. apply memb_in in M. destruct (row_exists V e He) as (r & Hr & Pr). exists r.
    split; [now apply (b_rows _ _ _ I e r)|]. now split.
  - destruct b; [|reflexivity]. exfalso. apply memb_nin in M. apply M.
    destruct (proj1 Hb eq_refl) as (r & Hr & Rr & _). now apply (b_rows _ _ _ I e r).
Qed.

Lemma Book_add V w m p t : Book V w m -> edge_in V (snd p) -> exact p && there p m = false ->
  Book V (runs (add_upds (snd p) t) w) (MAdd p t :: m).
Proof.
  intros I He Hn. set (e := snd p) in *. pose proof (edge_in_db _ _ He) as De.
  assert (Hv : db_vertex e = true) by (now apply db_edge_vertex).
  assert (Pt : perms (runs (List.map (fun x => touch (edge2str x) t) (elems e)) w) = perms w).
  { apply perms_same_runs. intros f d Hf. apply in_map_iff in Hf as (x & <- & _). apply perms_touch. }
  constructor.
  - apply runs_inv; [apply I|]. intros f d. now apply add_upds_wf.
  - intros x Hx. cbn [events] in Hx. apply stored_add in Hx as [->|Hx]; [exact He|]. now apply (b_edges _ _ _ I).
  - intros x r Hx Hr. cbn [events]. rewrite stored_add. unfold add_upds. rewrite !runs_app, perms_ins_runs.
    cbn [runs fold_left]. rewrite perms_set. change (fold_left (fun w0 f => f w0) ?a ?b) with (runs a b).
    rewrite Pt, rows_of_spec by (now apply (elems_nonnil V)). rewrite (b_rows _ _ _ I x r Hx Hr). split.
    + intros [H|H]; [left; now apply (row_other V x e r)|now right].
    + intros [->|H]; [now left|now right].
  - intros v Dv. cbn [ledger]. rewrite Hn. unfold add_upds. rewrite !runs_app, vlook_ins_runs. cbn [runs fold_left].
    rewrite vlook_set. change (fold_left (fun w0 f => f w0) ?a ?b) with (runs a b).
    rewrite (id_eqb v e Dv Hv). fold e. destruct (veqb v e); [reflexivity|].
    rewrite touch_runs; [|now apply db_edge_elems|exact Dv]. now rewrite (b_vert _ _ _ I v Dv).
Qed.
Lemma Book_add_present V w m p t : Book V w m -> exact p && there p m = true -> Book V w (MAdd p t :: m).
Proof.
  intros I H. assert (P : In (snd p) (stored (events m))) by (apply andb_true_iff in H as [_ H]; now apply memb_in).
  pose proof (stored_add_present (snd p) t _ P) as S. constructor; cbn [events]; try rewrite S; try apply I.
  intros v Dv. cbn [ledger]. rewrite H. now apply I.
Qed.
Lemma Book_rem V w m p : Book V w m -> exact p && there p m = true -> Book V (runs (rem_upds (snd p)) w) (MRem p :: m).
Proof.
  intros I Hn. destruct (andb_prop _ _ Hn) as [Hs Ht]. set (e := snd p) in *.
  assert (He : edge_in V e) by (apply (b_edges _ _ _ I); now apply memb_in). pose proof (edge_in_db _ _ He) as De.
  assert (Hv : db_vertex e = true) by (now apply db_edge_vertex).
  assert (Pt : perms (runs (List.map (fun x => inc_row (edge2str x) (-1)) (elems e)) w) = perms w).
  { apply perms_same_runs. intros f d Hf. apply in_map_iff in Hf as (x & <- & _). reflexivity. }
  constructor.
  - apply runs_inv; [apply I|]. intros f d. apply rem_upds_wf.
  - intros x Hx. cbn [events] in Hx. rewrite Hs in Hx. apply stored_rem in Hx as [_ Hx]. now apply (b_edges _ _ _ I).
  - intros x r Hx Hr. cbn [events]. rewrite Hs. rewrite stored_rem. unfold rem_upds. rewrite !runs_app. cbn [runs fold_left].
    rewrite perms_del. change (fold_left (fun w0 f => f w0) ?a ?b) with (runs a b).
    rewrite perms_del_runs, Pt, rows_of_spec by (now apply (elems_nonnil V)).
    rewrite (b_rows _ _ _ I x r Hx Hr). split; intros [A B]; split; try exact B.
    + intros ->. easy.
    + intros R. apply A. now apply (row_other V x e r).
  - intros v Dv. cbn [ledger]. rewrite Hn. unfold rem_upds. rewrite !runs_app. cbn [runs fold_left].
    rewrite vlook_del. change (fold_left (fun w0 f => f w0) ?a ?b) with (runs a b).
    rewrite (id_eqb v e Dv Hv). fold e. destruct (veqb v e); [reflexivity|].
    rewrite vlook_delp_runs, inc_runs; [|now apply db_edge_elems|exact Dv]. now rewrite (b_vert _ _ _ I v Dv).
Qed.
Lemma Book_rem_absent V w m p : Book V w m -> exact p && there p m = false -> Book V w (MRem p :: m).
Proof.
  intros I H. assert (S : stored (events (MRem p :: m)) = stored (events m)).
  { cbn [events]. destruct (exact p); [|reflexivity]. apply stored_rem_absent. now apply memb_nin. }
  constructor; try rewrite S; try apply I. intros v Dv. cbn [ledger]. rewrite H. now apply I.
Qed.
Lemma Book_destroy V w m : Book V (runs [wipe_v; wipe_p] w) (MWipe :: m).
Proof. constructor; try easy. constructor; try easy; constructor. Qed.

(** ** the methods *)
Lemma put_does e t c : live c -> db_edge e = true -> int64 t = true -> does true (put e (elems e) t) c tt (add_upds e t).
Proof.
  intros L He T. destruct (db_edge_elems e He) as (Ee & Ae & Le).
  assert (Hn : elems e <> []) by (intros E; rewrite E in Le; cbn in Le; lia).
  unfold put. unfold add_upds. rewrite <- flat_map_single. eapply does_bind.
  { apply (mfor_does true _ _ (fun x => [touch (edge2str x) t])); [exact L|].
    intros x c' Hx L'. apply touch_does; [exact L'| |exact T]. unfold all_db in Ae. rewrite Forall_forall in Ae. now apply Ae. }
  intros c1 N1. pose proof (next_live _ _ _ N1 L) as L1. eapply does_bind.
  { apply add_str_does; [exact L1| |exact T]. now apply vertex_bindable, db_edge_vertex. }
  intros c2 N2. pose proof (next_live _ _ _ N2 L1) as L2.
  unfold write_edge_permutations. rewrite <- flat_map_single. apply do_with_does; [exact Hn|exact L2|].
  intros r c' Hr L'. apply write_perm_does; [exact L'|]. now apply (row_bindable (elems e)).
Qed.

Lemma Book_spelled V m c p : noalias V -> Book V (c_work c) m -> live c -> pair_in V p ->
  gives (exists_ (fst p)) c (exact p && there p m).
Proof.
  intros HV I L [Hs He]. pose proof (Book_exists V _ m c (snd p) HV I eq_refl L He) as G. unfold exact. destruct (veqb (fst p) (snd p)) eqn:S; cbn [andb].
  - apply veqb_eq in S. rewrite S. exact G.
  - apply veqb_neq in S. pose proof (edge_in_db _ _ He) as De. destruct (spells_edge _ _ Hs De) as (a & l & Ev & _ & Hl).
    unfold gives, exists_. rewrite (bind_gives _ _ c []); [reflexivity|]. rewrite Ev.
    apply (spelled_pattern_run V (c_work c) c (a :: l) (elems (snd p)) HV (wf_rows _ _ (b_wf _ _ _ I)) eq_refl L (edge_pattern_ok V _ He) Hl).
    intros E. apply S. rewrite Ev, E. symmetry. exact (proj1 (db_edge_elems _ De)).
Qed.
(** the n-th permutation of the items, as a text *)
Lemma perm_str_texts l m k : List.map edge2str l = List.map edge2str m -> (k < fact (List.length m))%nat -> perm_str l k = perm_str m k.
Proof.
  intros E K. assert (L : List.length l = List.length m) by (now rewrite <- (map_length edge2str l), E, map_length). unfold perm_str.
  destruct (nthperm_ok l (Z.of_nat k)) as (p & _ & Ep & _); [rewrite L; lia|]. destruct (nthperm_ok m (Z.of_nat k)) as (q & _ & Eq & _); [lia|].
  rewrite Ep, Eq. cbn [rbind]. assert (Hl : (0 <= Z.of_nat k < Z.of_nat (fact (List.length l)))%Z) by (rewrite L; lia).
  pose proof (nthperm_map edge2str l _ p Hl Ep) as X. assert (Hm : (0 <= Z.of_nat k < Z.of_nat (fact (List.length m)))%Z) by lia.
  pose proof (nthperm_map edge2str m _ q Hm Eq) as Y. rewrite E in X. rewrite X in Y. injection Y as Y. now rewrite Y.
Qed.
Lemma put_texts e e' l m t c : edge2str e = edge2str e' -> List.map edge2str l = List.map edge2str m -> put e l t c = put e' m t c.
Proof.
  intros E El. assert (L : List.length l = List.length m) by (now rewrite <- (map_length edge2str l), El, map_length). unfold put. rewrite E.
  set (f := fun s : str => do found <- inc_degree s; if found then ret tt else add_str s 1 t).
  change (fun vert : value => let vert_str := edge2str vert in do found <- inc_degree vert_str; if found then ret tt else add_str vert_str 1 t) with (fun v : value => f (edge2str v)).
  transitivity (bind (mfor m (fun v => f (edge2str v))) (fun _ => add_str (edge2str e') 0 t;; write_edge_permutations l) c).
  - apply bind_ext_l. transitivity (mfor (List.map edge2str l) f c); [symmetry; exact (mfor_map edge2str l f c)|]. rewrite El. exact (mfor_map edge2str m f c).
  - apply bind_ext. intros u c1. apply bind_ext. intros u' c2. unfold write_edge_permutations, do_with_edge_permutations. rewrite L.
    apply mfor_ext. intros k c3 Hk. apply in_seq in Hk. rewrite (perm_str_texts l m k El); [reflexivity|lia].
Qed.

Definition moves {A} (b : bool) (V : value -> Prop) (m m' : list mark) (g : M A) (a : A) : Prop :=
  forall c, live c -> Book V (c_work c) m -> exists fs, does b g c a fs /\ Book V (runs fs (c_work c)) m'.
Lemma moves_bind {A B} b V h h1 h2 (m : M A) (k : A -> M B) a x :
  moves b V h h1 m a -> moves b V h1 h2 (k a) x -> moves b V h h2 (bind m k) x.
Proof.
  intros H1 H2 c L I. destruct (H1 c L I) as (fs & (c1 & t1 & E1 & S1) & I1).
  destruct (H2 c1) as (gs & (c2 & t2 & E2 & S2) & I2).
  - unfold live. now rewrite (st_cur _ _ _ _ _ S1).
  - now rewrite (st_work _ _ _ _ _ S1).
  - exists (fs ++ gs). split.
    + exists c2, (t1 ++ t2). split; [unfold bind; now rewrite E1, E2|now apply (step_app b c fs c1)].
    + rewrite runs_app. now rewrite (st_work _ _ _ _ _ S1) in I2.
Qed.
Lemma moves_ret {A} b V h (a : A) : moves b V h h (ret a) a.
Proof. intros c L I. exists []. split; [apply does_ret|exact I]. Qed.
Lemma moves_lift {A} b V h (r : res A) a : r = Ok a -> moves b V h h (lift r) a.
Proof. intros ->. apply moves_ret. Qed.
Lemma moves_weaken {A} V h h' (m : M A) a : moves true V h h' m a -> moves false V h h' m a.
Proof. intros H c L I. destruct (H c L I) as (fs & D & I'). exists fs. split; [now apply does_weaken|exact I']. Qed.
Lemma moves_mfor {A} b V (l : list A) (f : A -> M unit) (g : A -> mark) :
  (forall x h, In x l -> moves b V h (g x :: h) (f x) tt) ->
  forall h, moves b V h (rev (List.map g l) ++ h) (mfor l f) tt.
Proof.
  induction l as [|x l IH]; intros H h; cbn [mfor List.map rev app]; [apply moves_ret|].
  eapply moves_bind; [apply H; now left|]. rewrite <- app_assoc. cbn [app]. apply IH. intros y h' Hy. apply H. now right.
Qed.


Lemma moves_add_raw V m p t : noalias V -> pair_in V p -> int64 t = true -> moves true V m (MAdd p t :: m) (add_raw (fst p) t) (fst p).
Proof.
  intros HV Hp T c L I. pose proof (Book_spelled V m c p HV I L Hp) as G. destruct Hp as [Hs He]. pose proof (edge_in_db _ _ He) as De.
  destruct (spells_edge _ _ Hs De) as (a & l & Ev & _ & Hl). assert (As : as_seq (fst p) = Ok (a :: l)) by (now rewrite Ev).
  destruct (exact p && there p m) eqn:B.
  - exists []. split; [|now apply Book_add_present]. apply does_gives. unfold gives. rewrite (add_raw_put _ _ t c As), (bind_gives _ _ c _ G). reflexivity.
  - exists (add_upds (snd p) t). split; [|now apply Book_add].
    destruct (put_does (snd p) t c L De T) as (c' & tr & R & S). exists c', tr. split; [|exact S].
    rewrite (add_raw_put _ _ t c As), (bind_gives _ _ c _ G). unfold bind.
    rewrite (put_texts (fst p) (snd p) (a :: l) (elems (snd p)) t c (spells_edge_text _ _ Hs De) (spells_all_texts _ _ Hl)), R. cbn [ret]. now rewrite app_nil_r.
Qed.
Lemma moves_remove_raw V m p : noalias V -> pair_in V p -> moves false V m (MRem p :: m) (remove_raw (fst p)) tt.
Proof.
  intros HV Hp c L I. pose proof (Book_spelled V m c p HV I L Hp) as G. destruct Hp as [Hs He]. pose proof (edge_in_db _ _ He) as De.
  destruct (exact p && there p m) eqn:B.
  - exists (rem_upds (snd p)). split; [|now apply Book_rem]. destruct (andb_prop _ _ B) as [S _]. unfold exact in S. apply veqb_eq in S.
    rewrite S in *. exact (remove_old_does (snd p) c L De G).
  - exists []. split; [|now apply Book_rem_absent]. apply does_gives. unfold gives, remove_raw. rewrite (bind_gives _ _ c _ G). reflexivity.
Qed.
Lemma moves_destroy V m : moves true V m (MWipe :: m) destroy tt.
Proof. intros c L I. exists [wipe_v; wipe_p]. split; [now apply destroy_does|apply (Book_destroy V _ m)]. Qed.

(** ** at top level *)
Record settled (V : value -> Prop) (c : conn) (m : list mark) : Prop := {
  se_cur : c_cur c = CNone; se_sync : c_comm c = c_work c; se_book : Book V (c_work c) m }.
Lemma settled_live V c m : settled V c m -> live c.
Proof. intros [H _ _]. unfold live. now rewrite H. Qed.
Lemma moves_top {A} b V m m' (g : M A) a c : moves b V m m' g a -> settled V c m ->
  exists c' tr, g c = (Ok a, c', tr) /\ settled V c' m' /\ c_auto c' = c_auto c.
Proof.
  intros G [Hc Hs I]. destruct (G c) as (fs & (c' & tr & E & S) & I'); [unfold live; now rewrite Hc|exact I|].
  exists c', tr. destruct (st_sync _ _ _ _ _ S (or_introl Hc) Hs) as [Hs' Tr]. split; [exact E|]. split; [|apply S].
  constructor; [now rewrite (st_cur _ _ _ _ _ S)|exact Hs'|now rewrite (st_work _ _ _ _ _ S)].
Qed.
Lemma moves_shared b V m m' (body : M unit) c : moves b V m m' body tt -> settled V c m ->
  exists c' tr, (do cur <- open_cursor false; body;; close_cursor cur false true) c = (Ok tt, c', tr) /\ settled V c' m' /\ c_auto c' = c_auto c.
Proof.
  intros G [Hc Hs I]. set (c0 := Conn (c_auto c) (c_comm c) (c_work c) COpen).
  destruct (G c0) as (fs & (c1 & tr & E & S) & I'); [easy|exact I|].
  assert (O : open_cursor false c = (Ok HShared, c0, [])).
  { unfold open_cursor, bind, get_cur, set_cur, ret, c0. rewrite Hc. reflexivity. }
  pose proof (st_cur _ _ _ _ _ S) as Hc1. cbn in Hc1.
  assert (K : close_cursor HShared false true c1
              = (Ok tt, Conn (c_auto c1) (c_work c1) (c_work c1) CNone, [c_work c1])).
  { unfold close_cursor, bind, commit, get_cur, set_cur. cbn. now rewrite Hc1. }
  exists (Conn (c_auto c1) (c_work c1) (c_work c1) CNone), (tr ++ [c_work c1]). split.
  - unfold bind. now rewrite O, E, K.
  - split.
    + constructor; [reflexivity|reflexivity|]. cbn. now rewrite (st_work _ _ _ _ _ S).
    + cbn. rewrite (st_auto _ _ _ _ _ S). reflexivity.
Qed.


Lemma add_settled V v w t m c : noalias V -> pair_in V (v, w) -> int64 t = true -> settled V c m ->
  exists c' tr, add v t c = (Ok v, c', tr) /\ settled V c' (MAdd (v, w) t :: m) /\ c_auto c' = c_auto c.
Proof.
  intros HV Hp T R. destruct Hp as [Hs He]. cbn [fst snd] in *. destruct (spells_edge _ _ Hs (edge_in_db _ _ He)) as (a & l & Ev & Na & _).
  destruct (moves_top true V m (MAdd (v, w) t :: m) (add_raw v t;; ret tt) tt c) as (c' & tr & H & S).
  { eapply moves_bind; [|apply moves_ret]. apply (moves_add_raw V m (v, w)); [exact HV|now split|exact T]. }
  { exact R. }
  exists c', tr. split; [|exact S]. unfold add. assert (index0 v = Ok a) as -> by (now rewrite Ev). cbn [lift].
  rewrite (bind_gives _ _ c a eq_refl), Na. unfold bind at 1. rewrite H. cbn [ret]. now rewrite app_nil_r.
Qed.
Lemma add_all_settled V l t m c : noalias V -> l <> [] -> Forall (pair_in V) l -> int64 t = true -> settled V c m ->
  exists c' tr, add (VTup (List.map fst l)) t c = (Ok (VTup (List.map fst l)), c', tr)
    /\ settled V c' (rev (List.map (fun p => MAdd p t) l) ++ m) /\ c_auto c' = c_auto c.
Proof.
  intros HV Hn F T R. destruct (moves_shared true V m (rev (List.map (fun p => MAdd p t) l) ++ m) (mfor l (fun p => add_raw (fst p) t;; ret tt)) c) as (c' & tr & H & S).
  { apply (moves_mfor true V l _ (fun p => MAdd p t)). intros q h Hq. eapply moves_bind; [|apply moves_ret]. apply moves_add_raw; [exact HV| |exact T].
    rewrite Forall_forall in F. now apply F. }
  { exact R. }
  exists c', tr. split; [|exact S]. destruct l as [|p l]; [easy|]. inversion F as [|? ? [Hs He] _]; subst.
  destruct (spells_edge _ _ Hs (edge_in_db _ _ He)) as (a & k & Ev & _ & _). unfold add. cbn [List.map index0 as_seq rbind lift].
  rewrite (bind_gives _ _ c (fst p) eq_refl), Ev. cbn [is_tup]. rewrite <- Ev. clear a k Ev Hs He.
  set (g := fun x : value => add_raw x t;; ret tt) in *.
  match goal with |- bind ?m0 _ c = _ => assert (X : m0 c = (Ok tt, c', tr)) end.
  { rewrite <- H. apply bind_ext. intros cur c1. rewrite (bind_gives _ _ c1 _ eq_refl). apply bind_ext_l.
    exact (mfor_map fst (p :: l) g c1). }
  unfold bind at 1. rewrite X. cbn [ret]. now rewrite app_nil_r.
Qed.
Lemma remove_settled V v w m c : noalias V -> pair_in V (v, w) -> settled V c m ->
  exists c' tr, remove v c = (Ok tt, c', tr) /\ settled V c' (MRem (v, w) :: m) /\ c_auto c' = c_auto c.
Proof.
  intros HV Hp R. destruct Hp as [Hs He]. cbn [fst snd] in *. destruct (spells_edge _ _ Hs (edge_in_db _ _ He)) as (a & l & Ev & Na & _).
  destruct (moves_top false V m (MRem (v, w) :: m) (remove_raw v) tt c) as (c' & tr & H & S).
  { apply (moves_remove_raw V m (v, w)); [exact HV|now split]. }
  { exact R. }
  exists c', tr. split; [|exact S]. unfold remove. assert (index0 v = Ok a) as -> by (now rewrite Ev). cbn [lift].
  now rewrite (bind_gives _ _ c a eq_refl), Na.
Qed.
Lemma remove_all_settled V l m c : noalias V -> l <> [] -> Forall (pair_in V) l -> settled V c m ->
  exists c' tr, remove (VTup (List.map fst l)) c = (Ok tt, c', tr) /\ settled V c' (rev (List.map MRem l) ++ m) /\ c_auto c' = c_auto c.
Proof.
  intros HV Hn F R. destruct (moves_top false V m (rev (List.map MRem l) ++ m) (mfor l (fun p => remove_raw (fst p))) tt c) as (c' & tr & H & S).
  { apply (moves_mfor false V l _ MRem). intros q h Hq. apply moves_remove_raw; [exact HV|]. rewrite Forall_forall in F. now apply F. }
  { exact R. }
  exists c', tr. split; [|exact S]. destruct l as [|p l]; [easy|]. inversion F as [|? ? [Hs He] _]; subst.
  destruct (spells_edge _ _ Hs (edge_in_db _ _ He)) as (a & k & Ev & _ & _). unfold remove. cbn [List.map index0 as_seq rbind lift].
  rewrite (bind_gives _ _ c (fst p) eq_refl), Ev. cbn [is_tup]. rewrite <- Ev, (bind_gives _ _ c _ eq_refl).
  rewrite <- H. exact (mfor_map fst (p :: l) remove_raw c).
Qed.
(** inside a batch *)
Lemma moves_add V m v w t : noalias V -> pair_in V (v, w) -> int64 t = true -> moves true V m (MAdd (v, w) t :: m) (add v t;; ret tt) tt.
Proof.
  intros HV Hp T. pose proof Hp as [Hs He]. cbn [fst snd] in Hs, He. destruct (spells_edge _ _ Hs (edge_in_db _ _ He)) as (a & l & Ev & Na & _).
  assert (Ei : index0 v = Ok a) by (now rewrite Ev). eapply moves_bind; [|apply moves_ret]. unfold add. rewrite Ei.
  eapply moves_bind; [apply (moves_lift true V m (Ok a) a); reflexivity|]. cbn beta. rewrite Na. eapply moves_bind; [|apply moves_ret].
  eapply moves_bind; [exact (moves_add_raw V m (v, w) t HV Hp T)|apply moves_ret].
Qed.
Lemma moves_remove V m v w : noalias V -> pair_in V (v, w) -> moves false V m (MRem (v, w) :: m) (remove v) tt.
Proof.
  intros HV Hp. pose proof Hp as [Hs He]. cbn [fst snd] in Hs, He. destruct (spells_edge _ _ Hs (edge_in_db _ _ He)) as (a & l & Ev & Na & _).
  assert (Ei : index0 v = Ok a) by (now rewrite Ev). unfold remove. rewrite Ei.
  eapply moves_bind; [apply (moves_lift false V m (Ok a) a); reflexivity|]. cbn beta. rewrite Na. exact (moves_remove_raw V m (v, w) HV Hp).
Qed.
Lemma moves_remove_all V m l : noalias V -> l <> [] -> Forall (pair_in V) l ->
  moves false V m (rev (List.map MRem l) ++ m) (remove (VTup (List.map fst l))) tt.
Proof.
  intros HV Hn F. destruct l as [|p l]; [easy|]. pose proof F as F0. inversion F0 as [|? ? [Hs He] _]; subst.
  destruct (spells_edge _ _ Hs (edge_in_db _ _ He)) as (a & k & Ev & _ & _). unfold remove. cbn [List.map index0 as_seq rbind].
  eapply moves_bind; [apply (moves_lift false V m (Ok (fst p)) (fst p)); reflexivity|]. cbn beta. rewrite Ev. cbn [is_tup]. rewrite <- Ev.
  eapply moves_bind; [apply (moves_lift false V m (Ok (fst p :: List.map fst l)) (fst p :: List.map fst l)); reflexivity|]. cbn beta.
  assert (G : moves false V m (rev (List.map MRem (p :: l)) ++ m) (mfor (p :: l) (fun q => remove_raw (fst q))) tt).
  { apply (moves_mfor false V (p :: l) _ MRem). intros q h Hq. apply moves_remove_raw; [exact HV|]. rewrite Forall_forall in F. now apply F. }
  intros c L I. destruct (G c L I) as (fs & (c' & tr & E & S) & I'). exists fs. split; [|exact I']. exists c', tr. split; [|exact S].
  rewrite <- E. exact (mfor_map fst (p :: l) remove_raw c).
Qed.
Lemma moves_step V m b : noalias V -> step_in V b -> moves false V m (rev (step_marks b) ++ m) (run_step b) tt.
Proof.
  intros HV H. destruct b as [v w t|v w|l|]; cbn [run_step step_marks rev app].
  - destruct H as [Hp T]. apply moves_weaken. now apply moves_add.
  - now apply moves_remove.
  - destruct H as [Hn F]. now apply moves_remove_all.
  - apply moves_weaken, moves_destroy.
Qed.
Lemma moves_steps V l : noalias V -> Forall (step_in V) l -> forall m,
  moves false V m (rev (flat_map step_marks l) ++ m) (mfor (List.map run_step l) (fun f => f)) tt.
Proof.
  intros HV F. induction F as [|b l Hb _ IH]; intros m; cbn [List.map mfor flat_map]; [apply moves_ret|].
  rewrite rev_app_distr, <- app_assoc. eapply moves_bind; [now apply moves_step|]. apply IH.
Qed.
Lemma call_settled V k m c : noalias V -> call_in V k -> settled V c m ->
  exists c' tr, run_call k c = (Ok tt, c', tr) /\ settled V c' (rev (marks_of k) ++ m) /\ c_auto c' = c_auto c.
Proof.
  intros HV Hk R. destruct k as [v w t|l t|v w|l| |l]; cbn [run_call marks_of rev app].
  - destruct Hk as [Hp T]. destruct (add_settled V v w t m c HV Hp T R) as (c' & tr & H & S). exists c', tr. split; [|exact S].
    unfold bind. rewrite H. cbn [ret]. now rewrite app_nil_r.
  - destruct Hk as (Hn & F & T). destruct (add_all_settled V l t m c HV Hn F T R) as (c' & tr & H & S). exists c', tr. split; [|exact S].
    unfold bind. rewrite H. cbn [ret]. now rewrite app_nil_r.
  - exact (remove_settled V v w m c HV Hk R).
  - destruct Hk as [Hn F]. exact (remove_all_settled V l m c HV Hn F R).
  - destruct (moves_top true V m (MWipe :: m) destroy tt c (moves_destroy V m) R) as (c' & tr & H). now exists c', tr.
  - exact (moves_shared false V m _ (mfor (List.map run_step l) (fun f => f)) c (moves_steps V l HV Hk m) R).
Qed.
Lemma calls_settled V ks m c : noalias V -> Forall (call_in V) ks -> settled V c m ->
  exists c' tr, run_calls ks c = (Ok tt, c', tr) /\ settled V c' (marks ks ++ m).
Proof.
  intros HV F. revert m c. induction F as [|k ks Hk _ IH]; intros m c R.
  - exists c, []. split; [reflexivity|exact R].
  - destruct (call_settled V k m c HV Hk R) as (c1 & t1 & H1 & S1 & _). destruct (IH _ c1 S1) as (c2 & t2 & H2 & S2).
    exists c2, (t1 ++ t2). split.
    + unfold run_calls. cbn [mfor]. unfold bind. rewrite H1. unfold run_calls in H2. now rewrite H2.
    + unfold marks in *. cbn [flat_map]. now rewrite rev_app_distr, <- app_assoc.
Qed.
Lemma start_settled V auto : settled V (start auto) [].
Proof. constructor; [reflexivity|reflexivity|apply Book_empty]. Qed.

(** ** answers *)
Lemma settled_exists V c m e : noalias V -> settled V c m -> edge_in V e ->
  exists b, exists_ e c = (Ok b, c, []) /\ (b = true <-> present (events m) e).
Proof.
  intros HV R He. exists (memb e (stored (events m))).
  split; [exact (Book_exists V _ m c e HV (se_book _ _ _ R) eq_refl (settled_live _ _ _ R) He)|]. rewrite memb_in. apply stored_present.
Qed.
Lemma settled_pattern V c m p : noalias V -> settled V c m -> pattern_in V p ->
  exists l, pattern2edges (VTup p) c = (Ok l, c, []) /\ NoDup l /\ forall e, In e l <-> present (events m) e /\ matches p (elems e).
Proof.
  intros HV R Hp. pose proof (se_book _ _ _ R) as I. pose proof (settled_live _ _ _ R) as L. pose proof (pattern_in_ok V p Hp) as Hp'.
  destruct (pattern_run V (c_work c) c p HV (wf_rows _ _ (b_wf _ _ _ I)) eq_refl L Hp') as (l & G & N & Il).
  exists l. split; [exact G|]. split; [exact N|]. intros e. rewrite Il, <- stored_present. split.
  - intros (He & (r & Hr & Rr & _) & M). split; [|exact M]. now apply (b_rows _ _ _ I e r).
  - intros (He & M). pose proof (b_edges _ _ _ I e He) as Hi. split; [exact Hi|]. split; [|exact M].
    destruct Hp' as [(a & rest & Ea & _) _ _].
    apply (indexed_hit_pattern V); [exact Hi| | |exact M].
    + intros r Hr. now apply (b_rows _ _ _ I e r).
    + exists a. apply filter_In. rewrite Ea. now left.
Qed.
Lemma settled_star V c m a : noalias V -> settled V c m -> db_atom a = true ->
  exists l, star a c = (Ok l, c, []) /\ NoDup l /\ forall e, In e l <-> present (events m) e /\ In a (elems e).
Proof.
  intros HV R Ha. pose proof (se_book _ _ _ R) as I. pose proof (settled_live _ _ _ R) as L.
  destruct (star_run V (c_work c) c a HV (wf_rows _ _ (b_wf _ _ _ I)) eq_refl L Ha) as (l & G & N & Il).
  exists l. split; [exact G|]. split; [exact N|]. intros e. rewrite Il, <- stored_present. split.
  - intros (He & Hh). split; [|now apply (hit_star_elem V (c_work c))]. destruct Hh as (r & Hr & Rr & _). now apply (b_rows _ _ _ I e r).
  - intros (He & M). split; [now apply (b_edges _ _ _ I)|]. apply indexed_hit_star; [|exact M].
    intros r Hr. apply (b_rows _ _ _ I e r); [now apply (b_edges _ _ _ I)|exact Hr|exact He].
Qed.
Lemma settled_degree V c m v : settled V c m -> db_vertex v = true ->
  degree v c = (Ok (match ledger m v with Some (d, _) => d | None => 0%Z end), c, []).
Proof. intros R Hv. rewrite <- (b_vert _ _ _ (se_book _ _ _ R) v Hv). apply degree_gives; [apply R|exact Hv]. Qed.
Lemma settled_timestamp V c m v : settled V c m -> db_vertex v = true ->
  timestamp v c = (Ok (match ledger m v with Some (_, t) => t | None => (-1)%Z end), c, []).
Proof. intros R Hv. rewrite <- (b_vert _ _ _ (se_book _ _ _ R) v Hv). apply timestamp_gives; [apply R|exact Hv]. Qed.
