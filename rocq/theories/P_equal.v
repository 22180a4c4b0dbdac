(** * P_equal.v -- the tables when equal numbers are mixed *)
From Verif Require Import Py M_symbol M_edge M_sql M_hypergraph P_py Spec P_edge P_perm P_range P_query
  S_history M_driver P_ops P_hist P_graph P_answers P_alias C_values S_equal.
From Coq Require Import Permutation Factorial String QArith.
Open Scope Z_scope.
Open Scope list_scope.

(** ** == is an equivalence on storable vertices *)
Lemma db_canonical b : db_vertex b = true -> canonical b = true.
Proof. destruct b as [| | |f|]; try reflexivity. cbn. unfold flt_ok. intros H. now apply andb_true_iff in H as [H _]. Qed.
Lemma peq_num a x b : canonical a = true -> number a = Some x -> db_vertex b = true ->
  (py_eq a b = true <-> exists y, number b = Some y /\ (x == y)%Q).
Proof.
  intros Ca Na Hb. destruct (number b) as [y|] eqn:Nb.
  - rewrite (C47_equality_is_numeric a b x y Ca (db_canonical b Hb) Na Nb). split; [intros H; now exists y|intros (z & [= <-] & H); exact H].
  - destruct C47_equality_otherwise as [O _]. destruct (O b a (db_canonical b Hb) Nb) as [_ F]; [congruence|]. rewrite F.
    split; [discriminate|]. intros (y & H & _). discriminate.
Qed.
Lemma db_finite f : db_vertex (VFlt f) = true -> exists x, number (VFlt f) = Some x.
Proof.
  intros H. pose proof (db_canonical _ H) as C. destruct (number (VFlt f)) as [x|] eqn:N; [now exists x|].
  pose proof (py_eq_refl_db _ H) as R. destruct f as [n m e|n|]; try discriminate H.
  exfalso. destruct C47_equality_otherwise as [O _]. cbn [number] in N. destruct (N.eqb m 0) eqn:M; [discriminate|].
  cbn [canonical flt_canon] in C. rewrite M in C. apply andb_true_iff in C as [_ C]. apply N.eqb_neq in M.
  destruct (P_double.repr_read m e M C) as (v & k & E & _). now rewrite E in N.
Qed.
Lemma peq_sym a : forall b, db_vertex a = true -> db_vertex b = true -> py_eq a b = true -> py_eq b a = true.
Proof.
  assert (Num : forall a x b, db_vertex a = true -> db_vertex b = true -> number a = Some x -> py_eq a b = true -> py_eq b a = true).
  { intros a' x b Ha Hb N E. apply (peq_num a' x b (db_canonical _ Ha) N Hb) in E as (y & Ny & Exy).
    apply (peq_num b y a' (db_canonical _ Hb) Ny Ha). exists x. split; [exact N|]. now symmetry. }
  induction a as [|s|z|f|l IH] using value_nested_ind; intros b Ha Hb E; try discriminate Ha.
  - destruct b as [|t| | |]; try discriminate E. cbn in *. apply str_eqb_eq in E as ->. apply str_eqb_refl.
  - exact (Num (VInt z) _ b Ha Hb eq_refl E).
  - destruct (db_finite f Ha) as (x & N). exact (Num (VFlt f) x b Ha Hb N E).
  - destruct b as [| | | |m]; try discriminate E. apply P_alias.py_eq_tup in E. apply P_alias.py_eq_tup.
    apply db_vertex_tup in Ha as [_ Ha]. apply db_vertex_tup in Hb as [_ Hb]. revert IH Ha Hb.
    induction E as [|x y l m Exy _ IHE]; intros IH Ha Hb; [constructor|]. inversion IH; inversion Ha; inversion Hb; subst. constructor; [auto|]. now apply IHE.
Qed.
Lemma peq_trans a : forall b c, db_vertex a = true -> db_vertex b = true -> db_vertex c = true -> py_eq a b = true -> py_eq b c = true -> py_eq a c = true.
Proof.
  assert (Num : forall a x b c, db_vertex a = true -> db_vertex b = true -> db_vertex c = true -> number a = Some x -> py_eq a b = true -> py_eq b c = true -> py_eq a c = true).
  { intros a' x b c Ha Hb Hc N E F. apply (peq_num a' x b (db_canonical _ Ha) N Hb) in E as (y & Ny & Exy).
    apply (peq_num b y c (db_canonical _ Hb) Ny Hc) in F as (w & Nw & Eyw).
    apply (peq_num a' x c (db_canonical _ Ha) N Hc). exists w. split; [exact Nw|]. now rewrite Exy. }
  induction a as [|s|z|f|l IH] using value_nested_ind; intros b c Ha Hb Hc E F; try discriminate Ha.
  - destruct b as [|t| | |]; try discriminate E. cbn in E. apply str_eqb_eq in E as ->. exact F.
  - exact (Num (VInt z) _ b c Ha Hb Hc eq_refl E F).
  - destruct (db_finite f Ha) as (x & N). exact (Num (VFlt f) x b c Ha Hb Hc N E F).
  - destruct b as [| | | |m]; try discriminate E. destruct c as [| | | |k]; try discriminate F.
    apply P_alias.py_eq_tup in E. apply P_alias.py_eq_tup in F. apply P_alias.py_eq_tup.
    apply db_vertex_tup in Ha as [_ Ha]. apply db_vertex_tup in Hb as [_ Hb]. apply db_vertex_tup in Hc as [_ Hc]. revert k F IH Ha Hb Hc.
    induction E as [|x y l m Exy _ IHE]; intros k F IH Ha Hb Hc; inversion F; subst; [constructor|].
    inversion IH; inversion Ha; inversion Hb; inversion Hc; subst. constructor; [eauto|]. now apply IHE.
Qed.

(** ** sets *)
Lemma set_aux_sub l : forall seen x, In x (py_set_aux seen l) -> In x l.
Proof.
  induction l as [|a l IH]; intros seen x H; [exact H|]. cbn [py_set_aux] in H. destruct (existsb (py_eq a) seen); [right; now apply (IH seen)|].
  destruct H as [<-|H]; [now left|right; now apply (IH (a :: seen))].
Qed.
Lemma set_aux_rep l : (forall x, In x l -> py_eq x x = true) -> forall seen x, In x l -> exists y, In y (py_set_aux seen l ++ seen) /\ py_eq x y = true.
Proof.
  induction l as [|a l IH]; intros R seen x H; [destruct H|]. cbn [py_set_aux]. destruct (existsb (py_eq a) seen) eqn:E.
  - destruct H as [<-|H]; [|apply IH; [intros y Hy; apply R; now right|exact H]]. apply existsb_exists in E as (y & Hy & Ey). exists y. split; [apply in_app_iff; now right|exact Ey].
  - destruct H as [<-|H]; [exists a; split; [now left|apply R; now left]|].
    destruct (IH (fun y Hy => R y (or_intror Hy)) (a :: seen) x H) as (y & Hy & Ey). exists y. split; [|exact Ey].
    apply in_app_iff in Hy as [Hy|[<-|Hy]]; [right; apply in_app_iff; now left|now left|right; apply in_app_iff; now right].
Qed.
Lemma set_aux_uniq l : (forall x y, In x l -> In y l -> py_eq x y = true -> py_eq y x = true) -> forall seen,
  NoDup (py_set_aux seen l) \/ exists x, In x l /\ py_eq x x = false.
Proof.
  induction l as [|a l IH]; intros S seen; [left; constructor|]. cbn [py_set_aux].
  destruct (py_eq a a) eqn:R; [|right; exists a; split; [now left|exact R]].
  assert (S' : forall x y, In x l -> In y l -> py_eq x y = true -> py_eq y x = true) by (intros x y Hx Hy; apply S; now right).
  destruct (existsb (py_eq a) seen); [destruct (IH S' seen) as [N|(x & Hx & E)]; [now left|right; exists x; split; [now right|exact E]]|].
  destruct (IH S' (a :: seen)) as [N|(x & Hx & E)]; [left|right; exists x; split; [now right|exact E]]. constructor; [|exact N].
  assert (G : forall l seen, In a seen -> ~ In a (py_set_aux seen l)); [|apply G; now left].
  clear -R. induction l as [|b l IH]; intros seen Hs; [easy|]. cbn [py_set_aux]. destruct (existsb (py_eq b) seen) eqn:E; [now apply IH|].
  intros [->|H]; [|exact (IH (b :: seen) (or_intror Hs) H)]. apply Bool.not_true_iff_false in E. apply E. apply existsb_exists. now exists a.
Qed.
(** no two members are equal *)
Lemma set_aux_apart l : (forall x y, In x l -> In y l -> py_eq x y = true -> py_eq y x = true) ->
  forall seen, (forall x y, In x (py_set_aux seen l) -> In y (py_set_aux seen l) -> py_eq x y = true -> x = y)
    /\ (forall x y, In x (py_set_aux seen l) -> In y seen -> py_eq x y = false).
Proof.
  induction l as [|a l IH]; intros S seen; [split; intros x y []|]. cbn [py_set_aux].
  assert (S' : forall x y, In x l -> In y l -> py_eq x y = true -> py_eq y x = true) by (intros x y Hx Hy; apply S; now right).
  destruct (existsb (py_eq a) seen) eqn:E; [exact (IH S' seen)|]. destruct (IH S' (a :: seen)) as [A B].
  assert (Na : forall y, In y seen -> py_eq a y = false).
  { intros y Hy. destruct (py_eq a y) eqn:F; [|reflexivity]. rewrite <- E. symmetry. apply existsb_exists. now exists y. }
  split.
  - intros x y [<-|Hx] [<-|Hy] Exy; [reflexivity| | |now apply A].
    + apply S in Exy; [|now left|right; now apply set_aux_sub in Hy]. rewrite (B y a Hy (or_introl eq_refl)) in Exy. discriminate.
    + rewrite (B x a Hx (or_introl eq_refl)) in Exy. discriminate.
  - intros x y [<-|Hx] Hy; [now apply Na|]. apply (B x y Hx). now right.
Qed.
Lemma edges_set es : (forall e, In e es -> db_edge e = true) ->
  (forall x, In x (py_set es) -> In x es) /\ (forall x, In x es -> exists y, In y (py_set es) /\ py_eq x y = true)
  /\ NoDup (py_set es) /\ (forall x y, In x (py_set es) -> In y (py_set es) -> py_eq x y = true -> x = y).
Proof.
  intros H. assert (S : forall x y, In x es -> In y es -> py_eq x y = true -> py_eq y x = true) by (intros x y Hx Hy; apply peq_sym; apply db_edge_vertex, H; assumption).
  assert (R : forall x, In x es -> py_eq x x = true) by (intros x Hx; apply py_eq_refl_db, db_edge_vertex, H, Hx).
  split; [intros x; apply set_aux_sub|]. split; [|split; [|apply (set_aux_apart es S [])]].
  - intros x Hx. destruct (set_aux_rep es R [] x Hx) as (y & Hy & E). rewrite app_nil_r in Hy. now exists y.
  - destruct (set_aux_uniq es S []) as [N|(x & Hx & E)]; [exact N|]. rewrite (R x Hx) in E. discriminate.
Qed.

(** ** decoding rows *)
Definition Any (v : value) : Prop := True.
Lemma any_edge e : edge_in Any e <-> db_edge e = true.
Proof. split; [intros [H _]; exact H|intros H; split; [exact H|easy]]. Qed.

Lemma decode w s hi : rows_ok Any w -> s <> [] -> starts_with c_lpar s = false -> str_plus_1 s = Ok hi ->
  exists es, cur2edges (filter (in_range s hi) (perms w)) = Ok es
    /\ (forall e, In e es -> db_edge e = true /\ hit w s e)
    /\ (forall e, db_edge e = true -> hit w s e -> exists e', In e' es /\ py_eq e e' = true).
Proof.
  intros Hw Hn Hs Hhi. rewrite (filter_ext (in_range s hi) (prefixb s)) by (intros r; now apply in_range_prefix).
  assert (Hp : forall r, prefixb s r = true -> starts_with c_lpar r = false) by (intros r; now apply (prefix_no_lpar s)).
  unfold cur2edges.
  assert (G : exists es, mapr row2edge (filter (prefixb s) (perms w)) = Ok es
     /\ forall e, In e es <-> (db_edge e = true /\ hit w s e)).
  { unfold hit, rows_ok in *. revert Hw. generalize (perms w). induction l as [|r l IH]; intros Hw.
    - exists []. split; [reflexivity|]. intros e. split; [easy|]. intros (_ & r & [] & _).
    - destruct IH as (es & E & I).
      { intros r' Hr'. apply Hw. now right. }
      cbn [filter]. destruct (prefixb s r) eqn:Pr0.
      + destruct (Hw r ltac:(now left)) as (e0 & He0 & R0).
        assert (De0 : db_edge e0 = true) by (exact (proj1 (any_edge e0) He0)).
        assert (D0 : row2edge r = Ok e0) by (exact (row2edge_ok e0 r De0 R0 (Hp r Pr0))).
        exists (e0 :: es). cbn [mapr]. rewrite D0. cbn [rbind]. rewrite E. split; [reflexivity|].
        intros e. cbn [In]. rewrite I. split.
        * intros [<-|(He & r' & Hr' & X)].
          -- split; [exact De0|]. exists r. split; [now left|]. split; [exact R0|exact Pr0].
          -- split; [exact He|]. exists r'. split; [now right|exact X].
        * intros (He & r' & [<-|Hr'] & Rr & Pr).
          -- left. exact (row_other Any e0 e r He0 (proj2 (any_edge e) He) R0 Rr).
          -- right. split; [exact He|]. now exists r'.
      + exists es. split; [exact E|]. intros e. rewrite I. split.
        * intros (He & r' & Hr' & X). split; [exact He|]. exists r'. split; [now right|exact X].
        * intros (He & r' & [<-|Hr'] & Rr & Pr); [congruence|]. split; [exact He|]. now exists r'. }
  destruct G as (es & E & I). rewrite E. cbn [rbind]. exists (py_set es). split; [reflexivity|].
  destruct (edges_set es) as (S1 & S2 & _); [intros e He; now apply I in He|]. split.
  - intros e He. apply I. now apply S1.
  - intros e He Hh. destruct (S2 e) as (y & Hy & Ey); [now apply I|]. now exists y.
Qed.

(** ** patterns *)
Lemma equal_match_loop items : (forall x, In x items -> not_none x = true -> db_vertex x = true) -> forall l,
  List.length l = List.length items -> matches_loop l items = true <-> equal_match items l.
Proof.
  induction items as [|p items IH]; intros Hi [|x l] L; try discriminate.
  - split; [constructor|reflexivity].
  - cbn [matches_loop]. injection L as L. specialize (IH (fun y Hy => Hi y (or_intror Hy)) l L).
    change (match p with VNone => false | _ => true end) with (not_none p).
    destruct (not_none p) eqn:Np; cbn [andb].
    + destruct (py_eq p x) eqn:E; cbn [negb].
      * rewrite IH. split; [intros M; constructor; [now right|exact M]|intros M; now inversion M].
      * split; [discriminate|]. intros M. inversion M as [|? ? ? ? [->|F] _]; subst; [discriminate|congruence].
    + rewrite IH. split; [intros M; constructor; [left; now destruct p|exact M]|intros M; now inversion M].
Qed.
Lemma equal_flags items es : (forall x, In x items -> not_none x = true -> db_vertex x = true) -> (forall e, In e es -> db_edge e = true) ->
  exists flags, mapr (fun e => edge_matches_pattern e items) es = Ok flags
     /\ forall e, In e (List.map fst (filter snd (combine es flags))) <-> In e es /\ equal_match items (elems e).
Proof.
  intros Hi Hes. induction es as [|e es IHe].
  - exists []. split; [reflexivity|]. cbn. tauto.
  - destruct IHe as (flags & E & I); [intros e' He'; apply Hes; now right|].
    destruct (db_edge_elems e (Hes e (or_introl eq_refl))) as (Ee & Ae & Le).
    assert (B : exists b, edge_matches_pattern e items = Ok b /\ (b = true <-> equal_match items (elems e))).
    { assert (X : edge_matches_pattern e items = edge_matches_pattern (VTup (elems e)) items) by (now rewrite <- Ee).
      rewrite X. unfold edge_matches_pattern. cbn [as_seq rbind].
      destruct (Nat.eqb_spec (List.length (elems e)) (List.length items)) as [El|El]; cbn [negb].
      - eexists. split; [reflexivity|]. now apply equal_match_loop.
      - exists false. split; [reflexivity|]. split; [easy|]. intros M. apply F2_len in M. congruence. }
    destruct B as (b & Eb & Hb). exists (b :: flags). cbn [mapr]. rewrite Eb, E. cbn [rbind].
    split; [reflexivity|]. intros e'. cbn [combine filter snd].
    destruct b; cbn [List.map fst In]; rewrite I; cbn [In].
    + split; [intros [<-|[H1 H2]]; tauto|]. intros [[<-|H1] H2]; tauto.
    + split; [tauto|]. intros [[<-|H1] H2]; [|tauto]. apply Hb in H2. easy.
Qed.
(** equal edges match the same patterns *)
Lemma equal_match_eq items e e' : (forall x, In x items -> not_none x = true -> db_vertex x = true) -> db_edge e = true -> db_edge e' = true ->
  py_eq e e' = true -> equal_match items (elems e) -> equal_match items (elems e').
Proof.
  intros Hi He He' E M. destruct (db_edge_elems e He) as (Ee & Ae & _). destruct (db_edge_elems e' He') as (Ee' & Ae' & _).
  rewrite Ee, Ee' in E. apply P_alias.py_eq_tup in E. clear Ee Ee' He He'. revert E Ae Ae' M. generalize (elems e'), (elems e). intros l' l E.
  revert items Hi. induction E as [|x y l l' Exy _ IH]; intros items Hi Ae Ae' M; inversion M as [|q ? items' ? Hq M']; subst; [constructor|].
  inversion Ae; inversion Ae'; subst. constructor.
  - destruct Hq as [->|Hq]; [now left|right]. destruct (not_none q) eqn:Nq; [|destruct q; try discriminate; now destruct x].
    apply (peq_trans q x y); auto. apply Hi; [now left|exact Nq].
  - apply IH; auto. intros z Hz. apply Hi. now right.
Qed.

Record pattern_any (items : list value) : Prop := {
  pa_first : exists a rest, filter not_none items = a :: rest /\ db_atom a = true;
  pa_db : forall x, In x items -> not_none x = true -> db_vertex x = true }.
Lemma equal_pattern w c items : rows_ok Any w -> c_work c = w -> live c -> pattern_any items ->
  exists res, gives (pattern2edges (VTup items)) c res /\ NoDup res
    /\ (forall e, In e res -> db_edge e = true /\ hit w (nodes2str (filter not_none items)) e /\ equal_match items (elems e))
    /\ (forall e, db_edge e = true -> hit w (nodes2str (filter not_none items)) e -> equal_match items (elems e) ->
          exists e', In e' res /\ py_eq e e' = true)
    /\ (forall x y, In x res -> In y res -> py_eq x y = true -> x = y).
Proof.
  intros Hw <- Lc [(a & rest & Ea & Ha) Hd].
  set (s := nodes2str (filter not_none items)).
  assert (Hdf : all_db (filter not_none items)) by (apply Forall_forall; intros x Hx; apply filter_In in Hx as [Hx Nx]; now apply Hd).
  destruct (nodes2str_text (filter not_none items)) as [Hn Ht]; [now rewrite Ea|exact Hdf|]. fold s in Hn, Ht.
  assert (Hl : starts_with c_lpar s = false).
  { unfold s. rewrite Ea. destruct (nodes2str_first a rest) as (t & E & _). rewrite E.
    destruct (atom_text_start a (db_atom_wf a Ha)) as (Et & ch & r & E2 & Hc). rewrite Et, E2. exact Hc. }
  destruct (db_text_plus_1 s Hn Ht) as (hi & Hhi & B1 & B2).
  destruct (decode (c_work c) s hi Hw Hn Hl Hhi) as (es & Ec & I1 & I2).
  destruct (equal_flags items es Hd (fun e He => proj1 (I1 e He))) as (flags & Ef & If).
  set (out := List.map fst (filter snd (combine es flags))) in *.
  destruct (edges_set out) as (S1 & S2 & S3 & S4).
  { intros e He. apply If in He as [He _]. now apply I1 in He. }
  exists (py_set out). split; [|split; [exact S3|split; [|split; [|exact S4]]]].
  - unfold gives, pattern2edges. rewrite (bind_gives _ _ c items) by (now apply gives_lift).
    cbv zeta. fold s. rewrite (bind_gives _ _ c hi) by (now apply gives_lift).
    apply query_shape; [exact Lc|cbn; now rewrite B1, B2|].
    intros h Hh. rewrite (bind_gives _ _ c es) by (now apply gives_lift).
    rewrite (bind_gives _ _ c tt) by (now apply close_query).
    rewrite (bind_gives _ _ c flags) by (now apply gives_lift). reflexivity.
  - intros e He. apply S1, If in He as [He M]. destruct (I1 e He). auto.
  - intros e He Hh M. destruct (I2 e He Hh) as (e1 & H1 & E1). destruct (I1 e1 H1) as [D1 _].
    destruct (S2 e1) as (e2 & H2 & E2); [apply If; split; [exact H1|exact (equal_match_eq items e e1 Hd He D1 E1 M)]|].
    exists e2. split; [exact H2|]. apply S1, If in H2 as [H2 _]. destruct (I1 e2 H2) as [D2 _].
    apply (peq_trans e e1 e2); [now apply db_edge_vertex..|exact E1|exact E2].
Qed.
Lemma equal_star w c v : rows_ok Any w -> c_work c = w -> live c -> db_atom v = true ->
  exists res, gives (star v) c res /\ NoDup res
    /\ (forall e, In e res -> db_edge e = true /\ hit w (edge2str v ++ [c_space]) e)
    /\ (forall e, db_edge e = true -> hit w (edge2str v ++ [c_space]) e -> exists e', In e' res /\ py_eq e e' = true)
    /\ (forall x y, In x res -> In y res -> py_eq x y = true -> x = y).
Proof.
  intros Hw <- Lc Hv.
  assert (Et : edge2str v = show_atom v) by (now destruct v).
  set (s := edge2str v ++ [c_space]).
  assert (Hn : s <> []) by (unfold s; intros E; now apply app_eq_nil in E).
  assert (Hl : starts_with c_lpar s = false).
  { destruct (atom_text_start v (db_atom_wf v Hv)) as (_ & ch & r & E & Hc). unfold s. rewrite Et, E. exact Hc. }
  assert (Ht : db_text s = true).
  { unfold s. rewrite db_text_split, scalars_app, (db_vertex_scalar v (db_atom_vertex v Hv)).
    cbn [andb]. rewrite last_ok_snoc; [reflexivity|unfold c_space; lia]. }
  destruct (db_text_plus_1 s Hn Ht) as (hi & Hhi & B1 & B2).
  destruct (decode (c_work c) s hi Hw Hn Hl Hhi) as (es & Ec & I1 & I2).
  destruct (edges_set es) as (S1 & S2 & S3 & S4).
  { intros e He. now apply I1 in He. }
  exists (py_set es). split; [|split; [exact S3|split; [|split; [|exact S4]]]].
  - unfold gives, star, str2perms. fold s. rewrite (bind_gives _ _ c hi) by (now apply gives_lift).
    apply query_shape; [exact Lc|cbn; now rewrite B1, B2|].
    intros h Hh. rewrite (bind_gives _ _ c es) by (now apply gives_lift).
    rewrite (bind_gives _ _ c tt) by (now apply close_query). reflexivity.
  - intros e He. apply I1. now apply S1.
  - intros e He Hh. destruct (I2 e He Hh) as (e1 & H1 & E1). destruct (I1 e1 H1) as [D1 _]. destruct (S2 e1 H1) as (e2 & H2 & E2).
    exists e2. split; [exact H2|]. apply S1 in H2. destruct (I1 e2 H2) as [D2 _].
    apply (peq_trans e e1 e2); [now apply db_edge_vertex..|exact E1|exact E2].
Qed.
