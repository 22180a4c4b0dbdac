(** * P_alias.v -- asking for an edge outside the alias-free scope (7 next to 7.0) *)

From Verif Require Import Py M_symbol M_edge M_sql M_hypergraph P_py Spec P_edge P_perm P_range P_query
  S_history M_driver P_ops P_hist P_graph P_answers.
From Coq Require Import Permutation Factorial String.
Open Scope list_scope.

Lemma nodes2str_cons x y l : nodes2str (x :: y :: l) = edge2str x ++ c_space :: nodes2str (y :: l).
Proof. apply (nodes2str_app [x] (y :: l)); easy. Qed.
Lemma nodes2str_snoc p k : p <> [] -> nodes2str (p ++ [k]) = nodes2str p ++ c_space :: nodes2str [k].
Proof. intros H. now apply nodes2str_app. Qed.

(** where the text of one list of vertices is the beginning of a row of another *)
Lemma row_prefix Q p k : all_db Q -> all_db p -> db_vertex k = true -> List.length Q = List.length p -> Q <> [] ->
  prefixb (nodes2str Q) (nodes2str (p ++ [k])) = true ->
  exists x, p = removelast Q ++ [x] /\ prefixb (edge2str (List.last Q VNone)) (edge2str x) = true.
Proof.
  revert p. induction Q as [|y Q IH]; intros p HQ Hp Hk L Hn P; [easy|]. destruct p as [|z p]; [easy|].
  inversion HQ as [|? ? Hy HQ']; inversion Hp as [|? ? Hz Hp']; subst.
  destruct Q as [|y2 Q].
  - destruct p; [|discriminate]. exists z. split; [reflexivity|]. cbn [List.last].
    change (nodes2str [y]) with (edge2str y) in P. cbn [app] in P. rewrite nodes2str_cons in P. change (nodes2str [k]) with (edge2str k) in P.
    apply prefixb_spec in P as [t P]. apply prefixb_spec. symmetry in P. apply app_split in P as [(r & E & _)|(r & E1 & E2)].
    + now exists r.
    + destruct r as [|c r]; [rewrite app_nil_r in E1; exists []; now rewrite E1, app_nil_r|]. injection E2 as <- _.
      assert (X : z = y). { apply (vertex_prefix z y []); [exact Hz|exact Hy|constructor|]. apply prefixb_spec. exists r. change (nodes2str [y]) with (edge2str y). rewrite E1, <- app_assoc. reflexivity. }
      subst z. exists []. now rewrite app_nil_r.
  - destruct p as [|z2 p]; [discriminate|]. rewrite nodes2str_cons in P. change ((z :: z2 :: p) ++ [k]) with (z :: (z2 :: p) ++ [k]) in P.
    assert (X : y = z).
    { apply (vertex_prefix y z ((z2 :: p) ++ [k])); [exact Hy|exact Hz| |].
      - apply Forall_app. split; [now apply all_db_wf|]. constructor; [now apply db_vertex_wf|constructor].
      - apply prefixb_spec in P as [t P]. apply prefixb_spec. exists (nodes2str (y2 :: Q) ++ t). rewrite P, <- !app_assoc. reflexivity. }
    subst z. change (y :: (z2 :: p) ++ [k]) with (y :: z2 :: (p ++ [k])) in P. rewrite nodes2str_cons in P.
    assert (P' : prefixb (nodes2str (y2 :: Q)) (nodes2str ((z2 :: p) ++ [k])) = true).
    { apply prefixb_spec in P as [t P]. apply prefixb_spec. exists t. rewrite <- app_assoc in P. cbn [app] in P.
      apply app_inv_head in P. now injection P. }
    destruct (IH (z2 :: p) HQ' Hp' Hk ltac:(cbn in *; lia) ltac:(easy) P') as (x & E & Px).
    exists x. split; [|exact Px]. change (removelast (y :: y2 :: Q)) with (y :: removelast (y2 :: Q)). now rewrite E.
Qed.
Lemma row_prefix_conv Q x k : Q <> [] -> prefixb (edge2str (List.last Q VNone)) (edge2str x) = true ->
  prefixb (nodes2str Q) (nodes2str ((removelast Q ++ [x]) ++ [k])) = true.
Proof.
  intros Hn P. rewrite nodes2str_snoc by (intros E; now apply app_eq_nil in E). apply prefixb_spec in P as [t P].
  rewrite (app_removelast_last VNone Hn) at 1. set (m := removelast Q) in *. set (l := List.last Q VNone) in *.
  apply prefixb_spec. exists (t ++ c_space :: nodes2str [k]). destruct m as [|y m].
  - cbn [app]. change (nodes2str [x]) with (edge2str x). change (nodes2str [l]) with (edge2str l). rewrite P. now rewrite <- app_assoc.
  - rewrite !nodes2str_snoc by easy. change (nodes2str [x]) with (edge2str x). change (nodes2str [l]) with (edge2str l). rewrite P.
    rewrite <- !app_assoc. cbn [app]. now rewrite <- !app_assoc.
Qed.

Lemma edge_matches_all Q e : all_db Q -> matches_loop e Q = true -> List.length e = List.length Q ->
  Forall2 (fun q x => py_eq q x = true) Q e.
Proof.
  intros HQ. revert e. induction HQ as [|q Q Hq HQ IH]; intros [|x e] M L; try discriminate; constructor.
  - cbn [matches_loop] in M. apply db_vertex_not_none in Hq. destruct (py_eq q x); [reflexivity|]. destruct q; discriminate.
  - apply IH; [|now injection L]. cbn [matches_loop] in M. destruct (_ && _); [discriminate|exact M].
Qed.
Lemma py_eq_tup l m : py_eq (VTup l) (VTup m) = true <-> Forall2 (fun q x => py_eq q x = true) l m.
Proof.
  cbn [py_eq]. revert m. induction l as [|x l IH]; intros [|y m]; try (split; [discriminate|inversion 1]).
  - split; [constructor|reflexivity].
  - rewrite andb_true_iff. specialize (IH m). split.
    + intros [A B]. constructor; [exact A|now apply IH].
    + inversion 1; subst. split; [assumption|now apply IH].
Qed.
Lemma matches_all_eq Q e : all_db Q -> Forall2 (fun q x => py_eq q x = true) Q e -> matches_loop e Q = true.
Proof.
  intros HQ F. induction F as [|q x Q e E F IH]; [reflexivity|]. inversion HQ; subst. cbn [matches_loop]. rewrite E.
  cbn [negb]. rewrite andb_false_r. now apply IH.
Qed.

Lemma F2_len {A B} (R : A -> B -> Prop) l m : Forall2 R l m -> List.length l = List.length m.
Proof. induction 1; cbn; congruence. Qed.

(** what exists() answers for any storable edge *)
Lemma ask_alias V h c q : noalias V -> Inv V (c_work c) h -> live c -> db_edge q = true ->
  exists b, gives (exists_ q) c b
    /\ (b = true <-> exists e x, In e (stored h) /\ py_eq q e = true
          /\ Permutation (elems e) (removelast (elems q) ++ [x])
          /\ prefixb (edge2str (List.last (elems q) VNone)) (edge2str x) = true).
Proof.
  intros HV I Lc Hq. destruct (db_edge_elems q Hq) as (Eq & Aq & Lq).
  destruct (db_edge_inv q Hq) as (a0 & b0 & l0 & Eq0 & Ha0 & _). set (Q := elems q) in *.
  assert (HQ : exists rest, Q = a0 :: rest) by (unfold Q; rewrite Eq0; now eexists).
  assert (Qn : Q <> []) by (destruct HQ as [? ->]; easy).
  set (s := nodes2str Q).
  destruct (nodes2str_text Q) as [Hn Ht]; [exact Qn|exact Aq|]. fold s in Hn, Ht.
  assert (Hl : starts_with c_lpar s = false).
  { unfold s. destruct HQ as [rest ->]. destruct (nodes2str_first a0 rest) as (t & E & _). rewrite E.
    destruct (atom_text_start a0 (db_atom_wf a0 Ha0)) as (Et & ch & r & E2 & Hc). rewrite Et, E2. exact Hc. }
  destruct (db_text_plus_1 s Hn Ht) as (hi & Hhi & B1 & B2).
  assert (Hw : rows_ok V (c_work c)) by (exact (wf_rows _ _ (i_wf _ _ _ I))).
  destruct (cur2edges_spec V (c_work c) s hi HV Hw Hn Hl Hhi) as (es & Ec & Nes & Ies).
  assert (F : exists flags, mapr (fun e => edge_matches_pattern e Q) es = Ok flags
     /\ forall e, In e (List.map fst (filter snd (combine es flags))) <-> In e es /\ py_eq q e = true).
  { assert (Hes : forall e, In e es -> edge_in V e) by (intros e He; now apply Ies in He).
    clear Nes Ies Ec. induction es as [|e es IHe].
    - exists []. split; [reflexivity|]. cbn. tauto.
    - destruct IHe as (flags & E & If); [intros e' He'; apply Hes; now right|].
      assert (He : edge_in V e) by (apply Hes; now left).
      destruct (db_edge_elems e (edge_in_db _ _ He)) as (Ee & Ae & Le).
      assert (B : exists b, edge_matches_pattern e Q = Ok b /\ (b = true <-> py_eq q e = true)).
      { assert (X : edge_matches_pattern e Q = edge_matches_pattern (VTup (elems e)) Q) by (now rewrite <- Ee).
        assert (Y : py_eq q e = py_eq (VTup Q) (VTup (elems e))) by (rewrite <- Ee, <- Eq; reflexivity).
        rewrite X, Y. unfold edge_matches_pattern. cbn [as_seq rbind].
        destruct (Nat.eqb_spec (List.length (elems e)) (List.length Q)) as [El|El]; cbn [negb].
        - eexists. split; [reflexivity|]. rewrite py_eq_tup. split; [intros M; now apply edge_matches_all|now apply matches_all_eq].
        - exists false. split; [reflexivity|]. rewrite py_eq_tup. split; [easy|]. intros M. apply F2_len in M. congruence. }
      destruct B as (b & Eb & Hb). exists (b :: flags). cbn [mapr]. rewrite Eb, E. cbn [rbind].
      split; [reflexivity|]. intros e'. cbn [combine filter snd].
      destruct b; cbn [List.map fst In]; rewrite If; cbn [In].
      + split; [intros [<-|[H1 H2]]; tauto|]. intros [[<-|H1] H2]; tauto.
      + split; [tauto|]. intros [[<-|H1] H2]; [|tauto]. apply Hb in H2. easy. }
  destruct F as (flags & Ef & If).
  set (out := List.map fst (filter snd (combine es flags))) in *.
  destruct (py_set_edges V out HV) as [N Io].
  { intros e He. apply If in He as [He _]. now apply Ies in He. }
  exists (Nat.ltb 0 (List.length (py_set out))). split.
  - unfold gives, exists_. rewrite (bind_gives _ _ c (py_set out)); [reflexivity|].
    unfold gives, pattern2edges. rewrite Eq. cbn [as_seq]. rewrite (bind_gives _ _ c Q) by (now apply gives_lift).
    cbv zeta. rewrite (filter_all_db Q Aq). fold s. rewrite (bind_gives _ _ c hi) by (now apply gives_lift).
    apply query_shape; [exact Lc|cbn; now rewrite B1, B2|].
    intros hd Hh. rewrite (bind_gives _ _ c es) by (now apply gives_lift).
    rewrite (bind_gives _ _ c tt) by (now apply close_query).
    rewrite (bind_gives _ _ c flags) by (now apply gives_lift). reflexivity.
  - rewrite Nat.ltb_lt. transitivity (exists e, In e (py_set out)).
    { destruct (py_set out) as [|e l]; split; [cbn; lia|intros [e []]|intros _; exists e; now left|cbn; lia]. }
    split.
    + intros (e & He). apply Io, If in He as [He E]. apply Ies in He as [Hv (r & Hr & Rr & P)].
      pose proof (proj1 (i_rows _ _ _ I e r Hv Rr) Hr) as Hs. destruct Rr as (k & p & Hk & Ep & ->).
      destruct (nthperm_ok _ k Hk) as (p' & _ & Ep' & Pp). assert (p' = p) by congruence. subst p'.
      destruct (db_edge_elems e (edge_in_db _ _ Hv)) as (Ee & Ae & Le).
      assert (Len : List.length Q = List.length p).
      { rewrite <- (Permutation_length Pp). rewrite Ee, Eq in E. apply py_eq_tup in E. now apply F2_len in E. }
      destruct (row_prefix Q p (VInt k) Aq (all_db_perm _ _ Pp Ae) eq_refl Len Qn P) as (x & -> & Px).
      exists e, x. now repeat split.
    + intros (e & x & Hs & E & Pp & Px). exists e. apply Io, If. split; [|exact E]. apply Ies.
      assert (Hv : edge_in V e) by (exact (i_edges _ _ _ I e Hs)). split; [exact Hv|].
      destruct (nthperm_complete _ _ Pp) as (k & Hk & Ek).
      exists (nodes2str ((removelast Q ++ [x]) ++ [VInt k])).
      assert (Rr : is_row (elems e) (nodes2str ((removelast Q ++ [x]) ++ [VInt k]))) by (exists k, (removelast Q ++ [x]); now repeat split).
      split; [now apply (proj2 (i_rows _ _ _ I e _ Hv Rr))|]. split; [exact Rr|]. now apply row_prefix_conv.
Qed.
