(** * P_query.v -- index rows and queries *)

From Verif Require Import Py M_symbol M_edge M_sql P_py Spec P_edge P_perm P_range.
From Coq Require Import Permutation Factorial Zify ZifyBool ZifyN ZifyNat.
Open Scope list_scope.

(** ** storable values *)

Lemma vertex_of_mono (P Q : str -> bool) v : (forall s, P s = true -> Q s = true) ->
  vertex_of P v = true -> vertex_of Q v = true.
Proof.
  intros HPQ. induction v as [|s|z|f|l IH] using value_nested_ind; intros H; cbn in *; try easy.
  - now apply HPQ.
  - apply andb_true_iff in H as [H1 H2]. rewrite H1. cbn. rewrite forallb_forall in *.
    rewrite Forall_forall in IH. intros x Hx. apply IH; auto.
Qed.

Lemma sym_db_ok s : sym_db s = true -> sym_ok s = true.
Proof. unfold sym_db. now intros [H _]%andb_true_iff. Qed.
Lemma db_vertex_wf v : db_vertex v = true -> wf_vertex v = true.
Proof. apply vertex_of_mono, sym_db_ok. Qed.
Lemma db_atom_wf v : db_atom v = true -> wf_atom v = true.
Proof. destruct v; cbn; try easy. apply sym_db_ok. Qed.
Lemma db_atom_vertex v : db_atom v = true -> db_vertex v = true.
Proof. now destruct v. Qed.
Lemma db_atom_not_tup v : db_atom v = true -> is_tup v = false.
Proof. now destruct v. Qed.
Lemma db_vertex_atom v : db_vertex v = true -> is_tup v = false -> db_atom v = true.
Proof. now destruct v. Qed.

Definition all_db (l : list value) : Prop := Forall (fun v => db_vertex v = true) l.

Lemma all_db_wf l : all_db l -> Forall (fun v => wf_vertex v = true) l.
Proof. intros H. eapply Forall_impl; [|exact H]. apply db_vertex_wf. Qed.

Lemma db_vertex_tup l : db_vertex (VTup l) = true <-> (2 <= List.length l)%nat /\ all_db l.
Proof.
  unfold db_vertex. rewrite vertex_of_tup. unfold all_db, db_vertex. tauto.
Qed.

Lemma db_edge_inv e : db_edge e = true ->
  exists a b l, e = VTup (a :: b :: l) /\ db_atom a = true /\ all_db (a :: b :: l).
Proof.
  unfold db_edge. destruct e as [| | | |[|a l]]; try easy. intros H.
  apply andb_true_iff in H as [Ha Hv]. apply db_vertex_tup in Hv as [Hl Hv].
  destruct l as [|b l]; [cbn in Hl; lia|]. now exists a, b, l.
Qed.
Lemma db_edge_elems e : db_edge e = true -> e = VTup (elems e) /\ all_db (elems e)
  /\ (2 <= List.length (elems e))%nat.
Proof. intros H. apply db_edge_inv in H as (a & b & l & -> & _ & H). cbn. repeat split; [exact H|lia]. Qed.
Lemma db_edge_vertex e : db_edge e = true -> db_vertex e = true.
Proof.
  intros H. apply db_edge_inv in H as (a & b & l & -> & _ & H). apply db_vertex_tup. split; [cbn; lia|exact H].
Qed.

Lemma db_vertex_not_none v : db_vertex v = true -> not_none v = true.
Proof. now destruct v. Qed.

(** ** texts of storable vertices *)

Definition scalars (s : str) : bool := forallb is_scalar s.

Lemma digits_scalar s : forallb is_digit s = true -> scalars s = true.
Proof.
  unfold scalars. rewrite !forallb_forall. intros H c Hc. apply H in Hc.
  unfold is_digit, is_scalar, is_surrogate, max_cp, c_0, c_9 in *. lia.
Qed.
Lemma show_Z_scalar z : scalars (show_Z z) = true.
Proof.
  unfold show_Z. destruct (z <? 0)%Z; [|apply digits_scalar, show_N_digits].
  unfold scalars. cbn [forallb]. apply andb_true_iff. split; [reflexivity|]. apply digits_scalar, show_N_digits.
Qed.

(** characters of a float text *)
Lemma show_float_scalar f : flt_ok f = true -> scalars (show_float f) = true.
Proof.
  intros H. pose proof (float_shape_show f H) as [_ S]. unfold dbl_shape in S.
  destruct (show_float f) as [|c s] eqn:E; [reflexivity|].
  cbn in S. unfold scalars.
  assert (G : forall r, (match split_dot r with Some (a, b) => forallb is_digit a && forallb is_digit b
                          | None => false end) = true -> forallb is_scalar r = true).
  { intros r. clear. intros Hr. destruct (split_dot r) as [[a b]|] eqn:D; [|easy].
    apply andb_true_iff in Hr as [Ha Hb].
    assert (Er : r = a ++ c_dot :: b).
    { clear Ha Hb. revert a D; induction r as [|x r IH]; intros a; cbn; [easy|].
      destruct (N.eqb_spec x c_dot) as [->|Hx]; [intros [= <- <-]; reflexivity|].
      destruct (split_dot r) as [[a' b']|]; [|easy]. intros [= <- <-]. now rewrite (IH a' eq_refl). }
    subst r. rewrite forallb_app. apply digits_scalar in Ha, Hb. unfold scalars in *.
    rewrite Ha. cbn [forallb]. now rewrite Hb. }
  destruct (N.eqb_spec c c_minus) as [->|Hc].
  - cbn [forallb]. apply andb_true_iff. split; [reflexivity|]. now apply G.
  - now apply G.
Qed.

Lemma scalars_app a b : scalars (a ++ b) = scalars a && scalars b.
Proof. apply forallb_app. Qed.

Lemma scalars_join l : Forall (fun s => scalars s = true) l -> scalars (join [c_space] l) = true.
Proof.
  induction 1 as [|x l Hx H IH]; [reflexivity|]. destruct l as [|y l]; [exact Hx|].
  rewrite join_cons, !scalars_app, Hx, IH. reflexivity.
Qed.

Lemma sym_db_scalar s : sym_db s = true -> scalars s = true.
Proof. unfold sym_db. intros [_ H]%andb_true_iff. now apply db_text_scalar. Qed.

Lemma db_vertex_scalar v : db_vertex v = true -> scalars (edge2str v) = true.
Proof.
  induction v as [|s|z|f|l IH] using value_nested_ind; intros H; try easy.
  - now apply sym_db_scalar.
  - apply show_Z_scalar.
  - now apply show_float_scalar.
  - apply db_vertex_tup in H as [_ H]. cbn [edge2str]. unfold all_db in H.
    change (c_lpar :: ?x) with ([c_lpar] ++ x). rewrite !scalars_app.
    replace (scalars (join _ _)) with true; [reflexivity|]. symmetry. apply scalars_join.
    rewrite Forall_map. rewrite Forall_forall in *. intros x Hx. apply IH; auto.
Qed.

Lemma nodes2str_scalar l : all_db l -> scalars (nodes2str l) = true.
Proof.
  intros H. apply scalars_join. rewrite Forall_map. eapply Forall_impl; [|exact H]. apply db_vertex_scalar.
Qed.

(** last character of texts *)
Definition last_ok (s : str) : bool :=
  negb (ends_with max_cp s) && negb (ends_with 55295%N s).
Lemma db_text_split s : db_text s = scalars s && last_ok s.
Proof. unfold db_text, last_ok, scalars. now rewrite <- andb_assoc. Qed.

Lemma last_ok_app a b : b <> [] -> last_ok (a ++ b) = last_ok b.
Proof. intros H. unfold last_ok. now rewrite !ends_with_app_r. Qed.
Lemma last_ok_snoc a c : (c < 55295)%N -> last_ok (a ++ [c]) = true.
Proof.
  intros H. unfold last_ok. rewrite !ends_with_app_last. unfold max_cp. lia.
Qed.
Lemma last_ok_digits s : forallb is_digit s = true -> last_ok s = true.
Proof.
  intros H. destruct s as [|c s _] using rev_ind; [reflexivity|].
  rewrite forallb_app in H. apply andb_true_iff in H as [_ H]. cbn in H.
  rewrite andb_true_r in H. apply is_digit_bounds in H. apply last_ok_snoc. lia.
Qed.

Lemma db_atom_text a : db_atom a = true -> show_atom a <> [] /\ last_ok (show_atom a) = true.
Proof.
  intros H. split; [destruct (atom_plain a (db_atom_wf a H)) as (Hn & _); exact Hn|].
  destruct a as [|s|z|f|l]; try easy; cbn [show_atom db_atom atom_of] in *.
  - unfold sym_db in H. apply andb_true_iff in H as [_ H]. rewrite db_text_split in H.
    now apply andb_true_iff in H as [_ H].
  - unfold show_Z. destruct (z <? 0)%Z; [|apply last_ok_digits, show_N_digits].
    change (c_minus :: ?x) with ([c_minus] ++ x). rewrite last_ok_app by apply show_N_nonnil.
    apply last_ok_digits, show_N_digits.
  - pose proof (float_shape_show f H) as [_ S]. unfold dbl_shape in S.
    pose proof (show_float_scalar f H) as Sc.
    destruct (show_float f) as [|c s _] using rev_ind; [reflexivity|].
    apply last_ok_snoc.
    assert (Hin : In c (snd (strip_minus (s ++ [c]))) \/ c = c_minus).
    { destruct s as [|x s].
      - cbn. destruct (N.eqb_spec c c_minus); [now right|left; now left].
      - cbn [app strip_minus]. destruct (N.eqb_spec x c_minus); left; cbn [snd]; [|right];
          apply in_app_iff; right; now left. }
    destruct Hin as [Hin| ->]; [|unfold c_minus; lia].
    destruct (split_dot _) as [[a b]|] eqn:D; [|easy].
    apply andb_true_iff in S as [Sa Sb].
    assert (Er : forall r a b, split_dot r = Some (a, b) -> r = a ++ c_dot :: b).
    { clear. induction r as [|x r IH]; intros a b; cbn; [easy|].
      destruct (N.eqb_spec x c_dot) as [->|Hx]; [intros [= <- <-]; reflexivity|].
      destruct (split_dot r) as [[a' b']|]; [|easy]. intros [= <- <-]. now rewrite (IH a' b' eq_refl). }
    rewrite (Er _ _ _ D) in Hin. rewrite in_app_iff in Hin.
    rewrite forallb_forall in Sa, Sb.
    destruct Hin as [Hin|[<-|Hin]].
    + apply Sa, is_digit_bounds in Hin. lia.
    + unfold c_dot. lia.
    + apply Sb, is_digit_bounds in Hin. lia.
Qed.

Lemma db_vertex_text v : db_vertex v = true -> edge2str v <> [] /\ last_ok (edge2str v) = true.
Proof.
  intros H. destruct (is_tup v) eqn:E.
  - destruct v as [| | | |l]; try easy. cbn [edge2str]. split; [easy|].
    change (c_lpar :: ?x) with ([c_lpar] ++ x). rewrite app_assoc.
    apply last_ok_snoc. unfold c_rpar. lia.
  - replace (edge2str v) with (show_atom v) by (now destruct v).
    apply db_atom_text. now apply db_vertex_atom.
Qed.

Lemma nodes2str_app a b : a <> [] -> b <> [] -> nodes2str (a ++ b) = nodes2str a ++ c_space :: nodes2str b.
Proof.
  intros Ha Hb. unfold nodes2str. rewrite map_app. induction a as [|x a IH]; [easy|].
  destruct a as [|y a].
  - cbn [List.map app]. destruct b as [|z b]; [easy|]. cbn [List.map]. rewrite join_cons. reflexivity.
  - cbn [List.map app] in *. rewrite !join_cons. rewrite IH by easy. now rewrite <- !app_assoc.
Qed.

Lemma nodes2str_text l : l <> [] -> all_db l -> nodes2str l <> [] /\ db_text (nodes2str l) = true.
Proof.
  intros Hn H. rewrite db_text_split, nodes2str_scalar by exact H. cbn [andb].
  destruct l as [|x l _] using rev_ind; [easy|]. apply Forall_app in H as [H1 H2].
  inversion H2 as [|? ? Hx _]; subst. apply db_vertex_text in Hx as [Ht Hl].
  destruct l as [|y l].
  - cbn. now split.
  - rewrite nodes2str_app by easy. split.
    + intros E. now apply app_eq_nil in E.
    + change (c_space :: ?s) with ([c_space] ++ s). rewrite app_assoc.
      unfold nodes2str at 2. cbn [List.map join]. now rewrite last_ok_app.
Qed.

(** ** index rows *)

(** [r] is the k-th index row of the edge with elements [l] *)
Definition is_row (l : list value) (r : str) : Prop :=
  exists k p, (0 <= k < Z.of_nat (fact (List.length l)))%Z /\ nthperm l k = Ok p
    /\ r = nodes2str (p ++ [VInt k]).

Lemma perm_str_row l k : l <> [] -> (k < fact (List.length l))%nat ->
  exists p, nthperm l (Z.of_nat k) = Ok p /\ Permutation l p
    /\ perm_str l k = Ok (nodes2str (p ++ [VInt (Z.of_nat k)])).
Proof.
  intros Hn Hk. destruct (nthperm_ok l (Z.of_nat k)) as (p & _ & E & P); [lia|].
  exists p. split; [exact E|]. split; [exact P|]. unfold perm_str. rewrite E. cbn [rbind].
  rewrite nodes2str_app; [reflexivity| |easy]. intros ->. apply Permutation_sym, Permutation_nil in P. easy.
Qed.

Lemma all_db_perm l p : Permutation l p -> all_db l -> all_db p.
Proof. intros P H. unfold all_db in *. now rewrite <- P. Qed.

Lemma row_list_inj p q : (2 <= List.length p)%nat -> (2 <= List.length q)%nat ->
  all_db p -> all_db q -> nodes2str p = nodes2str q -> p = q.
Proof.
  intros Lp Lq Hp Hq E.
  assert (V : VTup p = VTup q); [|now injection V].
  apply edge2str_inj.
  - apply db_vertex_wf, db_vertex_tup. now split.
  - apply db_vertex_wf, db_vertex_tup. now split.
  - cbn [edge2str]. unfold nodes2str in E. now rewrite E.
Qed.

(** a row belongs to one edge only *)
Lemma row_unique l m r : all_db l -> all_db m -> l <> [] -> m <> [] ->
  is_row l r -> is_row m r -> l = m.
Proof.
  intros Hl Hm Nl Nm (k & p & Hk & Ep & ->) (j & q & Hj & Eq & E).
  destruct (nthperm_ok l k Hk) as (p' & _ & Ep' & Pp). assert (p' = p) by congruence. subst p'.
  destruct (nthperm_ok m j Hj) as (q' & _ & Eq' & Pq). assert (q' = q) by congruence. subst q'.
  assert (Lp : p <> []) by (intros ->; apply Permutation_sym, Permutation_nil in Pp; easy).
  assert (Lq : q <> []) by (intros ->; apply Permutation_sym, Permutation_nil in Pq; easy).
  apply row_list_inj in E.
  - apply app_inj_tail in E as [-> [= ->]].
    apply unpermutate_nthperm in Ep; [|exact Hk]. apply unpermutate_nthperm in Eq; [|exact Hj].
    congruence.
  - rewrite app_length. destruct p; [easy|cbn; lia].
  - rewrite app_length. destruct q; [easy|cbn; lia].
  - apply Forall_app. split; [now apply (all_db_perm l)|now repeat constructor].
  - apply Forall_app. split; [now apply (all_db_perm m)|now repeat constructor].
Qed.

Lemma nodes2str_first x l : exists t, nodes2str (x :: l) = edge2str x ++ t /\
   (l <> [] -> exists t', t = c_space :: t').
Proof.
  destruct l as [|y l].
  - exists []. unfold nodes2str. cbn. rewrite app_nil_r. split; [reflexivity|easy].
  - exists (c_space :: nodes2str (y :: l)). split; [|intros _; now eexists].
    change (x :: y :: l) with ([x] ++ (y :: l)). rewrite nodes2str_app by easy. reflexivity.
Qed.

(** decoding *)
Lemma row2edge_atom_head e k a p : db_edge e = true ->
  (0 <= k < Z.of_nat (fact (List.length (elems e))))%Z ->
  nthperm (elems e) k = Ok (a :: p) -> db_atom a = true ->
  row2edge (nodes2str (a :: p ++ [VInt k])) = Ok e.
Proof.
  intros He Hk Ep Ha. apply db_edge_inv in He as (a0 & b0 & l0 & -> & Ha0 & Hl). cbn [elems] in *.
  set (l := a0 :: b0 :: l0) in *.
  destruct (nthperm_ok l k Hk) as (p' & _ & Ep' & Pp). assert (p' = a :: p) by congruence. subst p'.
  pose proof (all_db_perm _ _ Pp Hl) as Hp. inversion Hp as [|? ? _ Hp']; subst.
  unfold row2edge. rewrite split_edge_str_bare.
  2:{ now apply db_atom_wf. }
  2:{ apply Forall_app. split; [now apply all_db_wf|now repeat constructor]. }
  cbn [rbind]. change (a :: p ++ [VInt k]) with ((a :: p) ++ [VInt k]).
  rewrite map_app, rev_app_distr. cbn [List.map rev app edge2str show_atom].
  rewrite py_int_show. cbn [rbind].
  assert (U : unpermutate (List.map edge2str (a :: p)) k = Ok (List.map edge2str l)).
  { apply unpermutate_nthperm; [now rewrite map_length|]. now apply nthperm_map. }
  cbn [List.map] in U. change (rev (List.map edge2str p) ++ [edge2str a]) with (rev (edge2str a :: List.map edge2str p)).
  rewrite rev_involutive, U. cbn [rbind]. unfold l. apply str2edge_bare.
  - now apply db_atom_wf.
  - apply all_db_wf. now inversion Hl.
Qed.

Lemma edge2str_tup_start v : is_tup v = true -> exists t, edge2str v = c_lpar :: t.
Proof. destruct v; try easy. cbn. intros _. now eexists. Qed.

(** a row that does not start with '(' is decoded to its edge *)
Lemma row2edge_ok e r : db_edge e = true -> is_row (elems e) r -> starts_with c_lpar r = false ->
  row2edge r = Ok e.
Proof.
  intros He (k & p & Hk & Ep & ->) Hs.
  destruct (nthperm_ok _ k Hk) as (p' & _ & Ep' & Pp). assert (p' = p) by congruence. subst p'.
  destruct (db_edge_elems e He) as (Ee & Hl & Ll).
  destruct p as [|a p].
  { apply Permutation_length in Pp. cbn in Pp. lia. }
  apply row2edge_atom_head; try assumption.
  pose proof (all_db_perm _ _ Pp Hl) as Hp. inversion Hp as [|? ? Ha _]; subst.
  apply db_vertex_atom; [exact Ha|]. destruct (is_tup a) eqn:Ea; [|reflexivity].
  apply edge2str_tup_start in Ea as [t Et].
  destruct (nodes2str_first a (p ++ [VInt k])) as (t2 & E2 & _).
  cbn [app] in Hs. rewrite E2, Et in Hs. cbn in Hs. lia.
Qed.

(** ** Python sets *)

Lemma py_eq_refl_db v : db_vertex v = true -> py_eq v v = true.
Proof.
  induction v as [|s|z|f|l IH] using value_nested_ind; intros H; try easy.
  - apply str_eqb_refl.
  - cbn. apply Z.eqb_refl.
  - cbn in *. destruct f as [n m e|n|]; try easy; cbn.
    rewrite Bool.eqb_reflx, N.eqb_refl, Z.eqb_refl. now rewrite orb_true_r.
  - rewrite py_eq_tup, Nat.eqb_refl. cbn [andb]. apply db_vertex_tup in H as [_ H].
    clear -IH H. induction IH as [|x l Hx _ IHl]; [reflexivity|]. cbn.
    inversion H as [|? ? H1 H2]; subst. rewrite Hx by exact H1. cbn. now apply IHl.
Qed.

Lemma py_set_aux_in l : forall seen x,
  (forall y z, In y l -> In z (l ++ seen) -> py_eq y z = true -> y = z) ->
  In x (py_set_aux seen l) -> In x l.
Proof.
  induction l as [|a l IH]; intros seen x H Hx; [easy|]. cbn in Hx.
  destruct (existsb (py_eq a) seen).
  - right. eapply IH; [|exact Hx]. intros y z Hy Hz. apply H; [now right|now right].
  - destruct Hx as [<-|Hx]; [now left|right]. eapply IH; [|exact Hx].
    intros y z Hy Hz. apply H; [now right|]. rewrite in_app_iff in Hz. cbn in Hz. cbn. rewrite in_app_iff. tauto.
Qed.

Lemma py_set_aux_spec l : forall seen,
  (forall y z, In y l -> In z (l ++ seen) -> py_eq y z = true -> y = z) ->
  (forall y, In y l -> py_eq y y = true) ->
  NoDup (py_set_aux seen l)
  /\ (forall x, In x (py_set_aux seen l) <-> In x l /\ ~ In x seen).
Proof.
  induction l as [|a l IH]; intros seen H R; cbn [py_set_aux].
  - split; [constructor|]. intros x. cbn. tauto.
  - destruct (existsb (py_eq a) seen) eqn:E.
    + apply existsb_exists in E as (z & Hz & Ez).
      assert (a = z) by (apply H; [now left|apply in_app_iff; now right|exact Ez]). subst z.
      destruct (IH seen) as [N I].
      * intros y z Hy Hi. apply H; [now right|now right].
      * intros y Hy. apply R. now right.
      * split; [exact N|]. intros x. rewrite I. cbn. split; [tauto|].
        intros [[<-|Hx] Hn]; [easy|tauto].
    + assert (Ha : ~ In a seen).
      { intros Hi. apply Bool.not_true_iff_false in E. apply E. apply existsb_exists.
        exists a. split; [exact Hi|]. apply R. now left. }
      destruct (IH (a :: seen)) as [N I].
      * intros y z Hy Hi. apply H; [now right|]. rewrite in_app_iff in Hi. cbn in Hi. cbn.
        rewrite in_app_iff. tauto.
      * intros y Hy. apply R. now right.
      * split.
        -- constructor; [|exact N]. rewrite I. cbn. tauto.
        -- intros x. cbn. rewrite I. cbn. split.
           ++ intros [<-|[Hx Hn]]; [tauto|]. split; [tauto|]. intros Hs. apply Hn. now right.
           ++ intros [[<-|Hx] Hn]; [now left|].
              destruct (existsb (py_eq x) [a]) eqn:Ex.
              { cbn in Ex. rewrite orb_false_r in Ex. left.
                symmetry. apply H; [now right|now left|exact Ex]. }
              right. split; [exact Hx|]. intros [<-|Hs]; [|easy].
              cbn in Ex. rewrite (R a) in Ex by (now left). easy.
Qed.

Lemma py_set_spec l :
  (forall y z, In y l -> In z l -> py_eq y z = true -> y = z) ->
  (forall y, In y l -> py_eq y y = true) ->
  NoDup (py_set l) /\ (forall x, In x (py_set l) <-> In x l).
Proof.
  intros H R. destruct (py_set_aux_spec l []) as [N I].
  - intros y z Hy Hz. rewrite app_nil_r in Hz. now apply H.
  - exact R.
  - split; [exact N|]. intros x. unfold py_set. rewrite I. cbn. tauto.
Qed.

Lemma str_set_aux_spec l : forall seen,
  NoDup (str_set_aux seen l) /\ (forall x, In x (str_set_aux seen l) <-> In x l /\ ~ In x seen).
Proof.
  induction l as [|a l IH]; intros seen; cbn [str_set_aux].
  - split; [constructor|]. intros x. cbn. tauto.
  - destruct (existsb (str_eqb a) seen) eqn:E.
    + apply existsb_exists in E as (z & Hz & Ez). apply str_eqb_eq in Ez. subst z.
      destruct (IH seen) as [N I]. split; [exact N|]. intros x. rewrite I. cbn. split; [tauto|].
      intros [[<-|Hx] Hn]; [easy|tauto].
    + assert (Ha : ~ In a seen).
      { intros Hi. apply Bool.not_true_iff_false in E. apply E. apply existsb_exists.
        exists a. split; [exact Hi|]. apply str_eqb_refl. }
      destruct (IH (a :: seen)) as [N I]. split.
      * constructor; [|exact N]. rewrite I. cbn. tauto.
      * intros x. cbn. rewrite I. cbn. split.
        -- intros [<-|[Hx Hn]]; [tauto|]. split; [tauto|]. intros Hs. apply Hn. now right.
        -- intros [[<-|Hx] Hn]; [now left|]. destruct (str_eq_dec a x) as [->|Hd]; [now left|].
           right. split; [exact Hx|]. intros [<-|Hs]; easy.
Qed.
Lemma str_set_spec l : NoDup (str_set l) /\ (forall x, In x (str_set l) <-> In x l).
Proof.
  destruct (str_set_aux_spec l []) as [N I]. split; [exact N|]. intros x. unfold str_set. rewrite I. cbn. tauto.
Qed.

(** ** scope *)

Lemma edge_noalias V e f : noalias V -> edge_in V e -> edge_in V f -> py_eq e f = true -> e = f.
Proof.
  intros HV [De Ve] [Df Vf] E.
  destruct (db_edge_elems e De) as (Ee & _ & _). destruct (db_edge_elems f Df) as (Ef & _ & _).
  rewrite Ee, Ef in *. cbn [elems] in *. f_equal. rewrite py_eq_tup in E.
  apply andb_true_iff in E as [L F]. apply Nat.eqb_eq in L.
  revert L F Ve Vf. generalize (elems e), (elems f). clear -HV.
  induction l as [|x l IH]; intros [|y m] L F Ve Vf; try easy.
  cbn in F. apply andb_true_iff in F as [F1 F2]. f_equal.
  - apply HV; [apply Ve; now left|apply Vf; now left|exact F1].
  - apply IH; [cbn in L; lia|exact F2| |]; intros z Hz; [apply Ve|apply Vf]; now right.
Qed.

Lemma edge_in_db V e : edge_in V e -> db_edge e = true.
Proof. now intros [H _]. Qed.

(** every index row is a row of an edge in scope *)
Definition rows_ok (V : value -> Prop) (w : db) : Prop :=
  forall r, In r (perms w) -> exists e, edge_in V e /\ is_row (elems e) r.

(** some index row of [e] is present and starts with [s] *)
Definition hit (w : db) (s : str) (e : value) : Prop :=
  exists r, In r (perms w) /\ is_row (elems e) r /\ prefixb s r = true.

Lemma prefix_no_lpar s r : s <> [] -> starts_with c_lpar s = false -> prefixb s r = true ->
  starts_with c_lpar r = false.
Proof.
  intros Hn Hs Hp. apply prefixb_spec in Hp as [t ->]. now destruct s.
Qed.

(** any selection of rows that do not start with a parenthesis can be decoded *)
Lemma cur2edges_gen V w (P : str -> bool) : noalias V -> rows_ok V w ->
  (forall r, In r (perms w) -> P r = true -> starts_with c_lpar r = false) ->
  exists es, cur2edges (filter P (perms w)) = Ok es
    /\ NoDup es /\ forall e, In e es <-> (edge_in V e /\ exists r, In r (perms w) /\ is_row (elems e) r /\ P r = true).
Proof.
  intros HV Hw Hs. unfold cur2edges.
  assert (G : exists es, mapr row2edge (filter P (perms w)) = Ok es
     /\ forall e, In e es <-> (edge_in V e /\ exists r, In r (perms w) /\ is_row (elems e) r /\ P r = true)).
  { unfold rows_ok in *. revert Hw Hs. generalize (perms w). induction l as [|r l IH]; intros Hw Hs.
    - exists []. split; [reflexivity|]. intros e. split; [easy|]. intros (_ & r & [] & _).
    - destruct IH as (es & E & I).
      { intros r' Hr'. apply Hw. now right. }
      { intros r' Hr'. apply Hs. now right. }
      cbn [filter]. destruct (P r) eqn:Pr0.
      + destruct (Hw r ltac:(now left)) as (e0 & He0 & R0).
        assert (D0 : row2edge r = Ok e0).
        { apply row2edge_ok; [now apply (edge_in_db V)|exact R0|apply Hs; [now left|exact Pr0]]. }
        exists (e0 :: es). cbn [mapr]. rewrite D0. cbn [rbind]. rewrite E. split; [reflexivity|].
        intros e. cbn [In]. rewrite I. split.
        * intros [<-|(He & r' & Hr' & X)].
          -- split; [exact He0|]. exists r. repeat split; [now left|exact R0|exact Pr0].
          -- split; [exact He|]. exists r'. split; [now right|exact X].
        * intros (He & r' & [<-|Hr'] & Rr & Pr).
          -- left. destruct (db_edge_elems e0 (edge_in_db _ _ He0)) as (E1 & A1 & L1).
             destruct (db_edge_elems e (edge_in_db _ _ He)) as (E2 & A2 & L2).
             rewrite E1, E2. f_equal. eapply row_unique; try eassumption.
             ++ destruct (elems e0); [cbn in L1; lia|easy].
             ++ destruct (elems e); [cbn in L2; lia|easy].
          -- right. split; [exact He|]. now exists r'.
      + exists es. split; [exact E|]. intros e. rewrite I. split.
        * intros (He & r' & Hr' & X). split; [exact He|]. exists r'. split; [now right|exact X].
        * intros (He & r' & [<-|Hr'] & Rr & Pr); [congruence|]. split; [exact He|]. now exists r'. }
  destruct G as (es & E & I). rewrite E. cbn [rbind]. exists (py_set es). split; [reflexivity|].
  destruct (py_set_spec es) as [N S].
  - intros y z Hy Hz. apply I in Hy as [Hy _]. apply I in Hz as [Hz _]. now apply (edge_noalias V).
  - intros y Hy. apply I in Hy as [Hy _]. apply py_eq_refl_db, db_edge_vertex. now apply (edge_in_db V).
  - split; [exact N|]. intros e. now rewrite S.
Qed.
Lemma cur2edges_spec V w s hi : noalias V -> rows_ok V w ->
  s <> [] -> starts_with c_lpar s = false -> str_plus_1 s = Ok hi ->
  exists es, cur2edges (filter (in_range s hi) (perms w)) = Ok es
    /\ NoDup es /\ forall e, In e es <-> (edge_in V e /\ hit w s e).
Proof.
  intros HV Hw Hn Hs Hhi. rewrite (filter_ext (in_range s hi) (prefixb s)) by (intros r; now apply in_range_prefix).
  apply cur2edges_gen; [exact HV|exact Hw|]. intros r _ Hp. now apply (prefix_no_lpar s).
Qed.

(** set(set(..)) *)
Lemma py_set_edges V es : noalias V -> (forall e, In e es -> edge_in V e) ->
  NoDup (py_set es) /\ forall e, In e (py_set es) <-> In e es.
Proof.
  intros HV H. apply py_set_spec.
  - intros y z Hy Hz. apply (edge_noalias V); auto.
  - intros y Hy. apply py_eq_refl_db, db_edge_vertex. apply (edge_in_db V). auto.
Qed.

(** ** running a query *)

Definition live (c : conn) : Prop := c_cur c <> CClosed.

Lemma query_shape {A B} (texts : list str) (f : db -> A) (k : handle -> A -> M B) c (r : res B) :
  live c -> forallb bindable texts = true ->
  (forall h, (h = HLocal /\ c_cur c = CNone \/ h = HShared /\ c_cur c = COpen) ->
     k h (f (c_work c)) c = (r, c, [])) ->
  (do cur <- open_cursor true; do rows <- query cur texts f; k cur rows) c = (r, c, []).
Proof.
  intros L B1 Hk. unfold bind, open_cursor, get_cur, bind, query, ret. unfold live in L.
  destruct c as [au cm wk [| |]]; cbn [c_cur c_work c_auto c_comm] in *; [| |easy];
  unfold usable; cbn [c_cur c_work negb]; rewrite B1; cbn [negb app].
  - specialize (Hk HLocal ltac:(tauto)). destruct (k HLocal (f wk) _) as [[r0 c0] t0].
    now injection Hk as -> -> ->.
  - specialize (Hk HShared ltac:(tauto)). destruct (k HShared (f wk) _) as [[r0 c0] t0].
    now injection Hk as -> -> ->.
Qed.

Lemma close_query h c : (h = HLocal /\ c_cur c = CNone \/ h = HShared /\ c_cur c = COpen) ->
  close_cursor h true false c = (Ok tt, c, []).
Proof. unfold close_cursor, bind, get_cur, close_handle, ret. now intros [[-> ->]|[-> ->]]. Qed.

Lemma bind_ret_l {A B} (a : A) (k : A -> M B) c : bind (ret a) k c = k a c.
Proof. unfold bind, ret. destruct (k a c) as [[r c'] t]. reflexivity. Qed.

(** a finished query leaves everything as it was *)
Definition gives {A} (m : M A) (c : conn) (a : A) : Prop := m c = (Ok a, c, []).

Lemma bind_gives {A B} (m : M A) (k : A -> M B) c a : gives m c a -> bind m k c = k a c.
Proof. unfold gives, bind. intros ->. destruct (k a c) as [[r c'] t]. reflexivity. Qed.

Lemma gives_lift {A} (r : res A) c a : r = Ok a -> gives (lift r) c a.
Proof. intros ->. reflexivity. Qed.

(** ** star *)

Lemma star_run V w c v : noalias V -> rows_ok V w -> c_work c = w -> live c ->
  db_atom v = true ->
  exists res, gives (star v) c res /\ NoDup res
    /\ forall e, In e res <-> (edge_in V e /\ hit w (edge2str v ++ [c_space]) e).
Proof.
  intros HV Hw <- Lc Hv.
  assert (Et : edge2str v = show_atom v) by (now destruct v).
  set (s := edge2str v ++ [c_space]).
  assert (Hn : s <> []) by (unfold s; intros E; now apply app_eq_nil in E).
  assert (Hl : starts_with c_lpar s = false).
  { destruct (atom_text_start v (db_atom_wf v Hv)) as (_ & ch & r & E & Hc).
    unfold s. rewrite Et, E. exact Hc. }
  assert (Ht : db_text s = true).
  { unfold s. rewrite db_text_split, scalars_app, (db_vertex_scalar v (db_atom_vertex v Hv)).
    cbn [andb]. rewrite last_ok_snoc; [reflexivity|unfold c_space; lia]. }
  destruct (db_text_plus_1 s Hn Ht) as (hi & Hhi & B1 & B2).
  destruct (cur2edges_spec V (c_work c) s hi HV Hw Hn Hl Hhi) as (es & Ec & Nes & Ies).
  destruct (py_set_edges V es HV) as [N I].
  { intros e He. now apply Ies in He. }
  exists (py_set es). split.
  - unfold gives, star, str2perms. fold s. rewrite (bind_gives _ _ c hi) by (now apply gives_lift).
    apply query_shape; [exact Lc|cbn; now rewrite B1, B2|].
    intros h Hh. rewrite (bind_gives _ _ c es) by (now apply gives_lift).
    rewrite (bind_gives _ _ c tt) by (now apply close_query). reflexivity.
  - split; [exact N|]. intros e. now rewrite I, Ies.
Qed.

(** ** patterns *)

Lemma matches_loop_spec V items : noalias V ->
  (forall x, In x items -> not_none x = true -> V x) ->
  forall l, List.length l = List.length items -> (forall x, In x l -> V x /\ py_eq x x = true) ->
  matches_loop l items = true <-> matches items l.
Proof.
  intros HV. induction items as [|p items IH]; intros Hi [|x l] Hl Hx; try easy.
  - cbn. split; [constructor|reflexivity].
  - cbn [matches_loop].
    assert (IH' : matches_loop l items = true <-> matches items l).
    { apply IH; [intros y Hy; apply Hi; now right|cbn in Hl; lia|intros y Hy; apply Hx; now right]. }
    clear IH. destruct (Hx x ltac:(now left)) as [Vx Rx].
    assert (P : (match p with VNone => false | _ => true end) && negb (py_eq p x) = false
                <-> (p = VNone \/ p = x)).
    { split.
      - intros E. destruct (not_none p) eqn:Np.
        + right. apply HV; [apply Hi; [now left|exact Np]|exact Vx|].
          destruct (py_eq p x); [reflexivity|]. destruct p; discriminate.
        + left. now destruct p.
      - intros [->| ->]; [reflexivity|]. rewrite Rx. cbn. apply andb_false_r. }
    destruct ((match p with VNone => false | _ => true end) && negb (py_eq p x)) eqn:E.
    + split; [easy|]. intros M. inversion M as [|? ? ? ? M1 M2]; subst. now apply P in M1.
    + rewrite IH'. split.
      * intros M. constructor; [now apply P|exact M].
      * intros M. now inversion M.
Qed.

Lemma matches_length items l : matches items l -> List.length items = List.length l.
Proof. induction 1; cbn; congruence. Qed.

(** the bound part of a matching pattern can be moved to the front of the edge *)
Lemma matches_split items l : matches items l ->
  exists rest, Permutation l (filter not_none items ++ rest).
Proof.
  induction 1 as [|p x items l Hp _ (rest & P)].
  - exists []. constructor.
  - cbn [filter]. destruct (not_none p) eqn:Np.
    + destruct Hp as [->| ->]; [easy|]. exists rest. cbn. now constructor.
    + exists (x :: rest). rewrite P. apply Permutation_middle.
Qed.

(** the filter that follows the query *)
Lemma flags_spec V items es : noalias V -> (forall x, In x items -> not_none x = true -> V x) -> (forall e, In e es -> edge_in V e) ->
  exists flags, mapr (fun e => edge_matches_pattern e items) es = Ok flags
     /\ forall e, In e (List.map fst (filter snd (combine es flags))) <-> In e es /\ matches items (elems e).
Proof.
  intros HV Hi Hes.
  induction es as [|e es IHe].
    - exists []. split; [reflexivity|]. cbn. tauto.
    - destruct IHe as (flags & E & I); [intros e' He'; apply Hes; now right|].
      assert (He : edge_in V e) by (apply Hes; now left).
      destruct (db_edge_elems e (edge_in_db _ _ He)) as (Ee & Ae & Le).
      assert (B : exists b, edge_matches_pattern e items = Ok b /\ (b = true <-> matches items (elems e))).
      { assert (X : edge_matches_pattern e items = edge_matches_pattern (VTup (elems e)) items)
          by (now rewrite <- Ee).
        rewrite X. unfold edge_matches_pattern. cbn [as_seq rbind].
        destruct (Nat.eqb_spec (List.length (elems e)) (List.length items)) as [El|El]; cbn [negb].
        - eexists. split; [reflexivity|]. apply (matches_loop_spec V); [exact HV|exact Hi|exact El|].
          intros x Hx. split; [now apply He|]. apply py_eq_refl_db.
          unfold all_db in Ae. rewrite Forall_forall in Ae. now apply Ae.
        - exists false. split; [reflexivity|]. split; [easy|]. intros M. apply matches_length in M. lia. }
      destruct B as (b & Eb & Hb). exists (b :: flags). cbn [mapr]. rewrite Eb, E. cbn [rbind].
      split; [reflexivity|]. intros e'. cbn [combine filter snd].
      destruct b; cbn [List.map fst In]; rewrite I; cbn [In].
      + split; [intros [<-|[H1 H2]]; tauto|]. intros [[<-|H1] H2]; tauto.
      + split; [tauto|]. intros [[<-|H1] H2]; [|tauto]. apply Hb in H2. easy.
Qed.

Record pattern_ok (V : value -> Prop) (items : list value) : Prop := {
  po_first : exists a rest, filter not_none items = a :: rest /\ db_atom a = true;
  po_db : all_db (filter not_none items);
  po_V : forall x, In x items -> not_none x = true -> V x }.

Lemma pattern_run V w c items : noalias V -> rows_ok V w -> c_work c = w -> live c ->
  pattern_ok V items ->
  exists res, gives (pattern2edges (VTup items)) c res /\ NoDup res
    /\ forall e, In e res <->
         (edge_in V e /\ hit w (nodes2str (filter not_none items)) e /\ matches items (elems e)).
Proof.
  intros HV Hw <- Lc [(a & rest & Ea & Ha) Hd Hi].
  set (s := nodes2str (filter not_none items)).
  destruct (nodes2str_text (filter not_none items)) as [Hn Ht]; [now rewrite Ea|exact Hd|]. fold s in Hn, Ht.
  assert (Hl : starts_with c_lpar s = false).
  { unfold s. rewrite Ea. destruct (nodes2str_first a rest) as (t & E & _). rewrite E.
    destruct (atom_text_start a (db_atom_wf a Ha)) as (Et & ch & r & E2 & Hc).
    rewrite Et, E2. exact Hc. }
  destruct (db_text_plus_1 s Hn Ht) as (hi & Hhi & B1 & B2).
  destruct (cur2edges_spec V (c_work c) s hi HV Hw Hn Hl Hhi) as (es & Ec & Nes & Ies).
  destruct (flags_spec V items es HV Hi) as (flags & Ef & If).
  { intros e He. now apply Ies in He. }
  set (out := List.map fst (filter snd (combine es flags))) in *.
  destruct (py_set_edges V out HV) as [N I].
  { intros e He. apply If in He as [He _]. now apply Ies in He. }
  exists (py_set out). split.
  - unfold gives, pattern2edges. rewrite (bind_gives _ _ c items) by (now apply gives_lift).
    cbv zeta. fold s. rewrite (bind_gives _ _ c hi) by (now apply gives_lift).
    apply query_shape; [exact Lc|cbn; now rewrite B1, B2|].
    intros h Hh. rewrite (bind_gives _ _ c es) by (now apply gives_lift).
    rewrite (bind_gives _ _ c tt) by (now apply close_query).
    rewrite (bind_gives _ _ c flags) by (now apply gives_lift). reflexivity.
  - split; [exact N|]. intros e. rewrite I, If, Ies. tauto.
Qed.

(** ** fully indexed edges *)

(** all index rows of [e] are there *)
Definition indexed (w : db) (e : value) : Prop := forall r, is_row (elems e) r -> In r (perms w).

Lemma indexed_hit_pattern V w items e : edge_in V e -> indexed w e ->
  (exists x, In x items /\ not_none x = true) ->
  matches items (elems e) -> hit w (nodes2str (filter not_none items)) e.
Proof.
  intros He Hx (x0 & Hx0 & Nx0) M. destruct (matches_split _ _ M) as (rest & P).
  destruct (nthperm_complete _ _ P) as (k & Hk & Ek).
  assert (Nn : filter not_none items <> []).
  { intros E. assert (In x0 []) by (rewrite <- E; now apply filter_In). easy. }
  exists (nodes2str ((filter not_none items ++ rest) ++ [VInt k])). split; [|split].
  - apply Hx. exists k. eexists. repeat split; [lia|lia|exact Ek].
  - exists k. eexists. repeat split; [lia|lia|exact Ek].
  - rewrite <- app_assoc. rewrite nodes2str_app; [|exact Nn|intros E; now apply app_eq_nil in E].
    apply prefixb_app.
Qed.

Lemma indexed_hit_star w a e : indexed w e -> In a (elems e) ->
  hit w (edge2str a ++ [c_space]) e.
Proof.
  intros Hx Ha. apply in_split in Ha as (l1 & l2 & E).
  assert (P : Permutation (elems e) (a :: l1 ++ l2)).
  { rewrite E. symmetry. apply Permutation_middle. }
  destruct (nthperm_complete _ _ P) as (k & Hk & Ek).
  exists (nodes2str ((a :: l1 ++ l2) ++ [VInt k])). split; [|split].
  - apply Hx. exists k. eexists. repeat split; [lia|lia|exact Ek].
  - exists k. eexists. repeat split; [lia|lia|exact Ek].
  - change ((a :: l1 ++ l2) ++ [VInt k]) with ([a] ++ ((l1 ++ l2) ++ [VInt k])).
    rewrite nodes2str_app; [|easy|intros E'; now apply app_eq_nil in E'].
    change (nodes2str [a]) with (edge2str a).
    set (t := nodes2str ((l1 ++ l2) ++ [VInt k])).
    replace (edge2str a ++ c_space :: t) with ((edge2str a ++ [c_space]) ++ t) by (now rewrite <- app_assoc).
    apply prefixb_app.
Qed.

(** ... and a star hit means the atom is an element *)
Lemma hit_star_elem V w a e : db_atom a = true -> edge_in V e ->
  hit w (edge2str a ++ [c_space]) e -> In a (elems e).
Proof.
  intros Ha He (r & _ & (k & p & Hk & Ep & ->) & Pr).
  destruct (nthperm_ok _ k Hk) as (p' & _ & Ep' & Pp). assert (p' = p) by congruence. subst p'.
  destruct (db_edge_elems e (edge_in_db _ _ He)) as (Ee & Ae & Le).
  destruct p as [|x p]; [apply Permutation_length in Pp; cbn in Pp; lia|].
  pose proof (all_db_perm _ _ Pp Ae) as Ap. inversion Ap as [|? ? Hx _]; subst.
  assert (Et : edge2str a = show_atom a) by (now destruct a).
  destruct (atom_plain a (db_atom_wf a Ha)) as (Hn & Hw & Ho & _).
  assert (Hxa : is_tup x = false).
  { destruct (is_tup x) eqn:Ex; [|reflexivity]. apply edge2str_tup_start in Ex as [t Etx].
    destruct (nodes2str_first x (p ++ [VInt k])) as (t2 & E2 & _). cbn [app] in Pr.
    rewrite E2, Etx in Pr. rewrite Et in Pr. destruct (show_atom a) as [|ch r]; [easy|].
    cbn in Pr, Ho. apply andb_true_iff in Pr as [Pr _]. lia. }
  assert (Hxd : db_atom x = true) by (now apply db_vertex_atom).
  assert (Etx : edge2str x = show_atom x) by (now destruct x).
  destruct (atom_plain x (db_atom_wf x Hxd)) as (Hnx & Hwx & _).
  destruct (nodes2str_first x (p ++ [VInt k])) as (t2 & E2 & Ht2).
  destruct Ht2 as (t3 & ->); [intros E'; now apply app_eq_nil in E'|].
  cbn [app] in Pr. rewrite E2 in Pr.
  assert (Et' : edge2str a = edge2str x).
  { rewrite Et, Etx in *. clear -Pr Hw Hwx.
    revert Pr Hw Hwx. generalize (show_atom a), (show_atom x).
    induction s as [|ca s IH]; intros [|cx s2] Pr Ha Hx; cbn [app prefixb] in Pr.
    - reflexivity.
    - apply andb_true_iff in Pr as [Pr _]. cbn in Hx. apply andb_true_iff in Hx as [Hx _].
      apply N.eqb_eq in Pr. subst cx. discriminate.
    - apply andb_true_iff in Pr as [Pr _]. cbn in Ha. apply andb_true_iff in Ha as [Ha _].
      apply N.eqb_eq in Pr. subst ca. discriminate.
    - apply andb_true_iff in Pr as [P1 P2]. apply N.eqb_eq in P1. subst cx.
      cbn in Ha, Hx. apply andb_true_iff in Ha as [_ Ha]. apply andb_true_iff in Hx as [_ Hx].
      f_equal. now apply IH. }
  assert (a = x).
  { apply edge2str_inj; [now apply db_vertex_wf, db_atom_vertex|now apply db_vertex_wf|exact Et']. }
  subst x. eapply Permutation_in; [symmetry; exact Pp|now left].
Qed.

(** ** exists *)

Lemma filter_all_db l : all_db l -> filter not_none l = l.
Proof.
  induction 1 as [|x l Hx H IH]; [reflexivity|]. cbn. rewrite (db_vertex_not_none x Hx). now rewrite IH.
Qed.

Lemma matches_all_db l m : all_db l -> matches l m -> l = m.
Proof.
  intros H. intros M. induction M as [|p x l m Hp _ IH]; [reflexivity|].
  inversion H as [|? ? Hd Ha]; subst. f_equal; [|now apply IH].
  destruct Hp as [->|Hp]; [easy|exact Hp].
Qed.
Lemma matches_refl l : matches l l.
Proof. induction l; constructor; auto. Qed.

Lemma edge_pattern_ok V e : edge_in V e -> pattern_ok V (elems e).
Proof.
  intros [D Ve]. destruct (db_edge_inv e D) as (a & b & l & -> & Ha & Hl). cbn [elems] in *.
  constructor.
  - rewrite (filter_all_db _ Hl). now exists a, (b :: l).
  - now rewrite (filter_all_db _ Hl).
  - intros x Hx _. now apply Ve.
Qed.

Lemma exists_run V w c e : noalias V -> rows_ok V w -> c_work c = w -> live c -> edge_in V e ->
  exists b, gives (exists_ e) c b /\ (b = true <-> hit w (nodes2str (elems e)) e).
Proof.
  intros HV Hw Ew Lc He. destruct (db_edge_elems e (edge_in_db _ _ He)) as (Ee & Ae & Le).
  destruct (pattern_run V w c (elems e) HV Hw Ew Lc (edge_pattern_ok V e He)) as (res & Hr & Nr & Ir).
  rewrite (filter_all_db _ Ae) in Ir.
  exists (Nat.ltb 0 (List.length res)). split.
  - rewrite <- Ee in Hr. unfold gives, exists_. now rewrite (bind_gives _ _ c res).
  - rewrite Nat.ltb_lt. split.
    + intros L. destruct res as [|e' res]; [cbn in L; lia|].
      destruct (proj1 (Ir e') ltac:(now left)) as (He' & Hh & M).
      apply matches_all_db in M; [|exact Ae].
      destruct (db_edge_elems e' (edge_in_db _ _ He')) as (Ee' & _ & _).
      assert (e = e') by congruence. now subst e'.
    + intros Hh. assert (In e res).
      { apply Ir. split; [exact He|]. split; [exact Hh|apply matches_refl]. }
      destruct res; [easy|cbn; lia].
Qed.
