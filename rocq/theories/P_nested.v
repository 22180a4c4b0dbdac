(** * P_nested.v -- rows that begin with a nested edge are never decoded right *)

From Verif Require Import Py M_symbol M_edge M_sql M_hypergraph P_py Spec P_edge P_perm P_range P_query
  S_history M_driver P_ops P_hist P_graph.
From Coq Require Import Permutation Factorial String.
Open Scope list_scope.

Lemma wrap_length ws : List.length (wrap ws) = List.length ws.
Proof.
  assert (S : forall ws, List.length (snoc_last ws) = List.length ws).
  { induction ws0 as [|w ws0 IH]; [reflexivity|]. destruct ws0 as [|w2 ws0]; [reflexivity|].
    change (snoc_last (w :: w2 :: ws0)) with (w :: snoc_last (w2 :: ws0)). cbn [List.length]. now rewrite IH. }
  destruct ws as [|w r]; [reflexivity|]. unfold wrap. rewrite S. reflexivity.
Qed.
Lemma words_leaves v : List.length (words v) = leaves v.
Proof.
  induction v as [| | | |l IH] using value_nested_ind; try reflexivity. cbn [words leaves]. rewrite wrap_length.
  induction IH as [|x l Hx IH IH2]; [reflexivity|]. cbn [flat_map List.map list_sum fold_right]. rewrite app_length, Hx, IH2. reflexivity.
Qed.
Lemma flat_words_leaves l : List.length (flat_map words l) = list_sum (List.map leaves l).
Proof. induction l as [|x l IH]; [reflexivity|]. cbn [flat_map List.map list_sum fold_right]. now rewrite app_length, words_leaves, IH. Qed.

(** ** counting words *)

Definition wc (s : str) : nat := List.length (split_ws s).
Fixpoint wk (b : bool) (s : str) : nat :=
  match s with
  | [] => if b then 1 else 0
  | c :: s' => if is_space c then (if b then 1 else 0) + wk false s' else wk true s'
  end.
Lemma wk_spec s : forall cur, List.length (split_ws_aux cur s) = wk (match cur with [] => false | _ => true end) s.
Proof.
  induction s as [|c s IH]; intros cur; cbn [split_ws_aux wk]; [now destruct cur|].
  destruct (is_space c).
  - destruct cur; [apply (IH [])|]. cbn [List.length]. now rewrite (IH []).
  - rewrite IH. destruct cur; reflexivity.
Qed.
Lemma wc_wk s : wc s = wk false s.
Proof. apply (wk_spec s []). Qed.
Lemma wk_mono s : (wk false s <= wk true s)%nat.
Proof. induction s as [|c s IH]; cbn; [lia|]. destruct (is_space c); lia. Qed.
Lemma wc_strip s : (wc (strip_ends s) <= wc s)%nat.
Proof.
  assert (T : (wc (tl s) <= wc s)%nat).
  { rewrite !wc_wk. destruct s as [|c s]; [reflexivity|]. cbn. destruct (is_space c); [reflexivity|apply wk_mono]. }
  unfold strip_ends. etransitivity; [|exact T]. rewrite !wc_wk. generalize (tl s). clear. intros s. generalize false.
  induction s as [|c s IH]; intros b; [reflexivity|]. destruct s as [|d s]; [cbn; destruct (is_space c), b; lia|].
  change (removelast (c :: d :: s)) with (c :: removelast (d :: s)). cbn [wk]. destruct (is_space c); [apply Nat.add_le_mono_l, IH|apply IH].
Qed.

(** ** the tokens of a text *)

Lemma split_loop_parts ws : forall cw d r, Forall is_word (cw ++ ws) ->
  split_loop (match cw with [] => None | _ => Some (join [c_space] cw) end) d ws = Ok r ->
  exists parts pend, r = List.map (join [c_space]) parts /\ cw ++ ws = List.concat parts ++ pend
    /\ Forall (fun p => p <> []) parts /\ (ws = [] -> pend = cw) /\ (ws <> [] -> (d + dsum ws <> 0)%Z -> pend <> []).
Proof.
  induction ws as [|w ws IH]; intros cw d r F H.
  - exists [], cw. cbn in H. injection H as <-. split; [reflexivity|]. split; [now rewrite app_nil_r|]. split; [constructor|]. split; easy.
  - cbn [split_loop] in H. destruct (open_pars w) as [o|] eqn:Eo; [|discriminate]. destruct (close_pars w) as [c|] eqn:Ec; [|discriminate].
    cbn [rbind] in H. assert (Hd : delta w = (o - c)%Z) by (unfold delta; now rewrite Eo, Ec).
    set (cur := match (match cw with [] => None | _ => Some (join [c_space] cw) end) with None => w | Some t => t ++ [c_space] ++ w end) in H.
    assert (Ecur : cur = join [c_space] (cw ++ [w])).
    { unfold cur. destruct cw as [|x cw]; [reflexivity|]. rewrite join_app by easy. reflexivity. }
    destruct (Z.eqb_spec (d + o - c) 0) as [Ez|Ez].
    + destruct (split_loop None (d + o - c) ws) as [more|] eqn:E; [|discriminate]. cbn in H. injection H as <-.
      assert (Fw : Forall is_word ws) by (apply Forall_app in F as [_ F]; now inversion F).
      destruct (IH [] (d + o - c)%Z more Fw E) as (parts & pend & -> & E1 & E2 & E3 & E4).
      exists ((cw ++ [w]) :: parts), pend. split; [cbn [List.map]; now rewrite Ecur|]. cbn [List.concat]. cbn [app] in E1.
      split; [rewrite <- !app_assoc; cbn [app]; now rewrite E1|]. split; [constructor; [now destruct cw|exact E2]|].
      split; [easy|]. intros _ Hn. cbn [dsum] in Hn. rewrite Hd in Hn. destruct ws as [|w2 ws].
      * exfalso. cbn in Hn. lia.
      * apply E4; [easy|lia].
    + rewrite Ecur in H.
      assert (H' : split_loop (match cw ++ [w] with [] => None | _ => Some (join [c_space] (cw ++ [w])) end) (d + o - c) ws = Ok r).
      { destruct (cw ++ [w]) eqn:Q; [now destruct cw|exact H]. }
      clear H. rename H' into H. replace (cw ++ w :: ws) with ((cw ++ [w]) ++ ws) in F by (now rewrite <- app_assoc).
      destruct (IH (cw ++ [w]) (d + o - c)%Z r F H) as (parts & pend & -> & E1 & E2 & E3 & E4).
      exists parts, pend. split; [reflexivity|]. split; [rewrite <- E1; now rewrite <- app_assoc|]. split; [exact E2|]. split; [easy|].
      intros _ Hn. destruct ws as [|w2 ws].
      * rewrite E3 by reflexivity. now destruct cw.
      * apply E4; [easy|]. cbn [dsum] in Hn |- *. lia.
Qed.

Lemma split_ws_words s : Forall is_word (split_ws s).
Proof.
  unfold split_ws. assert (G : forall s cur, nospace cur = true -> Forall is_word (split_ws_aux cur s)).
  { clear. induction s as [|c s IH]; intros cur Hc; cbn [split_ws_aux].
    - destruct cur; constructor; [now split|constructor].
    - destruct (is_space c) eqn:E.
      + destruct cur; [now apply IH|]. constructor; [now split|]. now apply IH.
      + apply IH. rewrite nospace_app, Hc. cbn. now rewrite E. }
  now apply G.
Qed.
Lemma wc_join ws : Forall is_word ws -> wc (join [c_space] ws) = List.length ws.
Proof. intros H. unfold wc. now rewrite split_ws_join. Qed.
Lemma wc_join_parts parts : Forall (fun p => p <> []) parts -> Forall is_word (List.concat parts) ->
  wc (join [c_space] (List.map (join [c_space]) parts)) = List.length (List.concat parts).
Proof.
  intros H F. rewrite <- wc_join by exact F. f_equal. clear F. induction H as [|p parts Hp H IH]; [reflexivity|].
  cbn [List.map List.concat]. destruct parts as [|p2 parts]; [cbn; now rewrite app_nil_r|].
  change (List.map (join [c_space]) (p2 :: parts)) with (join [c_space] p2 :: List.map (join [c_space]) parts) in *.
  rewrite join_cons. cbn [List.map] in IH. rewrite IH. rewrite join_app; [reflexivity|exact Hp|].
  inversion H as [|? ? Hp2 _]; subst. cbn [List.concat]. now destruct p2.
Qed.

Lemma concat_in {A} (parts : list (list A)) p : In p parts -> (List.length p <= List.length (List.concat parts))%nat.
Proof. induction parts as [|q parts IH]; intros []; cbn [List.concat]; rewrite app_length; [subst; lia|]. specialize (IH H). lia. Qed.

Lemma str2edge_leaves : forall fuel s v, str2edge_f fuel s = Ok v -> (leaves v <= wc s)%nat.
Proof.
  induction fuel as [|fuel IH]; intros s v H; [discriminate|]. cbn [str2edge_f] in H.
  destruct (split_edge_str s) as [toks|] eqn:E; [|discriminate]. cbn [rbind] in H.
  assert (X : exists parts pend, toks = List.map (join [c_space]) parts /\ (List.length (List.concat parts ++ pend) <= wc s)%nat
            /\ Forall (fun p => p <> []) parts /\ Forall is_word (List.concat parts)).
  { unfold split_edge_str in E. destruct s as [|c s]; [discriminate|].
    set (inner := if N.eqb c c_lpar then strip_ends (c :: s) else c :: s) in E.
    destruct (split_loop_parts (split_ws inner) [] 0 toks (split_ws_words _) E) as (parts & pend & E1 & E2 & E3 & _).
    exists parts, pend. split; [exact E1|]. cbn [app] in E2. rewrite <- E2. split.
    - change (wc inner <= wc (c :: s))%nat. unfold inner. destruct (N.eqb c c_lpar); [apply wc_strip|reflexivity].
    - split; [exact E3|]. pose proof (split_ws_words inner) as F. rewrite E2 in F. now apply Forall_app in F. }
  destruct X as (parts & pend & -> & Hlen & Hne & Hw).
  destruct (mapr (parsed_token (str2edge_f fuel)) (List.map (join [c_space]) parts)) as [els|] eqn:Em; [|discriminate]. cbn [rbind] in H.
  assert (L : (list_sum (List.map leaves els) <= List.length (List.concat parts))%nat).
  { clear Hlen H E. revert els Em Hw. induction Hne as [|p parts Hp Hne IH2]; intros els Em Hw.
    - cbn in Em. injection Em as <-. cbn. lia.
    - cbn [List.map mapr] in Em. destruct (parsed_token (str2edge_f fuel) (join [c_space] p)) as [x|] eqn:Ex; [|discriminate].
      cbn [rbind] in Em. destruct (mapr _ (List.map (join [c_space]) parts)) as [xs|] eqn:Exs; [|discriminate]. cbn in Em. injection Em as <-.
      cbn [List.concat] in Hw |- *. apply Forall_app in Hw as [Hw1 Hw2]. specialize (IH2 xs eq_refl Hw2).
      cbn [List.map list_sum fold_right]. rewrite app_length. apply Nat.add_le_mono; [|exact IH2].
      assert (P1 : (1 <= List.length p)%nat) by (destruct p; [easy|cbn; lia]).
      unfold parsed_token in Ex. destruct (join [c_space] p) as [|c t] eqn:Ej; [discriminate|].
      destruct (N.eqb c c_lpar).
      + apply IH in Ex. rewrite <- Ej in Ex. now rewrite wc_join in Ex.
      + destruct (token_type (c :: t)).
        * destruct (py_int (c :: t)); [|discriminate]. injection Ex as <-. exact P1.
        * destruct (py_float (c :: t)); [|discriminate]. injection Ex as <-. exact P1.
        * injection Ex as <-. exact P1. }
  rewrite app_length in Hlen. destruct els as [|x [|y els]]; [discriminate| |].
  - injection H as <-. cbn in L. lia.
  - injection H as <-. change (leaves (VTup (x :: y :: els))) with (list_sum (List.map leaves (x :: y :: els))). lia.
Qed.

(** ** unpermutate only reorders *)

Lemma unpermutate_perm {A} (toks t' : list A) k : unpermutate toks k = Ok t' -> Permutation toks t'.
Proof.
  unfold unpermutate. remember (List.length toks) as n eqn:Ln. destruct (nthperm (seq 0 n) k) as [q|] eqn:Eq; [|discriminate]. cbn [rbind].
  assert (Pq : Permutation (seq 0 n) q).
  { destruct (Nat.eq_dec n 0) as [->|Hn].
    { unfold nthperm in Eq. cbn [seq List.length] in Eq. destruct (perm_loop 0 k _); injection Eq as <-; constructor. }
    assert (Hs : seq 0 n <> []) by (destruct n; easy).
    destruct (Z.ltb_spec k 0) as [Hk|Hk].
    - assert (nthperm (seq 0 n) k = nthperm (seq 0 n) 0) as E0.
      { unfold nthperm. destruct (permutations (seq 0 (List.length (seq 0 n)))) as [|p ps]; [reflexivity|]. cbn [perm_loop].
        replace (k <=? 0)%Z with true by lia. reflexivity. }
      rewrite E0, nthperm_0 in Eq. injection Eq as <-. reflexivity.
    - destruct (Z.ltb_spec k (Z.of_nat (fact (List.length (seq 0 n))))) as [Hk2|Hk2].
      + destruct (nthperm_ok (seq 0 n) k ltac:(lia)) as (p & _ & E & P). congruence.
      + rewrite nthperm_out in Eq by assumption. discriminate. }
  assert (Lq : List.length q = n) by (rewrite <- (Permutation_length Pq); apply seq_length).
  destruct (unperm_loop_ok toks q 0 (repeat None n)) as (r & E & L & N & _).
  { lia. }
  { eapply Permutation_NoDup; [exact Pq|]. apply seq_NoDup. }
  { rewrite repeat_length. apply Forall_forall. intros i Hi. eapply Permutation_in in Hi; [|symmetry; exact Pq]. apply in_seq in Hi. lia. }
  rewrite E. cbn [rbind]. intros Hm. rewrite repeat_length in L.
  assert (Er : r = List.map Some t').
  { clear - Hm. revert t' Hm. induction r as [|[x|] r IH]; intros t' Hm; cbn in Hm; try discriminate.
    - now injection Hm as <-.
    - destruct (mapr _ r) as [l|] eqn:El; [|discriminate]. cbn in Hm. injection Hm as <-. cbn. now rewrite (IH l eq_refl). }
  destruct toks as [|d toks0] eqn:Et; [cbn in Ln; subst n; destruct t'; [constructor|subst r; discriminate L]|]. rewrite <- Et in *.
  assert (Lt : List.length t' = n) by (rewrite <- L, Er; now rewrite map_length).
  assert (T : toks = List.map (fun i => nth i t' d) q).
  { apply nth_error_ext; [rewrite map_length; lia|]. intros j Hj. rewrite nth_error_map.
    destruct (nth_error q j) as [i|] eqn:Ej; [|apply nth_error_None in Ej; lia]. cbn [option_map].
    specialize (N j i Ej). cbn [Nat.add] in N. rewrite Er, nth_error_map in N.
    destruct (nth_error t' i) as [x|] eqn:Ei; cbn in N; [|discriminate]. injection N as N. rewrite <- N.
    now rewrite (nth_error_nth t' i d Ei). }
  rewrite T. clear - Lt Pq. transitivity (List.map (fun i => nth i t' d) (seq 0 n)).
  - symmetry. now apply Permutation_map.
  - rewrite <- Lt, seq_nth_map. reflexivity.
Qed.

(** ** the decoded value of a row that begins with a parenthesis *)

Lemma split_ws_trail ws x : Forall is_word ws -> ws <> [] -> split_ws (join [c_space] ws ++ c_space :: x) = ws ++ split_ws x.
Proof.
  intros H Hn. unfold split_ws. induction H as [|w ws [Hw Hs] H IH]; [easy|]. destruct ws as [|w2 ws].
  - cbn [join]. rewrite split_ws_aux_app by exact Hs. cbn [app split_ws_aux]. change (is_space c_space) with true. cbn. now destruct w.
  - rewrite join_cons, <- !app_assoc, split_ws_aux_app by exact Hs. cbn [app]. unfold split_ws_aux at 1; fold split_ws_aux.
    change (is_space c_space) with true. destruct w as [|c w]; [easy|]. rewrite IH by easy. reflexivity.
Qed.

Lemma removelast_digits k : (0 <= k)%Z -> exists a d, show_Z k = a ++ [d] /\ forallb is_digit a = true.
Proof.
  intros Hk. unfold show_Z. replace (k <? 0)%Z with false by lia. pose proof (show_N_digits (Z.to_N k)) as D.
  destruct (exists_last (show_N_nonnil (Z.to_N k))) as (a & d & E). rewrite E in D |- *. exists a, d. split; [reflexivity|].
  rewrite forallb_app in D. now apply andb_true_iff in D.
Qed.

Lemma split_ws_digits a : forallb is_digit a = true -> exists l, split_ws a = l /\ (List.length l <= 1)%nat /\ Forall is_word l /\ dsum l = 0%Z.
Proof.
  intros H. destruct a as [|c a]; [exists []; cbn; auto|].
  pose proof (int_digits_word (c :: a) H ltac:(easy)) as W. exists [c :: a]. split.
  - apply (split_ws_join [c :: a]). now constructor.
  - split; [cbn; lia|]. split; [now constructor|]. cbn [dsum]. unfold delta.
    rewrite open_pars_0, close_pars_0; [reflexivity|easy|now apply ends_with_digits|easy|].
    cbn in H. apply andb_true_iff in H as [H _]. apply is_digit_bounds in H. cbn. unfold c_lpar. lia.
Qed.

Lemma nested_row_leaves g p k v : wf_vertex (VTup g) = true -> Forall (fun x => wf_vertex x = true) p -> (0 <= k)%Z ->
  row2edge (nodes2str ((VTup g :: p) ++ [VInt k])) = Ok v -> (leaves v < list_sum (List.map leaves (VTup g :: p)))%nat.
Proof.
  intros Hg Hp Hk. set (W := flat_map words (VTup g :: p)).
  assert (HF : Forall (fun x => wf_vertex x = true) (VTup g :: p)) by (now constructor).
  assert (HB : Forall (fun x => bal (words x)) (VTup g :: p)) by (eapply Forall_impl; [|exact HF]; intros x; apply words_bal).
  destruct (flat_map_bal _ HB) as (Gw & Dw & _ & _). fold W in Gw, Dw.
  (* the first word *)
  assert (EW : exists w r, W = (c_lpar :: w) :: r /\ goodw w).
  { apply wf_vertex_tup in Hg as [Hl Hg]. unfold W. cbn [flat_map words].
    assert (Hgb : Forall (fun x => bal (words x)) g) by (eapply Forall_impl; [|exact Hg]; intros x; apply words_bal).
    destruct (flat_map_bal g Hgb) as (Gg & _ & _ & Lg).
    destruct (flat_map words g) as [|w1 r1]; [cbn in Lg; lia|]. unfold wrap. inversion Gg as [|? ? G1 _]; subst.
    destruct r1 as [|w2 r1]; [cbn [List.length] in Lg; lia|].
    change (snoc_last ((c_lpar :: w1) :: w2 :: r1)) with ((c_lpar :: w1) :: snoc_last (w2 :: r1)).
    exists w1. eexists. split; [cbn [app]; reflexivity|exact G1]. }
  destruct EW as (w & r & EW & Gw1).
  assert (Erow : nodes2str ((VTup g :: p) ++ [VInt k]) = join [c_space] W ++ c_space :: show_Z k).
  { rewrite nodes2str_words by (apply Forall_app; split; [exact HF|now repeat constructor]).
    rewrite flat_map_app. fold W. change (flat_map words [VInt k]) with [show_Z k]. rewrite join_app; [reflexivity| |easy]. now rewrite EW. }
  destruct (removelast_digits k Hk) as (a & d & Ea & Da). rewrite Erow, Ea.
  assert (Ej : join [c_space] W = c_lpar :: join [c_space] (w :: r)) by (rewrite EW; destruct r; reflexivity). rewrite Ej.
  unfold row2edge. change ((c_lpar :: join [c_space] (w :: r)) ++ c_space :: a ++ [d]) with (c_lpar :: (join [c_space] (w :: r) ++ c_space :: a ++ [d])).
  unfold split_edge_str. rewrite N.eqb_refl. unfold strip_ends. cbn [tl].
  replace (join [c_space] (w :: r) ++ c_space :: a ++ [d]) with ((join [c_space] (w :: r) ++ c_space :: a) ++ [d]) by (now rewrite <- app_assoc).
  rewrite removelast_last.
  assert (Fwr : Forall is_word (w :: r)).
  { rewrite EW in Gw. inversion Gw as [|? ? _ Gr]; subst. constructor; [apply Gw1|]. eapply Forall_impl; [|exact Gr]. now intros x [X _]. }
  rewrite split_ws_trail by easy. destruct (split_ws_digits a Da) as (l & -> & Ll & Fl & Dl).
  match goal with |- rbind ?t _ = _ -> _ => destruct t as [toks|] eqn:E; [|let X := fresh in intros X; discriminate X] end. cbn [rbind].
  assert (Dwr : dsum ((w :: r) ++ l) = (-1)%Z).
  { rewrite dsum_app, Dl. cbn [dsum]. rewrite EW in Dw. cbn [dsum] in Dw. destruct (goodw_lpar w Gw1) as [_ Ed]. lia. }
  assert (Fall : Forall is_word ((w :: r) ++ l)) by (apply Forall_app; now split).
  destruct (split_loop_parts ((w :: r) ++ l) [] 0 toks Fall E) as (parts & pend & -> & E1 & E2 & _ & E4).
  specialize (E4 ltac:(easy) ltac:(lia)). cbn [app] in E1.
  rewrite <- map_rev. destruct parts as [|lastp front _] using rev_ind; [cbn; intros; discriminate|].
  rewrite rev_app_distr. cbn [rev app List.map]. destruct (py_int (join [c_space] lastp)) as [nper|]; [|let X := fresh in intros X; discriminate X]. cbn [rbind].
  rewrite <- map_rev, rev_involutive.
  destruct (unpermutate (List.map (join [c_space]) front) nper) as [t'|] eqn:Eu; [|let X := fresh in intros X; discriminate X]. cbn [rbind]. intros Hv.
  apply str2edge_leaves in Hv. apply unpermutate_perm in Eu.
  apply Permutation_sym, Permutation_map_inv in Eu as (front' & -> & Pf).
  apply Forall_app in E2 as [Ef El]. inversion El as [|? ? El1 _]; subst.
  rewrite concat_app in E1. cbn [List.concat] in E1. rewrite app_nil_r in E1.
  assert (Fc : Forall is_word (List.concat front)).
  { change (Forall is_word ((w :: r) ++ l)) in Fall. cbn [app] in Fall. rewrite E1 in Fall. apply Forall_app in Fall as [Fall _]. now apply Forall_app in Fall. }
  assert (Pc : Permutation (List.concat front) (List.concat front')).
  { clear - Pf. induction Pf; cbn [List.concat]; [constructor|now apply Permutation_app_head| |etransitivity; eauto].
    rewrite !app_assoc. apply Permutation_app_tail, Permutation_app_comm. }
  rewrite wc_join_parts in Hv.
  2: { apply Forall_forall. intros x Hx. rewrite Forall_forall in Ef. apply Ef. eapply Permutation_in; [symmetry; exact Pf|exact Hx]. }
  2: { eapply Permutation_Forall; [exact Pc|exact Fc]. }
  rewrite <- (Permutation_length Pc) in Hv.
  assert (Hlen : (List.length (List.concat front) + List.length lastp + List.length pend = List.length W + List.length l)%nat).
  { rewrite EW. cbn [List.length]. apply (f_equal (@List.length str)) in E1. rewrite !app_length in E1. cbn [List.length] in E1. rewrite ?app_length in E1. change (list char) with str in E1. lia. }
  unfold W in Hlen. rewrite flat_words_leaves in Hlen.
  destruct lastp; [easy|]. destruct pend; [easy|]. cbn [List.length] in Hlen. change (leaves (VTup g) :: List.map leaves p) with (List.map leaves (VTup g :: p)). lia.
Qed.

Lemma py_set_in l x : In x (py_set l) -> In x l.
Proof.
  unfold py_set. generalize (@nil value). induction l as [|a l IH]; intros seen H; [exact H|]. cbn in H.
  destruct (existsb (py_eq a) seen); [right; now apply IH in H|]. destruct H as [<-|H]; [now left|right; now apply IH in H].
Qed.

(** ** star and patterns that begin with an edge *)

Lemma paren_row V h w s row v : Inv V w h -> starts_with c_lpar s = true -> In row (filter (prefixb s) (perms w)) -> row2edge row = Ok v ->
  exists e y p k, In e (stored h) /\ Permutation (elems e) (y :: p) /\ is_tup y = true /\ all_db (y :: p)
    /\ row = nodes2str ((y :: p) ++ [VInt k]) /\ prefixb s row = true /\ (leaves v < leaves e)%nat.
Proof.
  intros I Hs H Hv. apply filter_In in H as [Hr P]. destruct (wf_rows _ _ (i_wf _ _ _ I) row Hr) as (e & He & Rr).
  pose proof (proj1 (i_rows _ _ _ I e row He Rr) Hr) as Hst.
  destruct Rr as (k & p & Hk & Ep & ->).
  destruct (nthperm_ok _ k Hk) as (p' & _ & Ep' & Pp). assert (p' = p) by congruence. subst p'.
  destruct (db_edge_elems e (edge_in_db _ _ He)) as (Ee & Ae & Le).
  destruct p as [|y p]; [apply Permutation_length in Pp; cbn in Pp; lia|].
  pose proof (all_db_perm _ _ Pp Ae) as Ap. inversion Ap as [|? ? Hy Hp]; subst.
  assert (Ty : is_tup y = true).
  { destruct (is_tup y) eqn:Ey; [reflexivity|]. exfalso.
    destruct (atom_text_start y (db_atom_wf y (db_vertex_atom y Hy Ey))) as (Et & ch & r & E2 & Hc).
    cbn [app] in P. destruct (nodes2str_first y (p ++ [VInt k])) as (t & E & _). rewrite E, Et, E2 in P.
    destruct s as [|c s]; [discriminate|]. cbn [starts_with] in Hs. cbn [app prefixb] in P. apply andb_true_iff in P as [P _].
    apply N.eqb_eq in P. subst c. congruence. }
  exists e, y, p, k. split; [exact Hst|]. split; [exact Pp|]. split; [exact Ty|]. split; [exact Ap|]. split; [reflexivity|]. split; [exact P|].
  destruct y as [| | | |g]; try discriminate.
  rewrite Ee. change (leaves (VTup (elems e))) with (list_sum (List.map leaves (elems e))).
  assert (S : list_sum (List.map leaves (elems e)) = list_sum (List.map leaves (VTup g :: p))).
  { clear - Pp. generalize dependent (VTup g :: p). generalize (elems e). intros a b Pp.
    induction Pp; cbn [List.map list_sum fold_right]; unfold list_sum in *; cbn [fold_right]; lia. }
  rewrite S. apply (nested_row_leaves g p k v); [now apply db_vertex_wf|now apply all_db_wf|lia|exact Hv].
Qed.

Lemma edge2str_lpar v : is_tup v = true -> starts_with c_lpar (edge2str v) = true.
Proof. now destruct v. Qed.

Lemma nested_star V h f c : Inv V (c_work c) h -> live c -> db_vertex f = true -> is_tup f = true ->
  exists r, star f c = (r, c, []) /\ forall l v, r = Ok l -> In v l ->
    exists e, In e (stored h) /\ In f (elems e) /\ (leaves v < leaves e)%nat.
Proof.
  intros I L Hv Tv. set (s := edge2str f ++ [c_space]).
  assert (Hn : s <> []) by (unfold s; intros E; now apply app_eq_nil in E).
  assert (Ht : db_text s = true).
  { unfold s. rewrite db_text_split, scalars_app, (db_vertex_scalar f Hv). cbn [andb].
    rewrite last_ok_snoc; [reflexivity|unfold c_space; lia]. }
  assert (Hs : starts_with c_lpar s = true) by (unfold s; now destruct f).
  destruct (db_text_plus_1 s Hn Ht) as (hi & Hhi & B1 & B2).
  unfold star, str2perms. fold s. rewrite (bind_gives _ _ c hi) by (now apply gives_lift).
  set (rows := filter (prefixb s) (perms (c_work c))).
  assert (Ef : filter (in_range s hi) (perms (c_work c)) = rows) by (apply filter_ext; intros r; now apply in_range_prefix).
  destruct (cur2edges rows) as [es|x] eqn:Ec.
  - exists (Ok (py_set es)). split.
    + apply query_shape; [exact L|cbn; now rewrite B1, B2|]. intros hd Hh. rewrite Ef.
      rewrite (bind_gives _ _ c es) by (now apply gives_lift). rewrite (bind_gives _ _ c tt) by (now apply close_query). reflexivity.
    + intros l v [= <-] Hi. apply py_set_in in Hi. unfold cur2edges in Ec.
      destruct (mapr row2edge rows) as [es0|] eqn:Em; [|discriminate]. cbn in Ec. injection Ec as <-. apply py_set_in in Hi.
      destruct (mapr_in _ _ _ _ Em Hi) as (row & Hrow & Erow).
      destruct (paren_row V h _ s row v I Hs Hrow Erow) as (e & y & p & k & Hst & Pp & Ty & Ap & -> & P & Hlt).
      exists e. split; [exact Hst|]. split; [|exact Hlt]. inversion Ap as [|? ? Hy Hp]; subst.
      cbn [app] in P. apply vertex_prefix in P; [|exact Hv|exact Hy|].
      * subst y. eapply Permutation_in; [symmetry; exact Pp|now left].
      * apply Forall_app. split; [now apply all_db_wf|now repeat constructor].
  - exists (Err x). split; [|easy].
    apply query_shape; [exact L|cbn; now rewrite B1, B2|]. intros hd Hh. rewrite Ef, Ec. reflexivity.
Qed.

Lemma nested_pattern V h f rest items c : Inv V (c_work c) h -> live c -> filter not_none items = f :: rest ->
  is_tup f = true -> all_db (f :: rest) ->
  exists r, pattern2edges (VTup items) c = (r, c, []) /\ forall l v, r = Ok l -> In v l ->
    edge_matches_pattern v items = Ok true
    /\ exists e y, In e (stored h) /\ In y (elems e) /\ is_tup y = true /\ (rest <> [] -> y = f) /\ (leaves v < leaves e)%nat.
Proof.
  intros I L Ef Tf Hd. set (s := nodes2str (filter not_none items)).
  destruct (nodes2str_text (filter not_none items)) as [Hn Ht]; [now rewrite Ef|now rewrite Ef|]. fold s in Hn, Ht.
  assert (Hs : starts_with c_lpar s = true).
  { unfold s. rewrite Ef. destruct (nodes2str_first f rest) as (t & E & _). rewrite E. now destruct f. }
  destruct (db_text_plus_1 s Hn Ht) as (hi & Hhi & B1 & B2).
  unfold pattern2edges. rewrite (bind_gives _ _ c items) by (now apply gives_lift). cbv zeta. fold s.
  rewrite (bind_gives _ _ c hi) by (now apply gives_lift).
  set (rows := filter (prefixb s) (perms (c_work c))).
  assert (Er : filter (in_range s hi) (perms (c_work c)) = rows) by (apply filter_ext; intros r; now apply in_range_prefix).
  destruct (cur2edges rows) as [es|x] eqn:Ec.
  2: { exists (Err x). split; [|easy].
       apply query_shape; [exact L|cbn; now rewrite B1, B2|]. intros hd Hh. rewrite Er, Ec. reflexivity. }
  destruct (mapr (fun e => edge_matches_pattern e items) es) as [flags|x] eqn:Em.
  2: { exists (Err x). split; [|easy].
       apply query_shape; [exact L|cbn; now rewrite B1, B2|]. intros hd Hh. rewrite Er.
       rewrite (bind_gives _ _ c es) by (now apply gives_lift). rewrite (bind_gives _ _ c tt) by (now apply close_query). rewrite Em. reflexivity. }
  exists (Ok (py_set (List.map fst (filter snd (combine es flags))))). split.
  { apply query_shape; [exact L|cbn; now rewrite B1, B2|]. intros hd Hh. rewrite Er.
    rewrite (bind_gives _ _ c es) by (now apply gives_lift). rewrite (bind_gives _ _ c tt) by (now apply close_query).
    rewrite (bind_gives _ _ c flags) by (now apply gives_lift). reflexivity. }
  intros l v [= <-] Hi. apply py_set_in in Hi. apply in_map_iff in Hi as ([v' b] & Ev & Hi). cbn in Ev. subst v'.
  apply filter_In in Hi as [Hi Hb]. cbn in Hb. subst b.
  assert (Fl : In v es /\ edge_matches_pattern v items = Ok true).
  { clear Ec. revert flags Em Hi. induction es as [|e es IH]; intros flags Em Hi; [destruct Hi|]. cbn [mapr] in Em.
    destruct (edge_matches_pattern e items) as [b|] eqn:Eb; [|discriminate]. cbn [rbind] in Em.
    destruct (mapr _ es) as [fl|] eqn:E2; [|discriminate]. cbn in Em. injection Em as <-. cbn [combine] in Hi.
    destruct Hi as [Hi|Hi]; [injection Hi as -> ->; split; [now left|exact Eb]|].
    destruct (IH fl eq_refl Hi) as [H1 H2]. split; [now right|exact H2]. }
  destruct Fl as [Hes Hm]. split; [exact Hm|]. unfold cur2edges in Ec.
  destruct (mapr row2edge rows) as [es0|] eqn:Em0; [|discriminate]. cbn in Ec. injection Ec as <-. apply py_set_in in Hes.
  destruct (mapr_in _ _ _ _ Em0 Hes) as (row & Hrow & Erow).
  destruct (paren_row V h _ s row v I Hs Hrow Erow) as (e & y & p & k & Hst & Pp & Ty & Ap & -> & P & Hlt).
  exists e, y. split; [exact Hst|]. split; [eapply Permutation_in; [symmetry; exact Pp|now left]|]. split; [exact Ty|]. split; [|exact Hlt].
  intros Hr. inversion Ap as [|? ? Hy Hp]; subst. inversion Hd as [|? ? Hf Hd2]; subst. symmetry.
  apply (vertex_prefix f y (p ++ [VInt k])); [exact Hf|exact Hy|apply Forall_app; split; [now apply all_db_wf|now repeat constructor]|].
  unfold s in P. rewrite Ef in P. destruct rest as [|f2 rest]; [easy|].
  apply prefixb_spec in P as [t P]. apply prefixb_spec. cbn [app] in P. rewrite P.
  exists (nodes2str (f2 :: rest) ++ t). change (nodes2str (f :: f2 :: rest)) with (edge2str f ++ [c_space] ++ nodes2str (f2 :: rest)).
  now rewrite <- !app_assoc.
Qed.
