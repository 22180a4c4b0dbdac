(** * C_shortest.v -- a float is written with the fewest digits (C46) *)
From Coq Require Import List Bool ZArith NArith QArith Qabs Qpower String Ascii Lia Lqa.
Import ListNotations.
From Verif Require Import Double P_double P_shortest Py Spec M_edge P_py P_edge P_exact C_values C_edge C_numerals.
Local Open Scope Z_scope.
Local Open Scope list_scope.

(** ** The specification *)

(** how many digits a numeral has, not counting zeros at its two ends *)
Fixpoint drop0 (s : str) : str :=
  match s with
  | c :: s' => if N.eqb c c_0 then drop0 s' else s
  | [] => []
  end.
Definition significant (digits : str) : nat := List.length (drop0 (rev (drop0 (rev digits)))).
(** the digits of a text before its exponent: of "-1.25e-07" they are 125 *)
Fixpoint before_e (s : str) : str :=
  match s with
  | c :: s' => if N.eqb c (ch "e"%char) then [] else c :: before_e s'
  | [] => []
  end.
Definition mantissa (s : str) : str := filter is_digit (before_e s).

(** ** The proofs *)

Lemma drop0_strip0 s : snd (strip0 s) = drop0 s.
Proof. induction s as [|c s IH]; [reflexivity|]. cbn [strip0 drop0]. destruct (N.eqb c c_0); [|reflexivity]. now destruct (strip0 s). Qed.
Lemma drop0_zeros n s : drop0 (zeros n ++ s) = drop0 s.
Proof. induction n as [|n IH]; [reflexivity|exact IH]. Qed.
Lemma drop0_id s : hd c_0 s <> c_0 -> drop0 s = s.
Proof. destruct s as [|c s]; [intros H; now elim H|]. cbn [hd drop0]. intros H. now apply N.eqb_neq in H as ->. Qed.
Lemma drop0_val s : val_digits (drop0 s) = val_digits s.
Proof.
  pose proof (strip0_spec s) as H. pose proof (drop0_strip0 s) as D. destruct (strip0 s) as [k r]. cbn [snd] in D. subst r.
  rewrite H at 2. now rewrite val_digits_app, val_digits_zeros.
Qed.
Lemma digits_drop0 s : forallb is_digit s = true -> forallb is_digit (drop0 s) = true.
Proof. induction s as [|c s IH]; intros H; [reflexivity|]. cbn [drop0]. destruct (N.eqb c c_0); [|exact H]. cbn [forallb] in H. apply andb_true_iff in H as [_ H]. now apply IH. Qed.
Lemma digits_rev s : forallb is_digit s = true -> forallb is_digit (rev s) = true.
Proof. rewrite !forallb_forall. intros H c Hc. apply H. now apply in_rev. Qed.

Lemma val_digits_bound s : forallb is_digit s = true -> (val_digits s < 10 ^ N.of_nat (List.length s))%N.
Proof.
  induction s as [|c s IH] using rev_ind; intros H; [reflexivity|].
  rewrite forallb_app in H. apply andb_true_iff in H as [H1 H2]. specialize (IH H1). cbn [forallb] in H2. rewrite andb_true_r in H2.
  apply is_digit_bounds in H2. rewrite val_digits_app, app_length. cbn [List.length]. rewrite Nat.add_1_r, (Nat2N.inj_succ (List.length s)), N.pow_succ_r'.
  change (10 ^ N.of_nat 1)%N with 10%N. assert (V : val_digits [c] = (c - c_0)%N) by reflexivity. rewrite V. unfold c_0. lia.
Qed.
Lemma val_digits_low c s : is_digit c = true -> c <> c_0 -> (10 ^ N.of_nat (List.length s) <= val_digits (c :: s))%N.
Proof.
  intros D H. apply is_digit_bounds in D. change (c :: s) with ([c] ++ s). rewrite val_digits_app.
  assert (V : val_digits [c] = (c - c_0)%N) by reflexivity. rewrite V. unfold c_0 in *.
  assert (1 <= c - 48)%N by lia. assert (0 < 10 ^ N.of_nat (List.length s))%N by (pose proof (N.pow_nonzero 10 (N.of_nat (List.length s))); lia). nia.
Qed.
Lemma show_N_low m : m <> 0%N -> (10 ^ N.of_nat (List.length (show_N m)) <= 10 * m)%N.
Proof.
  intros H. destruct (show_N_spec m) as (ds & d & _ & _ & D & V & Hh & _). specialize (Hh H). destruct (show_N m) as [|c s]; [now elim Hh|].
  cbn [hd] in Hh. cbn [forallb] in D. apply andb_true_iff in D as [D _]. pose proof (val_digits_low c s D Hh) as L. rewrite V in L.
  cbn [List.length]. rewrite Nat2N.inj_succ, N.pow_succ_r'. lia.
Qed.
Lemma show_N_fits m j : m <> 0%N -> (m < 10 ^ N.of_nat j)%N -> (List.length (show_N m) <= j)%nat.
Proof.
  intros H L. pose proof (show_N_low m H) as G. destruct (Nat.le_gt_cases (List.length (show_N m)) j) as [C|C]; [exact C|]. exfalso.
  assert (10 ^ N.of_nat (S j) <= 10 ^ N.of_nat (List.length (show_N m)))%N by (apply N.pow_le_mono_r; lia).
  rewrite Nat2N.inj_succ, N.pow_succ_r' in H0. lia.
Qed.

Lemma significant_val s : forallb is_digit s = true ->
  (val_digits (rev (drop0 (rev s))) < 10 ^ N.of_nat (significant s))%N.
Proof.
  intros H. unfold significant. rewrite <- drop0_val. apply val_digits_bound. apply digits_drop0, digits_rev, digits_drop0, digits_rev, H.
Qed.
Lemma significant_shown z n m : m <> 0%N -> (m mod 10 <> 0)%N -> significant (zeros z ++ show_N m ++ zeros n) = List.length (show_N m).
Proof.
  intros H0 H1. unfold significant. rewrite !rev_app_distr, !rev_zeros, <- app_assoc, drop0_zeros.
  destruct (show_N_spec m) as (ds & d & E & Ed & _ & _ & Hh & _). specialize (Hh H0).
  rewrite (drop0_id (rev (show_N m) ++ zeros z)).
  - rewrite rev_app_distr, rev_zeros, rev_involutive, drop0_zeros, drop0_id by exact Hh. reflexivity.
  - rewrite E, rev_app_distr. cbn [rev app hd]. unfold digit_char, c_0. lia.
Qed.

Lemma mantissa_sign (neg : bool) s : mantissa (if neg then c_minus :: s else s) = mantissa s.
Proof. now destruct neg. Qed.
Lemma mantissa_digits s r : forallb is_digit s = true -> mantissa (s ++ r) = s ++ mantissa r.
Proof.
  induction s as [|c s IH]; intros H; [reflexivity|]. cbn [forallb] in H. apply andb_true_iff in H as [H1 H2]. specialize (IH H2).
  unfold mantissa in *. cbn [app before_e]. assert (E : N.eqb c (ch "e"%char) = false) by (apply is_digit_bounds in H1; apply N.eqb_neq; intros ->; vm_compute in H1; destruct H1 as [_ H1]; now elim H1).
  rewrite E. cbn [filter]. rewrite H1. now rewrite IH.
Qed.
Lemma mantissa_dot s : mantissa (c_dot :: s) = mantissa s. Proof. reflexivity. Qed.
Lemma mantissa_end s : mantissa (ch "e"%char :: s) = []. Proof. reflexivity. Qed.

(** the digits that are written *)
Lemma written neg m e : flt_positional (FFin neg m e) = true -> (m = 0%N -> e = 0) ->
  exists ip fp z n, show_float (FFin neg m e) = numeral_text neg ip fp /\ ip ++ fp = zeros z ++ show_N m ++ zeros n
    /\ forallb is_digit (ip ++ fp) = true /\ (e = Z.of_nat n - Z.of_nat (List.length fp) \/ m = 0%N).
Proof.
  intros Hp Hz. unfold show_float. rewrite Hp. unfold flt_decpt. set (ds := show_N m) in *. set (k := List.length ds).
  assert (Hk : (0 < k)%nat). { unfold k, ds. pose proof (show_N_nonnil m). destruct (show_N m); [easy | cbn; lia]. }
  assert (Hd : forallb is_digit ds = true) by apply show_N_digits.
  assert (F : forall body ip fp z n, body = ip ++ c_dot :: fp -> ip ++ fp = zeros z ++ ds ++ zeros n -> (e = Z.of_nat n - Z.of_nat (List.length fp) \/ m = 0%N) ->
     exists ip fp z n, (if neg then c_minus :: body else body) = numeral_text neg ip fp /\ ip ++ fp = zeros z ++ ds ++ zeros n
       /\ forallb is_digit (ip ++ fp) = true /\ (e = Z.of_nat n - Z.of_nat (List.length fp) \/ m = 0%N)).
  { intros body ip fp z n -> H1 H2. exists ip, fp, z, n. split; [now destruct neg|]. split; [exact H1|]. split; [|exact H2].
    rewrite H1, !forallb_app, !zeros_digits, Hd. reflexivity. }
  destruct (Z.leb_spec (Z.of_nat k + e) 0) as [Hd1|Hd1].
  - apply (F _ [c_0] (zeros (Z.to_nat (- (Z.of_nat k + e))) ++ ds) (S (Z.to_nat (- (Z.of_nat k + e)))) O).
    + reflexivity.
    + cbn [zeros repeat app]. now rewrite app_nil_r.
    + left. rewrite app_length, zeros_length. fold k. lia.
  - destruct (Z.ltb_spec (Z.of_nat k + e) (Z.of_nat k)) as [Hd2|Hd2].
    + set (j := Z.to_nat (Z.of_nat k + e)). apply (F _ (firstn j ds) (skipn j ds) O O).
      * reflexivity.
      * cbn [zeros repeat app]. now rewrite app_nil_r, firstn_skipn.
      * left. rewrite skipn_length. fold k. unfold j. lia.
    + apply (F _ (ds ++ zeros (Z.to_nat (Z.of_nat k + e) - k)) [c_0] O (S (Z.to_nat (Z.of_nat k + e) - k))).
      * now rewrite <- app_assoc.
      * cbn [zeros repeat app]. rewrite <- app_assoc. f_equal.
        change (c_0 :: repeat c_0 (Z.to_nat (Z.of_nat k + e) - k)) with (zeros (S (Z.to_nat (Z.of_nat k + e) - k))).
        change [c_0] with (zeros 1). unfold zeros. rewrite <- repeat_app. f_equal. lia.
      * cbn [List.length]. destruct (N.eq_dec m 0); [now right|left; lia].
Qed.

Lemma mantissa_written neg m e : m <> 0%N -> (m mod 10 <> 0)%N -> significant (mantissa (show_float (FFin neg m e))) = List.length (show_N m).
Proof.
  intros H0 H1. destruct (flt_positional (FFin neg m e)) eqn:Hp.
  - destruct (written neg m e Hp ltac:(lia)) as (ip & fp & z & n & -> & E & D & _). rewrite <- (significant_shown z n m H0 H1), <- E. f_equal.
    rewrite forallb_app in D. apply andb_true_iff in D as [Di Df].
    replace (numeral_text neg ip fp) with (if neg then c_minus :: ip ++ c_dot :: fp else ip ++ c_dot :: fp) by now destruct neg.
    rewrite mantissa_sign, mantissa_digits by exact Di. rewrite mantissa_dot. f_equal.
    rewrite <- (app_nil_r fp) at 1. rewrite mantissa_digits by exact Df. apply app_nil_r.
  - unfold show_float. rewrite Hp. cbv zeta. pose proof (significant_shown 0 0 m H0 H1) as G. cbn [zeros repeat app] in G. rewrite app_nil_r in G.
    rewrite <- G at 1. rewrite mantissa_sign. f_equal. pose proof (show_N_digits m) as D. destruct (show_N m) as [|d rest]; [reflexivity|].
    cbn [forallb] in D. apply andb_true_iff in D as [D0 Dr].
    change (d :: ?x) with ([d] ++ x). rewrite mantissa_digits by (cbn; now rewrite D0). cbn [app]. f_equal.
    destruct rest as [|d' rest]; [reflexivity|]. cbn [app]. rewrite mantissa_dot. change (d' :: rest ++ ?x) with ((d' :: rest) ++ x).
    rewrite mantissa_digits by exact Dr. rewrite mantissa_end. apply app_nil_r.
Qed.

(** a numeral and the decimal it is taken apart into *)
Lemma py_float_parts neg ip fp : forallb is_digit (ip ++ fp) = true -> ip ++ fp <> [] ->
  let m := val_digits (rev (drop0 (rev (ip ++ fp)))) in
  exists e, py_float (numeral_text neg ip fp) =
      (if N.eqb m 0 then Ok (FFin neg 0 0) else match reprint m e with Some (m', e') => Ok (FFin neg m' e') | None => Ok (FInf neg) end)
    /\ (inject_Z (Z.of_N m) * Qpower (10 # 1) e == inject_Z (digits_value (ip ++ fp)) * Qpower (10 # 1) (- Z.of_nat (List.length fp)))%Q.
Proof.
  intros D Ne. pose proof D as D'. rewrite forallb_app in D'. apply andb_true_iff in D' as [Di Df].
  assert (S : strip_minus (numeral_text neg ip fp) = (neg, ip ++ c_dot :: fp)).
  { unfold numeral_text. destruct neg; [reflexivity|]. cbn [app]. change (lit "." ++ fp) with (c_dot :: fp).
    destruct ip as [|c r]; [reflexivity|]. cbn [app strip_minus]. cbn [forallb] in Di. apply andb_true_iff in Di as [Dc _].
    apply is_digit_bounds in Dc. destruct (N.eqb_spec c c_minus) as [->|_]; [unfold c_minus in Dc; lia|reflexivity]. }
  assert (Ev : py_float (numeral_text neg ip fp) =
     (let '(k, rds) := strip0 (rev (ip ++ fp)) in
      let m := val_digits (rev rds) in
      if N.eqb m 0 then Ok (FFin neg 0 0)
      else match reprint m (Z.of_nat k - Z.of_nat (List.length fp)) with
           | Some (m', e') => Ok (FFin neg m' e') | None => Ok (FInf neg) end)).
  { unfold py_float. rewrite S. cbv beta iota zeta. rewrite split_dot_app by exact Di. rewrite D. destruct (ip ++ fp) as [|c l]; [now elim Ne|reflexivity]. }
  rewrite Ev. pose proof (strip0_spec (rev (ip ++ fp))) as Z0. rewrite <- drop0_strip0. destruct (strip0 (rev (ip ++ fp))) as [k rds]. cbn [snd].
  cbv zeta. exists (Z.of_nat k - Z.of_nat (List.length fp)). split; [reflexivity|].
  assert (Ei : ip ++ fp = rev rds ++ zeros k) by (rewrite <- (rev_involutive (ip ++ fp)), Z0, rev_app_distr, rev_zeros; reflexivity).
  assert (Va : val_digits (ip ++ fp) = (val_digits (rev rds) * 10 ^ N.of_nat k)%N).
  { rewrite Ei, val_digits_app, val_digits_zeros, zeros_length. lia. }
  rewrite (digits_value_val _ D), Va, N2Z.inj_mul, N2Z.inj_pow, nat_N_Z, inject_Z_mult.
  change (Z.of_N 10) with 10. rewrite <- power_ten by lia. unfold Zminus. rewrite Qpower_plus by apply ten_pos. ring.
Qed.

(** distances, on the scale of both powers *)
Lemma on_scale_ten v e : -330 <= e -> (inject_Z v * Qpower (10 # 1) e * Qpower (10 # 1) 330 == inject_Z (v * t e))%Q.
Proof.
  intros H. rewrite <- Qmult_assoc, <- Qpower_plus by apply ten_pos. rewrite power_ten by lia. rewrite <- inject_Z_mult. reflexivity.
Qed.
Definition both : Q := (Qpower (10 # 1) 330 * Qpower (2 # 1) 1074)%Q.
Lemma both_pos : (0 < both)%Q.
Proof. apply Qmult_lt_0_compat; apply Qpower_0_lt; reflexivity. Qed.
Lemma distance_ten m e n k : -330 <= e -> -1074 <= k ->
  (Qabs (inject_Z m * Qpower (10 # 1) e - inject_Z n * Qpower (2 # 1) k) * both == inject_Z (Z.abs (m * (w 0 * t e) - n * w k * t 0)))%Q.
Proof.
  intros He Hk. rewrite <- (Qabs_pos both (Qlt_le_weak _ _ both_pos)) at 1. rewrite <- Qabs_Qmult.
  change (inject_Z (Z.abs (m * (w 0 * t e) - n * w k * t 0))) with (Qabs (inject_Z (m * (w 0 * t e) - n * w k * t 0))). apply Qabs_wd.
  pose proof (on_scale_ten m e He) as A. pose proof (on_scale n k Hk) as B.
  pose proof (on_scale 1 0 ltac:(lia)) as A0. pose proof (on_scale_ten 1 0 ltac:(lia)) as B0.
  change (Qpower (2 # 1) 0) with 1%Q in A0. change (Qpower (10 # 1) 0) with 1%Q in B0. change (inject_Z 1) with 1%Q in A0, B0. rewrite Z.mul_1_l in A0, B0.
  unfold Zminus. rewrite inject_Z_plus, inject_Z_opp. replace (m * (w 0 * t e)) with (m * t e * w 0) by ring.
  rewrite (inject_Z_mult (m * t e)), (inject_Z_mult (n * w k)), <- A, <- B, <- A0, <- B0. unfold both. ring.
Qed.

Lemma numeral_text_inj neg ip fp ip' fp' : forallb is_digit ip = true -> forallb is_digit ip' = true ->
  numeral_text neg ip fp = numeral_text neg ip' fp' -> ip = ip' /\ fp = fp'.
Proof.
  intros D D' E. unfold numeral_text in E. apply app_inv_head in E. apply (f_equal split_dot) in E.
  change (lit "." ++ fp) with (c_dot :: fp) in E. change (lit "." ++ fp') with (c_dot :: fp') in E.
  rewrite !split_dot_app in E by assumption. injection E as -> ->. now split.
Qed.

(** C46: a float read from a decimal numeral is written with no more significant
    digits than that numeral; and when it is written positionally with as many,
    what is written is at least as near to the float as that numeral. *)
Theorem C46_fewest_digits :
  forall neg ip fp f, forallb is_digit (ip ++ fp) = true -> str2edge (numeral_text neg ip fp) = Ok (VFlt f) ->
    (significant (mantissa (edge2str (VFlt f))) <= significant (ip ++ fp))%nat
    /\ forall ip' fp' q, forallb is_digit (ip' ++ fp') = true -> edge2str (VFlt f) = numeral_text neg ip' fp' -> number (VFlt f) = Some q ->
         significant (ip' ++ fp') = significant (ip ++ fp) ->
         (Qabs (numeral neg ip' fp' - q) <= Qabs (numeral neg ip fp - q))%Q.
Proof.
  intros neg ip fp f D. rewrite (numeral_word neg ip fp D).
  assert (Ne : forall x, py_float (numeral_text neg ip fp) = Ok x -> ip ++ fp <> []).
  { intros x H E. apply app_eq_nil in E as [-> ->]. destruct neg; discriminate H. }
  destruct (py_float (numeral_text neg ip fp)) as [x|] eqn:P; [|discriminate]. cbn [rbind]. intros [= ->]. specialize (Ne f eq_refl).
  destruct (py_float_parts neg ip fp D Ne) as (e & Ev & Va). rewrite P in Ev.
  pose proof (significant_val (ip ++ fp) D) as Sg. set (m := val_digits (rev (drop0 (rev (ip ++ fp))))) in *.
  change (edge2str (VFlt f)) with (show_float f).
  assert (Z0 : forall g, f = FFin g 0 0 ->
    (significant (mantissa (show_float f)) <= significant (ip ++ fp))%nat
    /\ forall ip' fp' q, forallb is_digit (ip' ++ fp') = true -> show_float f = numeral_text neg ip' fp' -> number (VFlt f) = Some q ->
         significant (ip' ++ fp') = significant (ip ++ fp) ->
         (Qabs (numeral neg ip' fp' - q) <= Qabs (numeral neg ip fp - q))%Q).
  { intros g ->. split; [destruct g; vm_compute; lia|]. intros ip' fp' q D' E [= <-] _.
    assert (X : (numeral neg ip' fp' == 0)%Q).
    { destruct (written g 0 0 eq_refl ltac:(reflexivity)) as (ip1 & fp1 & z & n & E1 & Ei & D1 & _).
      assert (ip' = lit "0" /\ fp' = lit "0") as [-> ->].
      { assert (numeral_text neg ip' fp' = numeral_text g (lit "0") (lit "0")) by (rewrite <- E; now destruct g).
        assert (neg = g). { destruct neg, g; try reflexivity; exfalso; unfold numeral_text in H; cbn in H; destruct ip' as [|c ip']; try discriminate H; injection H as H _; subst c; cbn in D'; discriminate D'. }
        subst g. apply numeral_text_inj in H; [exact H| |reflexivity]. rewrite forallb_app in D'. now apply andb_true_iff in D'. }
      destruct neg; reflexivity. }
    rewrite X. change (Qabs (0 - 0)) with 0%Q. apply Qabs_nonneg. }
  destruct (N.eqb_spec m 0) as [_|Hm]; [injection Ev as ->; now apply (Z0 neg)|].
  destruct (reprint m e) as [[m' e']|] eqn:R; [|injection Ev as ->; split; [destruct neg; vm_compute; lia|intros ? ? q _ _ [=]]].
  injection Ev as ->. pose proof (reprint_cases m e Hm) as RC. unfold reprint in R. destruct (N.eqb_spec m 0) as [E|_]; [now elim Hm|].
  destruct (read_decimal m e) as [[n k]|] eqn:Rd; [|discriminate]. destruct RC as [Nn RC].
  destruct (Z.eqb_spec n 0) as [->|Hn]; [injection R as <- <-; now apply (Z0 neg)|].
  assert (Hp : 0 < n) by (destruct Nn; lia). destruct (repr_total n k Nn Hp) as (m1 & e1 & Rp). rewrite Rp in R. injection R as -> ->.
  pose proof (shortest_spec _ _ _ _ _ _ Rp) as (M1 & M2 & M3). clear RC Z0.
  split.
  - rewrite (mantissa_written neg m' e' M1 M2). apply show_N_fits; [exact M1|]. exact (repr_fewest n k m' e' m e Nn Hp Rp Hm Rd _ Sg).
  - intros ip' fp' q D' E Hq Es. cbn [number] in Hq. destruct (N.eqb_spec m' 0) as [G|_]; [now elim M1|]. rewrite M3 in Hq. injection Hq as <-.
    assert (Hpos : flt_positional (FFin neg m' e') = true).
    { destruct (flt_positional (FFin neg m' e')) eqn:Hp'; [reflexivity|]. exfalso.
      pose proof (show_float_exp _ Hp') as Sy. rewrite E in Sy. unfold sym_ok in Sy. rewrite !andb_true_iff, !negb_true_iff in Sy.
      assert (looks_numeric (numeral_text neg ip' fp') = true); [|intuition congruence].
      assert (S : strip_minus (numeral_text neg ip' fp') = (neg, ip' ++ c_dot :: fp')).
      { unfold numeral_text. destruct neg; [reflexivity|]. cbn [app]. change (lit "." ++ fp') with (c_dot :: fp').
        destruct ip' as [|c r]; [reflexivity|]. cbn [app strip_minus]. cbn [app forallb] in D'. apply andb_true_iff in D' as [Dc _].
        apply is_digit_bounds in Dc. destruct (N.eqb_spec c c_minus) as [->|_]; [unfold c_minus in Dc; lia|reflexivity]. }
      rewrite forallb_app in D'. apply andb_true_iff in D' as [Di Df]. apply orb_true_iff. right. unfold dbl_shape. rewrite S. cbn [snd].
      rewrite split_dot_app by exact Di. now rewrite Di, Df. }
    destruct (written neg m' e' Hpos ltac:(lia)) as (ip1 & fp1 & z & j & E1 & Ei & D1 & [He|He]); [|now elim M1].
    rewrite E1 in E. assert (ip1 = ip' /\ fp1 = fp') as [-> ->].
    { apply (numeral_text_inj neg); [| |exact E]; [rewrite forallb_app in D1; now apply andb_true_iff in D1|rewrite forallb_app in D'; now apply andb_true_iff in D']. }
    assert (Sm : significant (ip' ++ fp') = List.length (show_N m')) by (rewrite Ei; now apply significant_shown).
    destruct (repr_best n k m' e' m e (N.of_nat (significant (ip ++ fp))) Nn Hp Rp Hm Rd Sg) as (B1 & B2 & B3).
    { rewrite <- Es, Sm. now apply show_N_low. }
    assert (Va' : (inject_Z (Z.of_N m') * Qpower (10 # 1) e' == inject_Z (digits_value (ip' ++ fp')) * Qpower (10 # 1) (- Z.of_nat (List.length fp')))%Q).
    { rewrite (digits_value_val _ D'), Ei, !val_digits_app, val_digits_zeros, N.mul_0_l, N.add_0_l, val_digits_zeros, N.add_0_r, show_N_val, zeros_length.
      rewrite N2Z.inj_mul, N2Z.inj_pow, nat_N_Z, inject_Z_mult. change (Z.of_N 10) with 10. rewrite <- power_ten by lia.
      rewrite He. unfold Zminus. rewrite Qpower_plus by apply ten_pos. ring. }
    unfold numeral. rewrite <- Va, <- Va'.
    assert (Qs : (inject_Z (signed neg n) * Qpower (2 # 1) k == (if neg then -1 # 1 else 1) * (inject_Z n * Qpower (2 # 1) k))%Q).
    { destruct neg; cbn [signed]; [rewrite inject_Z_opp|]; ring. }
    rewrite Qs, !sign_out. destruct Nn as (_ & Nk & _). apply (Qmult_lt_0_le_reg_r _ _ _ both_pos). rewrite !distance_ten by lia.
    rewrite <- Zle_Qle. exact B3.
Qed.
Print Assumptions C46_fewest_digits.
Example C46_fewest_nonvacuous :
  (let ip := lit "0" in let fp := lit "1000000000000000055" in
   forallb is_digit (ip ++ fp) = true /\ str2edge (numeral_text true ip fp) = Ok (VFlt (FFin true 1 (-1)))
   /\ edge2str (VFlt (FFin true 1 (-1))) = lit "-0.1" /\ significant (mantissa (lit "-0.1")) = 1%nat /\ significant (ip ++ fp) = 19%nat)
  /\ (let ip := lit "9007199254740993" in let fp := lit "0" in let f := FFin false 9007199254740992 0 in
      forallb is_digit (ip ++ fp) = true /\ str2edge (numeral_text false ip fp) = Ok (VFlt f)
      /\ edge2str (VFlt f) = numeral_text false (lit "9007199254740992") (lit "0")
      /\ significant (lit "9007199254740992" ++ lit "0") = significant (ip ++ fp) /\ significant (ip ++ fp) = 16%nat)
  /\ mantissa (lit "-1.25e-07") = lit "125".
Proof. cbv zeta. repeat (apply conj; [repeat (apply conj; [vm_compute; reflexivity|]); vm_compute; reflexivity|]). vm_compute. reflexivity. Qed.
