(** * P_double.v -- Double.v does what it says: reading rounds to the nearest
    double, printing gives a numeral that is read as the same double, and numerals
    of at most fifteen digits come back unchanged *)
From Coq Require Import ZArith NArith Bool Lia.
From Verif Require Import Double.
Local Open Scope Z_scope.

(** ** Rounding *)

Lemma round_ratio_near a b : 0 < b -> 2 * a - b <= 2 * (round_ratio a b * b) <= 2 * a + b.
Proof.
  intros Hb. unfold round_ratio. pose proof (Z.div_mod a b ltac:(lia)) as D. pose proof (Z.mod_pos_bound a b Hb) as M.
  destruct (Z.compare_spec (2 * (a mod b)) b) as [C|C|C]; [destruct (Z.even (a / b))|..]; nia.
Qed.
Lemma round_ratio_unique a b m : 0 < b -> 2 * a - b < 2 * (m * b) < 2 * a + b -> round_ratio a b = m.
Proof.
  intros Hb H. pose proof (round_ratio_near a b Hb) as R. nia.
Qed.
Lemma round_ratio_tie a b : 0 < b -> 2 * (round_ratio a b * b) = 2 * a - b \/ 2 * (round_ratio a b * b) = 2 * a + b ->
  Z.even (round_ratio a b) = true.
Proof.
  intros Hb. unfold round_ratio. pose proof (Z.div_mod a b ltac:(lia)) as D. pose proof (Z.mod_pos_bound a b Hb) as M.
  destruct (Z.compare_spec (2 * (a mod b)) b) as [C|C|C]; [destruct (Z.even (a / b)) eqn:E|..]; intros H.
  - exact E.
  - rewrite Z.even_add, E. reflexivity.
  - exfalso. destruct H; nia.
  - exfalso. destruct H; nia.
Qed.
Lemma round_ratio_scale c a b : 0 < c -> 0 < b -> round_ratio (c * a) (c * b) = round_ratio a b.
Proof.
  intros Hc Hb. unfold round_ratio. rewrite Z.div_mul_cancel_l, Z.mul_mod_distr_l by lia.
  replace (2 * (c * (a mod b))) with (c * (2 * (a mod b))) by ring.
  rewrite <- (Zmult_compare_compat_l (2 * (a mod b)) b c) by lia. reflexivity.
Qed.
Lemma round_ratio_nonneg a b : 0 <= a -> 0 < b -> 0 <= round_ratio a b.
Proof. intros Ha Hb. unfold round_ratio. pose proof (Z.div_pos a b Ha Hb). destruct (Z.compare _ _); [destruct (Z.even _)|..]; lia. Qed.

(** ** Powers of two, counted from the least double on *)

Definition w (k : Z) : Z := 2 ^ (k + 1074).
Lemma w_pos k : -1074 <= k -> 0 < w k.
Proof. intros H. apply Z.pow_pos_nonneg; lia. Qed.
Lemma w_add k j : -1074 <= k -> 0 <= j -> w (k + j) = w k * 2 ^ j.
Proof. intros H1 H2. unfold w. replace (k + j + 1074) with (k + 1074 + j) by lia. apply Z.pow_add_r; lia. Qed.
Lemma w_nonneg k : 0 <= k -> w k = w 0 * 2 ^ k.
Proof. intros H. rewrite <- (w_add 0 k) by lia. now rewrite Z.add_0_l. Qed.
Lemma w_neg k : -1074 <= k -> k <= 0 -> w 0 = w k * 2 ^ (- k).
Proof. intros H1 H2. rewrite <- w_add by lia. f_equal. lia. Qed.
Lemma w_succ k : -1074 <= k -> w (k + 1) = w k * 2.
Proof. intros H. rewrite w_add by lia. reflexivity. Qed.
Lemma w_mono j k : -1074 <= j -> j <= k -> w j <= w k.
Proof. intros H1 H2. unfold w. apply Z.pow_le_mono_r; lia. Qed.
Lemma w_lt j k : -1074 <= j -> j < k -> 2 * w j <= w k.
Proof. intros H1 H2. pose proof (w_mono (j + 1) k ltac:(lia) ltac:(lia)). rewrite w_succ in H by lia. lia. Qed.
Lemma w_53 k : -1074 <= k -> w (k + 53) = w k * 9007199254740992.
Proof. intros H. rewrite w_add by lia. reflexivity. Qed.
Lemma w_52 k : -1074 <= k -> w (k + 52) = w k * 4503599627370496.
Proof. intros H. rewrite w_add by lia. reflexivity. Qed.
Lemma w_from x : w (x - 1074) = 2 ^ x.
Proof. unfold w. f_equal. lia. Qed.
Global Opaque w.

Lemma below_iff a b k : 0 < b -> -1074 <= k -> below a b k = true <-> a * w 0 < b * w k.
Proof.
  intros Hb Hk. unfold below. destruct (Z.leb_spec 0 k) as [H|H]; rewrite Z.ltb_lt.
  - rewrite (w_nonneg k H). pose proof (w_pos 0 ltac:(lia)). nia.
  - rewrite (w_neg k) by lia. pose proof (w_pos k Hk). nia.
Qed.

(** The quotient lies between neighbouring powers of two. *)
Lemma log2_quotient a b : 0 < a -> 0 < b -> -1074 <= Z.log2 a - Z.log2 b - 1 ->
  b * w (Z.log2 a - Z.log2 b - 1) < a * w 0 /\ a * w 0 < b * w (Z.log2 a - Z.log2 b + 1).
Proof.
  intros Ha Hb Hr. pose proof (Z.log2_spec a Ha) as La. pose proof (Z.log2_spec b Hb) as Lb.
  pose proof (Z.log2_nonneg a) as Na. pose proof (Z.log2_nonneg b) as Nb.
  set (x := Z.log2 a) in *. set (y := Z.log2 b) in *.
  assert (Pa : 0 < 2 ^ x) by (apply Z.pow_pos_nonneg; lia). assert (Pb : 0 < 2 ^ y) by (apply Z.pow_pos_nonneg; lia).
  assert (E : w (x - y - 1) * 2 ^ (Z.succ y) = w 0 * 2 ^ x).
  { rewrite <- (w_nonneg x) by lia. rewrite <- w_add by lia. f_equal. lia. }
  assert (E2 : w (x - y + 1) = w (x - y - 1) * 4).
  { replace (x - y + 1) with (x - y - 1 + 2) by lia. rewrite w_add by lia. reflexivity. }
  rewrite Z.pow_succ_r in La, Lb, E by lia.
  pose proof (w_pos 0 ltac:(lia)) as P0. pose proof (w_pos (x - y - 1) Hr) as P1. rewrite E2.
  split; nia.
Qed.

Lemma exponent_spec a b : 0 < a -> 0 < b ->
  let k := exponent a b in
  -1074 <= k /\ a * w 0 < b * w (k + 53) /\ (k = -1074 \/ b * w (k + 52) <= a * w 0).
Proof.
  intros Ha Hb. cbv zeta. unfold exponent. set (t := Z.log2 a - Z.log2 b - 53).
  pose proof (Z.le_max_l (-1074) t) as M1.
  destruct (below a b (Z.max (-1074) t + 53)) eqn:E.
  - apply below_iff in E; [|lia..]. split; [exact M1|]. split; [exact E|].
    destruct (Z.leb_spec t (-1074)) as [H|H]; [left; lia|]. right. rewrite Z.max_r by lia.
    destruct (log2_quotient a b Ha Hb ltac:(lia)) as [L _].
    replace (t + 52) with (Z.log2 a - Z.log2 b - 1) by (unfold t; lia). lia.
  - assert (G : b * w (Z.max (-1074) t + 53) <= a * w 0).
    { destruct (Z.ltb_spec (a * w 0) (b * w (Z.max (-1074) t + 53))) as [H|H]; [|exact H].
      apply below_iff in H; [congruence|lia..]. }
    split; [lia|]. split.
    + destruct (Z.leb_spec (-1074) (Z.log2 a - Z.log2 b - 1)) as [H|H].
      * destruct (log2_quotient a b Ha Hb H) as [_ L].
        eapply Z.lt_le_trans; [exact L|]. apply Z.mul_le_mono_nonneg_l; [lia|]. apply w_mono; lia.
      * (* the quotient is far below the least exponent *)
        exfalso. clear E.
        pose proof (Z.log2_spec a Ha) as La. pose proof (Z.log2_spec b Hb) as Lb.
        pose proof (Z.log2_nonneg a) as Na. pose proof (Z.log2_nonneg b) as Nb.
        assert (P : w (Z.max (-1074) t + 53) >= 2) by (rewrite w_53 by lia; pose proof (w_pos (Z.max (-1074) t) ltac:(lia)); lia).
        assert (Q : a * w 0 < 2 * b).
        { assert (R : 2 ^ Z.succ (Z.log2 a) * w 0 <= 2 ^ (Z.succ (Z.log2 b))).
          { rewrite Z.mul_comm, <- w_nonneg by lia. rewrite <- (w_from (Z.succ (Z.log2 b))). apply w_mono; lia. }
          rewrite (Z.pow_succ_r 2 (Z.log2 b)) in R by lia. pose proof (w_pos 0 ltac:(lia)). nia. }
        nia.
    + right. replace (Z.max (-1074) t + 1 + 52) with (Z.max (-1074) t + 53) by lia. exact G.
Qed.

(** ** Reading *)

(** (n, k) is a double, written with the only exponent it can have. *)
Definition normal (n k : Z) : Prop :=
  0 <= n < 9007199254740992 /\ -1074 <= k <= 971 /\ (k = -1074 \/ 4503599627370496 <= n).

(** the error is at most half a unit in the last place, and at most half the
    smaller unit just below a power of two *)
Lemma double_of_spec a b n k : 0 < a -> 0 < b -> double_of a b = Some (n, k) ->
  normal n k
  /\ 2 * (a * w 0) - b * w k <= 2 * (n * b * w k) <= 2 * (a * w 0) + b * w k.
Proof.
  intros Ha Hb. unfold double_of. destruct (exponent_spec a b Ha Hb) as (E1 & E2 & E3).
  set (k0 := exponent a b) in *.
  set (n0 := if 0 <=? k0 then round_ratio a (b * 2 ^ k0) else round_ratio (a * 2 ^ (- k0)) b).
  assert (R : n0 = round_ratio (a * w 0) (b * w k0)).
  { unfold n0. destruct (Z.leb_spec 0 k0) as [H|H].
    - rewrite (w_nonneg k0 H). rewrite <- (round_ratio_scale (w 0)); [f_equal; ring|apply w_pos; lia|].
      apply Z.mul_pos_pos; [lia|]. apply Z.pow_pos_nonneg; lia.
    - rewrite (w_neg k0) by lia. rewrite <- (round_ratio_scale (w k0)); [f_equal; ring|apply w_pos; lia|lia]. }
  pose proof (w_pos k0 E1) as P. pose proof (w_pos 0 ltac:(lia)) as P0.
  assert (Pb : 0 < b * w k0) by nia.
  pose proof (round_ratio_near (a * w 0) (b * w k0) Pb) as N. rewrite <- R in N.
  pose proof (round_ratio_nonneg (a * w 0) (b * w k0) ltac:(nia) Pb) as Nn. rewrite <- R in Nn.
  rewrite w_53 in E2 by exact E1. rewrite w_52 in E3 by exact E1.
  assert (U : n0 <= 9007199254740992) by nia.
  assert (L : k0 = -1074 \/ 4503599627370496 <= n0) by (destruct E3 as [E3|E3]; [left; exact E3|right; nia]).
  clearbody n0. clear R E2 E3. change (2 ^ 53) with 9007199254740992. change (2 ^ 52) with 4503599627370496.
  destruct (Z.eqb_spec n0 9007199254740992) as [->|Hn].
  - destruct (Z.leb_spec (k0 + 1) 971) as [H|H]; [|discriminate]. intros [= <- <-].
    rewrite w_succ by exact E1. split; [unfold normal; split; [lia|split; [lia|right; lia]]|]. nia.
  - destruct (Z.leb_spec k0 971) as [H|H]; [|discriminate]. intros [= <- <-].
    split; [unfold normal; split; [lia|split; [lia|exact L]]|]. nia.
Qed.

Lemma normal_unique n k n' k' : normal n k -> normal n' k' -> n * w k = n' * w k' -> n = n' /\ k = k'.
Proof.
  intros (N1 & N2 & N3) (M1 & M2 & M3) E.
  pose proof (w_pos k ltac:(lia)) as P. pose proof (w_pos k' ltac:(lia)) as P'.
  destruct (Z.lt_trichotomy k k') as [L|[->|L]].
  - exfalso. pose proof (w_lt k k' ltac:(lia) L). destruct M3 as [M3|M3]; [lia|]. nia.
  - split; [nia|reflexivity].
  - exfalso. pose proof (w_lt k' k ltac:(lia) L). destruct N3 as [N3|N3]; [lia|]. nia.
Qed.

Lemma scaled_pos x b k : 0 < x -> 0 < b -> 0 < fst (scaled x b k) /\ 0 < snd (scaled x b k).
Proof.
  intros Hx Hb. unfold scaled. destruct (Z.leb_spec 0 k) as [H|H]; cbn [fst snd].
  - pose proof (Z.pow_pos_nonneg b k Hb H). split; [nia|lia].
  - pose proof (Z.pow_pos_nonneg b (- k) Hb ltac:(lia)). split; assumption.
Qed.

Lemma read_spec m e n k : m <> 0%N -> read_decimal m e = Some (n, k) -> normal n k.
Proof.
  intros Hm. unfold read_decimal. pose proof (scaled_pos (Z.of_N m) 10 e ltac:(lia) ltac:(lia)) as [A B].
  destruct (scaled (Z.of_N m) 10 e) as [a b]. cbn [fst snd] in A, B. intros H. now apply double_of_spec in H.
Qed.

(** ** Printing, then reading *)

Lemma same_double_eq x y : same_double x y = true <-> x = y.
Proof.
  destruct x as [[n k]|], y as [[n' k']|]; cbn [same_double]; try (split; [discriminate|discriminate]); try tauto.
  rewrite andb_true_iff, !Z.eqb_eq. split; [intros [-> ->]; reflexivity|]. intros [= -> ->]. now split.
Qed.
Lemma candidate_spec n k m e : candidate n k m e = true ->
  0 < m /\ m mod 10 <> 0 /\ read_decimal (Z.to_N m) e = Some (n, k).
Proof.
  unfold candidate. rewrite !andb_true_iff, Z.ltb_lt, negb_true_iff, Z.eqb_neq, same_double_eq. tauto.
Qed.
Lemma numeral_at_spec n k e m : numeral_at n k e = Some m ->
  m <> 0%N /\ (m mod 10 <> 0)%N /\ read_decimal m e = Some (n, k).
Proof.
  assert (X : forall z, candidate n k z e = true -> Z.to_N z <> 0%N /\ (Z.to_N z mod 10 <> 0)%N /\ read_decimal (Z.to_N z) e = Some (n, k)).
  { intros z H. apply candidate_spec in H as (H1 & H2 & H3). split; [lia|]. split; [|exact H3].
    intros G. apply H2. rewrite <- (Z2N.id z) by lia. change 10 with (Z.of_N 10). rewrite <- N2Z.inj_mod. now rewrite G. }
  unfold numeral_at. destruct (scaled n 2 k) as [a b]. destruct (scaled 1 10 e) as [c d]. cbv zeta.
  match goal with |- (if candidate n k ?a e then _ else if candidate n k ?b e then _ else _) = _ -> _ =>
    generalize a b; intros near other end.
  destruct (candidate n k near e) eqn:E1; [intros [= <-]; now apply X|].
  destruct (candidate n k other e) eqn:E2; [intros [= <-]; now apply X|discriminate].
Qed.
Lemma shortest_spec n k fuel : forall e m e', shortest n k fuel e = Some (m, e') ->
  m <> 0%N /\ (m mod 10 <> 0)%N /\ read_decimal m e' = Some (n, k).
Proof.
  induction fuel as [|fuel IH]; intros e m e' H; [discriminate|]. cbn [shortest] in H.
  destruct (numeral_at n k e) as [x|] eqn:E; [|now apply IH in H]. injection H as <- <-. now apply numeral_at_spec.
Qed.

(** a numeral printed is read as the same double, and printed the same *)
Lemma reprint_again m e m' e' : (m <> 0%N -> m mod 10 <> 0)%N -> (m = 0%N -> e = 0) ->
  reprint m e = Some (m', e') -> is_repr m' e' = true /\ (m' = 0%N -> e' = 0) /\ ((m' <> 0 -> m' mod 10 <> 0)%N).
Proof.
  intros Hc Hz H. unfold reprint in H.
  assert (Z0 : forall a, is_repr 0 a = (0 =? 0) && (a =? 0)) by reflexivity.
  destruct (N.eqb_spec m 0) as [Hm|Hm]; [injection H as <- <-; split; [reflexivity|split; [reflexivity|now intros []]]|].
  destruct (read_decimal m e) as [[n k]|] eqn:R; [|discriminate].
  destruct (Z.eqb_spec n 0) as [->|Hn]; [injection H as <- <-; split; [reflexivity|split; [reflexivity|now intros []]]|].
  destruct (repr_of n k) as [[m1 e1]|] eqn:P; injection H as <- <-.
  - unfold repr_of in P. pose proof (shortest_spec _ _ _ _ _ _ P) as (M1 & M2 & M3). fold (repr_of n k) in P.
    split; [|split; [intros E; now elim M1|intros _; exact M2]].
    unfold is_repr, reprint. destruct (N.eqb_spec m1 0) as [E|_]; [now elim M1|].
    rewrite M3. destruct (Z.eqb_spec n 0) as [E|_]; [now elim Hn|]. rewrite P. now rewrite N.eqb_refl, Z.eqb_refl.
  - split; [|split; [intros E; now elim Hm|exact Hc]].
    unfold is_repr, reprint. destruct (N.eqb_spec m 0) as [E|_]; [now elim Hm|].
    rewrite R. destruct (Z.eqb_spec n 0) as [E|_]; [now elim Hn|]. rewrite P. now rewrite N.eqb_refl, Z.eqb_refl.
Qed.


(** ** Every double has a numeral *)

(** the exponent is the only one that fits *)
Lemma exponent_unique a b k : 0 < a -> 0 < b -> -1074 <= k -> a * w 0 < b * w (k + 53) ->
  (k = -1074 \/ b * w (k + 52) <= a * w 0) -> exponent a b = k.
Proof.
  intros Ha Hb K1 K2 K3. destruct (exponent_spec a b Ha Hb) as (E1 & E2 & E3). set (k0 := exponent a b) in *.
  destruct (Z.lt_trichotomy k0 k) as [L|[L|L]]; [|exact L|]; exfalso.
  - destruct K3 as [K3|K3]; [lia|]. pose proof (w_mono (k0 + 53) (k + 52) ltac:(lia) ltac:(lia)). nia.
  - destruct E3 as [E3|E3]; [lia|]. pose proof (w_mono (k + 53) (k0 + 52) ltac:(lia) ltac:(lia)). nia.
Qed.
Lemma double_of_at a b k : 0 < a -> 0 < b -> exponent a b = k -> -1074 <= k ->
  double_of a b = (let n := round_ratio (a * w 0) (b * w k) in
                   let '(n, k) := if n =? 9007199254740992 then (4503599627370496, k + 1) else (n, k) in
                   if k <=? 971 then Some (n, k) else None).
Proof.
  intros Ha Hb E K. unfold double_of. rewrite E. cbv zeta.
  change (2 ^ 53) with 9007199254740992. change (2 ^ 52) with 4503599627370496.
  replace (if 0 <=? k then round_ratio a (b * 2 ^ k) else round_ratio (a * 2 ^ (- k)) b)
    with (round_ratio (a * w 0) (b * w k)); [reflexivity|].
  destruct (Z.leb_spec 0 k) as [H|H].
  - rewrite (w_nonneg k H). rewrite <- (round_ratio_scale (w 0) a); [f_equal; ring|apply w_pos; lia|].
    apply Z.mul_pos_pos; [lia|]. apply Z.pow_pos_nonneg; lia.
  - rewrite (w_neg k) by lia. rewrite <- (round_ratio_scale (w k) _ b); [f_equal; ring|apply w_pos; lia|lia].
Qed.

(** what is within a quarter of a unit of a double is read as it *)
Lemma near_double a b n k : 0 < a -> 0 < b -> normal n k -> 0 < n ->
  4 * (n * b * w k) - b * w k < 4 * (a * w 0) < 4 * (n * b * w k) + b * w k -> double_of a b = Some (n, k).
Proof.
  intros Ha Hb (N1 & N2 & N3) Hn H. pose proof (w_pos k ltac:(lia)) as P. pose proof (w_pos 0 ltac:(lia)) as P0.
  assert (Q : 0 < b * w k) by nia.
  assert (C : (k = -1074 \/ b * w (k + 52) <= a * w 0) \/ (n = 4503599627370496 /\ k <> -1074 /\ a * w 0 < b * w (k + 52))).
  { destruct (Z.eq_dec k (-1074)) as [E|E]; [left; left; exact E|]. destruct N3 as [N3|N3]; [lia|].
    destruct (Z.leb_spec (b * w (k + 52)) (a * w 0)) as [L|L]; [left; right; exact L|]. right.
    split; [|split; [exact E|exact L]]. rewrite w_52 in L by lia. nia. }
  destruct C as [C|(-> & C1 & C2)].
  - assert (E : exponent a b = k).
    { apply exponent_unique; try lia. rewrite w_53 by lia. nia. }
    rewrite (double_of_at a b k Ha Hb E ltac:(lia)). cbv zeta.
    rewrite (round_ratio_unique _ _ n Q) by nia.
    destruct (Z.eqb_spec n 9007199254740992) as [G|_]; [lia|]. destruct (Z.leb_spec k 971) as [_|G]; [reflexivity|lia].
  - assert (W : w k = w (k - 1) * 2) by (rewrite <- w_succ by lia; f_equal; lia).
    pose proof (w_pos (k - 1) ltac:(lia)) as P1. assert (Q1 : 0 < b * w (k - 1)) by nia.
    assert (E : exponent a b = k - 1).
    { apply exponent_unique; try lia.
      - replace (k - 1 + 53) with (k + 52) by lia. exact C2.
      - right. rewrite w_52 by lia. nia. }
    rewrite (double_of_at a b (k - 1) Ha Hb E ltac:(lia)). cbv zeta.
    rewrite (round_ratio_unique _ _ 9007199254740992 Q1) by (rewrite W in H; nia).
    rewrite Z.eqb_refl. replace (k - 1 + 1) with k by lia. destruct (Z.leb_spec k 971) as [_|G]; [reflexivity|lia].
Qed.

(** powers of ten, counted from 10^-330 on *)
Definition t (e : Z) : Z := 10 ^ (e + 330).
Lemma t_pos e : -330 <= e -> 0 < t e.
Proof. intros H. apply Z.pow_pos_nonneg; lia. Qed.
Lemma t_add e j : -330 <= e -> 0 <= j -> t (e + j) = t e * 10 ^ j.
Proof. intros H1 H2. unfold t. replace (e + j + 330) with (e + 330 + j) by lia. apply Z.pow_add_r; lia. Qed.
Lemma t_succ e : -330 <= e -> t (e + 1) = t e * 10.
Proof. intros H. rewrite t_add by lia. reflexivity. Qed.
Lemma t_nonneg e : 0 <= e -> t e = t 0 * 10 ^ e.
Proof. intros H. rewrite <- (t_add 0 e) by lia. now rewrite Z.add_0_l. Qed.
Lemma t_neg e : -330 <= e -> e <= 0 -> t 0 = t e * 10 ^ (- e).
Proof. intros H1 H2. rewrite <- t_add by lia. f_equal. lia. Qed.
Lemma t_mono j k : -330 <= j -> j <= k -> t j <= t k.
Proof. intros H1 H2. unfold t. apply Z.pow_le_mono_r; lia. Qed.
Lemma t_least : t (-330) = 1. Proof. reflexivity. Qed.
(** the two scales compared: 10^-330 is below 2^-1076, and 8^s below 10^s *)
Lemma scales_low : 4 * w 0 < t 0 * w (-1074).
Proof.
  replace (w 0) with (2 ^ 1074) by (symmetry; exact (w_from 1074)).
  replace (w (-1074)) with (2 ^ 0) by (symmetry; exact (w_from 0)). unfold t. now vm_compute.
Qed.
Lemma eight_ten s : 0 <= s -> 2 ^ (3 * s) <= 10 ^ s.
Proof. intros H. rewrite Z.pow_mul_r by lia. apply Z.pow_le_mono_l. lia. Qed.
Lemma top_above k : -1074 <= k -> w (k + 53) * t 0 <= t (top_exponent k) * w 0.
Proof.
  intros H. unfold top_exponent. set (s := Z.max 1 ((k + 53) / 3 + 1)).
  assert (S1 : 1 <= s) by (unfold s; lia).
  assert (S2 : k + 53 <= 3 * s).
  { unfold s. pose proof (Z.div_mod (k + 53) 3 ltac:(lia)). pose proof (Z.mod_pos_bound (k + 53) 3 ltac:(lia)). lia. }
  rewrite (t_nonneg s) by lia. pose proof (w_mono (k + 53) (3 * s) ltac:(lia) S2) as M.
  rewrite (w_nonneg (3 * s)) in M by lia. pose proof (eight_ten s ltac:(lia)) as T.
  pose proof (w_pos 0 ltac:(lia)) as W. pose proof (t_pos 0 ltac:(lia)) as T0.
  replace (t 0 * 10 ^ s * w 0) with (w 0 * 10 ^ s * t 0) by ring. apply Z.mul_le_mono_nonneg_r; [lia|].
  eapply Z.le_trans; [exact M|]. apply Z.mul_le_mono_nonneg_l; lia.
Qed.
Lemma scales_high : 1000000000000000 * t 290 * w 0 < t 0 * w 1014.
Proof.
  replace (w 0) with (2 ^ 1074) by (symmetry; exact (w_from 1074)).
  replace (w 1014) with (2 ^ 2088) by (symmetry; exact (w_from 2088)). unfold t. now vm_compute.
Qed.
Lemma scales_mid : t 0 * w (-970) < t (-290) * w 0.
Proof.
  replace (w 0) with (2 ^ 1074) by (symmetry; exact (w_from 1074)).
  replace (w (-970)) with (2 ^ 104) by (symmetry; exact (w_from 104)). unfold t. now vm_compute.
Qed.
Global Opaque t.

Lemma scaled_ten x e a b : -330 <= e -> scaled x 10 e = (a, b) -> a * t 0 = x * t e * b /\ 0 < b.
Proof.
  intros H. unfold scaled. destruct (Z.leb_spec 0 e) as [L|L]; intros [= <- <-].
  - rewrite (t_nonneg e L). split; [ring|lia].
  - rewrite (t_neg e) by lia. split; [ring|]. apply Z.pow_pos_nonneg; lia.
Qed.
Lemma scaled_two x k a b : -1074 <= k -> scaled x 2 k = (a, b) -> a * w 0 = x * w k * b /\ 0 < b.
Proof.
  intros H. unfold scaled. destruct (Z.leb_spec 0 k) as [L|L]; intros [= <- <-].
  - rewrite (w_nonneg k L). split; [ring|lia].
  - rewrite (w_neg k) by lia. split; [ring|]. apply Z.pow_pos_nonneg; lia.
Qed.

(** reading in these terms *)
Lemma read_error m e n k : m <> 0%N -> -330 <= e -> read_decimal m e = Some (n, k) ->
  2 * (Z.of_N m * t e * w 0) - t 0 * w k <= 2 * (n * w k * t 0) <= 2 * (Z.of_N m * t e * w 0) + t 0 * w k.
Proof.
  intros Hm He. unfold read_decimal. pose proof (scaled_pos (Z.of_N m) 10 e ltac:(lia) ltac:(lia)) as [A B].
  destruct (scaled (Z.of_N m) 10 e) as [a b] eqn:S. cbn [fst snd] in A, B. apply scaled_ten in S as [S _]; [|exact He].
  intros H. apply double_of_spec in H as [_ H]; [|exact A|exact B].
  pose proof (t_pos 0 ltac:(lia)) as T0.
  assert (G : t 0 * (2 * (a * w 0) - b * w k) <= t 0 * (2 * (n * b * w k)) <= t 0 * (2 * (a * w 0) + b * w k)) by nia.
  replace (t 0 * (2 * (a * w 0) - b * w k)) with (b * (2 * (Z.of_N m * t e * w 0) - t 0 * w k)) in G
    by (transitivity (2 * (a * t 0) * w 0 - t 0 * b * w k); [rewrite S|]; ring).
  replace (t 0 * (2 * (a * w 0) + b * w k)) with (b * (2 * (Z.of_N m * t e * w 0) + t 0 * w k)) in G
    by (transitivity (2 * (a * t 0) * w 0 + t 0 * b * w k); [rewrite S|]; ring).
  replace (t 0 * (2 * (n * b * w k))) with (b * (2 * (n * w k * t 0))) in G by ring.
  split; apply (Z.mul_le_mono_pos_l _ _ b); lia.
Qed.
Lemma read_near m e n k : m <> 0%N -> -330 <= e -> normal n k -> 0 < n ->
  4 * (n * w k * t 0) - t 0 * w k < 4 * (Z.of_N m * t e * w 0) < 4 * (n * w k * t 0) + t 0 * w k ->
  read_decimal m e = Some (n, k).
Proof.
  intros Hm He Hn Hp H. unfold read_decimal. pose proof (scaled_pos (Z.of_N m) 10 e ltac:(lia) ltac:(lia)) as [A B].
  destruct (scaled (Z.of_N m) 10 e) as [a b] eqn:S. cbn [fst snd] in A, B. apply scaled_ten in S as [S _]; [|exact He].
  pose proof (t_pos 0 ltac:(lia)) as T0. apply near_double; try assumption.
  assert (G : b * (4 * (n * w k * t 0) - t 0 * w k) < b * (4 * (Z.of_N m * t e * w 0)) < b * (4 * (n * w k * t 0) + t 0 * w k)) by nia.
  replace (b * (4 * (Z.of_N m * t e * w 0))) with (t 0 * (4 * (a * w 0))) in G
    by (transitivity (4 * (a * t 0) * w 0); [|rewrite S]; ring).
  replace (b * (4 * (n * w k * t 0) - t 0 * w k)) with (t 0 * (4 * (n * b * w k) - b * w k)) in G by ring.
  replace (b * (4 * (n * w k * t 0) + t 0 * w k)) with (t 0 * (4 * (n * b * w k) + b * w k)) in G by ring.
  split; apply (Z.mul_lt_mono_pos_l (t 0)); lia.
Qed.

Lemma round_ratio_eq a b a' b' : 0 < b -> 0 < b' -> a * b' = a' * b -> round_ratio a b = round_ratio a' b' /\ a / b = a' / b'.
Proof.
  intros Hb Hb' E. split.
  - rewrite <- (round_ratio_scale b' a b), <- (round_ratio_scale b a' b') by assumption. f_equal; lia.
  - rewrite <- (Z.div_mul_cancel_r a b b'), <- (Z.div_mul_cancel_r a' b' b) by lia. f_equal; lia.
Qed.

Lemma numeral_at_terms n k e : -1074 <= k -> -330 <= e ->
  numeral_at n k e =
    (let near := round_ratio (n * w k * t 0) (w 0 * t e) in
     let other := if near =? n * w k * t 0 / (w 0 * t e) then near + 1 else near - 1 in
     if candidate n k near e then Some (Z.to_N near)
     else if candidate n k other e then Some (Z.to_N other) else None).
Proof.
  intros Hk He. unfold numeral_at. destruct (scaled n 2 k) as [a b] eqn:S. destruct (scaled 1 10 e) as [c d] eqn:T.
  pose proof (scaled_pos 1 10 e ltac:(lia) ltac:(lia)) as [C D]. rewrite T in C, D. cbn [fst snd] in C, D.
  apply scaled_two in S as [S B]; [|exact Hk]. apply scaled_ten in T as [T _]; [|exact He].
  pose proof (t_pos e He) as Te. pose proof (t_pos 0 ltac:(lia)) as T0. pose proof (w_pos 0 ltac:(lia)) as W0.
  destruct (round_ratio_eq (a * d) (b * c) (n * w k * t 0) (w 0 * t e)) as [-> ->]; [nia|nia| |reflexivity].
  transitivity (a * w 0 * (1 * t e * d)); [ring|]. rewrite S, <- T. ring.
Qed.

Lemma close_floor m X D : 0 < D -> X - D < m * D < X + D -> m = X / D \/ m = X / D + 1.
Proof.
  intros HD H. pose proof (Z.div_mod X D ltac:(lia)). pose proof (Z.mod_pos_bound X D HD). nia.
Qed.
Lemma near_floor X D : 0 < D -> round_ratio X D = X / D \/ round_ratio X D = X / D + 1.
Proof. intros HD. unfold round_ratio. destruct (Z.compare _ _); [destruct (Z.even _)|..]; auto. Qed.

Lemma candidate_iff n k m e : 0 < m -> m mod 10 <> 0 -> read_decimal (Z.to_N m) e = Some (n, k) -> candidate n k m e = true.
Proof.
  intros H1 H2 H3. unfold candidate. rewrite !andb_true_iff, Z.ltb_lt, negb_true_iff, Z.eqb_neq, same_double_eq. tauto.
Qed.
Lemma numeral_some n k e m : -1074 <= k -> -330 <= e -> 0 < m -> m mod 10 <> 0 ->
  n * w k * t 0 - w 0 * t e < m * (w 0 * t e) < n * w k * t 0 + w 0 * t e ->
  read_decimal (Z.to_N m) e = Some (n, k) -> numeral_at n k e <> None.
Proof.
  intros Hk He Hm Ht H R. rewrite numeral_at_terms by assumption. cbv zeta.
  pose proof (t_pos e He) as Te. pose proof (w_pos 0 ltac:(lia)) as W0. assert (D : 0 < w 0 * t e) by nia.
  pose proof (candidate_iff n k m e Hm Ht R) as C.
  set (X := n * w k * t 0) in *. set (DD := w 0 * t e) in *.
  pose proof (close_floor m X DD D H) as F. pose proof (near_floor X DD D) as G.
  destruct (Z.eqb_spec (round_ratio X DD) (X / DD)) as [E|E].
  - rewrite E. destruct F as [<-|<-]; rewrite C; [|destruct (candidate n k (X / DD) e)]; discriminate.
  - destruct G as [G|G]; [now elim E|]. rewrite G. replace (X / DD + 1 - 1) with (X / DD) by lia.
    destruct F as [<-|<-]; rewrite C; [destruct (candidate n k (m + 1) e)|]; discriminate.
Qed.

Lemma read_tens m e : -330 <= e -> (m <> 0)%N -> read_decimal (10 * m) e = read_decimal m (e + 1).
Proof.
  intros He Hm. unfold read_decimal.
  pose proof (scaled_pos (Z.of_N (10 * m)) 10 e ltac:(lia) ltac:(lia)) as [A B].
  pose proof (scaled_pos (Z.of_N m) 10 (e + 1) ltac:(lia) ltac:(lia)) as [A' B'].
  destruct (scaled (Z.of_N (10 * m)) 10 e) as [a b] eqn:S. destruct (scaled (Z.of_N m) 10 (e + 1)) as [a' b'] eqn:S'.
  cbn [fst snd] in *. apply scaled_ten in S as [S _]; [|lia]. apply scaled_ten in S' as [S' _]; [|lia].
  rewrite t_succ in S' by lia.
  assert (E : a * b' = a' * b).
  { pose proof (t_pos 0 ltac:(lia)). apply (Z.mul_reg_r _ _ (t 0)); [lia|].
    transitivity (a * t 0 * b'); [ring|]. rewrite S. transitivity (a' * t 0 * b); [|ring]. rewrite S'.
    replace (Z.of_N (10 * m)) with (10 * Z.of_N m) by lia. ring. }
  destruct (exponent_spec a b A B) as (E1 & E2 & E3). pose proof (w_pos 0 ltac:(lia)) as W0.
  assert (X : forall y, a * w 0 < b * y <-> a' * w 0 < b' * y).
  { intros y. split; intros H.
    - apply (proj2 (Z.mul_lt_mono_pos_r b _ _ B)). replace (a' * w 0 * b) with (a * w 0 * b') by (transitivity (a' * b * w 0); [rewrite <- E|]; ring). nia.
    - apply (proj2 (Z.mul_lt_mono_pos_r b' _ _ B')). replace (a * w 0 * b') with (a' * w 0 * b) by (transitivity (a' * b * w 0); [|rewrite <- E]; ring). nia. }
  assert (E' : exponent a' b' = exponent a b).
  { apply exponent_unique; try assumption; [now apply X|]. destruct E3 as [E3|E3]; [left; exact E3|right].
    destruct (Z.leb_spec (b' * w (exponent a b + 52)) (a' * w 0)) as [L|L]; [exact L|]. apply X in L. lia. }
  rewrite (double_of_at a b (exponent a b) A B eq_refl E1), (double_of_at a' b' (exponent a b) A' B' E' E1). cbv zeta.
  pose proof (w_pos (exponent a b) E1) as W.
  destruct (round_ratio_eq (a * w 0) (b * w (exponent a b)) (a' * w 0) (b' * w (exponent a b))) as [-> _]; [nia|nia| |reflexivity].
  transitivity (a * b' * w 0 * w (exponent a b)); [ring|]. rewrite E. ring.
Qed.

(** a numeral read as the double, near enough, can be shortened to one the search finds *)
Lemma shorten n k : normal n k -> 0 < n -> forall m e, -330 <= e -> 0 < m ->
  n * w k * t 0 - w 0 * t e < m * (w 0 * t e) < n * w k * t 0 + w 0 * t e ->
  read_decimal (Z.to_N m) e = Some (n, k) ->
  exists e', e <= e' /\ numeral_at n k e' <> None.
Proof.
  intros Hn Hp m. pattern m. apply (well_founded_induction (Z.lt_wf 0)). clear m. intros m IH e He Hm H R.
  pose proof (t_pos e He) as Te. pose proof (w_pos 0 ltac:(lia)) as W0.
  destruct (Z.eq_dec (m mod 10) 0) as [M|M].
  - pose proof (Z.div_mod m 10 ltac:(lia)) as D. rewrite M, Z.add_0_r in D.
    destruct (IH (m / 10)) with (e := e + 1) as (e' & L & G); [lia|lia|lia| | |].
    + rewrite t_succ by lia. rewrite D in H. set (q := m / 10) in *. set (X := n * w k * t 0) in *. nia.
    + rewrite <- read_tens by lia. rewrite <- R. f_equal. rewrite D at 2. rewrite Z2N.inj_mul by lia. reflexivity.
    + exists e'. split; [lia|exact G].
  - exists e. split; [lia|]. refine (numeral_some n k e m _ He Hm M H R). destruct Hn as (_ & Hk & _). lia.
Qed.

Lemma shortest_none n k fuel : forall e, shortest n k fuel e = None ->
  forall e', e - Z.of_nat fuel < e' -> e' <= e -> numeral_at n k e' = None.
Proof.
  induction fuel as [|fuel IH]; intros e H e' L1 L2; [lia|]. cbn [shortest] in H.
  destruct (numeral_at n k e) as [m|] eqn:E; [discriminate|].
  destruct (Z.eq_dec e' e) as [->|N]; [exact E|]. apply (IH (e - 1) H); lia.
Qed.

(** the search goes far enough up: no numeral above it is read as the double *)
Lemma numeral_below_top n k m e : normal n k -> m <> 0%N -> top_exponent k < e -> read_decimal m e <> Some (n, k).
Proof.
  intros (N1 & N2 & N3) Hm He R. assert (T1 : 1 <= top_exponent k) by (unfold top_exponent; lia).
  apply read_error in R as [R1 R2]; [|exact Hm|lia].
  pose proof (top_above k ltac:(lia)) as T. rewrite w_53 in T by lia.
  pose proof (t_mono (top_exponent k + 1) e ltac:(lia) ltac:(lia)) as M. rewrite t_succ in M by lia.
  pose proof (w_pos 0 ltac:(lia)). pose proof (w_pos k ltac:(lia)). pose proof (t_pos 0 ltac:(lia)). pose proof (t_pos (top_exponent k) ltac:(lia)).
  assert (G : t (top_exponent k) * 10 * w 0 <= Z.of_N m * t e * w 0).
  { apply Z.mul_le_mono_nonneg_r; [lia|]. assert (1 <= Z.of_N m) by lia. nia. }
  set (y := Z.of_N m * t e * w 0) in *. set (u := w k * t 0) in *. assert (U : 0 < u) by (unfold u; nia).
  replace (t 0 * w k) with u in * by (unfold u; ring). replace (n * w k * t 0) with (n * u) in * by (unfold u; ring).
  replace (w k * 9007199254740992 * t 0) with (u * 9007199254740992) in T by (unfold u; ring). nia.
Qed.

(** every double but zero is printed *)
Theorem repr_total n k : normal n k -> 0 < n -> exists m e, repr_of n k = Some (m, e).
Proof.
  intros Hn Hp. pose proof Hn as (N1 & N2 & N3).
  pose proof (w_pos 0 ltac:(lia)) as W0. pose proof (w_pos k ltac:(lia)) as Wk. pose proof (t_pos 0 ltac:(lia)) as T0.
  set (X := n * w k * t 0). assert (D : 0 < w 0 * t (-330)) by (rewrite t_least; lia).
  assert (S : 4 * w 0 < t 0 * w k).
  { pose proof scales_low. pose proof (w_mono (-1074) k ltac:(lia) ltac:(lia)). nia. }
  set (m := round_ratio X (w 0 * t (-330))).
  pose proof (round_ratio_near X (w 0 * t (-330)) D) as R. fold m in R. rewrite t_least, Z.mul_1_r in *.
  assert (XL : t 0 * w k <= X) by (unfold X; nia).
  assert (Hm : 0 < m) by nia.
  destruct (shorten n k Hn Hp m (-330)) as (e' & L & G); [lia|exact Hm| | |].
  - rewrite t_least. fold X. nia.
  - apply read_near; [lia|lia|exact Hn|exact Hp|]. rewrite t_least, Z2N.id by lia. fold X. nia.
  - destruct (repr_of n k) as [[m1 e1]|] eqn:E; [now exists m1, e1|]. exfalso. apply G.
    assert (T1 : 1 <= top_exponent k) by (unfold top_exponent; lia).
    destruct (Z.leb_spec e' (top_exponent k)) as [LT|LT].
    + unfold repr_of in E. apply (shortest_none _ _ _ _ E); lia.
    + destruct (numeral_at n k e') as [x|] eqn:EX; [|reflexivity]. exfalso.
      apply numeral_at_spec in EX as (X1 & _ & X3). exact (numeral_below_top n k x e' Hn X1 LT X3).
Qed.

(** two printed numerals of the same double are the same numeral *)
Lemma repr_injective m e m' e' n k : m <> 0%N -> m' <> 0%N -> is_repr m e = true -> is_repr m' e' = true ->
  read_decimal m e = Some (n, k) -> read_decimal m' e' = Some (n, k) -> m = m' /\ e = e'.
Proof.
  intros Hm Hm' H H' R R'. pose proof (read_spec m e n k Hm R) as N. unfold is_repr, reprint in *.
  destruct (N.eqb_spec m 0) as [E|_]; [now elim Hm|]. destruct (N.eqb_spec m' 0) as [E|_]; [now elim Hm'|].
  rewrite R in H. rewrite R' in H'. destruct (Z.eqb_spec n 0) as [E|Hn].
  - apply andb_true_iff in H as [H _]. apply N.eqb_eq in H. now elim Hm.
  - destruct (repr_total n k N) as (m1 & e1 & E); [destruct N; lia|]. rewrite E in H, H'.
    apply andb_true_iff in H as [H1 H2]. apply andb_true_iff in H' as [H3 H4].
    apply N.eqb_eq in H1, H3. apply Z.eqb_eq in H2, H4. split; congruence.
Qed.
(** what is printed is read as a double that is not zero *)
Lemma repr_read m e : m <> 0%N -> is_repr m e = true -> exists n k, read_decimal m e = Some (n, k) /\ normal n k /\ 0 < n.
Proof.
  intros Hm H. unfold is_repr, reprint in H. destruct (N.eqb_spec m 0) as [E|_]; [now elim Hm|].
  destruct (read_decimal m e) as [[n k]|] eqn:R; [|discriminate]. pose proof (read_spec m e n k Hm R) as N.
  exists n, k. split; [reflexivity|]. split; [exact N|]. destruct (Z.eqb_spec n 0) as [->|Hn].
  - apply andb_true_iff in H as [H _]. apply N.eqb_eq in H. now elim Hm.
  - destruct N. lia.
Qed.

(** ** Numerals of at most fifteen digits *)

Lemma shortest_finds n k m e : numeral_at n k e = Some m -> forall fuel e0, e <= e0 -> e0 - e < Z.of_nat fuel ->
  (forall e', e < e' -> e' <= e0 -> numeral_at n k e' = None) -> shortest n k fuel e0 = Some (m, e).
Proof.
  intros H. induction fuel as [|fuel IH]; intros e0 L1 L2 A; [lia|]. cbn [shortest].
  destruct (Z.eq_dec e e0) as [<-|N]; [now rewrite H|]. rewrite A by lia. apply IH; [lia|lia|]. intros e' L3 L4. apply A; lia.
Qed.

Lemma read_middle m e : m <> 0%N -> (m < 1000000000000000)%N -> -290 <= e -> e <= 290 ->
  exists n k, read_decimal m e = Some (n, k) /\ normal n k /\ 4503599627370496 <= n.
Proof.
  intros Hm Hd L1 L2. pose proof scales_high as high. pose proof scales_mid as mid. unfold read_decimal.
  pose proof (scaled_pos (Z.of_N m) 10 e ltac:(lia) ltac:(lia)) as [A B].
  destruct (scaled (Z.of_N m) 10 e) as [a b] eqn:S. cbn [fst snd] in A, B. apply scaled_ten in S as [S _]; [|lia].
  pose proof (t_pos 0 ltac:(lia)) as T0. pose proof (w_pos 0 ltac:(lia)) as W0. pose proof (t_pos e ltac:(lia)) as Te.
  assert (U : a * w 0 < b * w 1014).
  { apply (proj2 (Z.mul_lt_mono_pos_l (t 0) _ _ T0)). replace (t 0 * (a * w 0)) with (b * (Z.of_N m * t e * w 0)) by (transitivity (a * t 0 * w 0); [rewrite S|]; ring).
    replace (t 0 * (b * w 1014)) with (b * (t 0 * w 1014)) by ring. apply (proj1 (Z.mul_lt_mono_pos_l b _ _ B)).
    refine (Z.le_lt_trans _ (1000000000000000 * t 290 * w 0) _ _ high). apply Z.mul_le_mono_nonneg_r; [apply Z.lt_le_incl; exact W0|].
    pose proof (t_mono e 290 ltac:(lia) L2) as M. clear - M Hd Te. nia. }
  assert (V : b * w (-970) < a * w 0).
  { apply (proj2 (Z.mul_lt_mono_pos_l (t 0) _ _ T0)). replace (t 0 * (a * w 0)) with (b * (Z.of_N m * t e * w 0)) by (transitivity (a * t 0 * w 0); [rewrite S|]; ring).
    replace (t 0 * (b * w (-970))) with (b * (t 0 * w (-970))) by ring. apply (proj1 (Z.mul_lt_mono_pos_l b _ _ B)).
    refine (Z.lt_le_trans _ (t (-290) * w 0) _ mid _). apply Z.mul_le_mono_nonneg_r; [apply Z.lt_le_incl; exact W0|].
    pose proof (t_mono (-290) e ltac:(lia) L1) as M. assert (1 <= Z.of_N m) by lia. clear - M H Te. nia. }
  destruct (exponent_spec a b A B) as (E1 & E2 & E3).
  assert (K : exponent a b < 971).
  { destruct (Z.ltb_spec (exponent a b) 971) as [L|L]; [exact L|]. destruct E3 as [E3|E3]; [lia|].
    pose proof (w_mono 1014 (exponent a b + 52) ltac:(lia) ltac:(lia)). nia. }
  assert (K' : -1074 < exponent a b).
  { destruct (Z.ltb_spec (-1074) (exponent a b)) as [L|L]; [exact L|].
    pose proof (w_mono (exponent a b + 53) (-970) ltac:(lia) ltac:(lia)). nia. }
  pose proof (double_of_at a b _ A B eq_refl E1) as D. cbv zeta in D.
  set (k0 := exponent a b) in *. clearbody k0. set (r := round_ratio (a * w 0) (b * w k0)) in *. clearbody r.
  assert (D' : exists n k, double_of a b = Some (n, k) /\ -1074 < k).
  { destruct (r =? 9007199254740992).
    - exists 4503599627370496, (k0 + 1). split; [|lia]. rewrite D. destruct (Z.leb_spec (k0 + 1) 971) as [_|L]; [reflexivity|lia].
    - exists r, k0. split; [|exact K']. rewrite D. destruct (Z.leb_spec k0 971) as [_|L]; [reflexivity|lia]. }
  destruct D' as (n & k & E & L). exists n, k. split; [exact E|].
  pose proof (double_of_spec a b n k A B E) as [N _]. split; [exact N|]. destruct N as (_ & _ & [N|N]); [lia|exact N].
Qed.

Theorem repr_short m e : m <> 0%N -> (m mod 10 <> 0)%N -> (m < 1000000000000000)%N -> -290 <= e -> e <= 290 ->
  is_repr m e = true.
Proof.
  intros Hm Ht Hd L1 L2. destruct (read_middle m e Hm Hd L1 L2) as (n & k & R & N & Hn).
  pose proof N as (N1 & N2 & _).
  pose proof (t_pos 0 ltac:(lia)) as T0. pose proof (w_pos 0 ltac:(lia)) as W0. pose proof (t_pos e ltac:(lia)) as Te. pose proof (w_pos k ltac:(lia)) as Wk.
  set (u := w k * t 0). set (v := w 0 * t e). assert (U : 0 < u) by (unfold u; nia). assert (V : 0 < v) by (unfold v; nia).
  assert (Er : 2 * (Z.of_N m * v) - u <= 2 * (n * u) <= 2 * (Z.of_N m * v) + u).
  { pose proof (read_error m e n k Hm ltac:(lia) R) as G.
    replace (Z.of_N m * t e * w 0) with (Z.of_N m * v) in G by (unfold v; ring).
    replace (n * w k * t 0) with (n * u) in G by (unfold u; ring). replace (t 0 * w k) with u in G by (unfold u; ring). exact G. }
  assert (UV : u < v).
  { destruct (Z.ltb_spec u v) as [L|L]; [exact L|]. exfalso.
    assert (Z.of_N m * v <= 1000000000000000 * u) by nia. nia. }
  assert (Near : numeral_at n k e = Some m).
  { rewrite numeral_at_terms by lia. cbv zeta. replace (n * w k * t 0) with (n * u) by (unfold u; ring). fold v.
    rewrite (round_ratio_unique (n * u) v (Z.of_N m) V) by lia.
    rewrite candidate_iff; [now rewrite N2Z.id|lia| |now rewrite N2Z.id].
    change 10 with (Z.of_N 10). rewrite <- N2Z.inj_mod. lia. }
  assert (Above : forall e', e < e' -> numeral_at n k e' = None).
  { intros e' L. destruct (numeral_at n k e') as [m'|] eqn:E; [|reflexivity]. exfalso.
    apply numeral_at_spec in E as (M1 & _ & M3). pose proof (read_error m' e' n k M1 ltac:(lia) M3) as G.
    replace (n * w k * t 0) with (n * u) in G by (unfold u; ring). replace (t 0 * w k) with u in G by (unfold u; ring).
    replace e' with (e + (e' - e)) in G by lia. rewrite t_add in G by lia.
    replace (Z.of_N m' * (t e * 10 ^ (e' - e)) * w 0) with (Z.of_N m' * 10 ^ (e' - e) * v) in G by (unfold v; ring).
    set (z := Z.of_N m' * 10 ^ (e' - e)) in *.
    assert (Ez : Z.of_N m = z) by nia.
    apply Ht. replace m with (Z.to_N z) by lia. unfold z. replace (e' - e) with (Z.succ (e' - e - 1)) by lia.
    rewrite Z.pow_succ_r by lia. pose proof (Z.pow_nonneg 10 (e' - e - 1) ltac:(lia)) as Pn. rewrite (Z.mul_comm 10), Z.mul_assoc, Z2N.inj_mul by nia.
    apply N.mod_mul. lia. }
  assert (Top : e <= top_exponent k).
  { destruct (Z.leb_spec e (top_exponent k)) as [L|L]; [exact L|]. exfalso. exact (numeral_below_top n k m e N Hm L R). }
  unfold is_repr, reprint. destruct (N.eqb_spec m 0) as [E|_]; [now elim Hm|]. rewrite R.
  destruct (Z.eqb_spec n 0) as [E|_]; [lia|]. unfold repr_of.
  rewrite (shortest_finds n k m e Near) by (try lia; intros; now apply Above). now rewrite N.eqb_refl, Z.eqb_refl.
Qed.

(** ** Reading gives the nearest double *)

Lemma double_of_quarter a b n k : 0 < a -> 0 < b -> double_of a b = Some (n, k) ->
  n = 4503599627370496 -> -1074 < k -> 4 * (n * b * w k) <= 4 * (a * w 0) + b * w k.
Proof.
  intros Ha Hb H -> Hk. destruct (exponent_spec a b Ha Hb) as (E1 & E2 & E3).
  rewrite (double_of_at a b _ Ha Hb eq_refl E1) in H. cbv zeta in H. set (k0 := exponent a b) in *. clearbody k0.
  pose proof (w_pos k0 E1) as P. pose proof (w_pos 0 ltac:(lia)) as P0. assert (Q : 0 < b * w k0) by nia.
  pose proof (round_ratio_near (a * w 0) (b * w k0) Q) as N. set (r := round_ratio (a * w 0) (b * w k0)) in *.
  destruct (Z.eqb_spec r 9007199254740992) as [R|R].
  - destruct (k0 + 1 <=? 971); [|discriminate]. injection H as <-. rewrite w_succ by exact E1. rewrite R in N. nia.
  - destruct (k0 <=? 971); [|discriminate]. injection H as Hr <-. destruct E3 as [E3|E3]; [lia|].
    rewrite w_52 in E3 by exact E1. nia.
Qed.

Lemma gap_above n k n' k' : normal n k -> normal n' k' -> n * w k < n' * w k' -> n * w k + w k <= n' * w k'.
Proof.
  intros (N1 & N2 & N3) (M1 & M2 & M3) L. pose proof (w_pos k ltac:(lia)) as P. pose proof (w_pos k' ltac:(lia)) as P'.
  destruct (Z.leb_spec k k') as [K|K].
  - assert (W : w k' = w k * 2 ^ (k' - k)) by (rewrite <- w_add by lia; f_equal; lia). rewrite W in *.
    set (c := 2 ^ (k' - k)) in *. assert (n < n' * c) by nia. nia.
  - exfalso. pose proof (w_lt k' k ltac:(lia) K). destruct N3 as [N3|N3]; [lia|]. nia.
Qed.
Lemma gap_below n k n' k' : normal n k -> normal n' k' -> n' * w k' < n * w k ->
  n' * w k' + w k <= n * w k \/ (n = 4503599627370496 /\ -1074 < k /\ 2 * (n' * w k') + w k <= 2 * (n * w k)).
Proof.
  intros (N1 & N2 & N3) (M1 & M2 & M3) L. pose proof (w_pos k ltac:(lia)) as P. pose proof (w_pos k' ltac:(lia)) as P'.
  destruct (Z.leb_spec k k') as [K|K].
  - left. assert (W : w k' = w k * 2 ^ (k' - k)) by (rewrite <- w_add by lia; f_equal; lia). rewrite W in *.
    set (c := 2 ^ (k' - k)) in *. assert (n' * c < n) by nia. nia.
  - destruct N3 as [N3|N3]; [lia|]. pose proof (w_lt k' k ltac:(lia) K) as W.
    destruct (Z.eq_dec n 4503599627370496) as [E|E]; [right|left].
    + split; [exact E|]. split; [lia|]. subst n. destruct (Z.eq_dec k' (k - 1)) as [->|K'].
      * assert (W' : w k = w (k - 1) * 2) by (rewrite <- w_succ by lia; f_equal; lia). nia.
      * pose proof (w_lt k' (k - 1) ltac:(lia) ltac:(lia)) as W'. pose proof (w_lt (k - 1) k ltac:(lia) ltac:(lia)). nia.
    + nia.
Qed.

(** the numeral a/b is read as a double that no other double is nearer to *)
Theorem double_of_nearest a b n k n' k' : 0 < a -> 0 < b -> double_of a b = Some (n, k) -> normal n' k' ->
  Z.abs (a * w 0 - n * b * w k) <= Z.abs (a * w 0 - n' * b * w k').
Proof.
  intros Ha Hb H N'. pose proof (double_of_spec a b n k Ha Hb H) as [N E]. pose proof (double_of_quarter a b n k Ha Hb H) as F.
  pose proof (w_pos k ltac:(destruct N as (_ & ? & _); lia)) as P.
  set (x := a * w 0) in *. replace (n * b * w k) with (b * (n * w k)) in * by ring. replace (n' * b * w k') with (b * (n' * w k')) by ring.
  destruct (Z.lt_trichotomy (n * w k) (n' * w k')) as [L|[L|L]].
  - pose proof (gap_above n k n' k' N N' L) as G. set (d := n * w k) in *. set (d' := n' * w k') in *. nia.
  - rewrite L. lia.
  - destruct (gap_below n k n' k' N N' L) as [G|(G1 & G2 & G)].
    + set (d := n * w k) in *. set (d' := n' * w k') in *. nia.
    + specialize (F G1 G2). set (d := n * w k) in *. set (d' := n' * w k') in *. nia.
Qed.
(** of two equally near ones, the one whose last bit is zero *)
Lemma double_of_even a b n k n' k' : 0 < a -> 0 < b -> double_of a b = Some (n, k) -> normal n' k' ->
  n' * w k' <> n * w k ->
  Z.abs (a * w 0 - n * b * w k) = Z.abs (a * w 0 - n' * b * w k') -> Z.even n = true.
Proof.
  intros Ha Hb H N' Ne T. pose proof (double_of_spec a b n k Ha Hb H) as [N E]. pose proof (double_of_quarter a b n k Ha Hb H) as F.
  pose proof (w_pos k ltac:(destruct N as (_ & ? & _); lia)) as P.
  destruct (exponent_spec a b Ha Hb) as (E1 & E2 & E3).
  rewrite (double_of_at a b _ Ha Hb eq_refl E1) in H. cbv zeta in H. set (k0 := exponent a b) in *. clearbody k0.
  pose proof (w_pos k0 E1) as P1. assert (Q : 0 < b * w k0) by nia.
  pose proof (round_ratio_tie (a * w 0) (b * w k0) Q) as R. set (r := round_ratio (a * w 0) (b * w k0)) in *.
  destruct (Z.eqb_spec r 9007199254740992) as [Er|Er].
  - destruct (k0 + 1 <=? 971); [|discriminate]. injection H as <- <-. reflexivity.
  - destruct (k0 <=? 971); [|discriminate]. injection H as <- <-. clearbody r. apply R. clear R.
    set (x := a * w 0) in *. replace (r * b * w k0) with (b * (r * w k0)) in * by ring.
    replace (n' * b * w k') with (b * (n' * w k')) in * by ring. replace (r * (b * w k0)) with (b * (r * w k0)) by ring.
    destruct (Z.lt_trichotomy (r * w k0) (n' * w k')) as [L|[L|L]]; [| now elim Ne |].
    + pose proof (gap_above r k0 n' k' N N' L) as G. set (d := r * w k0) in *. set (d' := n' * w k') in *. nia.
    + destruct (gap_below r k0 n' k' N N' L) as [G|(G1 & G2 & G)].
      * set (d := r * w k0) in *. set (d' := n' * w k') in *. nia.
      * exfalso. destruct E3 as [E3|E3]; [lia|]. rewrite w_52 in E3 by exact E1. subst r.
        set (c := w k0) in *. set (d' := n' * w k') in *. nia.
Qed.
(** nothing is read only when it is beyond the largest double by half a unit *)
Lemma double_of_none a b : 0 < a -> 0 < b ->
  double_of a b = None <-> (18014398509481983 * b * w 971 <= 2 * (a * w 0)).
Proof.
  intros Ha Hb. destruct (exponent_spec a b Ha Hb) as (E1 & E2 & E3).
  rewrite (double_of_at a b _ Ha Hb eq_refl E1). cbv zeta. set (k0 := exponent a b) in *. clearbody k0.
  pose proof (w_pos k0 E1) as P1. pose proof (w_pos 0 ltac:(lia)) as P0. pose proof (w_pos 971 ltac:(lia)) as P9. assert (Q : 0 < b * w k0) by nia.
  pose proof (round_ratio_tie (a * w 0) (b * w k0) Q) as R. pose proof (round_ratio_near (a * w 0) (b * w k0) Q) as N.
  set (r := round_ratio (a * w 0) (b * w k0)) in *. clearbody r. set (x := a * w 0) in *.
  rewrite w_53 in E2 by exact E1. rewrite w_52 in E3 by exact E1.
  destruct (Z.lt_trichotomy k0 971) as [K|[->|K]].
  - assert (NN : ~ 18014398509481983 * b * w 971 <= 2 * x).
    { pose proof (w_lt k0 971 ltac:(lia) K). nia. }
    split; [|intros G; now elim NN]. intros G. exfalso.
    destruct (Z.eqb_spec r 9007199254740992) as [Er|Er].
    + destruct (Z.leb_spec (k0 + 1) 971); [discriminate|lia].
    + destruct (Z.leb_spec k0 971); [discriminate|lia].
  - destruct (Z.eqb_spec r 9007199254740992) as [Er|Er].
    + change (971 + 1 <=? 971) with false. cbv iota. split; [intros _|reflexivity]. rewrite Er in N. nia.
    + change (971 <=? 971) with true. cbv iota. split; [discriminate|]. intros G. exfalso.
      assert (Er' : r = 9007199254740991) by nia. rewrite Er' in *.
      assert (T : 2 * (9007199254740991 * (b * w 971)) = 2 * x - b * w 971) by nia. specialize (R (or_introl T)). discriminate R.
  - split; [intros _|].
    + destruct E3 as [E3|E3]; [lia|]. pose proof (w_lt 971 k0 ltac:(lia) K). nia.
    + intros _. destruct (Z.eqb_spec r 9007199254740992) as [Er|Er].
      * destruct (Z.leb_spec (k0 + 1) 971); [lia|reflexivity].
      * destruct (Z.leb_spec k0 971); [lia|reflexivity].
Qed.

(** ** Every number n * 2^k in the range has its normal form *)
Lemma normalise n k : 0 <= n < 9007199254740992 -> -1074 <= k <= 971 ->
  exists n' k', normal n' k' /\ n' * w k' = n * w k.
Proof.
  intros Hn Hk. remember (Z.to_nat (k + 1074)) as j eqn:Ej. revert n k Hn Hk Ej. induction j as [|j IH]; intros n k Hn Hk Ej.
  - exists n, k. split; [|reflexivity]. split; [exact Hn|]. split; [exact Hk|]. left. lia.
  - destruct (Z.leb_spec 4503599627370496 n) as [L|L].
    + exists n, k. split; [|reflexivity]. split; [exact Hn|]. split; [exact Hk|]. right. exact L.
    + destruct (IH (2 * n) (k - 1)) as (n' & k' & N & E); [lia|lia|lia|]. exists n', k'. split; [exact N|]. rewrite E.
      replace k with (k - 1 + 1) at 2 by lia. rewrite w_succ by lia. ring.
Qed.

(** what reading and printing do to a numeral *)
Lemma reprint_cases m e : m <> 0%N ->
  match read_decimal m e with
  | None => reprint m e = None
  | Some (n, k) => normal n k
      /\ ((n = 0 /\ reprint m e = Some (0%N, 0))
          \/ (0 < n /\ exists m' e', reprint m e = Some (m', e') /\ m' <> 0%N /\ (m' mod 10 <> 0)%N
                                    /\ is_repr m' e' = true /\ read_decimal m' e' = Some (n, k)))
  end.
Proof.
  intros Hm. unfold reprint. destruct (N.eqb_spec m 0) as [E|_]; [now elim Hm|].
  destruct (read_decimal m e) as [[n k]|] eqn:R; [|reflexivity]. pose proof (read_spec m e n k Hm R) as N.
  split; [exact N|]. destruct (Z.eqb_spec n 0) as [->|Hn]; [left; split; reflexivity|right].
  assert (Hp : 0 < n) by (destruct N; lia). split; [exact Hp|].
  destruct (repr_total n k N Hp) as (m' & e' & P). rewrite P. exists m', e'. split; [reflexivity|].
  pose proof (shortest_spec _ _ _ _ _ _ P) as (M1 & M2 & M3). split; [exact M1|]. split; [exact M2|]. split; [|exact M3].
  unfold is_repr, reprint. destruct (N.eqb_spec m' 0) as [E|_]; [now elim M1|]. rewrite M3.
  destruct (Z.eqb_spec n 0) as [E|_]; [now elim Hn|]. rewrite P. now rewrite N.eqb_refl, Z.eqb_refl.
Qed.

(** nearest among all the doubles, of either sign, however they are written *)
Lemma double_of_nearest_all a b n k n' k' : 0 < a -> 0 < b -> double_of a b = Some (n, k) ->
  Z.abs n' < 9007199254740992 -> -1074 <= k' <= 971 ->
  Z.abs (a * w 0 - n * b * w k) <= Z.abs (a * w 0 - n' * b * w k').
Proof.
  intros Ha Hb H Hn' Hk'. destruct (Z.leb_spec 0 n') as [L|L].
  - destruct (normalise n' k' ltac:(lia) Hk') as (n1 & k1 & N & E).
    replace (n' * b * w k') with (n1 * b * w k1) by (transitivity (b * (n1 * w k1)); [ring|rewrite E; ring]).
    now apply double_of_nearest.
  - assert (Z0 : normal 0 (-1074)) by (split; [lia|split; [lia|now left]]).
    pose proof (double_of_nearest a b n k 0 (-1074) Ha Hb H Z0) as G. rewrite !Z.mul_0_l, Z.sub_0_r in G.
    pose proof (w_pos 0 ltac:(lia)). pose proof (w_pos k' ltac:(lia)).
    assert (n' * b * w k' < 0). { assert (0 < b * w k') by nia. nia. } assert (0 < a * w 0) by nia. lia.
Qed.
Lemma double_of_even_all a b n k n' k' : 0 < a -> 0 < b -> double_of a b = Some (n, k) ->
  Z.abs n' < 9007199254740992 -> -1074 <= k' <= 971 -> n' * w k' <> n * w k ->
  Z.abs (a * w 0 - n * b * w k) = Z.abs (a * w 0 - n' * b * w k') -> Z.even n = true.
Proof.
  intros Ha Hb H Hn' Hk' Ne T. destruct (Z.leb_spec 0 n') as [L|L].
  - destruct (normalise n' k' ltac:(lia) Hk') as (n1 & k1 & N & E).
    replace (n' * b * w k') with (n1 * b * w k1) in T by (transitivity (b * (n1 * w k1)); [ring|rewrite E; ring]).
    apply (double_of_even a b n k n1 k1 Ha Hb H N); [congruence|exact T].
  - exfalso. assert (Z0 : normal 0 (-1074)) by (split; [lia|split; [lia|now left]]).
    pose proof (double_of_nearest a b n k 0 (-1074) Ha Hb H Z0) as G. rewrite !Z.mul_0_l, Z.sub_0_r in G.
    pose proof (w_pos 0 ltac:(lia)). pose proof (w_pos k' ltac:(lia)).
    assert (n' * b * w k' < 0). { assert (0 < b * w k') by nia. nia. } assert (0 < a * w 0) by nia. lia.
Qed.
