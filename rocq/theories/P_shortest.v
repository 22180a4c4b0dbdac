(** * P_shortest.v -- [repr] gives the numeral with the fewest digits, and the nearest of those *)

From Coq Require Import ZArith NArith Bool Lia.
From Verif Require Import Double P_double.
Local Open Scope Z_scope.

Lemma double_of_eq a b a' b' : 0 < a -> 0 < b -> 0 < a' -> 0 < b' -> a * b' = a' * b -> double_of a b = double_of a' b'.
Proof.
  intros A B A' B' E.
  destruct (exponent_spec a b A B) as (E1 & E2 & E3). pose proof (w_pos 0 ltac:(lia)) as W0.
  assert (X : forall y, a * w 0 < b * y <-> a' * w 0 < b' * y).
  { intros y. split; intros H.
    - apply (proj2 (Z.mul_lt_mono_pos_r b _ _ B)). replace (a' * w 0 * b) with (a * w 0 * b') by (transitivity (a' * b * w 0); [rewrite <- E|]; ring). nia.
    - apply (proj2 (Z.mul_lt_mono_pos_r b' _ _ B')). replace (a * w 0 * b') with (a' * w 0 * b) by (transitivity (a' * b * w 0); [|rewrite <- E]; ring). nia. }
  assert (E' : exponent a' b' = exponent a b).
  { apply exponent_unique; try assumption; [now apply X|]. destruct E3 as [E3|E3]; [left; exact E3|right].
    destruct (Z.leb_spec (b' * w (exponent a b + 52)) (a' * w 0)) as [L|L]; [exact L|]. apply X in L. lia. }
  rewrite (double_of_at a b (exponent a b) A B eq_refl E1), (double_of_at a' b' (exponent a b) A' B' E' E1). cbv zeta.
  pose proof (w_pos (exponent a b) E1) as W.
  destruct (round_ratio_eq (a * w 0) (b * w (exponent a b)) (a' * w 0) (b' * w (exponent a b))) as [-> _]; [nia|nia| |reflexivity].
  transitivity (a * b' * w 0 * w (exponent a b)); [ring|]. rewrite E. ring.
Qed.

(** ** What is read as one double is an interval *)

Lemma double_of_between a b n k a' b' : 0 < a -> 0 < b -> 0 < a' -> 0 < b' -> double_of a b = Some (n, k) ->
  (a * b' <= a' * b /\ a' * w 0 <= n * b' * w k) \/ (a' * b <= a * b' /\ n * b' * w k <= a' * w 0) ->
  double_of a' b' = Some (n, k).
Proof.
  intros Ha Hb Ha' Hb' H C. pose proof (double_of_spec a b n k Ha Hb H) as [N _].
  pose proof (w_pos 0 ltac:(lia)) as W0.
  destruct (Z.eq_dec (a * b') (a' * b)) as [E|E]; [rewrite <- H; symmetry; now apply double_of_eq|].
  destruct (double_of a' b') as [[n' k']|] eqn:H'.
  - pose proof (double_of_spec a' b' n' k' Ha' Hb' H') as [N' _].
    pose proof (double_of_nearest a b n k n' k' Ha Hb H N') as L.
    pose proof (double_of_nearest a' b' n' k' n k Ha' Hb' H' N) as L'.
    assert (Q : n * w k = n' * w k'); [|destruct (normal_unique n k n' k' N N' Q) as [-> ->]; reflexivity].
    apply (Z.mul_reg_l _ _ (b * b')); [nia|].
    assert (M : Z.abs (a * b' * w 0 - b * b' * (n * w k)) <= Z.abs (a * b' * w 0 - b * b' * (n' * w k'))).
    { replace (a * b' * w 0 - b * b' * (n * w k)) with (b' * (a * w 0 - n * b * w k)) by ring.
      replace (a * b' * w 0 - b * b' * (n' * w k')) with (b' * (a * w 0 - n' * b * w k')) by ring.
      rewrite !Z.abs_mul. apply Z.mul_le_mono_nonneg_l; [lia|exact L]. }
    assert (M' : Z.abs (a' * b * w 0 - b * b' * (n' * w k')) <= Z.abs (a' * b * w 0 - b * b' * (n * w k))).
    { replace (a' * b * w 0 - b * b' * (n * w k)) with (b * (a' * w 0 - n * b' * w k)) by ring.
      replace (a' * b * w 0 - b * b' * (n' * w k')) with (b * (a' * w 0 - n' * b' * w k')) by ring.
      rewrite !Z.abs_mul. apply Z.mul_le_mono_nonneg_l; [lia|exact L']. }
    assert (C' : (a * b' * w 0 < a' * b * w 0 /\ a' * b * w 0 <= b * b' * (n * w k)) \/ (a' * b * w 0 < a * b' * w 0 /\ b * b' * (n * w k) <= a' * b * w 0)).
    { destruct C as [[C1 C2]|[C1 C2]]; [left|right]; (split; [apply Z.mul_lt_mono_pos_r; lia|]).
      - replace (a' * b * w 0) with (b * (a' * w 0)) by ring. replace (b * b' * (n * w k)) with (b * (n * b' * w k)) by ring. apply Z.mul_le_mono_nonneg_l; lia.
      - replace (a' * b * w 0) with (b * (a' * w 0)) by ring. replace (b * b' * (n * w k)) with (b * (n * b' * w k)) by ring. apply Z.mul_le_mono_nonneg_l; lia. }
    clear - M M' C'. set (X := a * b' * w 0) in *. set (Y := a' * b * w 0) in *.
    set (D := b * b' * (n * w k)) in *. set (D' := b * b' * (n' * w k')) in *. lia.
  - exfalso. apply double_of_none in H'; [|exact Ha'|exact Hb'].
    destruct C as [[C1 C2]|[C1 C2]].
    + destruct N as (N1 & N2 & N3). pose proof (w_mono k 971 ltac:(lia) ltac:(lia)) as Wm. pose proof (w_pos k ltac:(lia)) as Wk.
      assert (n * w k <= 9007199254740991 * w 971) by nia.
      assert (n * b' * w k <= b' * (9007199254740991 * w 971)) by nia.
      assert (0 < b' * w 971) by nia. nia.
    + assert (G : double_of a b = None); [|congruence]. apply double_of_none; [exact Ha|exact Hb|].
      apply (Z.mul_le_mono_pos_r _ _ b'); [exact Hb'|].
      assert (a' * b * w 0 <= a * b' * w 0) by (apply Z.mul_le_mono_nonneg_r; lia).
      assert (b * (18014398509481983 * b' * w 971) <= b * (2 * (a' * w 0))) by (apply Z.mul_le_mono_nonneg_l; lia). nia.
Qed.

(** comparing two numerals: m * 10^e <= m' * 10^e' *)
Definition dec_le (m e m' e' : Z) : Prop := m * 10 ^ (e - Z.min e e') <= m' * 10 ^ (e' - Z.min e e').
Lemma ten_pow j : 0 <= j -> 0 < 10 ^ j. Proof. intros H. apply Z.pow_pos_nonneg; lia. Qed.
Lemma scaled_at x e a b E : E <= e -> E <= 0 -> scaled x 10 e = (a, b) -> a * 10 ^ (- E) = x * 10 ^ (e - E) * b /\ 0 < b.
Proof.
  intros H1 H2. unfold scaled. destruct (Z.leb_spec 0 e) as [L|L]; intros [= <- <-].
  - split; [|lia]. rewrite Z.mul_1_r, <- Z.mul_assoc, <- Z.pow_add_r by lia. reflexivity.
  - split; [|apply ten_pow; lia]. rewrite <- Z.mul_assoc, <- Z.pow_add_r by lia. f_equal. f_equal. lia.
Qed.
Lemma dec_le_at m e m' e' E : E <= e -> E <= e' -> dec_le m e m' e' <-> m * 10 ^ (e - E) <= m' * 10 ^ (e' - E).
Proof.
  intros H1 H2. unfold dec_le. set (F := Z.min e e').
  replace (e - E) with (e - F + (F - E)) by lia. replace (e' - E) with (e' - F + (F - E)) by lia.
  rewrite !Z.pow_add_r, !Z.mul_assoc by lia. pose proof (ten_pow (F - E) ltac:(lia)). symmetry. apply iff_sym. apply Z.mul_le_mono_pos_r. lia.
Qed.
Lemma scaled_le m e m' e' a b a' b' : scaled m 10 e = (a, b) -> scaled m' 10 e' = (a', b') -> dec_le m e m' e' <-> a * b' <= a' * b.
Proof.
  intros S S'. set (E := Z.min (Z.min e e') 0).
  destruct (scaled_at m e a b E ltac:(lia) ltac:(lia) S) as [A B]. destruct (scaled_at m' e' a' b' E ltac:(lia) ltac:(lia) S') as [A' B'].
  rewrite (dec_le_at m e m' e' E) by lia. pose proof (ten_pow (- E) ltac:(lia)) as T.
  rewrite (Z.mul_le_mono_pos_r (a * b') (a' * b) (10 ^ (- E))) by lia.
  replace (a * b' * 10 ^ (- E)) with (m * 10 ^ (e - E) * (b * b')) by (transitivity (a * 10 ^ (- E) * b'); [rewrite A|]; ring).
  replace (a' * b * 10 ^ (- E)) with (m' * 10 ^ (e' - E) * (b * b')) by (transitivity (a' * 10 ^ (- E) * b); [rewrite A'|]; ring).
  apply Z.mul_le_mono_pos_r. nia.
Qed.
(** a numeral that is not below the one and not above the other of two that are read as the same double *)
Lemma read_between m1 e1 m2 e2 m e n k : m1 <> 0%N -> m2 <> 0%N -> m <> 0%N ->
  read_decimal m1 e1 = Some (n, k) -> read_decimal m2 e2 = Some (n, k) ->
  dec_le (Z.of_N m1) e1 (Z.of_N m) e -> dec_le (Z.of_N m) e (Z.of_N m2) e2 -> read_decimal m e = Some (n, k).
Proof.
  intros H1 H2 H R1 R2 L1 L2. unfold read_decimal in *.
  pose proof (scaled_pos (Z.of_N m1) 10 e1 ltac:(lia) ltac:(lia)) as [A1 B1].
  pose proof (scaled_pos (Z.of_N m2) 10 e2 ltac:(lia) ltac:(lia)) as [A2 B2].
  pose proof (scaled_pos (Z.of_N m) 10 e ltac:(lia) ltac:(lia)) as [A B].
  destruct (scaled (Z.of_N m1) 10 e1) as [a1 b1] eqn:S1. destruct (scaled (Z.of_N m2) 10 e2) as [a2 b2] eqn:S2.
  destruct (scaled (Z.of_N m) 10 e) as [a b] eqn:S. cbn [fst snd] in *.
  apply (scaled_le _ _ _ _ _ _ _ _ S1 S) in L1. apply (scaled_le _ _ _ _ _ _ _ _ S S2) in L2.
  destruct (Z.leb_spec (a * w 0) (n * b * w k)) as [L|L].
  - apply (double_of_between a1 b1 n k a b); try assumption. left. split; [exact L1|exact L].
  - apply (double_of_between a2 b2 n k a b); try assumption. right. split; [exact L2|lia].
Qed.
Lemma read_same m e m' e' : m <> 0%N -> m' <> 0%N -> dec_le (Z.of_N m) e (Z.of_N m') e' -> dec_le (Z.of_N m') e' (Z.of_N m) e ->
  read_decimal m e = read_decimal m' e'.
Proof.
  intros H H' L L'. unfold read_decimal.
  pose proof (scaled_pos (Z.of_N m) 10 e ltac:(lia) ltac:(lia)) as [A B].
  pose proof (scaled_pos (Z.of_N m') 10 e' ltac:(lia) ltac:(lia)) as [A' B'].
  destruct (scaled (Z.of_N m) 10 e) as [a b] eqn:S. destruct (scaled (Z.of_N m') 10 e') as [a' b'] eqn:S'. cbn [fst snd] in *.
  apply (scaled_le _ _ _ _ _ _ _ _ S S') in L. apply (scaled_le _ _ _ _ _ _ _ _ S' S) in L'. apply double_of_eq; try assumption. lia.
Qed.

(** with the exact double on one side *)
Lemma read_toward m m' e n k : m <> 0%N -> m' <> 0%N -> -330 <= e -> read_decimal m' e = Some (n, k) ->
  (Z.of_N m' <= Z.of_N m /\ Z.of_N m * (w 0 * t e) <= n * w k * t 0)
  \/ (Z.of_N m <= Z.of_N m' /\ n * w k * t 0 <= Z.of_N m * (w 0 * t e)) ->
  read_decimal m e = Some (n, k).
Proof.
  intros H H' He R C. unfold read_decimal in *.
  pose proof (scaled_pos (Z.of_N m) 10 e ltac:(lia) ltac:(lia)) as [A B].
  pose proof (scaled_pos (Z.of_N m') 10 e ltac:(lia) ltac:(lia)) as [A' B'].
  destruct (scaled (Z.of_N m) 10 e) as [a b] eqn:S. destruct (scaled (Z.of_N m') 10 e) as [a' b'] eqn:S'. cbn [fst snd] in *.
  assert (LE : forall x y, x <= y <-> dec_le x e y e). { intros x y. rewrite (dec_le_at x e y e e) by lia. rewrite Z.sub_diag, !Z.mul_1_r. reflexivity. }
  pose proof (proj1 (scaled_ten _ _ _ _ He S)) as T. pose proof (t_pos 0 ltac:(lia)) as T0.
  apply (double_of_between a' b' n k a b); try assumption.
  destruct C as [[C1 C2]|[C1 C2]]; [left|right]; (split; [|apply (Z.mul_le_mono_pos_r _ _ (t 0) T0)]).
  - exact (proj1 (scaled_le _ _ _ _ _ _ _ _ S' S) (proj1 (LE _ _) C1)).
  - replace (a * w 0 * t 0) with (b * (Z.of_N m * (w 0 * t e))) by (transitivity (a * t 0 * w 0); [rewrite T|]; ring).
    replace (n * b * w k * t 0) with (b * (n * w k * t 0)) by ring. apply Z.mul_le_mono_nonneg_l; lia.
  - exact (proj1 (scaled_le _ _ _ _ _ _ _ _ S S') (proj1 (LE _ _) C1)).
  - replace (a * w 0 * t 0) with (b * (Z.of_N m * (w 0 * t e))) by (transitivity (a * t 0 * w 0); [rewrite T|]; ring).
    replace (n * b * w k * t 0) with (b * (n * w k * t 0)) by ring. apply Z.mul_le_mono_nonneg_l; lia.
Qed.

Lemma shortest_range n k fuel : forall e m e', shortest n k fuel e = Some (m, e') ->
  e' <= e /\ e - Z.of_nat fuel < e' /\ numeral_at n k e' = Some m /\ forall e'', e' < e'' -> e'' <= e -> numeral_at n k e'' = None.
Proof.
  induction fuel as [|fuel IH]; intros e m e' H; [discriminate|]. cbn [shortest] in H.
  destruct (numeral_at n k e) as [x|] eqn:E.
  - injection H as <- <-. split; [lia|]. split; [lia|]. split; [exact E|]. intros; lia.
  - apply IH in H as (H1 & H2 & H3 & H4). split; [lia|]. split; [lia|]. split; [exact H3|]. intros e'' L1 L2.
    destruct (Z.eq_dec e'' e) as [->|Ne]; [exact E|]. apply H4; lia.
Qed.

(** no numeral read as the double is a multiple of a larger power of ten *)
Lemma repr_largest n k m e m' e' : normal n k -> 0 < n -> repr_of n k = Some (m, e) -> m' <> 0%N -> read_decimal m' e' = Some (n, k) -> e' <= e.
Proof.
  intros N Hp H Hm' R. unfold repr_of in H. assert (T1 : 1 <= top_exponent k) by (unfold top_exponent; lia).
  apply shortest_range in H as (H1 & H2 & H3 & H4).
  destruct (Z.leb_spec e' e) as [L|L]; [exact L|]. exfalso.
  assert (He : -330 <= e') by lia. pose proof N as (N1 & N2 & N3).
  pose proof (t_pos e' He) as Te. pose proof (w_pos 0 ltac:(lia)) as W0. pose proof (w_pos k ltac:(lia)) as Wk. pose proof (t_pos 0 ltac:(lia)) as T0.
  set (X := n * w k * t 0). set (D := w 0 * t e'). assert (HD : 0 < D) by (unfold D; nia). assert (HX : 0 < X) by (unfold X; nia).
  pose proof (Z.div_mod X D ltac:(lia)) as DM. pose proof (Z.mod_pos_bound X D HD) as MB.
  set (f := X / D) in *. set (r := X mod D) in *.
  assert (G : exists z, 0 < z /\ X - D < z * D < X + D /\ read_decimal (Z.to_N z) e' = Some (n, k)).
  { destruct (Z.eq_dec r 0) as [Er|Er].
    - exists f. assert (0 < f) by nia. split; [lia|]. split; [nia|].
      apply (read_toward (Z.to_N f) m' e' n k); [lia|exact Hm'|exact He|exact R|]. fold X D. rewrite Z2N.id by lia. nia.
    - destruct (Z.leb_spec (Z.of_N m') f) as [Lf|Lf].
      + exists f. assert (0 < f) by lia. split; [lia|]. split; [nia|].
        apply (read_toward (Z.to_N f) m' e' n k); [lia|exact Hm'|exact He|exact R|]. fold X D. rewrite Z2N.id by lia. left. nia.
      + assert (0 <= f) by (apply Z.div_pos; lia). exists (f + 1). split; [lia|]. split; [nia|].
        apply (read_toward (Z.to_N (f + 1)) m' e' n k); [lia|exact Hm'|exact He|exact R|]. fold X D. rewrite Z2N.id by lia. right. nia. }
  destruct G as (z & Z1 & Z2 & Z3).
  destruct (shorten n k N Hp z e' He Z1 Z2 Z3) as (e'' & L1 & L2). destruct (numeral_at n k e'') as [x|] eqn:E; [|now elim L2].
  destruct (Z.leb_spec e'' (top_exponent k)) as [LT|LT].
  - rewrite H4 in E by lia. discriminate.
  - apply numeral_at_spec in E as (X1 & _ & X3). exact (numeral_below_top n k x e'' N X1 LT X3).
Qed.

(** and none with that power of ten is nearer *)
Lemma repr_nearest n k m e m' : normal n k -> 0 < n -> repr_of n k = Some (m, e) -> m' <> 0%N -> read_decimal m' e = Some (n, k) ->
  Z.abs (Z.of_N m * (w 0 * t e) - n * w k * t 0) <= Z.abs (Z.of_N m' * (w 0 * t e) - n * w k * t 0).
Proof.
  intros N Hp H Hm' R. pose proof (fun x E => repr_largest n k m e x (e + 1) N Hp H E) as Lg.
  unfold repr_of in H. assert (T1 : 1 <= top_exponent k) by (unfold top_exponent; lia).
  apply shortest_range in H as (H1 & H2 & H3 & H4). assert (He : -330 <= e) by lia. pose proof N as (N1 & N2 & N3).
  pose proof (t_pos e He) as Te. pose proof (w_pos 0 ltac:(lia)) as W0. pose proof (w_pos k ltac:(lia)) as Wk. pose proof (t_pos 0 ltac:(lia)) as T0.
  rewrite numeral_at_terms in H3 by lia. cbv zeta in H3.
  pose proof (read_toward) as RT. specialize (fun z => RT z m' e n k) as RT.
  set (X := n * w k * t 0) in *. set (D := w 0 * t e) in *. assert (HD : 0 < D) by (unfold D; nia). assert (HX : 0 < X) by (unfold X; nia).
  pose proof (Z.div_mod X D ltac:(lia)) as DM. pose proof (Z.mod_pos_bound X D HD) as MB.
  pose proof (round_ratio_near X D HD) as RN. pose proof (near_floor X D HD) as NF.
  set (near := round_ratio X D) in *. set (f := X / D) in *. set (r := X mod D) in *.
  assert (F0 : 0 <= f) by (apply Z.div_pos; lia).
  destruct (candidate n k near e) eqn:C1.
  - injection H3 as <-. apply candidate_spec in C1 as (C1 & _ & _). rewrite Z2N.id by lia.
    assert (Z.of_N m' <= near - 1 \/ Z.of_N m' = near \/ near + 1 <= Z.of_N m') as [U|[->|U]] by lia; nia.
  - destruct (candidate n k (if near =? f then near + 1 else near - 1) e) eqn:C2; [|discriminate]. injection H3 as <-.
    apply candidate_spec in C2 as (C2 & _ & _). rewrite Z2N.id by lia.
    assert (NR : 0 < near -> read_decimal (Z.to_N near) e <> Some (n, k)).
    { intros P Q. destruct (Z.eq_dec (near mod 10) 0) as [M|M].
      - pose proof (Z.div_mod near 10 ltac:(lia)) as DN. rewrite M, Z.add_0_r in DN.
        assert (e + 1 <= e); [|lia]. apply (Lg (Z.to_N (near / 10))); [lia|]. rewrite <- read_tens by lia. rewrite <- Q. f_equal. lia.
      - rewrite (candidate_iff n k near e P M Q) in C1. discriminate. }
    destruct (Z.eqb_spec near f) as [E|E].
    + destruct (Z.leb_spec (Z.of_N m') f) as [Lf|Lf]; [|nia].
      exfalso. apply NR; [lia|]. apply RT; [lia|exact Hm'|exact He|exact R|]. rewrite Z2N.id by lia. left. nia.
    + assert (E' : near = f + 1) by lia. rewrite E' in *. replace (f + 1 - 1) with f in * by lia.
      destruct (Z.leb_spec (Z.of_N m') f) as [Lf|Lf]; [nia|].
      exfalso. apply NR; [lia|]. apply RT; [lia|exact Hm'|exact He|exact R|]. rewrite Z2N.id by lia. right. nia.
Qed.

(** and none has fewer digits *)
Theorem repr_fewest n k m e m' e' : normal n k -> 0 < n -> repr_of n k = Some (m, e) -> m' <> 0%N -> read_decimal m' e' = Some (n, k) ->
  forall j, (m' < 10 ^ j)%N -> (m < 10 ^ j)%N.
Proof.
  intros N Hp H Hm' R j Hj. destruct (N.ltb_spec m (10 ^ j)) as [L|L]; [exact L|]. exfalso.
  pose proof (repr_largest n k m e m' e' N Hp H Hm' R) as Le.
  assert (J : (j <> 0)%N) by (intros ->; change (10 ^ 0)%N with 1%N in Hj; lia).
  pose proof (shortest_spec _ _ _ _ _ _ H) as (M1 & M2 & M3).
  assert (P : Z.of_N (10 ^ j) = 10 ^ Z.of_N j) by (rewrite N2Z.inj_pow; reflexivity).
  assert (B : read_decimal (10 ^ j) e = Some (n, k)).
  { apply (read_between m' e' m e (10 ^ j) e n k Hm' M1); [lia|exact R|exact M3| |].
    - apply (dec_le_at _ _ _ _ e'); [lia|exact Le|]. rewrite Z.sub_diag, Z.mul_1_r. pose proof (ten_pow (e - e') ltac:(lia)). nia.
    - apply (dec_le_at _ _ _ _ e); [lia|lia|]. nia. }
  assert (B' : read_decimal 1 (e + Z.of_N j) = Some (n, k)).
  { rewrite <- B. apply read_same; [lia|lia| |].
    - apply (dec_le_at _ _ _ _ e); [lia|lia|]. rewrite P, Z.sub_diag. replace (e + Z.of_N j - e) with (Z.of_N j) by lia. lia.
    - apply (dec_le_at _ _ _ _ e); [lia|lia|]. rewrite P, Z.sub_diag. replace (e + Z.of_N j - e) with (Z.of_N j) by lia. lia. }
  assert (e + Z.of_N j <= e); [|lia]. exact (repr_largest n k m e 1 _ N Hp H ltac:(lia) B').
Qed.

(** the doubles below ten units: one of them is read from a power of ten *)
Lemma unit_scale : 2 * (w 0 * t (-324)) < t 0 * w (-1074) /\ 3 * (t 0 * w (-1074)) < 2 * (w 0 * t (-323)) /\ 2 * (w 0 * t (-323)) < 5 * (t 0 * w (-1074))
  /\ 19 * (t 0 * w (-1074)) < 2 * (w 0 * t (-322)) /\ 5 * (t 0 * w (-1074)) < 4 * (w 0 * t (-323)).
Proof. vm_compute. repeat split; reflexivity. Qed.
Lemma repr_small n m e : 0 < n <= 9 -> -330 <= e -> m <> 0%N -> read_decimal m e = Some (n, -1074) -> read_decimal 1 e = Some (n, -1074) -> n = 2 /\ m = 1%N /\ e = -323.
Proof.
  intros Hn He Hm M R. destruct unit_scale as (U1 & U2 & U3 & U4 & U5). pose proof (w_pos 0 ltac:(lia)) as W0.
  apply read_error in R as [R R']; [|lia|lia]. apply read_error in M as [M M']; [|lia|lia]. change (Z.of_N 1) with 1 in R, R'.
  assert (e = -323).
  { destruct (Z.leb_spec e (-324)) as [L|L].
    - exfalso. pose proof (t_mono e (-324) ltac:(lia) ltac:(lia)). nia.
    - destruct (Z.leb_spec (-322) e) as [L'|L']; [|lia]. exfalso. pose proof (t_mono (-322) e ltac:(lia) ltac:(lia)). nia. }
  subst e. set (U := t 0 * w (-1074)) in *. set (Y := w 0 * t (-323)) in *.
  replace (n * w (-1074) * t 0) with (n * U) in * by (unfold U; ring).
  replace (1 * t (-323) * w 0) with Y in * by (unfold Y; ring).
  replace (Z.of_N m * t (-323) * w 0) with (Z.of_N m * Y) in * by (unfold Y; ring).
  assert (n = 2) by nia. subst n. split; [reflexivity|]. split; [|reflexivity]. assert (Z.of_N m = 1); [|lia]. nia.
Qed.

Lemma repr_best n k m e m' e' j : normal n k -> 0 < n -> repr_of n k = Some (m, e) -> m' <> 0%N -> read_decimal m' e' = Some (n, k) ->
  (m' < 10 ^ j)%N -> (10 ^ j <= 10 * m)%N ->
  -330 <= e /\ -330 <= e'
  /\ Z.abs (Z.of_N m * (w 0 * t e) - n * w k * t 0) <= Z.abs (Z.of_N m' * (w 0 * t e') - n * w k * t 0).
Proof.
  intros N Hp H Hm' R Hj Hj'. pose proof (repr_largest n k m e m' e' N Hp H Hm' R) as Le.
  pose proof (shortest_spec _ _ _ _ _ _ H) as (M1 & M2 & M3).
  assert (He : -330 <= e). { unfold repr_of in H. apply shortest_range in H. unfold top_exponent in *. lia. }
  split; [exact He|].
  destruct (Z.eq_dec e' e) as [->|Ne]; [split; [exact He|]; now apply repr_nearest|].
  assert (J : exists i, j = N.succ i).
  { destruct (N.eq_dec j 0) as [->|J]; [change (10 ^ 0)%N with 1%N in Hj; lia|]. exists (N.pred j). lia. }
  destruct J as [i ->]. rewrite N.pow_succ_r' in *.
  assert (P : Z.of_N (10 ^ i) = 10 ^ Z.of_N i) by (rewrite N2Z.inj_pow; reflexivity).
  assert (P1 : (10 ^ i <> 0)%N) by (apply N.pow_nonzero; lia).
  assert (B : read_decimal (10 ^ i) e = Some (n, k)).
  { apply (read_between m' e' m e (10 ^ i) e n k Hm' M1 P1 R M3).
    - apply (dec_le_at _ _ _ _ e'); [lia|exact Le|]. rewrite Z.sub_diag, Z.mul_1_r.
      replace (e - e') with (1 + (e - e' - 1)) by lia. rewrite Z.pow_add_r by lia. pose proof (ten_pow (e - e' - 1) ltac:(lia)). nia.
    - apply (dec_le_at _ _ _ _ e); [lia|lia|]. nia. }
  assert (I : i = 0%N).
  { destruct (N.eq_dec i 0) as [E|I]; [exact E|]. exfalso.
    assert (B' : read_decimal 1 (e + Z.of_N i) = Some (n, k)).
    { rewrite <- B. apply read_same; [lia|exact P1| |].
      - apply (dec_le_at _ _ _ _ e); [lia|lia|]. rewrite P, Z.sub_diag. replace (e + Z.of_N i - e) with (Z.of_N i) by lia. lia.
      - apply (dec_le_at _ _ _ _ e); [lia|lia|]. rewrite P, Z.sub_diag. replace (e + Z.of_N i - e) with (Z.of_N i) by lia. lia. }
    assert (e + Z.of_N i <= e); [|lia]. exact (repr_largest n k m e 1 _ N Hp H ltac:(lia) B'). }
  subst i. change (10 ^ 0)%N with 1%N in *. clear P P1 Hj'.
  pose proof (w_pos 0 ltac:(lia)) as W0. pose proof N as (N1 & N2 & N3). pose proof (w_pos k ltac:(lia)) as Wk. pose proof (t_pos 0 ltac:(lia)) as T0.
  assert (He' : -330 <= e').
  { destruct (Z.leb_spec (-330) e') as [L|L]; [exact L|]. exfalso.
    assert (B0 : read_decimal 1 (-330) = Some (n, k)).
    { apply (read_between m' e' 1 e 1 (-330) n k Hm'); [lia|lia|exact R|exact B| |].
      - apply (dec_le_at _ _ _ _ e'); [lia|lia|]. rewrite Z.sub_diag, Z.mul_1_r.
        replace (-330 - e') with (1 + (-331 - e')) by lia. rewrite Z.pow_add_r by lia. pose proof (ten_pow (-331 - e') ltac:(lia)). nia.
      - apply (dec_le_at _ _ _ _ (-330)); [lia|lia|]. pose proof (ten_pow (e - -330) ltac:(lia)). rewrite Z.sub_diag. nia. }
    apply read_error in B0 as [_ B0]; [|lia|lia]. rewrite t_least in B0. pose proof scales_low as SL.
    pose proof (w_mono (-1074) k ltac:(lia) ltac:(lia)) as WM.
    assert (t 0 * w (-1074) <= t 0 * w k) by nia. assert (t 0 * w k <= n * w k * t 0) by nia. lia. }
  split; [exact He'|].
  pose proof (t_pos e He) as Te. pose proof (t_pos e' He') as Te'.
  assert (TT : 10 * t e' <= t e). { pose proof (t_mono (e' + 1) e ltac:(lia) ltac:(lia)) as G. rewrite t_succ in G by lia. lia. }
  assert (n <= 9).
  { apply read_error in B as [B1 B2]; [|lia|lia]. apply read_error in R as [R1 R2]; [|lia|lia].
    change (Z.of_N 1) with 1 in *. set (U := t 0 * w k) in *. assert (0 < U) by (unfold U; nia).
    replace (n * w k * t 0) with (n * U) in * by (unfold U; ring).
    assert (Z.of_N m' * t e' * w 0 * 10 <= 9 * (1 * t e * w 0)).
    { transitivity (9 * (10 * t e' * w 0)).
      - assert (Z.of_N m' * (t e' * w 0) <= 9 * (t e' * w 0)) by nia. nia.
      - nia. }
    set (Y := 1 * t e * w 0) in *. set (Y' := Z.of_N m' * t e' * w 0) in *. nia. }
  assert (k = -1074) by lia. subst k.
  destruct (repr_small n m e ltac:(lia) He M1 M3 B) as (-> & -> & ->). clear - Hj TT Te' W0 Hm'.
  change (Z.of_N 1) with 1. rewrite Z.mul_1_l. assert (M : Z.of_N m' <= 9) by lia.
  assert (A : w 0 * t (-323) - 2 * w (-1074) * t 0 <= 2 * w (-1074) * t 0 - 9 * w 0 * t (-324)) by (vm_compute; discriminate).
  assert (A' : 0 <= w 0 * t (-323) - 2 * w (-1074) * t 0) by (vm_compute; discriminate).
  assert (TS : t (-323) = t (-324) * 10) by reflexivity. rewrite TS in TT.
  assert (G : Z.of_N m' * (w 0 * t e') <= 9 * w 0 * t (-324)).
  { transitivity (9 * (w 0 * t e')); [apply Z.mul_le_mono_nonneg_r; nia|]. nia. }
  rewrite (Z.abs_eq (w 0 * t (-323) - _)) by exact A'. set (X := 2 * w (-1074) * t 0) in *. set (Y := w 0 * t (-323)) in *. set (V := 9 * w 0 * t (-324)) in *. lia.
Qed.
