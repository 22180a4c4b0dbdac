(** * C_numerals.v -- which number a decimal numeral in a text is read as (C46) *)
From Coq Require Import List Bool ZArith NArith QArith Qabs Qpower String Lia Lqa.
Import ListNotations.
From Verif Require Import Double P_double Py Spec M_edge P_py P_edge P_exact C_values C_edge.
Local Open Scope Z_scope.
Local Open Scope list_scope.

(** ** The specification *)

(** The numbers that a 64-bit float can be. *)
Definition double (q : Q) : Prop :=
  exists n k, Z.abs n < 2 ^ 53 /\ -1074 <= k <= 971 /\ (q == inject_Z n * Qpower (2 # 1) k)%Q.
(** one with a last bit that is zero *)
Definition even_double (q : Q) : Prop :=
  exists n k, (k = -1074 \/ 2 ^ 52 <= Z.abs n) /\ Z.abs n < 2 ^ 53 /\ -1074 <= k <= 971 /\ Z.even n = true
              /\ (q == inject_Z n * Qpower (2 # 1) k)%Q.
(** the number that "ip.fp" writes, with its sign *)
Definition digits_value (s : str) : Z := fold_left (fun a c => 10 * a + (Z.of_N c - 48)) s 0.
Definition numeral (neg : bool) (ip fp : str) : Q :=
  ((if neg then -1 # 1 else 1) * (inject_Z (digits_value (ip ++ fp)) * Qpower (10 # 1) (- Z.of_nat (List.length fp))))%Q.
Definition numeral_text (neg : bool) (ip fp : str) : str := (if neg then lit "-" else []) ++ ip ++ lit "." ++ fp.
(** half a unit beyond the largest double *)
Definition too_large : Q := (inject_Z (2 ^ 54 - 1) * Qpower (2 # 1) 970)%Q.

(** ** The proofs *)

Lemma digits_value_val s : forallb is_digit s = true -> digits_value s = Z.of_N (val_digits s).
Proof.
  unfold digits_value, val_digits. change 0 with (Z.of_N 0). generalize 0%N as a.
  induction s as [|c s IH]; intros a H; [reflexivity|]. cbn [forallb] in H. apply andb_true_iff in H as [H1 H2].
  cbn [fold_left]. rewrite <- (IH _ H2). f_equal. apply is_digit_bounds in H1. unfold c_0. lia.
Qed.

Lemma strip0_spec l : let '(k, r) := strip0 l in l = zeros k ++ r.
Proof.
  induction l as [|c l IH]; [reflexivity|]. cbn [strip0]. destruct (N.eqb_spec c c_0) as [->|_]; [|reflexivity].
  destruct (strip0 l) as [k r]. cbn [zeros repeat app]. now rewrite IH at 1.
Qed.

Lemma ten_pos : ~ (10 # 1 == 0)%Q. Proof. discriminate. Qed.
Lemma power_ten k : 0 <= k -> (Qpower (10 # 1) k == inject_Z (10 ^ k))%Q.
Proof.
  intros H. pattern k. apply natlike_ind; [reflexivity| |exact H].
  intros x Hx IH. unfold Z.succ. rewrite Qpower_plus by apply ten_pos. rewrite IH, Z.pow_add_r by lia.
  rewrite inject_Z_mult. reflexivity.
Qed.

(** the fraction that is rounded is the numeral *)
Lemma scaled_value m e a b : scaled m 10 e = (a, b) -> (inject_Z a == inject_Z m * Qpower (10 # 1) e * inject_Z b)%Q.
Proof.
  unfold scaled. destruct (Z.leb_spec 0 e) as [L|L]; intros [= <- <-].
  - rewrite power_ten by exact L. rewrite inject_Z_mult. change (inject_Z 1) with 1%Q. now rewrite Qmult_1_r.
  - rewrite <- power_ten by lia. rewrite <- Qmult_assoc, <- Qpower_plus by apply ten_pos.
    replace (e + - e) with 0 by lia. change (Qpower (10 # 1) 0) with 1%Q. now rewrite Qmult_1_r.
Qed.

(** distances, on the scale of the least double *)
Lemma distance x a b n k : 0 < b -> -1074 <= k -> (inject_Z a == x * inject_Z b)%Q ->
  (Qabs (x - inject_Z n * Qpower (2 # 1) k) * (inject_Z b * Qpower (2 # 1) 1074) == inject_Z (Z.abs (a * w 0 - n * b * w k)))%Q.
Proof.
  intros Hb Hk Ha.
  assert (P : (0 <= inject_Z b * Qpower (2 # 1) 1074)%Q).
  { apply Qmult_le_0_compat; [unfold Qle; cbn; lia|]. apply Qpower_pos. discriminate. }
  rewrite <- (Qabs_pos _ P) at 1. rewrite <- Qabs_Qmult.
  change (inject_Z (Z.abs (a * w 0 - n * b * w k))) with (Qabs (inject_Z (a * w 0 - n * b * w k))). apply Qabs_wd.
  pose proof (on_scale a 0 ltac:(lia)) as A. pose proof (on_scale n k Hk) as N.
  unfold Zminus. rewrite inject_Z_plus, inject_Z_opp. rewrite <- A.
  replace (n * b * w k) with (b * (n * w k)) by ring. rewrite inject_Z_mult, <- N, Ha.
  change (Qpower (2 # 1) 0) with 1%Q. ring.
Qed.

Lemma too_large_iff x a b : 0 < b -> (inject_Z a == x * inject_Z b)%Q ->
  (too_large <= x)%Q <-> 18014398509481983 * b * w 971 <= 2 * (a * w 0).
Proof.
  intros Hb Hx.
  assert (P : (0 < inject_Z b * Qpower (2 # 1) 1074 * 2)%Q).
  { apply Qmult_lt_0_compat; [|reflexivity]. apply Qmult_lt_0_compat; [unfold Qlt; cbn; lia|]. apply Qpower_0_lt. reflexivity. }
  rewrite <- (Qmult_le_r _ _ _ P). rewrite Zle_Qle.
  assert (A : (x * (inject_Z b * Qpower (2 # 1) 1074 * 2) == inject_Z (2 * (a * w 0)))%Q).
  { rewrite inject_Z_mult. rewrite <- (on_scale a 0) by lia. rewrite Hx. change (Qpower (2 # 1) 0) with 1%Q. change (inject_Z 2) with 2%Q. ring. }
  assert (B : (too_large * (inject_Z b * Qpower (2 # 1) 1074 * 2) == inject_Z (18014398509481983 * b * w 971))%Q).
  { replace (18014398509481983 * b * w 971) with (b * (18014398509481983 * w 971)) by ring. rewrite inject_Z_mult.
    rewrite <- (on_scale 18014398509481983 971) by lia. unfold too_large. change (2 ^ 54 - 1) with 18014398509481983.
    change 971 with (970 + 1). rewrite (Qpower_plus _ 970 1) by apply two_pos. change (Qpower (2 # 1) 1) with (2 # 1). ring. }
  now rewrite A, B.
Qed.

(** the positive numeral a/b *)
Lemma nearest_value x a b n k : 0 < a -> 0 < b -> double_of a b = Some (n, k) -> (inject_Z a == x * inject_Z b)%Q ->
  double (inject_Z n * Qpower (2 # 1) k)
  /\ (forall q, double q -> (Qabs (x - inject_Z n * Qpower (2 # 1) k) <= Qabs (x - q))%Q)
  /\ (forall q, double q -> ~ (q == inject_Z n * Qpower (2 # 1) k)%Q -> (Qabs (x - inject_Z n * Qpower (2 # 1) k) == Qabs (x - q))%Q ->
        even_double (inject_Z n * Qpower (2 # 1) k))
  /\ (x < too_large)%Q.
Proof.
  intros Ha Hb H Hx. pose proof (double_of_spec a b n k Ha Hb H) as [(N1 & N2 & N3) _].
  assert (P : (0 < inject_Z b * Qpower (2 # 1) 1074)%Q).
  { apply Qmult_lt_0_compat; [unfold Qlt; cbn; lia|]. apply Qpower_0_lt. reflexivity. }
  split; [|split; [|split]].
  - exists n, k. split; [change (2 ^ 53) with 9007199254740992; lia|]. split; [exact N2|reflexivity].
  - intros q (n' & k' & Hn' & Hk' & Hq). change (2 ^ 53) with 9007199254740992 in Hn'.
    apply (Qmult_lt_0_le_reg_r _ _ _ P). rewrite (distance x a b n k Hb ltac:(lia) Hx).
    rewrite Hq, (distance x a b n' k' Hb ltac:(lia) Hx). rewrite <- Zle_Qle. now apply double_of_nearest_all.
  - intros q (n' & k' & Hn' & Hk' & Hq) Ne Ed. change (2 ^ 53) with 9007199254740992 in Hn'.
    exists n, k. change (2 ^ 53) with 9007199254740992. change (2 ^ 52) with 4503599627370496.
    split; [destruct N3 as [N3|N3]; [now left|right; lia]|]. split; [lia|]. split; [exact N2|]. split; [|reflexivity].
    apply (double_of_even_all a b n k n' k' Ha Hb H Hn' Hk').
    + intros G. apply Ne. rewrite Hq. apply (Qmult_inj_r _ _ (Qpower (2 # 1) 1074)); [now apply Qpower_not_0|].
      rewrite !on_scale by lia. now rewrite G.
    + apply inject_Z_injective. rewrite <- (distance x a b n k Hb ltac:(lia) Hx), <- (distance x a b n' k' Hb ltac:(lia) Hx).
      now rewrite Ed, Hq.
  - destruct (Qlt_le_dec x too_large) as [L|L]; [exact L|]. exfalso.
    assert (G : double_of a b = None); [|congruence]. apply double_of_none; [exact Ha|exact Hb|].
    now apply (too_large_iff x a b Hb Hx).
Qed.

Lemma py_float_numeral neg ip fp : forallb is_digit (ip ++ fp) = true -> ip ++ fp <> [] ->
  (val_digits (ip ++ fp) = 0%N /\ py_float (numeral_text neg ip fp) = Ok (FFin neg 0 0))
  \/ exists m e, m <> 0%N
     /\ (inject_Z (Z.of_N m) * Qpower (10 # 1) e == inject_Z (digits_value (ip ++ fp)) * Qpower (10 # 1) (- Z.of_nat (List.length fp)))%Q
     /\ py_float (numeral_text neg ip fp) = match reprint m e with Some (m', e') => Ok (FFin neg m' e') | None => Ok (FInf neg) end.
Proof.
  intros D Ne. pose proof D as D'. rewrite forallb_app in D'. apply andb_true_iff in D' as [Di Df].
  assert (S : strip_minus (numeral_text neg ip fp) = (neg, ip ++ c_dot :: fp)).
  { unfold numeral_text. destruct neg; [reflexivity|]. cbn [app]. change (lit "." ++ fp) with (c_dot :: fp).
    destruct ip as [|c r]; [reflexivity|]. cbn [app strip_minus]. cbn [forallb] in Di. apply andb_true_iff in Di as [Dc _].
    apply is_digit_bounds in Dc. destruct (N.eqb_spec c c_minus) as [->|_]; [unfold c_minus in Dc; lia|reflexivity]. }
  assert (Ev : py_float (numeral_text neg ip fp) =
     (let '(k, rds) := strip0 (rev (ip ++ fp)) in
      let m := val_digits (rev rds) in
      if N.eqb m 0 then Ok (FFin neg 0 0)
      else match reprint m (Z.of_nat k - Z.of_nat (List.length fp)) with
           | Some (m', e') => Ok (FFin neg m' e') | None => Ok (FInf neg) end)).
  { unfold py_float. rewrite S. cbv beta iota zeta. rewrite split_dot_app by exact Di. rewrite D. destruct (ip ++ fp) as [|c l]; [now elim Ne|reflexivity]. }
  pose proof (strip0_spec (rev (ip ++ fp))) as Z0. destruct (strip0 (rev (ip ++ fp))) as [k rds].
  assert (Ei : ip ++ fp = rev rds ++ zeros k) by (rewrite <- (rev_involutive (ip ++ fp)), Z0, rev_app_distr, rev_zeros; reflexivity).
  assert (Va : val_digits (ip ++ fp) = (val_digits (rev rds) * 10 ^ N.of_nat k)%N).
  { rewrite Ei, val_digits_app, val_digits_zeros, zeros_length. lia. }
  cbv zeta in Ev. destruct (N.eqb_spec (val_digits (rev rds)) 0) as [E|E].
  - left. split; [|exact Ev]. rewrite Va, E. reflexivity.
  - right. exists (val_digits (rev rds)), (Z.of_nat k - Z.of_nat (List.length fp)). split; [exact E|]. split; [|exact Ev].
    rewrite (digits_value_val _ D), Va, N2Z.inj_mul, N2Z.inj_pow, nat_N_Z, inject_Z_mult.
    change (Z.of_N 10) with 10. rewrite <- power_ten by lia. unfold Zminus. rewrite Qpower_plus by apply ten_pos. ring.
Qed.

Lemma numeral_word neg ip fp : forallb is_digit (ip ++ fp) = true ->
  str2edge (numeral_text neg ip fp) = (let? x := py_float (numeral_text neg ip fp) in Ok (VFlt x)).
Proof.
  intros D. pose proof D as D'. rewrite forallb_app in D'. apply andb_true_iff in D' as [Di Df].
  set (s := numeral_text neg ip fp).
  assert (Hc : forall c, In c s -> c = c_minus \/ c = c_dot \/ is_digit c = true).
  { intros c H. unfold s, numeral_text in H. rewrite !in_app_iff in H. destruct H as [H|[H|[H|H]]].
    - destruct neg; [|easy]. destruct H as [<-|[]]. now left.
    - right. right. rewrite forallb_forall in Di. now apply Di.
    - destruct H as [<-|[]]. right. now left.
    - right. right. rewrite forallb_forall in Df. now apply Df. }
  assert (Hn : s <> []) by (unfold s, numeral_text; destruct neg, ip; discriminate).
  assert (Hsp : nospace s = true).
  { unfold nospace. apply forallb_forall. intros c H. destruct (Hc c H) as [->|[->|G]]; [reflexivity|reflexivity|].
    apply is_digit_bounds in G. unfold is_space. apply negb_true_iff. lia. }
  assert (Hl : ~ In c_lpar s). { intros H. destruct (Hc _ H) as [G|[G|G]]; discriminate G. }
  assert (Hr : ~ In c_rpar s). { intros H. destruct (Hc _ H) as [G|[G|G]]; discriminate G. }
  assert (Hw : split_ws s = [s]).
  { pose proof (split_ws_join [s]) as J. cbn [join] in J. apply J. constructor; [|constructor]. split; [exact Hn|exact Hsp]. }
  destruct (split_edge_str_noparen s Hn Hl Hr) as [E _].
  unfold str2edge. cbn [str2edge_f]. rewrite E, Hw. cbn [rbind mapr].
  assert (T : token_type s = TDouble).
  { rewrite token_type_spec. assert (S : strip_minus s = (neg, ip ++ c_dot :: fp)).
    { unfold s, numeral_text. destruct neg; [reflexivity|]. cbn [app]. change (lit "." ++ fp) with (c_dot :: fp).
      destruct ip as [|c r]; [reflexivity|]. cbn [app strip_minus]. cbn [forallb] in Di. apply andb_true_iff in Di as [Dc _].
      apply is_digit_bounds in Dc. destruct (N.eqb_spec c c_minus) as [->|_]; [unfold c_minus in Dc; lia|reflexivity]. }
    unfold int_shape, dbl_shape. rewrite S. cbn [snd]. rewrite split_dot_app by exact Di. rewrite Di, Df. rewrite forallb_app. cbn [forallb].
    change (is_digit c_dot) with false. cbn [andb]. now rewrite andb_false_r. }
  assert (P : parsed_token (str2edge_f (List.length s)) s = (let? x := py_float s in Ok (VFlt x))).
  { unfold parsed_token. destruct s as [|c r] eqn:Es; [now elim Hn|]. destruct (N.eqb_spec c c_lpar) as [->|_]; [elim Hl; now left|].
    rewrite T. reflexivity. }
  rewrite P. destruct (py_float s) as [x|]; reflexivity.
Qed.

Lemma sign_out (neg : bool) (x y : Q) : (Qabs ((if neg then -1 # 1 else 1) * x - (if neg then -1 # 1 else 1) * y) == Qabs (x - y))%Q.
Proof.
  destruct neg.
  - rewrite <- (Qabs_opp (x - y)). apply Qabs_wd. ring.
  - apply Qabs_wd. ring.
Qed.
Lemma sign_twice (neg : bool) (y : Q) : (y == (if neg then -1 # 1 else 1) * ((if neg then -1 # 1 else 1) * y))%Q.
Proof. destruct neg; ring. Qed.
Lemma double_sign (neg : bool) (q : Q) : double q -> double ((if neg then -1 # 1 else 1) * q)%Q.
Proof.
  intros (n & k & H1 & H2 & H3). exists (signed neg n), k. split; [destruct neg; cbn [signed]; lia|]. split; [exact H2|].
  rewrite H3. destruct neg; cbn [signed]; [rewrite inject_Z_opp|]; ring.
Qed.
Lemma even_double_sign (neg : bool) (q : Q) : even_double q -> even_double ((if neg then -1 # 1 else 1) * q)%Q.
Proof.
  intros (n & k & H0 & H1 & H2 & H3 & H4). exists (signed neg n), k. destruct neg; cbn [signed].
  - split; [destruct H0 as [H0|H0]; [now left|right; lia]|]. split; [lia|]. split; [exact H2|]. split; [now rewrite Z.even_opp|].
    rewrite H4, inject_Z_opp. ring.
  - split; [exact H0|]. split; [exact H1|]. split; [exact H2|]. split; [exact H3|]. rewrite H4. ring.
Qed.
Lemma double_wd p q : (p == q)%Q -> double p -> double q.
Proof. intros E (n & k & H1 & H2 & H3). exists n, k. split; [exact H1|]. split; [exact H2|]. now rewrite <- E. Qed.
Lemma even_double_wd p q : (p == q)%Q -> even_double p -> even_double q.
Proof. intros E (n & k & H0 & H1 & H2 & H3 & H4). exists n, k. repeat (split; [assumption|]). now rewrite <- E. Qed.

(** [q] is the double that [x] is rounded to: none is nearer, and when another is
    as near, [q] is the one whose last bit is zero. *)
Definition rounded (x q : Q) : Prop :=
  double q /\ (forall r, double r -> (Qabs (x - q) <= Qabs (x - r))%Q)
  /\ (forall r, double r -> ~ (r == q)%Q -> (Qabs (x - q) == Qabs (x - r))%Q -> even_double q).
Lemma rounded_sign (neg : bool) (x q : Q) : rounded x q -> rounded ((if neg then -1 # 1 else 1) * x)%Q ((if neg then -1 # 1 else 1) * q)%Q.
Proof.
  intros (H1 & H2 & H3). split; [now apply double_sign|]. split.
  - intros r Hr. rewrite (sign_twice neg r), !sign_out. apply H2. now apply double_sign.
  - intros r Hr Ne E. apply even_double_sign. rewrite (sign_twice neg r), !sign_out in E.
    refine (H3 _ (double_sign neg r Hr) _ E). intros G. apply Ne. rewrite (sign_twice neg r), G. reflexivity.
Qed.
Lemma rounded_wd x y p q : (x == y)%Q -> (p == q)%Q -> rounded x p -> rounded y q.
Proof.
  intros Ex Ep (H1 & H2 & H3). split; [now apply (double_wd p)|]. split.
  - intros r Hr. rewrite <- Ex, <- Ep. now apply H2.
  - intros r Hr Ne E. apply (even_double_wd p q Ep). apply (H3 r Hr); [now rewrite Ep|now rewrite Ex, Ep].
Qed.

(** C46: a word that is a decimal numeral is read as the float nearest to it, of
    two equally near ones as the even one; as inf (with its sign) from half a unit
    beyond the largest float on. *)
Theorem C46_numeral_is_rounded :
  forall neg ip fp, forallb is_digit (ip ++ fp) = true -> ip ++ fp <> [] ->
    ((Qabs (numeral neg ip fp) < too_large)%Q ->
       exists m e q, str2edge (numeral_text neg ip fp) = Ok (VFlt (FFin neg m e)) /\ flt_canon (FFin neg m e) = true
         /\ number (VFlt (FFin neg m e)) = Some q /\ rounded (numeral neg ip fp) q)
    /\ ((too_large <= Qabs (numeral neg ip fp))%Q -> str2edge (numeral_text neg ip fp) = Ok (VFlt (FInf neg))).
Proof.
  intros neg ip fp D Ne. rewrite (numeral_word neg ip fp D).
  set (x := (inject_Z (digits_value (ip ++ fp)) * Qpower (10 # 1) (- Z.of_nat (List.length fp)))%Q).
  assert (X0 : (0 <= x)%Q).
  { apply Qmult_le_0_compat; [|apply Qpower_pos; discriminate]. rewrite (digits_value_val _ D). unfold Qle; cbn; lia. }
  assert (Xs : (Qabs (numeral neg ip fp) == x)%Q).
  { unfold numeral. fold x. rewrite Qabs_Qmult, (Qabs_pos x X0). destruct neg; cbn; ring. }
  assert (Zr : rounded 0 0).
  { split; [exists 0, 0; split; [reflexivity|split; [lia|reflexivity]]|]. split.
    - intros r _. change (Qabs (0 - 0)) with 0%Q. apply Qabs_nonneg.
    - intros r _ Nr E. exfalso. apply Nr. change (Qabs (0 - 0)) with 0%Q in E. symmetry in E.
      destruct (Qlt_le_dec 0 r) as [L|L].
      + exfalso. rewrite Qabs_neg in E by lra. lra.
      + rewrite Qabs_pos in E by lra. lra. }
  destruct (py_float_numeral neg ip fp D Ne) as [[V ->]|(m & e & Hm & Hv & ->)].
  - assert (X : (x == 0)%Q) by (unfold x; rewrite (digits_value_val _ D), V; apply Qmult_0_l).
    split.
    + intros _. exists 0%N, 0, 0%Q. cbn [rbind]. split; [reflexivity|]. split; [reflexivity|]. split; [reflexivity|].
      refine (rounded_wd 0 _ 0 0 _ (Qeq_refl 0) Zr). unfold numeral. fold x. rewrite X. destruct neg; reflexivity.
    + rewrite Xs, X. intros L. exfalso. apply (Qlt_irrefl 0). eapply Qlt_le_trans; [|exact L]. reflexivity.
  - fold x in Hv. pose proof (reprint_cases m e Hm) as RC.
    pose proof (scaled_pos (Z.of_N m) 10 e ltac:(lia) ltac:(lia)) as [A B].
    destruct (scaled (Z.of_N m) 10 e) as [a b] eqn:S. cbn [fst snd] in A, B.
    assert (Rd : read_decimal m e = double_of a b) by (unfold read_decimal; now rewrite S). rewrite Rd in RC.
    pose proof (scaled_value _ _ _ _ S) as Sv. rewrite Hv in Sv.
    destruct (double_of a b) as [[n k]|] eqn:Db.
    + destruct (nearest_value x a b n k A B Db Sv) as (N1 & N2 & N3 & N4).
      assert (R : rounded x (inject_Z n * Qpower (2 # 1) k)) by (split; [exact N1|split; [exact N2|exact N3]]).
      split.
      * intros _. destruct RC as [_ [[-> ->]|(Hn & m' & e' & -> & M1 & M2 & M3 & M4)]].
        -- exists 0%N, 0, 0%Q. cbn [rbind]. split; [reflexivity|]. split; [reflexivity|]. split; [reflexivity|].
           pose proof (rounded_sign neg _ _ R) as R'. unfold numeral. fold x. eapply rounded_wd; [reflexivity| |exact R'].
           rewrite Qmult_0_l, Qmult_0_r. reflexivity.
        -- exists m', e'. eexists. cbn [rbind]. split; [reflexivity|]. split.
           { cbn [flt_canon]. destruct (N.eqb_spec m' 0) as [E|_]; [now elim M1|]. rewrite M3, andb_true_r. now apply negb_true_iff, N.eqb_neq. }
           cbn [number]. destruct (N.eqb_spec m' 0) as [E|_]; [now elim M1|]. rewrite M4. split; [reflexivity|].
           pose proof (rounded_sign neg _ _ R) as R'. unfold numeral. fold x. eapply rounded_wd; [reflexivity| |exact R'].
           destruct neg; cbn [signed]; [rewrite inject_Z_opp|]; ring.
      * rewrite Xs. intros L. exfalso. exact (Qlt_not_le _ _ N4 L).
    + rewrite RC. cbn [rbind]. split; [|reflexivity]. rewrite Xs. intros L. exfalso.
      apply (double_of_none a b A B), (too_large_iff x a b B Sv) in Db. exact (Qlt_not_le _ _ L Db).
Qed.
Print Assumptions C46_numeral_is_rounded.
Example C46_numeral_nonvacuous :
  let ip := lit "0" in let fp := lit "1000000000000000055" in
  forallb is_digit (ip ++ fp) = true /\ ip ++ fp <> [] /\ (Qabs (numeral true ip fp) < 1)%Q
  /\ numeral_text true ip fp = lit "-0.1000000000000000055"
  /\ str2edge (numeral_text true ip fp) = Ok (VFlt (FFin true 1 (-1)))
  /\ number (VFlt (FFin true 1 (-1))) = Some (inject_Z (- 7205759403792794) * Qpower (2 # 1) (-56))%Q.
Proof. cbv zeta. repeat (apply conj; [vm_compute; first [reflexivity|discriminate]|]). vm_compute. reflexivity. Qed.

(** C46: whatever text is read, the floats in it are floats (their numerals are
    reprs), so that C46_float_text speaks about all of them. *)
Fixpoint all_floats (P : pyfloat -> bool) (v : value) : bool :=
  match v with
  | VFlt f => P f
  | VTup l => forallb (all_floats P) l
  | _ => true
  end.
Lemma py_float_canon s f : py_float s = Ok f -> flt_canon f = true.
Proof.
  unfold py_float. destruct (strip_minus s) as [neg r]. destruct (split_dot r) as [[a b]|]; [|discriminate].
  destruct (a ++ b) as [|c l] eqn:E; [discriminate|]. destruct (forallb is_digit _); [|discriminate].
  destruct (strip0 _) as [k rds]. cbv zeta. destruct (N.eqb_spec (val_digits (rev rds)) 0) as [_|Hm]; [intros [= <-]; reflexivity|].
  set (e := Z.of_nat k - Z.of_nat (List.length b)). pose proof (reprint_cases _ e Hm) as RC.
  destruct (read_decimal _ e) as [[n k']|].
  - destruct RC as [_ [[_ ->]|(_ & m' & e' & -> & M1 & M2 & M3 & _)]]; intros [= <-]; [reflexivity|].
    cbn [flt_canon]. destruct (N.eqb_spec m' 0) as [G|_]; [now elim M1|]. rewrite M3, andb_true_r. now apply negb_true_iff, N.eqb_neq.
  - rewrite RC. intros [= <-]. reflexivity.
Qed.
Theorem C46_floats_read :
  forall s v, str2edge s = Ok v -> all_floats flt_canon v = true.
Proof.
  unfold str2edge. intros s. generalize (S (List.length s)) as fuel. intros fuel. revert s.
  induction fuel as [|fuel IH]; intros s v H; [discriminate|]. cbn [str2edge_f] in H.
  destruct (split_edge_str s) as [toks|]; [|discriminate]. cbn [rbind] in H.
  destruct (mapr (parsed_token (str2edge_f fuel)) toks) as [els|] eqn:M; [|discriminate]. cbn [rbind] in H.
  assert (A : forall y, In y els -> all_floats flt_canon y = true).
  { intros y Hy. destruct (mapr_in _ _ _ _ M Hy) as (t & _ & Ht). unfold parsed_token in Ht.
    destruct t as [|c t]; [discriminate|]. destruct (N.eqb c c_lpar); [now apply IH in Ht|].
    destruct (token_type (c :: t)).
    - destruct (py_int (c :: t)); [|discriminate]. injection Ht as <-. reflexivity.
    - destruct (py_float (c :: t)) as [f|] eqn:F; [|discriminate]. injection Ht as <-. cbn [all_floats]. now apply py_float_canon in F.
    - injection Ht as <-. reflexivity. }
  destruct els as [|x [|y els]]; [discriminate| |]; injection H as <-; [apply A; now left|].
  cbn [all_floats]. now apply forallb_forall.
Qed.
Print Assumptions C46_floats_read.

(** C46: and every decimal of at most fifteen digits is the repr of a float, so it
    is read and written back unchanged (as C46_float_text says). *)
Theorem C46_fifteen_digits :
  forall neg m e, (0 < m < 10 ^ 15)%N -> (m mod 10 <> 0)%N -> -290 <= e <= 290 ->
    flt_canon (FFin neg m e) = true
    /\ str2edge (show_float (FFin neg m e))
       = Ok (if flt_positional (FFin neg m e) then VFlt (FFin neg m e) else VStr (show_float (FFin neg m e))).
Proof.
  intros neg m e Hm Ht He. change (10 ^ 15)%N with 1000000000000000%N in Hm.
  assert (C : flt_canon (FFin neg m e) = true).
  { cbn [flt_canon]. destruct (N.eqb_spec m 0) as [E|_]; [lia|]. rewrite repr_short by lia. rewrite andb_true_r. now apply negb_true_iff, N.eqb_neq. }
  split; [exact C|]. exact (proj1 C46_float_text (VFlt (FFin neg m e)) C).
Qed.
Print Assumptions C46_fifteen_digits.
