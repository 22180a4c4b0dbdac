(** * C_values.v -- what == and < mean, in the terms of arithmetic (C09, C47) *)
From Coq Require Import List Bool ZArith NArith QArith Qpower String Lia.
Import ListNotations.
From Verif Require Import Double P_double Py Spec P_py P_range.
Local Open Scope Z_scope.
Local Open Scope list_scope.

(** ** Numbers *)

(** The number a value stands for: a float is the double that its numeral m * 10^e
    is read as, n * 2^k exactly. *)
Definition signed (neg : bool) (n : Z) : Z := if neg then - n else n.
Definition number (v : value) : option Q :=
  match v with
  | VInt z => Some (inject_Z z)
  | VFlt (FFin neg m e) =>
      if N.eqb m 0 then Some 0%Q
      else match read_decimal m e with
           | Some (n, k) => Some (inject_Z (signed neg n) * Qpower (2 # 1) k)%Q
           | None => None
           end
  | _ => None
  end.

Lemma two_pos : ~ (2 # 1 == 0)%Q. Proof. discriminate. Qed.

Lemma power_nonneg k : 0 <= k -> (Qpower (2 # 1) k == inject_Z (2 ^ k))%Q.
Proof.
  intros H. pattern k. apply natlike_ind; [reflexivity| |exact H].
  intros x Hx IH. unfold Z.succ. rewrite Qpower_plus by apply two_pos. rewrite IH, Z.pow_add_r by lia.
  rewrite inject_Z_mult. reflexivity.
Qed.

Lemma shift v e x : (inject_Z v * Qpower (2 # 1) e == inject_Z x)%Q <-> (if 0 <=? e then v * 2 ^ e = x else v = x * 2 ^ (- e)).
Proof.
  destruct (Z.leb_spec 0 e) as [H|H].
  - rewrite power_nonneg by exact H. rewrite <- inject_Z_mult. apply inject_Z_injective.
  - rewrite <- inject_Z_injective, inject_Z_mult, <- power_nonneg by lia.
    assert (E : (Qpower (2 # 1) e * Qpower (2 # 1) (- e) == 1)%Q).
    { rewrite <- Qpower_plus by apply two_pos. now replace (e + - e) with 0 by lia. }
    split; intros G.
    + rewrite <- G. rewrite <- Qmult_assoc, E. now rewrite Qmult_1_r.
    + rewrite G. rewrite <- Qmult_assoc, (Qmult_comm (Qpower _ (- e))), E. now rewrite Qmult_1_r.
Qed.

(** on the scale of the least double *)
Lemma on_scale v k : -1074 <= k -> (inject_Z v * Qpower (2 # 1) k * Qpower (2 # 1) 1074 == inject_Z (v * w k))%Q.
Proof.
  intros H. rewrite <- Qmult_assoc, <- Qpower_plus by apply two_pos. rewrite power_nonneg by lia.
  rewrite <- inject_Z_mult. replace (w k) with (2 ^ (k + 1074)); [reflexivity|].
  replace k with (k + 1074 - 1074) at 2 by lia. symmetry. apply w_from.
Qed.
Lemma same_number v k v' k' : -1074 <= k -> -1074 <= k' ->
  (inject_Z v * Qpower (2 # 1) k == inject_Z v' * Qpower (2 # 1) k')%Q -> v * w k = v' * w k'.
Proof. intros H H' G. apply inject_Z_injective. rewrite <- !on_scale by assumption. now rewrite G. Qed.

Definition canonical (v : value) : bool := match v with VFlt f => flt_canon f | _ => true end.

Lemma not_zero (v k : Z) : -1074 <= k -> v <> 0 -> ~ (inject_Z v * Qpower (2 # 1) k == 0)%Q.
Proof.
  intros Hk H G. assert (E : (inject_Z v * Qpower (2 # 1) k == inject_Z 0 * Qpower (2 # 1) 0)%Q) by (rewrite G; reflexivity).
  apply same_number in E; [|lia..]. pose proof (w_pos k Hk). nia.
Qed.

Lemma int_float_numeric z f x : number (VFlt f) = Some x -> (int_eq_float z f = true <-> (inject_Z z == x)%Q).
Proof.
  destruct f as [neg m e| |]; try discriminate. cbn [number int_eq_float]. unfold is_integer.
  destruct (N.eqb m 0).
  - intros [= <-]. change 0%Q with (inject_Z 0). rewrite inject_Z_injective, Z.eqb_eq. destruct neg; lia.
  - destruct (read_decimal m e) as [[n k]|]; [|discriminate]. intros [= <-].
    transitivity (inject_Z (signed neg n) * Qpower (2 # 1) k == inject_Z z)%Q; [|split; apply Qeq_sym].
    rewrite shift. destruct (0 <=? k); rewrite Z.eqb_eq; destruct neg; cbn [signed]; lia.
Qed.

(** C47: two numbers are equal for Python exactly when they are the same number,
    whatever their types and whatever their signs of zero; a float counts with the
    exact value of the double, not with the decimal that is printed for it. *)
Theorem C47_equality_is_numeric :
  forall a b x y, canonical a = true -> canonical b = true -> number a = Some x -> number b = Some y ->
    (py_eq a b = true <-> (x == y)%Q).
Proof.
  intros a b x y Ca Cb Na Nb.
  destruct a as [|s|z|f|l]; try discriminate Na; destruct b as [|s'|z'|f'|l']; try discriminate Nb.
  - injection Na as <-. injection Nb as <-. cbn [py_eq]. rewrite Z.eqb_eq. symmetry. apply inject_Z_injective.
  - injection Na as <-. cbn [py_eq]. now apply int_float_numeric.
  - injection Nb as <-. cbn [py_eq]. rewrite (int_float_numeric z' f x Na). split; apply Qeq_sym.
  - destruct f as [n m e| |]; try discriminate Na. destruct f' as [n' m' e'| |]; try discriminate Nb.
    cbn [py_eq float_eq]. cbn [number] in Na, Nb. cbn [canonical flt_canon] in Ca, Cb.
    destruct (N.eqb_spec m 0) as [->|Hm], (N.eqb_spec m' 0) as [->|Hm'].
    + injection Na as <-. injection Nb as <-. cbn [andb orb]. split; reflexivity.
    + injection Na as <-. apply andb_true_iff in Cb as [_ Cb]. destruct (repr_read m' e' Hm' Cb) as (v & k & R & N & P). rewrite R in Nb. injection Nb as <-.
      cbn [andb orb]. split.
      * intros G. apply andb_true_iff in G as [G _]. apply andb_true_iff in G as [_ G]. apply N.eqb_eq in G. now elim Hm'.
      * intros G. exfalso. apply Qeq_sym in G. apply not_zero in G; [exact G|destruct N as (_ & ? & _); lia|]. destruct n'; cbn [signed]; lia.
    + injection Nb as <-. apply andb_true_iff in Ca as [_ Ca]. destruct (repr_read m e Hm Ca) as (v & k & R & N & P). rewrite R in Na. injection Na as <-.
      cbn [andb orb]. split.
      * intros G. apply andb_true_iff in G as [G _]. apply andb_true_iff in G as [_ G]. apply N.eqb_eq in G. now elim Hm.
      * intros G. exfalso. apply not_zero in G; [exact G|destruct N as (_ & ? & _); lia|]. destruct n; cbn [signed]; lia.
    + apply andb_true_iff in Ca as [_ Ca]. destruct (repr_read m e Hm Ca) as (v & k & R & N & P). rewrite R in Na. injection Na as <-.
      apply andb_true_iff in Cb as [_ Cb]. destruct (repr_read m' e' Hm' Cb) as (v' & k' & R' & N' & P'). rewrite R' in Nb. injection Nb as <-.
      cbn [andb orb]. rewrite !andb_true_iff, N.eqb_eq, Z.eqb_eq, Bool.eqb_true_iff. split.
      * intros [[-> ->] ->]. rewrite R in R'. injection R' as <- <-. reflexivity.
      * intros G. assert (K : -1074 <= k) by (destruct N as (_ & ? & _); lia). assert (K' : -1074 <= k') by (destruct N' as (_ & ? & _); lia).
        apply same_number in G; [|exact K|exact K'].
        pose proof (w_pos k K) as W. pose proof (w_pos k' K') as W'.
        assert (S : n = n' /\ v * w k = v' * w k') by (destruct n, n'; cbn [signed] in G; [split; [reflexivity|lia]|nia|nia|split; [reflexivity|exact G]]).
        destruct S as [-> S]. destruct (normal_unique v k v' k' N N' S) as [-> ->].
        destruct (repr_injective m e m' e' v' k' Hm Hm' Ca Cb R R') as [-> ->]. repeat split.
Qed.
Print Assumptions C47_equality_is_numeric.
(** what is not a finite number is equal only to itself, and nan not even to that *)
Theorem C47_equality_otherwise :
  (forall a b, canonical a = true -> number a = None -> number b <> None -> py_eq a b = false /\ py_eq b a = false)
  /\ (forall s t, py_eq (VStr s) (VStr t) = true <-> s = t)
  /\ (forall n n', py_eq (VFlt (FInf n)) (VFlt (FInf n')) = true <-> n = n')
  /\ (forall v, py_eq (VFlt FNan) v = false /\ py_eq v (VFlt FNan) = false)
  /\ (forall l m, py_eq (VTup l) (VTup m) = true <-> Forall2 (fun x y => py_eq x y = true) l m).
Proof.
  split; [|split; [|split; [|split]]].
  - intros a b Ca Ha Hb. assert (A : forall n m e, a <> VFlt (FFin n m e)).
    { intros n m e ->. cbn [number] in Ha. cbn [canonical flt_canon] in Ca. destruct (N.eqb_spec m 0) as [_|Hm]; [discriminate|].
      apply andb_true_iff in Ca as [_ Ca]. destruct (repr_read m e Hm Ca) as (v & k & R & _). now rewrite R in Ha. }
    destruct b as [|t|z|[n m e| |]|l]; try (now elim Hb); destruct a as [|t'|z'|[n' m' e'| |]|l']; try discriminate Ha; try (now split); now elim (A n' m' e').
  - intros s t. cbn [py_eq]. apply str_eqb_eq.
  - intros n n'. cbn [py_eq float_eq]. apply Bool.eqb_true_iff.
  - intros v. split; destruct v as [|t|z|[n m e| |]|l]; reflexivity.
  - induction l as [|x l IH]; intros [|y m]; cbn [py_eq].
    + split; [constructor|reflexivity].
    + split; [discriminate|]. intros H. inversion H.
    + split; [discriminate|]. intros H. inversion H.
    + rewrite andb_true_iff. specialize (IH m). cbn [py_eq] in IH. rewrite IH. split.
      * intros [H1 H2]. now constructor.
      * intros H. inversion H; subst. now split.
Qed.
Print Assumptions C47_equality_otherwise.
Example C47_equality_nonvacuous :
  number (VInt 7) = Some 7%Q /\ canonical (VFlt (FFin false 7 0)) = true
  /\ py_eq (VFlt (FFin true 0 0)) (VInt 0) = true /\ py_eq (VFlt (FFin true 0 0)) (VFlt (FFin false 0 0)) = true
  /\ py_eq (VFlt (FFin false 197 1)) (VInt 1970) = true /\ py_eq (VFlt (FFin false 5 (-1))) (VFlt (FFin true 5 (-1))) = false
  (* 1e23 is not 10^23, and 1.152921504606847e+18 is 2^60 *)
  /\ py_eq (VFlt (FFin false 1 23)) (VInt (10 ^ 23)) = false /\ py_eq (VFlt (FFin false 1152921504606847 3)) (VInt (2 ^ 60)) = true.
Proof. vm_compute. repeat apply conj; reflexivity. Qed.

(** ** The order of texts *)

(** C09: the comparison the range scan makes is the order of the dictionary: a
    text is at most another when it is a beginning of it or has the smaller
    character at the first place where they differ; on the bytes of the UTF-8
    encoding and on the characters this is the same. *)
Theorem C09_order_of_the_scan :
  (forall a b, lex_leb a b = true <->
     (exists r, b = a ++ r) \/ exists p x y a' b', a = p ++ x :: a' /\ b = p ++ y :: b' /\ (x < y)%N)
  /\ (forall s t : str, lex_leb (utf8 s) (utf8 t) = lex_leb s t).
Proof.
  split; [|exact utf8_order]. induction a as [|x a IH]; intros b.
  - split; [|reflexivity]. intros _. left. now exists b.
  - destruct b as [|y b]; cbn [lex_leb].
    + split; [discriminate|]. intros [[r E]|(p & u & v & a' & b' & _ & E & _)]; [discriminate E|].
      symmetry in E. now apply app_eq_nil in E as [_ E].
    + destruct (N.eqb_spec x y) as [->|Hne].
      * rewrite IH. split.
        -- intros [[r ->]|(p & u & v & a' & b' & -> & -> & L)]; [left; now exists r|].
           right. exists (y :: p), u, v, a', b'. now repeat split.
        -- intros [[r E]|(p & u & v & a' & b' & E1 & E2 & L)]; [injection E as ->; left; now exists r|].
           right. destruct p as [|z p].
           ++ injection E1 as -> _. injection E2 as -> _. now apply N.lt_irrefl in L.
           ++ injection E1 as -> ->. injection E2 as ->. now exists p, u, v, a', b'.
      * rewrite N.ltb_lt. split.
        -- intros L. right. now exists [], x, y, a, b.
        -- intros [[r E]|(p & u & v & a' & b' & E1 & E2 & L)]; [injection E as -> _; now elim Hne|].
           destruct p as [|z p].
           ++ injection E1 as -> _. injection E2 as -> _. exact L.
           ++ injection E1 as -> _. injection E2 as -> _. now elim Hne.
Qed.
Print Assumptions C09_order_of_the_scan.
Example C09_order_nonvacuous :
  lex_leb (lit "is") (lit "is a") = true /\ lex_leb (lit "is a") (lit "is") = false /\ lex_leb (lit "isa") (lit "it") = true.
Proof. vm_compute. repeat apply conj; reflexivity. Qed.

(** The characters an encoded text can hold: the Unicode scalar values. *)
Theorem C09_characters :
  forall c, is_scalar c = true <-> (c <= 55295 \/ 57344 <= c <= 1114111)%N.
Proof. intros c. unfold is_scalar, is_surrogate, max_cp. rewrite andb_true_iff, negb_true_iff, andb_false_iff, !N.leb_le, !N.leb_gt. lia. Qed.
Print Assumptions C09_characters.
