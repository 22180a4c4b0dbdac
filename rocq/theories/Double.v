(** * Double.v -- the binary64 numbers behind Python's [float]

    This file models no repository code: it says which double a decimal numeral
    is read as ([float(s)], round half to even) and which decimal a double is
    printed as ([repr], the shortest numeral that is read as that double).  It is
    executable and is part of the trusted base, as Py.v is; P_double.v proves
    that it behaves as documented. *)

From Coq Require Import ZArith NArith Bool Lia.
Local Open Scope Z_scope.

(** The integer nearest to a / b, the even one of two equally near. *)
Definition round_ratio (a b : Z) : Z :=
  let q := a / b in
  match Z.compare (2 * (a mod b)) b with
  | Lt => q
  | Gt => q + 1
  | Eq => if Z.even q then q else q + 1
  end.

(** x * b^k as a fraction: numerator and denominator. *)
Definition scaled (x b k : Z) : Z * Z := if 0 <=? k then (x * b ^ k, 1) else (x, b ^ (- k)).

(** The exponent k of the double a positive a/b is rounded to: a/b is below
    2^(k+53), and at least 2^(k+52) unless k is the least exponent -1074. *)
Definition below (a b k : Z) : bool := if 0 <=? k then a <? b * 2 ^ k else a * 2 ^ (- k) <? b.
Definition exponent (a b : Z) : Z :=
  let k := Z.max (-1074) (Z.log2 a - Z.log2 b - 53) in
  if below a b (k + 53) then k else k + 1.

(** The double nearest to the positive a/b: (n, k) stands for n * 2^k.  None is
    an overflow: [float] then gives inf. *)
Definition double_of (a b : Z) : option (Z * Z) :=
  let k := exponent a b in
  let n := if 0 <=? k then round_ratio a (b * 2 ^ k) else round_ratio (a * 2 ^ (- k)) b in
  let '(n, k) := if n =? 2 ^ 53 then (2 ^ 52, k + 1) else (n, k) in
  if k <=? 971 then Some (n, k) else None.

(** The double the numeral m * 10^e is read as. *)
Definition read_decimal (m : N) (e : Z) : option (Z * Z) :=
  let '(a, b) := scaled (Z.of_N m) 10 e in double_of a b.

Definition same_double (x y : option (Z * Z)) : bool :=
  match x, y with
  | Some (n, k), Some (n', k') => (n =? n') && (k =? k')
  | None, None => true
  | _, _ => false
  end.

(** [repr]: the shortest numeral read as the double (n, k), that is the multiple
    of the largest possible power of ten, the nearest one where there are two. *)
Definition candidate (n k : Z) (m : Z) (e : Z) : bool :=
  (0 <? m) && negb (m mod 10 =? 0) && same_double (read_decimal (Z.to_N m) e) (Some (n, k)).
Definition numeral_at (n k e : Z) : option N :=
  let '(a, b) := scaled n 2 k in
  let '(c, d) := scaled 1 10 e in
  let num := a * d in
  let den := b * c in
  let near := round_ratio num den in
  let other := if near =? num / den then near + 1 else near - 1 in
  if candidate n k near e then Some (Z.to_N near)
  else if candidate n k other e then Some (Z.to_N other)
  else None.
Fixpoint shortest (n k : Z) (fuel : nat) (e : Z) : option (N * Z) :=
  match fuel with
  | O => None
  | S fuel' => match numeral_at n k e with
               | Some m => Some (m, e)
               | None => shortest n k fuel' (e - 1)
               end
  end.
(** a power of ten above 2^(k+53), and the least one that is needed: -330 *)
Definition top_exponent (k : Z) : Z := Z.max 1 ((k + 53) / 3 + 1).
Definition repr_of (n k : Z) : option (N * Z) :=
  shortest n k (Z.to_nat (top_exponent k + 331)) (top_exponent k).

(** What a numeral becomes: the [repr] of the double it is read as; None is inf.
    (Zero stays zero: a numeral too small is read as 0.0.) *)
Definition reprint (m : N) (e : Z) : option (N * Z) :=
  if N.eqb m 0 then Some (0%N, 0)
  else match read_decimal m e with
       | None => None
       | Some (n, k) =>
           if n =? 0 then Some (0%N, 0)
           else match repr_of n k with
                | Some r => Some r
                | None => Some (m, e)
                end
       end.

(** The decimal is the [repr] of a double. *)
Definition is_repr (m : N) (e : Z) : bool :=
  match reprint m e with
  | Some (m', e') => N.eqb m m' && Z.eqb e e'
  | None => false
  end.

(** The exact value of the double that the decimal is read as, compared with an
    integer. *)
Definition is_integer (m : N) (e z : Z) : bool :=
  if N.eqb m 0 then z =? 0
  else match read_decimal m e with
       | Some (n, k) => if 0 <=? k then n * 2 ^ k =? z else n =? z * 2 ^ (- k)
       | None => false
       end.
