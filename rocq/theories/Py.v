(** * Py.v -- the part of the Python run time the modelled code relies on.

    This file models no repository code: it fixes the meaning of the Python
    built-ins that /repo/gb uses (str, int, float, tuple, exceptions).  It is
    part of the trusted base and is kept small and executable. *)

From Coq Require Export List NArith ZArith Bool Arith Lia.
From Coq Require Import Ascii String.
From Verif Require Import Double.
Export ListNotations.

(** ** Exceptions as values *)

Inductive exn : Type :=
| IndexError | ValueError | TypeError | KeyError | AttributeError | AssertionError | RuntimeError
| UnicodeEncodeError          (* sqlite3 binding of a string with a lone surrogate *)
| IntegrityError              (* duplicate primary key *)
| OverflowError               (* binding an int that does not fit 64 bits *)
| OperationalError            (* e.g. CREATE TABLE of an existing table *)
| ProgrammingError            (* use of a closed cursor *)
| RecursionError              (* Python's recursion limit *)
| OutOfFuel.                  (* model only: recursion budget exhausted; theorems show it unreachable *)

Inductive res (A : Type) : Type :=
| Ok (a : A)
| Err (e : exn).
Arguments Ok {A} a.
Arguments Err {A} e.

Definition rbind {A B} (r : res A) (f : A -> res B) : res B :=
  match r with Ok a => f a | Err e => Err e end.

Notation "'let?' x := r 'in' k" := (rbind r (fun x => k))
  (at level 200, x pattern, r at level 100, k at level 200).

(** [mapr f l]: a list comprehension / generator whose body may raise; the
    first exception (left to right) is the one that escapes. *)
Fixpoint mapr {A B} (f : A -> res B) (l : list A) : res (list B) :=
  match l with
  | [] => Ok []
  | x :: l' => let? y := f x in let? ys := mapr f l' in Ok (y :: ys)
  end.

(** ** Strings: sequences of Unicode code points *)

Definition char := N.
Definition str := list char.

(** ASCII literals. *)
Definition lit (s : string) : str := List.map N_of_ascii (list_ascii_of_string s).

Definition ch (a : ascii) : char := N_of_ascii a.

Definition c_space : char := 32%N.
Definition c_lpar  : char := 40%N.
Definition c_rpar  : char := 41%N.
Definition c_minus : char := 45%N.
Definition c_plus  : char := 43%N.
Definition c_dot   : char := 46%N.
Definition c_slash : char := 47%N.
Definition c_0     : char := 48%N.
Definition c_9     : char := 57%N.
Definition c_under : char := 95%N.
Definition c_tilde : char := 126%N.
Definition c_colon : char := 58%N.

Fixpoint str_eqb (a b : str) : bool :=
  match a, b with
  | [], [] => true
  | x :: a', y :: b' => N.eqb x y && str_eqb a' b'
  | _, _ => false
  end.

(** [str.startswith]. *)
Fixpoint prefixb (p s : str) : bool :=
  match p, s with
  | [], _ => true
  | x :: p', y :: s' => N.eqb x y && prefixb p' s'
  | _ :: _, [] => false
  end.

(** Substring test ([x in s]). *)
Fixpoint containsb (p s : str) : bool :=
  prefixb p s || match s with [] => false | _ :: s' => containsb p s' end.

(** Characters that [str.split()] (no argument) treats as white space. *)
Definition is_space (c : char) : bool :=
  ((9 <=? c) && (c <=? 13) || (28 <=? c) && (c <=? 32) || (c =? 133) || (c =? 160)
   || (c =? 5760) || (8192 <=? c) && (c <=? 8202) || (c =? 8232) || (c =? 8233)
   || (c =? 8239) || (c =? 8287) || (c =? 12288))%N.

(** [s.split()]: maximal runs of non-white-space characters. *)
Fixpoint split_ws_aux (cur s : str) : list str :=
  match s with
  | [] => match cur with [] => [] | _ => [cur] end
  | c :: s' =>
      if is_space c
      then match cur with [] => split_ws_aux [] s' | _ => cur :: split_ws_aux [] s' end
      else split_ws_aux (cur ++ [c]) s'
  end.
Definition split_ws (s : str) : list str := split_ws_aux [] s.

(** [s.split(sep)] for a one-character separator (always at least one part). *)
Fixpoint split_char_aux (sep : char) (cur s : str) : list str :=
  match s with
  | [] => [cur]
  | c :: s' =>
      if N.eqb c sep then cur :: split_char_aux sep [] s'
      else split_char_aux sep (cur ++ [c]) s'
  end.
Definition split_char (sep : char) (s : str) : list str := split_char_aux sep [] s.

(** [sep.join(l)]. *)
Fixpoint join (sep : str) (l : list str) : str :=
  match l with
  | [] => []
  | [x] => x
  | x :: l' => x ++ sep ++ join sep l'
  end.

(** [s.replace(c, d)] for one-character arguments. *)
Definition replace_char (c d : char) (s : str) : str :=
  List.map (fun x => if N.eqb x c then d else x) s.

(** Largest code point, surrogates. *)
Definition max_cp : N := 1114111%N.
Definition is_surrogate (c : char) : bool := ((55296 <=? c) && (c <=? 57343))%N.
Definition is_scalar (c : char) : bool := ((c <=? max_cp) && negb (is_surrogate c))%N.

(** ** UTF-8 (how SQLite stores TEXT; its BINARY collation is memcmp on it) *)

Definition utf8_char (c : char) : list N :=
  (if c <? 128 then [c]
   else if c <? 2048 then [192 + c / 64; 128 + c mod 64]
   else if c <? 65536 then [224 + c / 4096; 128 + (c / 64) mod 64; 128 + c mod 64]
   else [240 + c / 262144; 128 + (c / 4096) mod 64; 128 + (c / 64) mod 64; 128 + c mod 64])%N.
Definition utf8 (s : str) : list N := flat_map utf8_char s.

(** Lexicographic [<=] on number sequences (memcmp, shorter first). *)
Fixpoint lex_leb (a b : list N) : bool :=
  match a, b with
  | [], _ => true
  | _ :: _, [] => false
  | x :: a', y :: b' => if N.eqb x y then lex_leb a' b' else N.ltb x y
  end.
Definition lex_ltb (a b : list N) : bool := negb (lex_leb b a).

(** What an INTEGER of SQLite (a BIGINT of MySQL) can hold. *)
Definition int64 (z : Z) : bool := ((- 2 ^ 63 <=? z) && (z <? 2 ^ 63))%Z.

(** ** Decimal numerals *)

Definition is_digit (c : char) : bool := ((c_0 <=? c) && (c <=? c_9))%N.
Definition digit_char (d : N) : char := (c_0 + d)%N.

Fixpoint show_aux (fuel : nat) (n : N) (acc : str) : str :=
  match fuel with
  | O => acc
  | S f => if (n <? 10)%N then digit_char n :: acc
           else show_aux f (n / 10)%N (digit_char (n mod 10)%N :: acc)
  end.
(** [str(n)] for a natural number. *)
Definition show_N (n : N) : str := show_aux (S (N.to_nat (N.size n))) n [].

(** [str(z)] for an int. *)
Definition show_Z (z : Z) : str :=
  if (z <? 0)%Z then c_minus :: show_N (Z.to_N (- z)) else show_N (Z.to_N z).

(** Value of a digit string. *)
Definition val_digits (s : str) : N :=
  fold_left (fun acc c => (10 * acc + (c - c_0))%N) s 0%N.

(** [int(s)]: an optional sign and at least one ASCII digit, otherwise
    ValueError.  (Simplification: surrounding white space, '_' separators and
    non-ASCII digits, which [int] also accepts, never reach it here with the
    strings the code produces: tokens contain no white space.) *)
Definition py_int (s : str) : res Z :=
  let '(neg, ds) := match s with
                    | c :: r => if N.eqb c c_minus then (true, r)
                                else if N.eqb c c_plus then (false, r) else (false, s)
                    | [] => (false, [])
                    end in
  match ds with
  | [] => Err ValueError
  | _ => if forallb is_digit ds
         then Ok (if neg then (- Z.of_N (val_digits ds))%Z else Z.of_N (val_digits ds))
         else Err ValueError
  end.

(** ** Floats

    A finite float is represented by the sign and the shortest decimal
    [m * 10^e] that its [repr] prints (unique for each double): m has no
    trailing zero, and zero is m = 0, e = 0.  [flt_canon] says that the decimal
    is such a [repr]; Double.v says which double a decimal is read as. *)
Inductive pyfloat : Type :=
| FFin (neg : bool) (m : N) (e : Z)
| FInf (neg : bool)
| FNan.

Definition flt_canon (f : pyfloat) : bool :=
  match f with
  | FFin _ m e => if N.eqb m 0 then Z.eqb e 0 else negb (N.eqb (m mod 10) 0) && is_repr m e
  | _ => true
  end.

Definition zeros (n : nat) : str := repeat c_0 n.

(** Position of the decimal point in the digit string of m. *)
Definition flt_decpt (m : N) (e : Z) : Z := (Z.of_nat (List.length (show_N m)) + e)%Z.

(** repr uses positional notation iff -4 < decpt <= 16. *)
Definition flt_positional (f : pyfloat) : bool :=
  match f with
  | FFin _ m e => ((-4 <? flt_decpt m e) && (flt_decpt m e <=? 16))%Z
  | _ => false
  end.

Definition show_exp (x : Z) : str :=
  let d := show_N (Z.to_N (Z.abs x)) in
  (if (x <? 0)%Z then c_minus else c_plus) :: (if Nat.ltb (List.length d) 2 then c_0 :: d else d).

(** [str(f)] / [repr(f)]. *)
Definition show_float (f : pyfloat) : str :=
  match f with
  | FNan => lit "nan"
  | FInf neg => if neg then lit "-inf" else lit "inf"
  | FFin neg m e =>
      let ds := show_N m in
      let decpt := flt_decpt m e in
      let body :=
        if flt_positional f then
          if (decpt <=? 0)%Z then c_0 :: c_dot :: zeros (Z.to_nat (- decpt)) ++ ds
          else if (decpt <? Z.of_nat (List.length ds))%Z then
            firstn (Z.to_nat decpt) ds ++ c_dot :: skipn (Z.to_nat decpt) ds
          else ds ++ zeros (Z.to_nat decpt - List.length ds) ++ [c_dot; c_0]
        else
          match ds with
          | [] => []
          | d :: rest => d :: (match rest with [] => [] | _ => c_dot :: rest end)
                           ++ ch "e" :: show_exp (decpt - 1)
          end in
      if neg then c_minus :: body else body
  end.

(** Strip leading zeros of a reversed digit list, counting them. *)
Fixpoint strip0 (l : str) : nat * str :=
  match l with
  | c :: l' => if N.eqb c c_0 then let '(n, r) := strip0 l' in (S n, r) else (O, l)
  | [] => (O, [])
  end.

Fixpoint split_dot (s : str) : option (str * str) :=
  match s with
  | [] => None
  | c :: s' => if N.eqb c c_dot then Some ([], s')
               else match split_dot s' with
                    | Some (a, b) => Some (c :: a, b)
                    | None => None
                    end
  end.

(** [float(s)] on texts of the shape -?digits.digits (the only ones that reach
    it, edge.py:88-89): the double nearest to the numeral, inf when it is too
    large; ValueError when there is no digit at all. *)
Definition strip_minus (s : str) : bool * str :=
  match s with
  | c :: r => if N.eqb c c_minus then (true, r) else (false, s)
  | [] => (false, [])
  end.
Definition py_float (s : str) : res pyfloat :=
  let '(neg, r) := strip_minus s in
  match split_dot r with
  | None => Err ValueError
  | Some (ip, fp) =>
      match ip ++ fp with
      | [] => Err ValueError
      | _ =>
          if forallb is_digit (ip ++ fp) then
            let '(k, rds) := strip0 (rev (ip ++ fp)) in
            let m := val_digits (rev rds) in
            if N.eqb m 0 then Ok (FFin neg 0 0)
            else match reprint m (Z.of_nat k - Z.of_nat (List.length fp)) with
                 | Some (m', e') => Ok (FFin neg m' e')
                 | None => Ok (FInf neg)
                 end
          else Err ValueError
      end
  end.

(** ** Values *)

(** Python values that can occur in edges and patterns.  [VTup] stands for both
    tuples and lists (the code tests [isinstance(x, (list, tuple))]); the model
    has tuples only, because everything the library reads back is a tuple. *)
Inductive value : Type :=
| VNone
| VStr (s : str)
| VInt (z : Z)
| VFlt (f : pyfloat)
| VTup (l : list value).

(** [==] between an int and a finite float: the exact value of the double. *)
Definition int_eq_float (z : Z) (f : pyfloat) : bool :=
  match f with
  | FFin neg m e => is_integer m e (if neg then - z else z)%Z
  | _ => false
  end.

Definition float_eq (f g : pyfloat) : bool :=
  match f, g with
  | FFin n1 m1 e1, FFin n2 m2 e2 =>
      (N.eqb m1 0 && N.eqb m2 0) || (Bool.eqb n1 n2 && N.eqb m1 m2 && Z.eqb e1 e2)
  | FInf n1, FInf n2 => Bool.eqb n1 n2
  | _, _ => false
  end.

(** Python [==] on values. *)
Fixpoint py_eq (a b : value) {struct a} : bool :=
  match a, b with
  | VNone, VNone => true
  | VStr s, VStr t => str_eqb s t
  | VInt x, VInt y => Z.eqb x y
  | VInt x, VFlt f => int_eq_float x f
  | VFlt f, VInt x => int_eq_float x f
  | VFlt f, VFlt g => float_eq f g
  | VTup l, VTup m =>
      (fix go (l m : list value) : bool :=
         match l, m with
         | [], [] => true
         | x :: l', y :: m' => py_eq x y && go l' m'
         | _, _ => false
         end) l m
  | _, _ => false
  end.

(** [str(v)] of an atom (a non-atom never reaches it: edge.py:135-138, 144-147). *)
Definition show_atom (v : value) : str :=
  match v with
  | VNone => lit "None"
  | VStr s => s
  | VInt z => show_Z z
  | VFlt f => show_float f
  | VTup _ => []
  end.

(** [isinstance(v, (list, tuple))]. *)
Definition is_tup (v : value) : bool := match v with VTup _ => true | _ => false end.

(** Iterating over a value, [len], indexing: tuples and strings are sequences;
    the items of a string are its one-character strings. *)
Definition as_seq (v : value) : res (list value) :=
  match v with
  | VTup l => Ok l
  | VStr s => Ok (List.map (fun c => VStr [c]) s)
  | _ => Err TypeError
  end.

(** [v[0]]. *)
Definition index0 (v : value) : res value :=
  let? l := as_seq v in
  match l with [] => Err IndexError | x :: _ => Ok x end.

(** [set(l)] as a list without [==]-duplicates (the first one is kept). *)
Fixpoint py_set_aux (seen l : list value) : list value :=
  match l with
  | [] => []
  | x :: l' => if existsb (py_eq x) seen then py_set_aux seen l'
               else x :: py_set_aux (x :: seen) l'
  end.
Definition py_set (l : list value) : list value := py_set_aux [] l.

(** Set of strings. *)
Fixpoint str_set_aux (seen l : list str) : list str :=
  match l with
  | [] => []
  | x :: l' => if existsb (str_eqb x) seen then str_set_aux seen l'
               else x :: str_set_aux (x :: seen) l'
  end.
Definition str_set (l : list str) : list str := str_set_aux [] l.

(** Proof engineering only: keep [simpl]/[cbn] from unfolding binary arithmetic. *)
Global Arguments N.add : simpl never.
Global Arguments N.sub : simpl never.
Global Arguments N.mul : simpl never.
Global Arguments N.div : simpl never.
Global Arguments N.modulo : simpl never.
Global Arguments N.pow : simpl never.
Global Arguments N.eqb : simpl never.
Global Arguments N.ltb : simpl never.
Global Arguments N.leb : simpl never.
Global Arguments Z.add : simpl never.
Global Arguments Z.sub : simpl never.
Global Arguments Z.mul : simpl never.
Global Arguments Z.eqb : simpl never.
Global Arguments Z.ltb : simpl never.
Global Arguments Z.leb : simpl never.
Global Arguments int64 : simpl never.
