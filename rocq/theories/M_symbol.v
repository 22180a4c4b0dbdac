(** * M_symbol.v -- model of /repo/gb/hypergraph/symbol.py *)

From Verif Require Import Py.
From Coq Require Import String.

(** symbol.py:27-36 [SymbolType] *)
Inductive symbol_type := UNKNOWN | CONCEPT | EDGE | INTEGER | FLOAT | URL.

(** symbol.py:56-72 [sym_type].  [sym[:7] == 'http://'] is a prefix test. *)
Definition sym_type (v : value) : symbol_type :=
  match v with
  | VTup _ => EDGE
  | VStr s => if prefixb (lit "http://") s then URL
              else if prefixb (lit "https://") s then URL
              else CONCEPT
  | VInt _ => INTEGER
  | VFlt _ => FLOAT
  | VNone => UNKNOWN
  end.

(** symbol.py:75-81 [parts] *)
Definition parts (v : value) : list value :=
  match sym_type v, v with
  | CONCEPT, VStr s => List.map VStr (split_char c_slash s)
  | _, _ => [v]
  end.

(** symbol.py:84-86 [root]; [parts] is never empty, so indexing cannot fail. *)
Definition root (v : value) : value := hd VNone (parts v).

(** symbol.py:89-96 [nspace]; Python None is [VNone]. *)
Definition nspace (v : value) : value :=
  match parts v with
  | _ :: n :: _ => n
  | _ => VNone
  end.

(** symbol.py:99-101 [is_root]; [==] on values *)
Definition is_root (v : value) : bool := py_eq v (root v).

(** symbol.py:104-106 [build]; '/'.join raises TypeError on a non-string part *)
Definition as_str (v : value) : res str :=
  match v with VStr s => Ok s | _ => Err TypeError end.
Definition build (pts : list value) : res value :=
  let? l := mapr as_str pts in Ok (VStr (join [c_slash] l)).

(** symbol.py:109-116 [str2symbol].  [str.lower] is a parameter: theorems that
    do not depend on it hold for every function in its place. *)
Definition str2symbol (lower : str -> str) (s : str) : str :=
  let sym := lower s in
  let sym := replace_char c_slash c_under sym in
  let sym := replace_char c_space c_under sym in
  let sym := replace_char c_lpar c_under sym in
  let sym := replace_char c_rpar c_under sym in
  sym.

(** ASCII part of [str.lower], used for concrete instances. *)
Definition lower_ascii (s : str) : str :=
  List.map (fun c => if ((65 <=? c) && (c <=? 90))%N then (c + 32)%N else c) s.

(** symbol.py:119-127 [symbol2str]; [str(sym)] of a tuple (Python repr of a
    tuple) is not modelled: TypeError stands for it and theorems exclude it. *)
Definition symbol2str (v : value) : res str :=
  match sym_type v with
  | CONCEPT => let? r := as_str (root v) in Ok (replace_char c_under c_space r)
  | URL => as_str v
  | EDGE => Err TypeError
  | _ => Ok (show_atom v)
  end.

(** symbol.py:39-47 [hashed]: 1x1 uint64 arrays, so + and dot wrap modulo 2^64. *)
Definition two64 : N := 18446744073709551616%N.
Definition hash_step (h : N) (c : char) : N := ((31 * ((h + c) mod two64)) mod two64)%N.
Definition hash_seed : N := 1125899906842597%N.
Definition hash64 (s : str) : N := fold_left hash_step s hash_seed.

(** [hex(n)[2:]]: lower-case hexadecimal without leading zeros. *)
Definition hex_digit (d : N) : char := (if d <? 10 then 48 + d else 87 + d)%N.
Fixpoint hex_aux (fuel : nat) (n : N) (acc : str) : str :=
  match fuel with
  | O => acc
  | S f => if (n <? 16)%N then hex_digit n :: acc
           else hex_aux f (n / 16)%N (hex_digit (n mod 16)%N :: acc)
  end.
Definition hex (n : N) : str := hex_aux (S (N.to_nat (N.size n))) n [].
Definition hashed (s : str) : str := hex (hash64 s).

(** symbol.py:50-53 [random_hash]: the 100 random characters are a parameter
    [rnd] (an arbitrary string). *)
Definition random_hash (rnd : str) : str := hashed rnd.

(** symbol.py:130-136 [new_meaning] *)
Definition new_meaning (rnd : str) (symb : value) (prefix : str) : res value :=
  if is_root symb then build [symb; VStr (prefix ++ random_hash rnd)]
  else Ok symb.

(** symbol.py:139-141 [is_negative]; indexing a number raises TypeError.  The
    argument may be any value: for a tuple, [symb[0] == '~']. *)
Definition is_negative (v : value) : res bool :=
  let? x := index0 v in Ok (py_eq x (VStr [c_tilde])).

(** symbol.py:144-149 [negative].  [symb[1:]] of a string drops one character;
    ['~%s' % symb] of a string prepends '~'; of a tuple it is a formatting
    operation with the tuple as argument list: TypeError unless it has exactly
    one element, whose [str] is then put after the '~'.  Simplified: when that
    one element is itself a tuple its Python repr is not modelled, TypeError
    stands for it and theorems exclude it. *)
Definition negative (v : value) : res value :=
  let? b := is_negative v in
  match v with
  | VStr s => if b then Ok (VStr (tl s)) else Ok (VStr (c_tilde :: s))
  | VTup l => if b then Ok (VTup (tl l))
              else match l with
                   | [VTup _] => Err TypeError
                   | [x] => Ok (VStr (c_tilde :: show_atom x))
                   | _ => Err TypeError
                   end
  | _ => Err TypeError
  end.
