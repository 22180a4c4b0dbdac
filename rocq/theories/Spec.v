(** * Spec.v -- independent vocabulary used to state the properties.

    Nothing here models repository code; these are the words of the English
    properties ("well-formed vertex", "looks like a number", ...). *)

From Verif Require Import Py.
From Coq Require Import String.

(** ** Texts *)

(** -?digits (possibly no digit: the code classifies "-" and "" as integers) *)
Definition int_shape (s : str) : bool := forallb is_digit (snd (strip_minus s)).
(** -?digits.digits *)
Definition dbl_shape (s : str) : bool :=
  match split_dot (snd (strip_minus s)) with
  | Some (a, b) => forallb is_digit a && forallb is_digit b
  | None => false
  end.
Definition looks_numeric (s : str) : bool := int_shape s || dbl_shape s.

Definition starts_with (c : char) (s : str) : bool :=
  match s with x :: _ => N.eqb x c | [] => false end.
Definition ends_with (c : char) (s : str) : bool := starts_with c (rev s).
Definition no_white (s : str) : bool := forallb (fun c => negb (is_space c)) s.

(** A symbol text that can stand for itself inside an edge. *)
Definition sym_ok (s : str) : bool :=
  match s with [] => false | _ => true end
  && no_white s
  && negb (starts_with c_lpar s)
  && negb (ends_with c_rpar s)
  && negb (looks_numeric s).

(** Floats printed without exponent (repr of 1e-4 <= |x| < 1e16, and 0.0). *)
Definition flt_ok (f : pyfloat) : bool := flt_canon f && flt_positional f.

(** ** Vertices *)

Section vertex.
  Variable P : str -> bool.          (* which symbol texts are allowed *)
  Definition atom_of (v : value) : bool :=
    match v with
    | VStr s => P s
    | VInt _ => true
    | VFlt f => flt_ok f
    | _ => false
    end.
  (** An atom, or a tuple of at least two vertices. *)
  Fixpoint vertex_of (v : value) : bool :=
    match v with
    | VTup l => Nat.leb 2 (List.length l) && forallb vertex_of l
    | _ => atom_of v
    end.
End vertex.

(** Well-formed vertices: their text determines them. *)
Definition wf_atom : value -> bool := atom_of sym_ok.
Definition wf_vertex : value -> bool := vertex_of sym_ok.

(** The number of atoms in a value. *)
Fixpoint leaves (v : value) : nat :=
  match v with VTup l => list_sum (List.map leaves l) | _ => 1 end.

(** Texts SQLite can bind and whose successor [str_plus_1] exists: Unicode
    scalar values only, last one neither U+10FFFF nor U+D7FF. *)
Definition db_text (s : str) : bool :=
  forallb is_scalar s
  && negb (ends_with max_cp s) && negb (ends_with 55295%N s).
Definition sym_db (s : str) : bool := sym_ok s && db_text s.

(** Storable vertices and edges: an edge needs an atom in first position
    (otherwise [add] takes it for a list of edges) and at least two elements. *)
Definition db_atom : value -> bool := atom_of sym_db.
Definition db_vertex : value -> bool := vertex_of sym_db.
Definition db_edge (v : value) : bool :=
  match v with
  | VTup (a :: _) => db_atom a && db_vertex v
  | _ => false
  end.

(** ** Symbols *)

(** A URL is a text starting with http:// or https://. *)
Definition url (s : str) : bool := prefixb (lit "http://") s || prefixb (lit "https://") s.

(** Lower-case hexadecimal digits. *)
Definition is_hex (c : char) : bool := ((48 <=? c) && (c <=? 57) || (97 <=? c) && (c <=? 102))%N.

(** The number that hexadecimal digits write. *)
Definition hex_val (c : char) : N := (if c <? 58 then c - 48 else c - 87)%N.
Definition unhex (s : str) : N := fold_left (fun a c => 16 * a + hex_val c)%N s 0%N.

(** c1*31^n + c2*31^(n-1) + ... + cn*31 *)
Fixpoint poly (s : str) : N :=
  match s with
  | [] => 0%N
  | c :: s' => (c * 31 ^ N.of_nat (List.length s) + poly s')%N
  end.

(** Texts for which negation is an involution: non-empty, not just "~", not
    starting with "~~". *)
Definition neg_ok (s : str) : Prop :=
  s <> [] /\ s <> [c_tilde] /\ prefixb [c_tilde; c_tilde] s = false.

(** '/', ' ', '(' and ')'. *)
Definition delim (c : char) : bool :=
  (N.eqb c c_slash || N.eqb c c_space || N.eqb c c_lpar || N.eqb c c_rpar).

(** What idempotence needs of [str.lower]: lower-cased text in which some
    characters are replaced by '_' is already in lower case. *)
Definition lower_like (lower : str -> str) : Prop :=
  forall s t, Forall2 (fun a b => b = a \/ b = c_under) (lower s) t -> lower t = t.

(** ** Stored edges and patterns *)

Definition elems (v : value) : list value := match v with VTup l => l | _ => [] end.

(** Pattern matching in words: same length; at each position a wildcard or the
    same vertex. *)
Definition matches (pattern l : list value) : Prop :=
  Forall2 (fun p x => p = VNone \/ p = x) pattern l.

(** A set of vertices in which Python's [==] is equality (it is not in general:
    7 == 7.0, 0.0 == -0.0). *)
Definition noalias (V : value -> Prop) : Prop :=
  forall x y, V x -> V y -> py_eq x y = true -> x = y.

(** Edges considered: storable, all elements from V. *)
Definition edge_in (V : value -> Prop) (e : value) : Prop :=
  db_edge e = true /\ forall x, In x (elems e) -> V x.
