(** * M_hypergraph.v -- model of /repo/gb/hypergraph/hypergraph.py (class
    HyperGraph over an SQL backend).  The methods exists, add, remove,
    pattern2edges, star, symbols_with_root, destroy, degree, timestamp,
    batch_exec and f_all only forward to the backend (hypergraph.py:44-95), so
    the definitions of M_sql are used for them directly. *)

From Verif Require Import Py M_symbol M_edge M_sql.
From Coq Require Import String.
Open Scope list_scope.

(** constants.py:23 *)
Definition const_source : value := VStr (lit "src/1").

(** The link edge [(const.source, edge, source)] of hypergraph.py:124, 127 and 139 *)
Definition link (source edge : value) : value := VTup [const_source; edge; source].

(** hypergraph.py:97-101 [remove_by_pattern].  A Python set is iterated in an
    unspecified order: [ord] is that order. *)
Definition remove_by_pattern (ord : list value -> list value) (pattern : value) : M unit :=
  do edges <- pattern2edges pattern;
  mfor (ord edges) remove.

(** hypergraph.py:104-111 [ego]: [star] returns a set, and slicing a set
    ([edges[1:]]) raises TypeError; with depth <= 0 the result is None *)
Definition ego (center : value) (depth : Z) : M value :=
  if (0 <? depth)%Z then
    do _ <- star center;
    raise TypeError
  else ret VNone.

(** hypergraph.py:113-127 [add_belief] *)
Definition add_belief (source edges : value) (timestamp : Z) : M unit :=
  do x <- lift (index0 edges);
  if is_tup x then
    do items <- lift (as_seq edges);
    add (VTup (flat_map (fun edge => [edge; link source edge]) items)) timestamp;; ret tt
  else
    add (VTup [edges; link source edges]) timestamp;; ret tt.

(** hypergraph.py:129-133 [sources] *)
Definition sources (edge : value) : M (list value) :=
  do edges <- pattern2edges (VTup [const_source; edge; VNone]);
  do ss <- lift (mapr (fun e => let? l := as_seq e in nth_res l 2) edges);
  ret (py_set ss).

(** hypergraph.py:135-141 [remove_belief] *)
Definition remove_belief (source edge : value) : M unit :=
  remove (link source edge);;
  do ss <- sources edge;
  if Nat.eqb (List.length ss) 0 then remove edge else ret tt.
