(** * M_batch.v -- models of /repo/gb/hypergraph/batch_hypergraph.py and null.py *)

From Verif Require Import Py M_symbol M_edge M_sql M_hypergraph.
From Coq Require Import String.
Open Scope list_scope.

(** The items of a sequence (used only after [edges[0]] has succeeded). *)
Definition items_of (v : value) : list value := match as_seq v with Ok l => l | Err _ => [] end.

(** ** BatchHyperGraph *)

(** batch_hypergraph.py:28-33: the object: its buffer, and the backend it shares
    with the wrapped hypergraph.  [buffer_max] is a parameter of the methods. *)
Record bhg := Bhg { b_buffer : list value; b_conn : conn }.

(** A method of BatchHyperGraph: result or exception, and the new object. *)
Definition BM (A : Type) := bhg -> res A * bhg.

(** batch_hypergraph.py:35-37 [flush]; when backend.add raises, the buffer is kept *)
Definition flush (timestamp : Z) : BM unit := fun s =>
  match add (VTup (b_buffer s)) timestamp (b_conn s) with
  | (Ok _, c, _) => (Ok tt, Bhg [] c)
  | (Err e, c, _) => (Err e, Bhg (b_buffer s) c)
  end.

(** batch_hypergraph.py:39-50 [add] *)
Definition bhg_add (buffer_max : Z) (edges : value) (timestamp : Z) : BM value := fun s =>
  match index0 edges with
  | Err e => (Err e, s)
  | Ok x =>
      let s1 := if is_tup x then Bhg (b_buffer s ++ items_of edges) (b_conn s)
                else Bhg (b_buffer s ++ [edges]) (b_conn s) in
      if (buffer_max <? Z.of_nat (List.length (b_buffer s1)))%Z then
        match flush timestamp s1 with
        | (Ok _, s2) => (Ok edges, s2)
        | (Err e, s2) => (Err e, s2)
        end
      else (Ok edges, s1)
  end.

(** hypergraph.py:113-127 [add_belief], inherited: self.add is the buffered add *)
Definition bhg_add_belief (buffer_max : Z) (source edges : value) (timestamp : Z) : BM unit := fun s =>
  match index0 edges with
  | Err e => (Err e, s)
  | Ok x =>
      let v := if is_tup x then VTup (flat_map (fun edge => [edge; link source edge]) (items_of edges))
               else VTup [edges; link source edges] in
      let '(r, s') := bhg_add buffer_max v timestamp s in
      (match r with Ok _ => Ok tt | Err e => Err e end, s')
  end.

(** All other methods are inherited from HyperGraph and go to the backend
    (hypergraph.py:44-95), e.g. exists and remove: *)
Definition bhg_lift {A} (m : M A) : BM A := fun s =>
  let '(r, c, _) := m (b_conn s) in (r, Bhg (b_buffer s) c).

(** ** Null *)

(** null.py:31-82: no state; [add] returns its argument, [batch_exec] does not
    call the functions *)
Definition null_exists (vertex : value) : res bool := Ok false.
Definition null_add (edges : value) (timestamp : Z) : res value := Ok edges.
Definition null_remove (edges : value) : res unit := Ok tt.
Definition null_pattern2edges (pattern : value) : res (list value) := Ok [].
Definition null_star (center : value) : res (list value) := Ok [].
Definition null_symbols_with_root (root : value) : res (list str) := Ok [].
Definition null_destroy : res unit := Ok tt.
Definition null_degree (vertex : value) : res Z := Ok 0%Z.
Definition null_timestamp (vertex : value) : res Z := Ok (-1)%Z.
Definition null_batch_exec {F} (funs : list F) : res unit := Ok tt.
Definition null_f_all {B} (f : value * Z -> B) : res (list B) := Ok [].

(** HyperGraph's own methods over it (hypergraph.py:97-141) *)
Definition null_remove_by_pattern (pattern : value) : res unit :=
  let? edges := null_pattern2edges pattern in
  let? _ := mapr null_remove edges in Ok tt.
Definition null_ego (center : value) (depth : Z) : res value :=
  if (0 <? depth)%Z then let? _ := null_star center in Err TypeError else Ok VNone.
Definition null_sources (edge : value) : res (list value) :=
  let? edges := null_pattern2edges (VTup [const_source; edge; VNone]) in
  let? ss := mapr (fun e => let? l := as_seq e in nth_res l 2) edges in
  Ok (py_set ss).
Definition null_add_belief (source edges : value) (timestamp : Z) : res unit :=
  let? x := index0 edges in
  let v := if is_tup x then VTup (flat_map (fun edge => [edge; link source edge]) (items_of edges))
           else VTup [edges; link source edges] in
  let? _ := null_add v timestamp in Ok tt.
Definition null_remove_belief (source edge : value) : res unit :=
  let? _ := null_remove (link source edge) in
  let? ss := null_sources edge in
  if Nat.eqb (List.length ss) 0 then null_remove edge else Ok tt.
