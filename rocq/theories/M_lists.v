(** * M_lists.v -- edges given as lists

    The rest of the model identifies Python lists and tuples.  The code mostly
    does so too ([isinstance(x, (list, tuple))]: symbol.py:58, sql.py:238, 258,
    269, hypergraph.py:120; iteration; [edge2str]), but [==] does not: a list is
    never equal to a tuple, and the edges that come out of the database are
    tuples (edge.py:120-127 builds tuples).  This file models the methods of
    sql.py and hypergraph.py that take edges, once more, on values in which the
    two are told apart. *)

From Verif Require Import Py M_symbol M_edge M_sql M_hypergraph.
From Coq Require Import String.
Open Scope list_scope.

(** Python values with lists. *)
Inductive pv :=
| PNone | PStr (s : str) | PInt (z : Z) | PFlt (f : pyfloat)
| PTup (l : list pv) | PLst (l : list pv).

(** The value of the rest of the model: every list becomes a tuple. *)
Fixpoint tuples (p : pv) : value :=
  match p with
  | PNone => VNone
  | PStr s => VStr s
  | PInt z => VInt z
  | PFlt f => VFlt f
  | PTup l | PLst l => VTup (List.map tuples l)
  end.

(** [p == x] where [x] came out of the database (no lists in it). *)
Fixpoint pv_eq (p : pv) (x : value) {struct p} : bool :=
  match p, x with
  | PLst _, _ => false
  | PTup l, VTup m =>
      (fix go (l : list pv) (m : list value) : bool :=
         match l, m with
         | [], [] => true
         | a :: l', b :: m' => pv_eq a b && go l' m'
         | _, _ => false
         end) l m
  | PTup _, _ => false
  | _, _ => py_eq (tuples p) x
  end.

(** Iterating over a value, and [v[0]]. *)
Definition pitems (p : pv) : res (list pv) :=
  match p with
  | PTup l | PLst l => Ok l
  | PStr s => Ok (List.map (fun c => PStr [c]) s)
  | _ => Err TypeError
  end.
Definition pindex0 (p : pv) : res pv :=
  let? l := pitems p in
  match l with [] => Err IndexError | x :: _ => Ok x end.
(** [isinstance(p, (list, tuple))] *)
Definition is_seq (p : pv) : bool := match p with PTup _ | PLst _ => true | _ => false end.

(** edge.py:142-147 [edge2str]: it tests with [isinstance(.., (list, tuple))] at
    every level (symbol.py:58), so a list is written as the tuple is. *)
Definition pedge2str (p : pv) : str := edge2str (tuples p).

Definition pnot_none (p : pv) : bool := match p with PNone => false | _ => true end.

(** sql.py:86-94 [edge_matches_pattern] *)
Fixpoint pmatches_loop (edge : list value) (pattern : list pv) : bool :=
  match edge, pattern with
  | x :: e', p :: p' => if pnot_none p && negb (pv_eq p x) then false else pmatches_loop e' p'
  | _, _ => true
  end.
Definition pmatches (edge : value) (pattern : list pv) : res bool :=
  let? l := as_seq edge in
  if negb (Nat.eqb (List.length l) (List.length pattern)) then Ok false
  else Ok (pmatches_loop l pattern).

(** sql.py:192-202 [pattern2edges] *)
Definition ppattern2edges (pattern : pv) : M (list value) :=
  do items <- lift (pitems pattern);
  let nodes := filter pnot_none items in
  let start_str := nodes2str (List.map tuples nodes) in
  do end_str <- lift (str_plus_1 start_str);
  do cur <- open_cursor true;
  do rows <- query cur [start_str; end_str] (fun w => filter (in_range start_str end_str) (perms w));
  do edges <- lift (cur2edges rows);
  close_cursor cur true false;;
  do flags <- lift (mapr (fun e => pmatches e items) edges);
  ret (py_set (List.map fst (filter snd (combine edges flags)))).

(** sql.py:204-206 [exists] *)
Definition pexists (vertex : pv) : M bool :=
  do edges <- ppattern2edges vertex;
  ret (Nat.ltb 0 (List.length edges)).

(** sql.py:224-233 [add_raw]; the permutations are written as texts, in which
    lists and tuples look alike *)
Definition padd_raw (edge : pv) (timestamp : Z) : M pv :=
  do b <- pexists edge;
  (if b then ret tt
   else
     do items <- lift (pitems edge);
     mfor items (fun vert =>
       let vert_str := pedge2str vert in
       do found <- inc_degree vert_str;
       if found then ret tt else add_str vert_str 1 timestamp);;
     add_str (pedge2str edge) 0 timestamp;;
     write_edge_permutations (List.map tuples items));;
  ret edge.

(** sql.py:235-245 [add] *)
Definition padd (edges : pv) (timestamp : Z) : M pv :=
  do x <- lift (pindex0 edges);
  (if is_seq x then
     do cur <- open_cursor false;
     do items <- lift (pitems edges);
     mfor items (fun edge => padd_raw edge timestamp;; ret tt);;
     close_cursor cur false true
   else
     padd_raw edges timestamp;; ret tt);;
  ret edges.

(** sql.py:247-253 [remove_raw] *)
Definition premove_raw (edge : pv) : M unit :=
  do b <- pexists edge;
  if b then
    do items <- lift (pitems edge);
    mfor items (fun vert => dec_degree (pedge2str vert);; ret tt);;
    remove_edge_permutations (List.map tuples items);;
    remove_str (pedge2str edge)
  else ret tt.

(** sql.py:255-263 [remove] *)
Definition premove (edges : pv) : M unit :=
  do x <- lift (pindex0 edges);
  if is_seq x then
    do items <- lift (pitems edges);
    mfor items premove_raw
  else premove_raw edges.

(** sql.py:265-271 [star], sql.py:294-304 [degree], sql.py:306-316 [timestamp]:
    only the text of the argument is used *)
Definition pstar (center : pv) : M (list value) := star (tuples center).
Definition pdegree (vertex : pv) : M Z := degree (tuples vertex).
Definition ptimestamp (vertex : pv) : M Z := timestamp (tuples vertex).

(** hypergraph.py:113-127 [add_belief]; the link edges and the pair are tuples
    written in the code, [new_edges] is a list *)
Definition plink (source edge : pv) : pv := PTup [PStr (lit "src/1"); edge; source].
Definition padd_belief (source edges : pv) (timestamp : Z) : M unit :=
  do x <- lift (pindex0 edges);
  if is_seq x then
    do items <- lift (pitems edges);
    padd (PLst (flat_map (fun edge => [edge; plink source edge]) items)) timestamp;; ret tt
  else
    padd (PTup [edges; plink source edges]) timestamp;; ret tt.

(** hypergraph.py:129-133 [sources] *)
Definition psources (edge : pv) : M (list value) :=
  do edges <- ppattern2edges (PTup [PStr (lit "src/1"); edge; PNone]);
  do ss <- lift (mapr (fun e => let? l := as_seq e in nth_res l 2) edges);
  ret (py_set ss).

(** hypergraph.py:135-141 [remove_belief] *)
Definition premove_belief (source edge : pv) : M unit :=
  premove (plink source edge);;
  do ss <- psources edge;
  if Nat.eqb (List.length ss) 0 then premove edge else ret tt.

(** hypergraph.py:97-101 [remove_by_pattern]: what it removes came out of the
    database *)
Definition premove_by_pattern (ord : list value -> list value) (pattern : pv) : M unit :=
  do edges <- ppattern2edges pattern;
  mfor (ord edges) remove.

(** edge.py:155-157 [negative]: a tuple plus [edge[1:]], which is a TypeError when
    the edge is a list.  (Simplified: an edge whose first element is itself a list
    or a tuple; the theorem is about a first element that is a string.) *)
Definition pedge_negative (edge : pv) : res value :=
  match edge with
  | PLst _ => let? n := edge_negative (tuples edge) in Err TypeError
  | _ => edge_negative (tuples edge)
  end.
