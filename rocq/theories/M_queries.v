(** * M_queries.v -- model of /repo/gb/hypergraph/queries.py *)

From Verif Require Import Py M_symbol M_edge M_sql M_hypergraph.
From Coq Require Import String.
Open Scope list_scope.

(** Membership in a list, set or dict: Python's [==].  (Simplification: the
    identity shortcut of containers, which matters only for nan.) *)
Definition isin (x : value) (l : list value) : bool := existsb (fun y => py_eq y x) l.

(** queries.py:22-26 [exclude_edge]: the loop over edge[1:] *)
Fixpoint exclude_loop (vs : list value) : M bool :=
  match vs with
  | [] => ret false
  | vertex :: r => do d <- degree vertex; if (250 <? d)%Z then ret true else exclude_loop r
  end.
Definition exclude_edge (edge : list value) : M bool := exclude_loop (tl edge).

(** queries.py:29-30 [include_edge] *)
Definition include_edge (edge : list value) : M bool :=
  do b <- exclude_edge edge; ret (negb b).

(** queries.py:33-34 [add_neighbours] *)
Definition add_neighbours (neighbours : list value) (edge : list value) : list value :=
  py_set (neighbours ++ tl edge).

(** The map vertex -> {'edges': ..., 'neighbours': ...} *)
Definition vemap := list (value * (list value * list value)).
Definition ve_get (m : vemap) (v : value) : option (list value * list value) :=
  match find (fun p => py_eq (fst p) v) m with Some p => Some (snd p) | None => None end.
Definition ve_neighbours (m : vemap) (v : value) : res (list value) :=
  match ve_get m v with Some (_, ns) => Ok ns | None => Err KeyError end.

(** queries.py:41: [vemap[id]]: the key is the built-in function [id], which no
    vertex of an edge is equal to *)
Definition ve_builtin_id (m : vemap) : res (list value * list value) := Err KeyError.

(** queries.py:37-42 [vemap_assoc_id_edge] *)
Definition vemap_assoc_id_edge (m : vemap) (vid : value) (edge : list value) : res vemap :=
  let m1 := if isin vid (List.map fst m) then m else m ++ [(vid, ([], []))] in
  let m2 := List.map (fun p => if py_eq (fst p) vid then (fst p, (fst (snd p) ++ [VTup edge], snd (snd p))) else p) m1 in
  let? e := ve_builtin_id m2 in
  Ok (List.map (fun p => if py_eq (fst p) vid
                         then (fst p, (fst (snd p), add_neighbours (snd e) edge)) else p) m2).

(** A for loop that changes a state and may raise. *)
Fixpoint foldr_res {A S} (f : S -> A -> res S) (l : list A) (s : S) : res S :=
  match l with
  | [] => Ok s
  | x :: r => let? s' := f s x in foldr_res f r s'
  end.

(** queries.py:45-48 [vemap_plus_edge] *)
Definition vemap_plus_edge (m : vemap) (edge : list value) : res vemap :=
  foldr_res (fun m vid => vemap_assoc_id_edge m vid edge) edge m.

(** queries.py:51-54 [edges2vemap] *)
Definition edges2vemap (m : vemap) (edges : list (list value)) : res vemap :=
  foldr_res vemap_plus_edge edges m.

(** A generator or list comprehension of method calls. *)
Fixpoint mmap {A B} (f : A -> M B) (l : list A) : M (list B) :=
  match l with
  | [] => ret []
  | x :: r => do y <- f x; do ys <- mmap f r; ret (y :: ys)
  end.

(** queries.py:57-60 [node2edges] *)
Definition node2edges (node : value) : M (list (list value)) :=
  do edges <- ego node 2;
  do items <- lift (as_seq edges);
  do lists <- lift (mapr as_seq items);
  do flags <- mmap include_edge lists;
  ret (List.map fst (filter snd (combine lists flags))).

(** queries.py:63-67 [interedge] *)
Definition interedge (edge : list value) (interverts : list value) : bool :=
  forallb (fun v => isin v interverts) (tl edge).

(** queries.py:70-88 [walks].  [ord]: the order in which the set of neighbours is
    met.  [all_walks.add(walk)]: walk is a list, hence not hashable: TypeError; so
    a call that returns normally has added nothing to all_walks and the sets [wks]
    of the recursive calls are empty.  [fuel]: recursion budget (see P_queries:
    the number of names in the map is enough). *)
Fixpoint walks_f (ord : list value -> list value) (fuel : nat) (m : vemap) (nodes walk : list value) : res unit :=
  match fuel with
  | O => Err OutOfFuel
  | S f =>
      if forallb (fun n => isin n walk) nodes then Err TypeError
      else
        match rev walk with
        | [] => Err IndexError                             (* walk[-1] *)
        | lastw :: _ =>
            let? neighbours := ve_neighbours m lastw in
            let next_steps := filter (fun n => negb (isin n walk)) (ord neighbours) in
            let? _ := mapr (fun step => walks_f ord f m nodes (walk ++ [step])) next_steps in
            Ok tt
        end
  end.
Definition walk_budget (m : vemap) : nat := S (List.length (flat_map (fun p => snd (snd p)) m)).
Definition walks (ord : list value -> list value) (m : vemap) (nodes walk : list value) : res unit :=
  walks_f ord (walk_budget m) m nodes walk.

(** ** Walk lengths *)

Definition wmap := list (value * Z).
Definition w_get (m : wmap) (v : value) : option Z :=
  match find (fun p => py_eq (fst p) v) m with Some p => Some (snd p) | None => None end.
(** [wmap[step] = n]: the key already there is kept *)
Definition w_set (m : wmap) (v : value) (n : Z) : wmap :=
  match w_get m v with
  | Some _ => List.map (fun p => if py_eq (fst p) v then (fst p, n) else p) m
  | None => m ++ [(v, n)]
  end.

(** queries.py:91-93 [walk_step2wmap] *)
Definition walk_step2wmap (m : wmap) (walk_length : Z) (step : value) : wmap :=
  match w_get m step with
  | None => w_set m step walk_length
  | Some n => if (walk_length <? n)%Z then w_set m step walk_length else m
  end.

(** queries.py:96-99 [walk2wmap] *)
Definition walk2wmap (m : wmap) (walk : list value) : wmap :=
  fold_left (fun m step => walk_step2wmap m (Z.of_nat (List.length walk)) step) walk m.

(** queries.py:102-106 [walks2wmap] *)
Definition walks2wmap (wks : list (list value)) : wmap := fold_left walk2wmap wks [].

(** queries.py:109-114 [valid_step] *)
Definition valid_step (m : wmap) (nodes : list value) (walk_length : Z) (step : value) : res bool :=
  if isin step nodes then Ok true
  else match w_get m step with
       | Some n => Ok (Z.eqb walk_length n)
       | None => Err KeyError
       end.

(** queries.py:117-122 [valid_walk] *)
Fixpoint valid_walk_loop (m : wmap) (nodes : list value) (walk_length : Z) (walk : list value) : res bool :=
  match walk with
  | [] => Ok true
  | step :: r => let? b := valid_step m nodes walk_length step in
                 if b then valid_walk_loop m nodes walk_length r else Ok false
  end.
Definition valid_walk (m : wmap) (nodes walk : list value) : res bool :=
  valid_walk_loop m nodes (Z.of_nat (List.length walk)) walk.

(** [[walk for walk in wlks if valid_walk(wmap, seeds, walk)]] of queries.py:133 *)
Fixpoint filterr {A} (f : A -> res bool) (l : list A) : res (list A) :=
  match l with
  | [] => Ok []
  | x :: r => let? b := f x in let? r' := filterr f r in Ok (if b then x :: r' else r')
  end.

(** queries.py:132-138: the end of [intersect], from the walks to the edges.
    [set(...)] of the interverts is only used for membership. *)
Definition intersect_tail (m : vemap) (seeds : list value) (wlks : list (list value)) : res (list value) :=
  let wm := walks2wmap wlks in
  let? wlks := filterr (valid_walk wm seeds) wlks in
  let interverts := List.concat wlks in
  let edges := flat_map (fun p => fst (snd p)) m in
  filterr (fun e => let? l := as_seq e in Ok (interedge l interverts)) edges.

(** queries.py:125-138 [intersect]; [walks] adds nothing to [wlks] when it
    returns normally *)
Definition intersect (ord : list value -> list value) (seeds : list value) : M (list value) :=
  do edgesets <- mmap node2edges seeds;
  do m <- lift (foldr_res edges2vemap edgesets []);
  do first <- lift (nth_res seeds 0);
  lift (walks ord m seeds [first]);;
  lift (intersect_tail m seeds []).
