(** * M_tree.v -- model of /repo/gb/knowledge/semantic_tree.py

    Trees are built by mutating objects that refer to each other by number and
    share list objects, so the model has an explicit heap: element objects, list
    objects (the children_ids, which the code shares between nodes) and the table
    of the Tree object. *)

From Verif Require Import Py M_token.
From Coq Require Import String.
Open Scope list_scope.

(** semantic_tree.py:90-95, 162-166, 214-224: an element object.  A leaf: id, namespace, token.
    A node: id, namespace, its list object, layer_ids, layer_id, compound.
    Simplifications: the field tree is the one tree there is; id is set when the
    object is created (tree.create_* does both); layer_ids, which is never shared,
    is kept in the object. *)
Inductive obj :=
| OLeaf (id : Z) (ns : option str) (tok : token)
| ONode (id : Z) (ns : option str) (kids : nat) (layers : list Z) (layer : Z) (comp : bool).

(** semantic_tree.py:30-34: the Tree, and the heap.  References are natural
    numbers; [n_obj] and [n_list] are the next free ones. *)
Record tree := Tr {
  table : Z -> option nat; cur_id : Z; root_id : option Z;
  objs : nat -> option obj; n_obj : nat; lists : nat -> option (list Z); n_list : nat }.

Definition tree0 : tree := Tr (fun _ => None) 0 None (fun _ => None) 0 (fun _ => None) 0.

(** A method: result or exception, and the new heap. *)
Definition SM (A : Type) := tree -> res A * tree.
Definition sret {A} (a : A) : SM A := fun h => (Ok a, h).
Definition sraise {A} (e : exn) : SM A := fun h => (Err e, h).
Definition sbind {A B} (m : SM A) (k : A -> SM B) : SM B := fun h =>
  match m h with (Ok a, h1) => k a h1 | (Err e, h1) => (Err e, h1) end.
Notation "'run' x <- m ; k" := (sbind m (fun x => k))
  (at level 200, x pattern, m at level 100, k at level 200, right associativity).
Notation "m ;;; k" := (sbind m (fun _ => k)) (at level 199, right associativity).

(** for x in l: f(x) *)
Definition sfor {A} (f : A -> SM unit) : list A -> SM unit :=
  fix go (l : list A) : SM unit := match l with [] => sret tt | x :: r => f x ;;; go r end.
(** [f(x) for x in l] *)
Definition smap {A B} (f : A -> SM B) : list A -> SM (list B) :=
  fix go (l : list A) : SM (list B) := match l with [] => sret [] | x :: r => run y <- f x; run ys <- go r; sret (y :: ys) end.
(** for x in l: if f(x): return True; then return False *)
Definition sany {A} (f : A -> SM bool) : list A -> SM bool :=
  fix go (l : list A) : SM bool := match l with [] => sret false | x :: r => run b <- f x; if b then sret true else go r end.
(** for x in l: if not f(x): return False; then return True *)
Definition sall {A} (f : A -> SM bool) : list A -> SM bool :=
  fix go (l : list A) : SM bool := match l with [] => sret true | x :: r => run b <- f x; if b then go r else sret false end.

(** ** The heap *)

Definition updZ {A} (f : Z -> option A) (k : Z) (v : A) : Z -> option A := fun x => if Z.eqb x k then Some v else f x.
Definition updN {A} (f : nat -> option A) (k : nat) (v : A) : nat -> option A := fun x => if Nat.eqb x k then Some v else f x.

(** Reading an object through a reference (a reference is never dangling). *)
Definition deref (r : nat) : SM obj := fun h => (match objs h r with Some o => Ok o | None => Err AttributeError end, h).
Definition write_obj (r : nat) (o : obj) : SM unit := fun h =>
  (Ok tt, Tr (table h) (cur_id h) (root_id h) (updN (objs h) r o) (n_obj h) (lists h) (n_list h)).
Definition read_list (l : nat) : SM (list Z) := fun h => (match lists h l with Some x => Ok x | None => Err AttributeError end, h).
Definition write_list (l : nat) (x : list Z) : SM unit := fun h =>
  (Ok tt, Tr (table h) (cur_id h) (root_id h) (objs h) (n_obj h) (updN (lists h) l x) (n_list h)).
(** a new list object *)
Definition new_list (x : list Z) : SM nat := fun h =>
  (Ok (n_list h), Tr (table h) (cur_id h) (root_id h) (objs h) (n_obj h) (updN (lists h) (n_list h) x) (S (n_list h))).
Definition new_obj (o : obj) : SM nat := fun h =>
  (Ok (n_obj h), Tr (table h) (cur_id h) (root_id h) (updN (objs h) (n_obj h) o) (S (n_obj h)) (lists h) (n_list h)).

(** The id field. *)
Definition obj_id (o : obj) : Z := match o with OLeaf i _ _ => i | ONode i _ _ _ _ _ => i end.
Definition with_id (o : obj) (i : Z) : obj :=
  match o with OLeaf _ n t => OLeaf i n t | ONode _ n k ls l c => ONode i n k ls l c end.

(** ** class Tree *)

(** semantic_tree.py:36-39 [get] (elem_id is never None in the code modelled) *)
Definition tget (elem_id : Z) : SM nat := fun h => (match table h elem_id with Some r => Ok r | None => Err KeyError end, h).

(** semantic_tree.py:41-43 [set] *)
Definition set_elem (elem_id : Z) (r : nat) : SM unit :=
  run o <- deref r;
  write_obj r (with_id o elem_id);;;
  fun h => (Ok tt, Tr (updZ (table h) elem_id r) (cur_id h) (root_id h) (objs h) (n_obj h) (lists h) (n_list h)).

(** semantic_tree.py:45-47 [add] *)
Definition add_elem (r : nat) : SM unit :=
  run i <- (fun h => (Ok (cur_id h), h));
  set_elem i r;;;
  fun h => (Ok tt, Tr (table h) (cur_id h + 1) (root_id h) (objs h) (n_obj h) (lists h) (n_list h)).

(** semantic_tree.py:49-51 [root] *)
Definition tree_root : SM nat :=
  run i <- (fun h => (Ok (root_id h), h));
  match i with None => sraise AssertionError | Some i => tget i end.
Definition set_root_id (i : Z) : SM unit := fun h =>
  (Ok tt, Tr (table h) (cur_id h) (Some i) (objs h) (n_obj h) (lists h) (n_list h)).

(** semantic_tree.py:53-57 [create_leaf] *)
Definition create_leaf (tok : token) : SM nat :=
  run r <- new_obj (OLeaf 0 None tok);
  add_elem r;;;
  sret r.

(** semantic_tree.py:59-63 [create_node], given the list object; 215-224 the new node *)
Definition create_node (l : nat) : SM nat :=
  run r <- new_obj (ONode 0 None l [] (-1) false);
  add_elem r;;;
  sret r.
(** create_node of a list display or slice: a new list object *)
Definition create_node_of (ids : list Z) : SM nat := run l <- new_list ids; create_node l.

Definition id_of (r : nat) : SM Z := run o <- deref r; sret (obj_id o).

(** semantic_tree.py:65-70 [enclose] *)
Definition enclose (r : nat) : SM nat :=
  run node_id <- id_of r;
  add_elem r;;;
  run i <- id_of r;
  run node <- create_node_of [i];
  set_elem node_id node;;;
  sret node.

(** ** Fields; a leaf has no children_ids (AttributeError) *)

Definition is_leaf (o : obj) : bool := match o with OLeaf _ _ _ => true | _ => false end.
Definition is_node (o : obj) : bool := match o with ONode _ _ _ _ _ _ => true | _ => false end.
(** the list object of a node *)
Definition kids_ref (r : nat) : SM nat :=
  run o <- deref r;
  match o with ONode _ _ l _ _ _ => sret l | OLeaf _ _ _ => sraise AttributeError end.
(** node.children_ids, as read *)
Definition children_ids (r : nat) : SM (list Z) := run l <- kids_ref r; read_list l.
(** children_ids[i], children_ids[i] = x *)
Definition nth_id (l : list Z) (i : nat) : SM Z := match nth_error l i with Some x => sret x | None => sraise IndexError end.
Fixpoint set_nth_id (l : list Z) (i : nat) (x : Z) : option (list Z) :=
  match l, i with
  | [], _ => None
  | _ :: r, O => Some (x :: r)
  | y :: r, S j => option_map (cons y) (set_nth_id r j x)
  end.

(** semantic_tree.py:103-107, 278-292: is_compound is true for leaves; is_terminal *)
Definition is_compound (o : obj) : bool := match o with OLeaf _ _ _ => true | ONode _ _ _ _ _ c => c end.
Definition is_terminal (o : obj) : bool := is_leaf o || is_compound o.

(** semantic_tree.py:72-77 [disenclose] *)
Definition disenclose (r : nat) : SM unit :=
  run o <- deref r;
  if negb (is_node o) then sraise AssertionError
  else
    run cs <- children_ids r;
    match cs with
    | [] => sraise AssertionError
    | c :: _ =>
        run inner <- tget c;
        set_elem (obj_id o) inner
    end.

(** semantic_tree.py:231-232 [get_child] *)
Definition get_child (r : nat) (i : nat) : SM nat :=
  run cs <- children_ids r; run c <- nth_id cs i; tget c.
(** semantic_tree.py:234-235 [children] *)
Definition children (r : nat) : SM (list nat) := run cs <- children_ids r; smap tget cs.
(** semantic_tree.py:237-238 [set_child] *)
Definition set_child (r : nat) (i : nat) (elem_id : Z) : SM unit :=
  run l <- kids_ref r;
  run cs <- read_list l;
  match set_nth_id cs i elem_id with Some cs' => write_list l cs' | None => sraise IndexError end.

(** ** Layers *)

(** semantic_tree.py:240-243 [new_layer]; a leaf has no such method *)
Definition new_layer (r : nat) : SM unit :=
  run o <- deref r;
  match o with
  | OLeaf _ _ _ => sraise AttributeError
  | ONode i n k ls l c => if (0 <=? l)%Z then write_obj r (ONode i n k (ls ++ [l]) (-1) c) else sret tt
  end.

(** semantic_tree.py:245-257 [apply_layer].  The loop runs over the children_ids as
    they are when it starts: they only change just before it returns.  [fuel]:
    recursion budget, see [budget]. *)
Fixpoint apply_layer (fuel : nat) (entity layer : nat) : SM bool :=
  match fuel with
  | O => sraise OutOfFuel
  | S f =>
      run o <- deref layer;
      if is_node o then
        run cs <- children_ids layer;
        (fix go (i : nat) (cs : list Z) : SM bool :=
           match cs with
           | [] => sret false
           | c :: rest =>
               if (c <? 0)%Z then
                 run l <- kids_ref entity;
                 run child <- create_node l;
                 run child_id <- id_of child;
                 run ccs <- children_ids child;
                 run child_id <- (if Nat.eqb (List.length ccs) 1 then nth_id ccs 0 else sret child_id);
                 set_child layer i child_id;;;
                 sret true
               else
                 run r <- get_child layer i;
                 run b <- apply_layer f entity r;
                 if b then sret true else go (S i) rest
           end) 0%nat cs
      else sret false
  end.

(** The recursion budget: no chain of distinct objects is longer. *)
Definition budget : SM nat := fun h => (Ok (S (n_obj h)), h).

(** semantic_tree.py:259-267 [apply_layers]; for a leaf 112-114 *)
Definition apply_layers (r : nat) : SM unit :=
  run o <- deref r;
  match o with
  | OLeaf _ _ _ => sret tt
  | ONode i n k ls l c =>
      write_obj r (ONode i n k (rev ls) l c);;;
      run last <-
        (fix go (prev : nat) (ids : list Z) : SM nat :=
           match ids with
           | [] => sret prev
           | id :: rest =>
               run layer <- tget id;
               run fuel <- budget;
               apply_layer fuel prev layer;;;
               go layer rest
           end) r (rev ls);
      run k' <- kids_ref last;
      run o' <- deref r;
      match o' with
      | ONode i n _ _ l c => write_obj r (ONode i n k' [] l c)
      | OLeaf _ _ _ => sraise AttributeError
      end
  end.

(** semantic_tree.py:183-185, 311-320 [nest]; returns self, which is not used *)
Definition node_nest (r : nat) (elem_id : Z) : SM unit :=
  run e <- tget elem_id;
  run eo <- deref e;
  run rr <- (if is_leaf eo then sret (elem_id, [])
             else run cs <- children_ids e;
                  match cs with [] => sraise IndexError | c :: rest => sret (c, rest) end);
  run layer <- create_node_of ([fst rr; -1] ++ snd rr)%Z;
  run lid <- id_of layer;
  run o <- deref r;
  match o with
  | ONode i n k ls _ c => write_obj r (ONode i n k ls lid c)
  | OLeaf _ _ _ => sraise AttributeError
  end.
Definition nest (r : nat) (elem_id : Z) : SM unit :=
  run o <- deref r;
  if is_leaf o then run node <- enclose r; node_nest node elem_id else node_nest r elem_id.

(** ** Adding children *)

Inductive position := LEFT | RIGHT.

(** semantic_tree.py:173-175, 294-295 [add_child] *)
Definition node_add_child (r : nat) (elem_id : Z) : SM unit :=
  run l <- kids_ref r; run cs <- read_list l; write_list l (cs ++ [elem_id]).
Definition add_child (r : nat) (elem_id : Z) : SM unit :=
  run o <- deref r;
  if is_leaf o then run node <- enclose r; node_add_child node elem_id else node_add_child r elem_id.

(** semantic_tree.py:178-180, 298-308 [add_to_first_child] *)
Definition node_add_to_first_child (r : nat) (elem_id : Z) (pos : position) : SM unit :=
  run cs <- children_ids r;
  match cs with
  | [] => sraise IndexError
  | _ =>
      run c0 <- get_child r 0;
      run o0 <- deref c0;
      (if is_terminal o0 then
         run c0 <- get_child r 0;
         run node <- enclose c0;
         run i <- id_of node;
         set_child r 0 i
       else sret tt);;;
      run c0 <- get_child r 0;
      run l <- kids_ref c0;
      run ks <- read_list l;
      write_list l (match pos with RIGHT => ks ++ [elem_id] | LEFT => elem_id :: ks end)
  end.
Definition add_to_first_child (r : nat) (elem_id : Z) (pos : position) : SM unit :=
  run o <- deref r;
  if is_leaf o then run node <- enclose r; node_add_to_first_child node elem_id pos
  else node_add_to_first_child r elem_id pos.

(** ** Whole-tree methods; [fuel]: recursion budget *)

(** semantic_tree.py:269-276 [is_singleton], [is_node_singleton] *)
Definition is_node_singleton (r : nat) : SM bool :=
  run cs <- children_ids r;
  match cs with
  | [c] => run x <- tget c; run o <- deref x; sret (is_node o)
  | _ => sret false
  end.

(** semantic_tree.py:116-118, 323-328 [remove_redundant_nesting] *)
Fixpoint remove_nesting (fuel : nat) (r : nat) : SM unit :=
  match fuel with
  | O => sraise OutOfFuel
  | S f =>
      run o <- deref r;
      if is_leaf o then sret tt
      else
        run cs <- children_ids r;
        sfor (fun c => run x <- tget c; remove_nesting f x) cs;;;
        run b <- is_node_singleton r;
        if b then disenclose r else sret tt
  end.

(** semantic_tree.py:79-80 *)
Definition remove_redundant_nesting : SM unit :=
  run r <- tree_root; run fuel <- budget; remove_nesting fuel r.

(** semantic_tree.py:188-189, 331-336 [has_pos] (shallow is never given) *)
Fixpoint has_pos (fuel : nat) (r : nat) (pos : str) : SM bool :=
  match fuel with
  | O => sraise OutOfFuel
  | S f =>
      run o <- deref r;
      match o with
      | OLeaf _ _ t => sret (str_eqb (t_pos t) pos)
      | ONode _ _ _ _ _ _ => run cs <- children r; sany (fun c => has_pos f c pos) cs
      end
  end.

(** semantic_tree.py:282-287: the setter of compound (on a node) *)
Fixpoint set_compound (fuel : nat) (r : nat) (b : bool) : SM unit :=
  match fuel with
  | O => sraise OutOfFuel
  | S f =>
      run o <- deref r;
      match o with
      | OLeaf _ _ _ => sret tt                      (* never called on a leaf *)
      | ONode i n k ls l _ =>
          write_obj r (ONode i n k ls l b);;;
          run cs <- children r;
          sfor (fun c => run oc <- deref c; if is_node oc then set_compound f c b else sret tt) cs
      end
  end.

(** semantic_tree.py:347-351, 196-197 [arity] *)
Definition arity (r : nat) : SM nat :=
  run o <- deref r;
  match o with
  | OLeaf _ _ _ => sret 1%nat
  | ONode _ _ _ _ _ true => sret 1%nat
  | ONode _ _ _ _ _ false => run cs <- children_ids r; sret (List.length cs)
  end.

(** semantic_tree.py:366-370, 200-201 [flat_leafs] *)
Fixpoint flat_leafs (fuel : nat) (r : nat) : SM (list nat) :=
  match fuel with
  | O => sraise OutOfFuel
  | S f =>
      run o <- deref r;
      if is_leaf o then sret [r]
      else run cs <- children r; run ls <- smap (flat_leafs f) cs; sret (List.concat ls)
  end.

(** semantic_tree.py:354-363 [flatten] (for a leaf 120-122: nothing) *)
Fixpoint flatten (fuel : nat) (r : nat) : SM unit :=
  match fuel with
  | O => sraise OutOfFuel
  | S f =>
      run o <- deref r;
      if is_leaf o then sret tt
      else
        run cs <- children_ids r;
        run parts <- smap (fun c =>
          run x <- tget c;
          flatten f x;;;
          run ox <- deref x;
          if is_terminal ox then sret [obj_id ox] else children_ids x) cs;
        run l <- new_list (List.concat parts);
        run o' <- deref r;
        match o' with
        | ONode i n _ ls ly c => write_obj r (ONode i n l ls ly c)
        | OLeaf _ _ _ => sraise AttributeError
        end
  end.

(** semantic_tree.py:169-170, 226-229, 82-84 [clone], [clone_id]: the new node *)
Fixpoint clone (fuel : nat) (r : nat) : SM nat :=
  match fuel with
  | O => sraise OutOfFuel
  | S f =>
      run o <- deref r;
      if is_leaf o then sret r
      else
        run cs <- children_ids r;
        run ids <- smap (fun c => run x <- tget c; run y <- clone f x; id_of y) cs;
        run node <- create_node_of ids;
        run no <- deref node;
        match no with
        | ONode i n k ls l _ => write_obj node (ONode i n k ls l (is_compound o));;; sret node
        | OLeaf _ _ _ => sraise AttributeError
        end
  end.

(** semantic_tree.py:203-208, 372-384 [__eq__] *)
Fixpoint elem_eq (fuel : nat) (a b : nat) : SM bool :=
  match fuel with
  | O => sraise OutOfFuel
  | S f =>
      run oa <- deref a;
      run ob <- deref b;
      match oa, ob with
      | OLeaf _ _ t1, OLeaf _ _ t2 => sret (token_eq t1 t2)
      | ONode _ _ _ _ _ _, ONode _ _ _ _ _ _ =>
          run c1 <- children a;
          run c2 <- children b;
          if Nat.eqb (List.length c1) (List.length c2)
          then sall (fun p => elem_eq f (fst p) (snd p)) (combine c1 c2)
          else sret false
      | _, _ => sret false
      end
  end.

(** semantic_tree.py:86-87, 210-211, 386-391 [__str__] *)
Fixpoint elem_str (fuel : nat) (r : nat) : SM str :=
  match fuel with
  | O => sraise OutOfFuel
  | S f =>
      run o <- deref r;
      match o with
      | OLeaf _ _ t => sret (t_word t)
      | ONode _ _ _ _ _ c =>
          run cs <- children r;
          run strs <- smap (elem_str f) cs;
          sret (if c then join [c_under] strs else [c_lpar] ++ join [c_space] strs ++ [c_rpar])
      end
  end.
(** str(tree) without a root is str(None) *)
Definition tree_str : SM str := fun h =>
  match root_id h with
  | None => (Ok (lit "None"), h)
  | Some i => (run r <- tget i; run fuel <- budget; elem_str fuel r) h
  end.
