(** * S_lists.v -- what is known after calls whose edges are given as lists or
    tuples.  Specification only: models no repository code. *)
From Verif Require Import Py M_sql Spec S_history M_lists.
From Coq Require Import String.
Open Scope list_scope.

(** No list anywhere. *)
Fixpoint no_lists (p : pv) : bool :=
  match p with
  | PLst _ => false
  | PTup l => forallb no_lists l
  | _ => true
  end.
(** No list among the elements, at any depth; the edge itself may be a list. *)
Definition shallow (p : pv) : bool :=
  match p with PTup l | PLst l => forallb no_lists l | _ => true end.

(** Calls on one edge, or on a list or tuple of edges; batches of them. *)
Inductive step := BAdd (p : pv) (t : Z) | BRemove (p : pv) | BDestroy.
Inductive call := CAdd (p : pv) (t : Z) | CRemove (p : pv) | CDestroy | CBatch (l : list step).
(** The edges a call is about: the argument is a sequence of edges when its first
    item is a sequence. *)
Definition edges_of (p : pv) : list pv :=
  match p with
  | PTup (PTup x :: l) | PLst (PTup x :: l) => PTup x :: l
  | PTup (PLst x :: l) | PLst (PLst x :: l) => PLst x :: l
  | _ => [p]
  end.

(** One edge at a time, the LAST first. *)
Inductive mark := MAdd (p : pv) (t : Z) | MRem (p : pv) | MWipe.
Definition step_marks (b : step) : list mark :=
  match b with
  | BAdd p t => [MAdd p t]
  | BRemove p => List.map MRem (edges_of p)
  | BDestroy => [MWipe]
  end.
Definition marks_of (c : call) : list mark :=
  match c with
  | CAdd p t => List.map (fun q => MAdd q t) (edges_of p)
  | CRemove p => List.map MRem (edges_of p)
  | CDestroy => [MWipe]
  | CBatch l => flat_map step_marks l
  end.
Definition marks (cs : list call) : list mark := rev (flat_map marks_of cs).

(** What that does to the set of edges: a remove with a list inside does nothing. *)
Fixpoint events (m : list mark) : list ev :=
  match m with
  | [] => []
  | MAdd p t :: m' => EAdd (tuples p) t :: events m'
  | MRem p :: m' => if shallow p then ERem (tuples p) :: events m' else events m'
  | MWipe :: m' => EDestroy :: events m'
  end.
Definition there (p : pv) (m : list mark) : bool := memb (tuples p) (stored (events m)).

(** The degree and timestamp on record for the vertex v: an add counts when the
    edge is not there or has a list inside, a remove when it is there and has no
    list inside. *)
Fixpoint ledger (m : list mark) (v : value) : option (Z * Z) :=
  match m with
  | [] => None
  | MAdd p t :: m' =>
      if shallow p && there p m' then ledger m' v
      else if veqb v (tuples p) then Some (0%Z, t)
      else match count v (elems (tuples p)), ledger m' v with
           | O, r => r
           | S n, Some (d, s) => Some (d + Z.of_nat (S n), s)%Z
           | S n, None => Some (Z.of_nat (S n), t)
           end
  | MRem p :: m' =>
      if shallow p && there p m' then
        if veqb v (tuples p) then None
        else option_map (fun x => (fst x - Z.of_nat (count v (elems (tuples p))), snd x)%Z) (ledger m' v)
      else ledger m' v
  | MWipe :: _ => None
  end.

(** Arguments the theorems are about: the edges, read as tuples, are storable. *)
Definition step_in (V : value -> Prop) (b : step) : Prop :=
  match b with
  | BAdd p t => edge_in V (tuples p) /\ int64 t = true          (* one edge *)
  | BRemove p => Forall (fun q => edge_in V (tuples q)) (edges_of p)
  | BDestroy => True
  end.
Definition call_in (V : value -> Prop) (c : call) : Prop :=
  match c with
  | CAdd p t => Forall (fun q => edge_in V (tuples q)) (edges_of p) /\ int64 t = true
  | CRemove p => Forall (fun q => edge_in V (tuples q)) (edges_of p)
  | CDestroy => True
  | CBatch l => Forall (step_in V) l
  end.

(** The calls, on the model. *)
Definition run_step (b : step) : M unit :=
  match b with
  | BAdd p t => padd p t;; ret tt
  | BRemove p => premove p
  | BDestroy => destroy
  end.
Definition run_call (k : call) : M unit :=
  match k with
  | CAdd p t => padd p t;; ret tt
  | CRemove p => premove p
  | CDestroy => destroy
  | CBatch l => batch_exec (List.map run_step l)
  end.
Definition run_calls (ks : list call) : M unit := mfor ks run_call.
