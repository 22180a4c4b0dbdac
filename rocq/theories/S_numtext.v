(** * S_numtext.v -- what is known after calls whose edges give numbers or
    edges as their texts.  Specification only: models no repository code. *)
From Verif Require Import Py M_edge M_sql Spec S_history.
From Coq Require Import String.
Open Scope list_scope.

(** The floats in a value are storable ones (1e+22 is not: its text is a symbol). *)
Fixpoint floats_ok (v : value) : bool :=
  match v with
  | VFlt f => flt_ok f
  | VTup l => forallb floats_ok l
  | _ => true
  end.
(** [spells v w]: v is written as w is: v is w, or the string that writes the number
    w ("7" for 7), or the string that writes the edge w ("(is sky blue)"), or an
    edge of which parts are given so.  None is only spelled by None (it is the
    wildcard of patterns). *)
Definition spells (v w : value) : Prop :=
  edge2str v = edge2str w /\ floats_ok v = true /\ not_none v = not_none w.

(** Calls: on one edge v that spells w, or on a list of them, and what was meant; or
    a batch of them. *)
Inductive step := BAdd (v w : value) (t : Z) | BRemove (v w : value) | BRemoveAll (l : list (value * value)) | BDestroy.
Inductive call :=
| CAdd (v w : value) (t : Z) | CAddAll (l : list (value * value)) (t : Z)
| CRemove (v w : value) | CRemoveAll (l : list (value * value)) | CDestroy
| CBatch (l : list step).

(** One edge at a time, the LAST first. *)
Inductive mark := MAdd (p : value * value) (t : Z) | MRem (p : value * value) | MWipe.
Definition step_marks (b : step) : list mark :=
  match b with
  | BAdd v w t => [MAdd (v, w) t]
  | BRemove v w => [MRem (v, w)]
  | BRemoveAll l => List.map MRem l
  | BDestroy => [MWipe]
  end.
Definition marks_of (c : call) : list mark :=
  match c with
  | CAdd v w t => [MAdd (v, w) t]
  | CAddAll l t => List.map (fun p => MAdd p t) l
  | CRemove v w => [MRem (v, w)]
  | CRemoveAll l => List.map MRem l
  | CDestroy => [MWipe]
  | CBatch l => flat_map step_marks l
  end.
Definition marks (cs : list call) : list mark := rev (flat_map marks_of cs).

(** v is w itself: nothing in it is given as a string. *)
Definition exact (p : value * value) : bool := veqb (fst p) (snd p).

(** What that does to the set of edges: the edge meant is added; a remove that
    gives a part of it as a string does nothing. *)
Fixpoint events (m : list mark) : list ev :=
  match m with
  | [] => []
  | MAdd p t :: m' => EAdd (snd p) t :: events m'
  | MRem p :: m' => if exact p then ERem (snd p) :: events m' else events m'
  | MWipe :: m' => EDestroy :: events m'
  end.
Definition there (p : value * value) (m : list mark) : bool := memb (snd p) (stored (events m)).

(** The degree and timestamp on record for the vertex v: an add counts when the
    edge is not there or has a part given as a string, a remove when it is there and
    has none. *)
Fixpoint ledger (m : list mark) (v : value) : option (Z * Z) :=
  match m with
  | [] => None
  | MAdd p t :: m' =>
      if exact p && there p m' then ledger m' v
      else if veqb v (snd p) then Some (0%Z, t)
      else match count v (elems (snd p)), ledger m' v with
           | O, r => r
           | S n, Some (d, s) => Some (d + Z.of_nat (S n), s)%Z
           | S n, None => Some (Z.of_nat (S n), t)
           end
  | MRem p :: m' =>
      if exact p && there p m' then
        if veqb v (snd p) then None
        else option_map (fun x => (fst x - Z.of_nat (count v (elems (snd p))), snd x)%Z) (ledger m' v)
      else ledger m' v
  | MWipe :: _ => None
  end.

(** Arguments the theorems are about: what is meant is storable, and v has an
    element for each of its elements. *)
Definition pair_in (V : value -> Prop) (p : value * value) : Prop :=
  (exists l, fst p = VTup l /\ Forall2 spells l (elems (snd p))) /\ edge_in V (snd p).
Definition step_in (V : value -> Prop) (b : step) : Prop :=
  match b with
  | BAdd v w t => pair_in V (v, w) /\ int64 t = true
  | BRemove v w => pair_in V (v, w)
  | BRemoveAll l => l <> [] /\ Forall (pair_in V) l
  | BDestroy => True
  end.
Definition call_in (V : value -> Prop) (c : call) : Prop :=
  match c with
  | CAdd v w t => pair_in V (v, w) /\ int64 t = true
  | CAddAll l t => l <> [] /\ Forall (pair_in V) l /\ int64 t = true
  | CRemove v w => pair_in V (v, w)
  | CRemoveAll l => l <> [] /\ Forall (pair_in V) l
  | CDestroy => True
  | CBatch l => Forall (step_in V) l
  end.

(** The calls, on the model; w is not passed. *)
Definition run_step (b : step) : M unit :=
  match b with
  | BAdd v _ t => add v t;; ret tt
  | BRemove v _ => remove v
  | BRemoveAll l => remove (VTup (List.map fst l))
  | BDestroy => destroy
  end.
Definition run_call (k : call) : M unit :=
  match k with
  | CAdd v _ t => add v t;; ret tt
  | CAddAll l t => add (VTup (List.map fst l)) t;; ret tt
  | CRemove v _ => remove v
  | CRemoveAll l => remove (VTup (List.map fst l))
  | CDestroy => destroy
  | CBatch l => batch_exec (List.map run_step l)
  end.
Definition run_calls (ks : list call) : M unit := mfor ks run_call.
