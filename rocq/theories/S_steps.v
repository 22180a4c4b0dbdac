(** * S_steps.v -- which edges a call is about.  Specification only: models no
    repository code. *)

From Verif Require Import Py M_edge Spec S_history.
From Coq Require Import String Permutation Factorial.
Open Scope list_scope.

(** The edges that a call may put in or take out. *)
Definition bop_on (b : bop) (x : value) : Prop :=
  match b with
  | BAdd e _ | BRemove e => x = e
  | BRemoveMany es => In x es
  | BDestroy => True
  | BExists _ | BPattern _ | BStar _ | BRoot _ | BAll => False
  end.
Definition op_on (o : op) (x : value) : Prop :=
  match o with
  | OAdd e _ | ORemove e => x = e
  | OAddMany es _ | ORemoveMany es => In x es
  | ODestroy => True
  | OAddBelief s e _ | ORemoveBelief s e => x = e \/ x = link_edge s e
  | OAddBeliefs s es _ => exists e, In e es /\ (x = e \/ x = link_edge s e)
  | ORemovePattern p => matches p (elems x)
  | OBatch fs => exists b, In b (List.concat fs) /\ bop_on b x
  | OAsk _ | OReopen => False
  end.
(** The edges that a call may take out. *)
Definition bop_drops (b : bop) (x : value) : Prop :=
  match b with
  | BRemove e => x = e
  | BRemoveMany es => In x es
  | BDestroy => True
  | BAdd _ _ | BExists _ | BPattern _ | BStar _ | BRoot _ | BAll => False
  end.
Definition op_drops (o : op) (x : value) : Prop :=
  match o with
  | ORemove e => x = e
  | ORemoveMany es => In x es
  | ODestroy => True
  | ORemoveBelief s e => x = e \/ x = link_edge s e
  | ORemovePattern p => matches p (elems x)
  | OBatch fs => exists b, In b (List.concat fs) /\ bop_drops b x
  | OAdd _ _ | OAddMany _ _ | OAddBelief _ _ _ | OAddBeliefs _ _ _ | OAsk _ | OReopen => False
  end.
(** ... and all the calls of a list *)
Definition calls_on (ops : list op) (x : value) : Prop := exists o, In o ops /\ op_on o x.
(** Vertices that a call may count, uncount, record or forget: the edges it is
    about, and their elements. *)
Definition calls_touch (ops : list op) (v : value) : Prop :=
  calls_on ops v \/ exists e, calls_on ops e /\ In v (elems e).

(** ** Degrees *)

(** The sum of [f j] for the [j] of a list. *)
Definition total (f : nat -> Z) (js : list nat) : Z := fold_right Z.add 0%Z (List.map f js).
(** How many more times [v] occurs in the edges after the calls [ops] and [b] than
    after the calls [ops]. *)
Definition occ_change (v : value) (ops b : list op) : Z :=
  (Z.of_nat (occurrences v (stored (history (ops ++ b)))) - Z.of_nat (occurrences v (stored (history ops))))%Z.

(** ** MySQL *)

(** Putting [e] in at time [t] would write a vertex record that is there already:
    [e] is not in the hypergraph, but has a record, started at the same time [t],
    with degree 0 (as many occurrences now as when it was started). *)
Definition same_record (e : value) (t : Z) (h : list ev) : Prop :=
  ~ present h e /\ exists earlier, born e h = Some (t, earlier)
    /\ occurrences e (stored h) = occurrences e (stored earlier).
(** No text under which [e] is indexed has 250 characters or more: the texts of its
    elements in some order, and the number of that order. *)
Definition short_texts (e : value) : Prop :=
  forall p k, Permutation p (elems e) -> (0 <= k < Z.of_nat (fact (List.length (elems e))))%Z ->
    (List.length (join [c_space] (List.map edge2str (p ++ [VInt k]))) < 250)%nat.
(** In the history, every add that puts an edge in is of an edge with short texts
    and does not repeat a record. *)
Definition my_fine (h : list ev) : Prop :=
  forall later e t earlier, h = later ++ EAdd e t :: earlier -> ~ present earlier e ->
    short_texts e /\ ~ same_record e t earlier.

(** ** Calls that no other process gets in the way of *)

(** No other process's calls count, uncount, record or forget [v]. *)
Definition only (calls : nat -> list op) (i : nat) (v : value) : Prop := forall j, j <> i -> ~ calls_touch (calls j) v.
(** [v] has a record after the calls [ops], and nobody's calls put it in or take it
    out as an edge (many may count it as an element). *)
Definition known (ops : list op) (calls : nat -> list op) (v : value) : Prop :=
  born v (history ops) <> None /\ forall j, ~ calls_on (calls j) v.
(** Every edge that process [i]'s calls are about is touched by nobody else; the
    same is true of its elements, except those known from before. *)
Definition private (V : value -> Prop) (ops : list op) (calls : nat -> list op) (i : nat) : Prop :=
  forall e, edge_in V e -> calls_on (calls i) e ->
    only calls i e /\ forall x, In x (elems e) -> only calls i x \/ known ops calls x.
