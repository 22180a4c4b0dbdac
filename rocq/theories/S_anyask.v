(** * S_anyask.v -- questions with any argument at all: what the answers mean.
    Specification only: models no repository code. *)
From Verif Require Import Py M_edge M_sql Spec S_history S_equal.
From Coq Require Import Permutation Factorial String.
Open Scope list_scope.

(** The texts of the elements of [e] in one of their orders and the number of that
    order, separated by spaces, begin with the text [s] ([nthperm]: C06). *)
Definition line (l : list value) (k : Z) : str := join [c_space] (List.map edge2str l ++ [show_Z k]).
Definition begins (s : str) (e : value) : Prop :=
  exists k p t, (0 <= k < Z.of_nat (fact (List.length (elems e))))%Z /\ nthperm (elems e) k = Ok p /\ line p k = s ++ t.

(** The text that a pattern of the items [l] stands for: those that are no
    wildcards, separated by spaces. *)
Definition wanted (l : list value) : str := join [c_space] (List.map edge2str (filter bound l)).

(** A parenthesis in the first place. *)
Definition opens (s : str) : Prop := exists t, s = c_lpar :: t.

(** [v] was made of a piece of a stored edge that has an edge as element: it has
    fewer atoms than that edge ([leaves]: Spec). *)
Definition piece (h : list ev) (v : value) : Prop :=
  exists e l, present h e /\ In (VTup l) (elems e) /\ (leaves v < leaves e)%nat.
