(** * S_collate.v -- which characters a collation keeps apart.  Specification only:
    models no repository code. *)

From Verif Require Import Py M_edge Spec S_history.
Open Scope list_scope.

(** The collation that gives each character [c] the weight [wt c] tells the
    characters of the set [K] apart, and keeps them in an order in which the next
    character comes later: no two have the same weight; the weight of the successor
    of a character is greater; none comes before the space, and nothing comes between
    the space and its successor, or between a character and its successor if that is
    the parenthesis; if the slash is in the set, none of its characters comes between
    the slash and its successor, which is the digit 0.  The set has the characters
    every index row is made of: space, parentheses, digits. *)
Record tells_apart (wt : char -> N) (K : char -> bool) : Prop := {
  ta_apart : forall c d, K c = true -> K d = true -> wt c = wt d -> c = d;
  ta_next : forall c, K c = true -> (wt c < wt (c + 1))%N;
  ta_space : forall c, K c = true -> c <> c_space -> (wt c_space < wt c)%N;
  ta_gap : wt (c_space + 1)%N = (wt c_space + 1)%N;
  ta_par : forall c, K c = true -> (wt c < wt c_lpar)%N -> (wt (c + 1) <= wt c_lpar)%N;
  ta_slash : K c_slash = true -> forall c, K c = true -> (wt c_slash < wt c)%N -> (wt (c_slash + 1) <= wt c)%N;
  ta_in : K c_space = true /\ K c_lpar = true /\ K c_rpar = true /\ forall c, is_digit c = true -> K c = true }.

(** The vertex is written with characters of the set. *)
Definition written_in (K : char -> bool) (v : value) : Prop := forallb K (edge2str v) = true.
(** The root of symbols, and the slash that follows it in them, are so. *)
Definition root_written (K : char -> bool) (r : str) : Prop := forallb K (r ++ [c_slash]) = true.
(** The vertices and roots that the queries of a call are about are written so (those
    of the other calls are elements of edges). *)
Definition ask_written (K : char -> bool) (q : ask) : Prop :=
  match q with QStar v | QDegree v | QTimestamp v => written_in K v | QRoot r => root_written K r | _ => True end.
Definition op_written (K : char -> bool) (o : op) : Prop :=
  match o with
  | OAsk q => ask_written K q
  | OBatch fs => Forall (fun b => match b with BStar v => written_in K v | BRoot r => root_written K r | _ => True end) (List.concat fs)
  | _ => True
  end.
