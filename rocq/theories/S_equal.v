(** * S_equal.v -- what is stored when numbers that are equal but not the same
    (7 and 7.0) are mixed.  Specification only: models no repository code. *)
From Verif Require Import Py M_edge Spec S_history.
From Coq Require Import Permutation String.
Open Scope list_scope.

(** Asking for [q] finds the stored edge [e]: they are equal as Python values, and
    the elements of [e] are, in some order, literally those of [q], except that the
    text of one of them may go on after the text of the last element of [q]. *)
Definition finds (q e : value) : Prop :=
  py_eq q e = true
  /\ exists x t, Permutation (elems e) (removelast (elems q) ++ [x])
       /\ edge2str x = edge2str (List.last (elems q) VNone) ++ t.

(** The same as a function. *)
Fixpoint remove1 (v : value) (l : list value) : option (list value) :=
  match l with
  | [] => None
  | x :: l' => if veqb v x then Some l' else option_map (cons x) (remove1 v l')
  end.
Fixpoint permb (l m : list value) : bool :=
  match l with
  | [] => match m with [] => true | _ => false end
  | x :: l' => match remove1 x m with Some m' => permb l' m' | None => false end
  end.
Definition findsb (q e : value) : bool :=
  py_eq q e && existsb (fun x => permb (removelast (elems q) ++ [x]) (elems e)
                                 && prefixb (edge2str (List.last (elems q) VNone)) (edge2str x)) (elems e).
Definition foundb (q : value) (E : list value) : bool := existsb (findsb q) E.

(** The edges in the hypergraph after a history (the last event first): an add
    counts when the edge is not found; a remove takes out the very same edge only. *)
Fixpoint held (h : list ev) : list value :=
  match h with
  | [] => []
  | EAdd e _ :: h' => if foundb e (held h') then held h' else e :: held h'
  | ERem e :: h' => filter (fun x => negb (veqb e x)) (held h')
  | EDestroy :: _ => []
  end.

(** The degree and timestamp on record for a vertex: an add counts when the edge
    is not found, a remove when it is found (as itself or as an equal edge). *)
Fixpoint account (h : list ev) (v : value) : option (Z * Z) :=
  match h with
  | [] => None
  | EAdd e t :: h' =>
      if foundb e (held h') then account h' v
      else if veqb v e then Some (0%Z, t)
      else match count v (elems e), account h' v with
           | O, r => r
           | S n, Some (d, s) => Some (d + Z.of_nat (S n), s)%Z
           | S n, None => Some (Z.of_nat (S n), t)
           end
  | ERem e :: h' =>
      if foundb e (held h') then
        if veqb v e then None
        else option_map (fun x => (fst x - Z.of_nat (count v (elems e)), snd x)%Z) (account h' v)
      else account h' v
  | EDestroy :: _ => None
  end.

(** A pattern and an edge: wildcards match anything, other items what is equal. *)
Definition equal_match (p l : list value) : Prop :=
  Forall2 (fun q x => q = VNone \/ py_eq q x = true) p l.
(** The items of the pattern that are no wildcards are, in some order, literally
    elements of the edge, except that the text of the last may go on. *)
Definition spelled (p l : list value) : Prop :=
  exists x t rest, Permutation l (removelast (filter bound p) ++ x :: rest)
    /\ edge2str x = edge2str (List.last (filter bound p) VNone) ++ t.

(** The calls considered: they write or wipe storable edges, whatever their numbers;
    they may be grouped into batches. *)
Definition plain_bop (b : bop) : Prop :=
  match b with
  | BAdd e t => db_edge e = true /\ int64 t = true
  | BRemove e => db_edge e = true
  | BRemoveMany es => es <> [] /\ Forall (fun e => db_edge e = true) es
  | BDestroy => True
  | _ => False
  end.
Definition plain_call (o : op) : Prop :=
  match o with
  | OAdd e t => db_edge e = true /\ int64 t = true
  | OAddMany es t => es <> [] /\ Forall (fun e => db_edge e = true) es /\ int64 t = true
  | ORemove e => db_edge e = true
  | ORemoveMany es => es <> [] /\ Forall (fun e => db_edge e = true) es
  | ODestroy | OReopen => True
  | OAddBelief s e t => db_edge e = true /\ db_vertex s = true /\ int64 t = true
  | OAddBeliefs s es t => es <> [] /\ Forall (fun e => db_edge e = true) es /\ db_vertex s = true /\ int64 t = true
  | OBatch fs => Forall plain_bop (List.concat fs)
  | _ => False
  end.

(** A set [l] answers for the edges of [E] that satisfy [P]: it holds only such
    edges, an edge equal to every such edge, and no two equal ones. *)
Record answer (E : list value) (P : value -> Prop) (l : list value) : Prop := {
  an_once : NoDup l;
  an_only : forall e, In e l -> In e E /\ P e;
  an_all : forall e, In e E -> P e -> exists e', In e' l /\ py_eq e e' = true;
  an_apart : forall x y, In x l -> In y l -> py_eq x y = true -> x = y }.
(** A pattern of storable items whose first bound item is an atom. *)
Definition any_pattern (p : list value) : Prop := pattern_in (fun _ => True) p.
Definition suits (p : list value) (e : value) : Prop := equal_match p (elems e) /\ spelled p (elems e).
Definition facts_of (e : value) : list value := [VStr (lit "src/1"); e; VNone].

(** Calls that also ask before they remove, and queries. *)
Definition db_call (o : op) : Prop :=
  plain_call o \/
  match o with
  | ORemovePattern p => any_pattern p
  | ORemoveBelief s e => db_edge e = true /\ db_vertex s = true
  | OAsk (QExists e) => db_edge e = true
  | OAsk (QPattern p) => any_pattern p
  | OAsk (QStar a) => db_atom a = true
  | OAsk (QDegree v) | OAsk (QTimestamp v) | OAsk (QSources v) => db_vertex v = true
  | OAsk (QRoot r) => root_in r
  | OAsk QAll => True
  | _ => False
  end.

(** What a call adds to the history.  Which of several equal edges a pattern removes
    is not fixed, nor the order in which it meets them. *)
Inductive log : list ev -> op -> list ev -> Prop :=
| log_plain h o : plain_call o -> log h o (after h o)
| log_pattern h p l l' : answer (held h) (suits p) l -> Permutation l' l ->
    log h (ORemovePattern p) (fold_left (fun h e => ERem e :: h) l' h)
| log_belief_kept h s e x : let h1 := ERem (link_edge s e) :: h in
    In x (held h1) -> suits (facts_of e) x -> log h (ORemoveBelief s e) h1
| log_belief_last h s e : let h1 := ERem (link_edge s e) :: h in
    (forall x, In x (held h1) -> ~ suits (facts_of e) x) -> log h (ORemoveBelief s e) (ERem e :: h1)
| log_ask h q : log h (OAsk q) h.
Inductive logs : list ev -> list op -> list ev -> Prop :=
| logs_none h : logs h [] h
| logs_more h o h1 ops h2 : log h o h1 -> logs h1 ops h2 -> logs h (o :: ops) h2.
