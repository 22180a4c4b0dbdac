(** * S_history.v -- what a hypergraph holds after a history, independently of
    the tables.  Specification only: models no repository code. *)

From Verif Require Import Py Spec.
From Coq Require Import String.
Open Scope list_scope.

(** Structural equality of vertices. *)
Definition feqb (f g : pyfloat) : bool :=
  match f, g with
  | FFin n m e, FFin n' m' e' => Bool.eqb n n' && N.eqb m m' && Z.eqb e e'
  | FInf n, FInf n' => Bool.eqb n n'
  | FNan, FNan => true
  | _, _ => false
  end.
Fixpoint veqb (a b : value) {struct a} : bool :=
  match a, b with
  | VNone, VNone => true
  | VStr s, VStr t => str_eqb s t
  | VInt x, VInt y => Z.eqb x y
  | VFlt f, VFlt g => feqb f g
  | VTup l, VTup m =>
      (fix go (l m : list value) : bool :=
         match l, m with
         | [], [] => true
         | x :: l', y :: m' => veqb x y && go l' m'
         | _, _ => false
         end) l m
  | _, _ => false
  end.
Definition memb (v : value) (l : list value) : bool := existsb (veqb v) l.

(** Elementary events.  Histories are lists of events, the LAST event first. *)
Inductive ev :=
| EAdd (e : value) (t : Z)
| ERem (e : value)
| EDestroy.

(** The set of edges in the hypergraph after a history. *)
Fixpoint stored (h : list ev) : list value :=
  match h with
  | [] => []
  | EAdd e _ :: h' => if memb e (stored h') then stored h' else e :: stored h'
  | ERem e :: h' => filter (fun x => negb (veqb e x)) (stored h')
  | EDestroy :: _ => []
  end.

(** The same in words: [e] was added and since then neither removed nor wiped. *)
Definition present (h : list ev) (e : value) : Prop :=
  exists later t earlier, h = later ++ EAdd e t :: earlier
    /\ ~ In (ERem e) later /\ ~ In EDestroy later.

(** How often [v] occurs in a list; in the edges of a list. *)
Fixpoint count (v : value) (l : list value) : nat :=
  match l with
  | [] => O
  | x :: l' => ((if veqb v x then 1 else 0) + count v l')%nat
  end.
Fixpoint occurrences (v : value) (E : list value) : nat :=
  match E with
  | [] => O
  | e :: E' => (count v (elems e) + occurrences v E')%nat
  end.

(** Timestamp of the first add since the last destroy whose edge has [a] among
    its elements. *)
Fixpoint first_seen (a : value) (h : list ev) : option Z :=
  match h with
  | [] => None
  | EAdd e t :: h' =>
      match first_seen a h' with
      | Some s => Some s
      | None => if memb a (elems e) then Some t else None
      end
  | ERem _ :: h' => first_seen a h'
  | EDestroy :: _ => None
  end.

(** Timestamp of the add that put the edge [e] where it is now. *)
Fixpoint inserted (e : value) (h : list ev) : option Z :=
  match h with
  | [] => None
  | EAdd e' t :: h' => if veqb e e' && negb (memb e (stored h')) then Some t else inserted e h'
  | ERem e' :: h' => if veqb e e' then None else inserted e h'
  | EDestroy :: _ => None
  end.

(** The time at which the hypergraph's current record of the vertex [v] was
    started, and the history before that moment: the record starts when the edge
    [v] is put in, or when an edge that contains [v] is put in while there is no
    record; it ends when the edge [v] is taken out, or with a destroy. *)
Fixpoint born (v : value) (h : list ev) : option (Z * list ev) :=
  match h with
  | [] => None
  | EAdd e t :: h' =>
      if memb e (stored h') then born v h'
      else if veqb v e then Some (t, h')
      else match born v h' with
           | Some b => Some b
           | None => if memb v (elems e) then Some (t, h') else None
           end
  | ERem e :: h' => if veqb v e && memb v (stored h') then None else born v h'
  | EDestroy :: _ => None
  end.
(** The same in words: an add put an edge in that is [v], or contains [v] while
    there was no record of it, and after it [v] itself was neither taken out nor
    put in, and nothing was wiped. *)
Definition lasts (v : value) (later h0 : list ev) : Prop :=
  forall a x b, later = a ++ x :: b ->
    x <> EDestroy /\ (x = ERem v -> ~ present (b ++ h0) v) /\ (forall t, x = EAdd v t -> present (b ++ h0) v).
Definition starts (v : value) (h : list ev) (t : Z) (earlier : list ev) : Prop :=
  exists later e, h = later ++ EAdd e t :: earlier /\ ~ present earlier e
    /\ (v = e \/ In v (elems e) /\ born v earlier = None)
    /\ lasts v later (EAdd e t :: earlier).

(** Since its last removal (or the last destroy), no add mentions [v] *)
Fixpoint forgotten (v : value) (h : list ev) : Prop :=
  match h with
  | [] => True
  | EAdd e _ :: h' => v <> e /\ ~ In v (elems e) /\ forgotten v h'
  | ERem e :: h' => (v = e /\ In v (stored h')) \/ forgotten v h'
  | EDestroy :: _ => True
  end.

(** The edge [v] enters and leaves the hypergraph only while no stored edge contains it *)
Fixpoint quiet (v : value) (h : list ev) : Prop :=
  match h with
  | [] => True
  | EAdd e _ :: h' => (e = v -> ~ In v (stored h') -> occurrences v (stored h') = O) /\ quiet v h'
  | ERem e :: h' => (e = v -> In v (stored h') -> occurrences v (stored h') = O) /\ quiet v h'
  | EDestroy :: _ => True
  end.

(** Pattern matching as a function (see [matches]). *)
Fixpoint matchb (p l : list value) : bool :=
  match p, l with
  | [], [] => true
  | VNone :: p', _ :: l' => matchb p' l'
  | q :: p', x :: l' => veqb q x && matchb p' l'
  | _, _ => false
  end.

(** The edge that links fact [e] to its source [s]. *)
Definition link_edge (s e : value) : value := VTup [VStr (lit "src/1"); e; s].
Definition is_link_of (e x : value) : bool :=
  match x with
  | VTup [r; f; _] => veqb r (VStr (lit "src/1")) && veqb f e
  | _ => false
  end.

(** ** Operations of the API *)

Inductive ask :=
| QExists (e : value) | QPattern (p : list value) | QStar (a : value)
| QDegree (v : value) | QTimestamp (v : value) | QSources (e : value)
| QRoot (r : str) | QAll.

(** What a function run by batch_exec does (one step of it). *)
Inductive bop :=
| BAdd (e : value) (t : Z)
| BRemove (e : value)
| BRemoveMany (es : list value)
| BDestroy
| BExists (e : value)
| BPattern (p : list value)
| BStar (a : value)
| BRoot (r : str)
| BAll.

Inductive op :=
| OAdd (e : value) (t : Z)
| OAddMany (es : list value) (t : Z)
| ORemove (e : value)
| ORemoveMany (es : list value)
| ODestroy
| OAddBelief (s e : value) (t : Z)
| OAddBeliefs (s : value) (es : list value) (t : Z)
| ORemoveBelief (s e : value)
| ORemovePattern (p : list value)
| OBatch (fs : list (list bop))
| OAsk (q : ask)
| OReopen.                      (* close the database file and open it again *)

Definition after_bop (h : list ev) (b : bop) : list ev :=
  match b with
  | BAdd e t => EAdd e t :: h
  | BRemove e => ERem e :: h
  | BRemoveMany es => fold_left (fun h e => ERem e :: h) es h
  | BDestroy => EDestroy :: h
  | BExists _ | BPattern _ | BStar _ | BRoot _ | BAll => h
  end.

(** The events of an operation, added to the history. *)
Definition after (h : list ev) (o : op) : list ev :=
  match o with
  | OAdd e t => EAdd e t :: h
  | OAddMany es t => fold_left (fun h e => EAdd e t :: h) es h
  | ORemove e => ERem e :: h
  | ORemoveMany es => fold_left (fun h e => ERem e :: h) es h
  | ODestroy => EDestroy :: h
  | OAddBelief s e t => EAdd (link_edge s e) t :: EAdd e t :: h
  | OAddBeliefs s es t => fold_left (fun h e => EAdd (link_edge s e) t :: EAdd e t :: h) es h
  | ORemoveBelief s e =>
      let h1 := ERem (link_edge s e) :: h in
      if existsb (is_link_of e) (stored h1) then h1 else ERem e :: h1
  | ORemovePattern p =>
      fold_left (fun h e => ERem e :: h) (filter (fun e => matchb p (elems e)) (stored h)) h
  | OBatch fs => fold_left after_bop (List.concat fs) h
  | OAsk _ | OReopen => h
  end.
Definition history (ops : list op) : list ev := fold_left after ops [].

(** ** Scope: operations on storable edges with elements from V, and times that
    the database can hold (64-bit integers) *)

(** A pattern whose first non-wildcard is an atom. *)
Definition bound (v : value) : bool := match v with VNone => false | _ => true end.
Record pattern_in (V : value -> Prop) (p : list value) : Prop := {
  pi_first : exists a rest, filter bound p = a :: rest /\ db_atom a = true;
  pi_items : forall x, In x p -> bound x = true -> db_vertex x = true /\ V x }.

(** A root of symbols: a text that can be asked for, without white space, not
    starting with '('. *)
Definition root_in (r : str) : Prop := forallb is_scalar r = true /\ no_white r = true /\ starts_with c_lpar r = false.

Definition ask_in (V : value -> Prop) (q : ask) : Prop :=
  match q with
  | QExists e => edge_in V e
  | QPattern p => pattern_in V p
  | QStar a => db_atom a = true
  | QDegree v | QTimestamp v => db_vertex v = true
  | QSources e => db_vertex e = true /\ V e /\ V (VStr (lit "src/1"))
  | QRoot r => root_in r
  | QAll => True
  end.
Definition bop_in (V : value -> Prop) (b : bop) : Prop :=
  match b with
  | BAdd e t => edge_in V e /\ int64 t = true
  | BRemove e | BExists e => edge_in V e
  | BRemoveMany es => es <> [] /\ Forall (edge_in V) es
  | BPattern p => pattern_in V p
  | BStar a => db_atom a = true
  | BRoot r => root_in r
  | BDestroy | BAll => True
  end.
Definition op_in (V : value -> Prop) (o : op) : Prop :=
  match o with
  | OAdd e t => edge_in V e /\ int64 t = true
  | OAddMany es t => (es <> [] /\ Forall (edge_in V) es) /\ int64 t = true
  | ORemove e => edge_in V e
  | ORemoveMany es => es <> [] /\ Forall (edge_in V) es
  | ODestroy | OReopen => True
  | OAddBelief s e t => (edge_in V e /\ edge_in V (link_edge s e)) /\ int64 t = true
  | ORemoveBelief s e => edge_in V e /\ edge_in V (link_edge s e)
  | OAddBeliefs s es t => (es <> [] /\ Forall (fun e => edge_in V e /\ edge_in V (link_edge s e)) es) /\ int64 t = true
  | ORemovePattern p => pattern_in V p
  | OBatch fs => Forall (bop_in V) (List.concat fs)
  | OAsk q => ask_in V q
  end.
