(** * S_tree.v -- what the stages of the extractor should do: a specification

    The semantic tree as a user sees it: leaves are the tokens of the parse, nodes
    are lists of subtrees.  [unfolds] reads it off the objects, by following the
    numbers of the children through the table. *)

From Verif Require Import Py M_token M_tree M_stages.
From Coq Require Import String.
Open Scope list_scope.

Inductive stree := SLeaf (ns : option str) (tok : token) | SNode (ns : option str) (comp : bool) (kids : list stree).

(** the tokens, in order *)
Fixpoint leaves (t : stree) : list token := match t with SLeaf _ k => [k] | SNode _ _ ts => flat_map leaves ts end.

(** The element with number [i] is the tree [t]. *)
Inductive unfolds (h : tree) : Z -> stree -> Prop :=
| unfolds_leaf i r ns k : table h i = Some r -> objs h r = Some (OLeaf i ns k) -> unfolds h i (SLeaf ns k)
| unfolds_node i r ns l ls y c cs ts :
    table h i = Some r -> objs h r = Some (ONode i ns l ls y c) -> lists h l = Some cs -> Forall2 (unfolds h) cs ts ->
    unfolds h i (SNode ns c ts).
(** The tree of a Tree object. *)
Definition shows (h : tree) (t : stree) : Prop := exists i, root_id h = Some i /\ unfolds h i t.

(** The tokens of a parse that alpha keeps: a child without dependency label, or
    with label punct, is left out with everything below it. *)
Definition left_out (c : token) : bool := Nat.eqb (List.length (t_dep c)) 0 || str_eqb (t_dep c) (lit "punct").
Fixpoint kept (t : token) : list token :=
  match t with
  | Token _ _ _ _ _ _ _ l r =>
      t :: flat_map (fun c => if left_out c then [] else kept c) l ++ flat_map (fun c => if left_out c then [] else kept c) r
  end.

(** ** Alpha: the tree it should build *)

Definition one_of (x : str) (l : list string) : bool := existsb (fun s => str_eqb x (lit s)) l.
(** children with these labels go around the main tree ... *)
Definition nesting (c : token) : bool := one_of (t_dep c) ["aux"; "auxpass"; "cc"; "agent"; "det"; "advmod"; "amod"; "poss"; "nummod"]%string.
(** ... and so do prepositions of a tree [T] without a verb; *)
Definition nests (T : stree) (c : token) : bool :=
  nesting c || (str_eqb (t_dep c) (lit "prep") && negb (existsb (fun k => str_eqb (t_pos k) (lit "VERB")) (leaves T))).
(** children with these labels are joined to the first element. *)
Definition joins (c : token) : bool := one_of (t_dep c) ["pcomp"; "compound"]%string.

(** [x] as the last element of [t]; a leaf becomes a node *)
Definition add_last (t x : stree) : stree :=
  match t with SLeaf _ _ => SNode None false [t; x] | SNode ns c ts => SNode ns c (ts ++ [x]) end.
(** [x] inside the first element of [t], at its right or left end *)
Definition terminal (t : stree) : bool := match t with SLeaf _ _ => true | SNode _ c _ => c end.
Definition place (pos : position) (ks : list stree) (x : stree) : list stree := match pos with RIGHT => ks ++ [x] | LEFT => x :: ks end.
Definition into (pos : position) (y x : stree) : stree :=
  match y with
  | SLeaf _ _ => SNode None false (place pos [y] x)
  | SNode _ true _ => SNode None false (place pos [y] x)
  | SNode ns false ks => SNode ns false (place pos ks x)
  end.
Definition add_first (pos : position) (t x : stree) : stree :=
  match t with
  | SLeaf _ _ => SNode None false [into pos t x]
  | SNode ns c (y :: ts) => SNode ns c (into pos y x :: ts)
  | SNode _ _ [] => t
  end.
(** Layers: what goes around a tree later.  A layer (f, rest) turns the elements
    [ts] into f, the elements as one, and rest; the last layer added is the first
    applied (it is the innermost). *)
Notation layer := (stree * list stree)%type.
Definition wrap_leaf (t : stree) : stree := match t with SLeaf _ _ => SNode None false [t] | SNode _ _ _ => t end.
Definition layer_of (t : stree) : layer :=
  match t with SLeaf _ _ => (t, []) | SNode _ _ (k :: ks) => (k, ks) | SNode _ _ [] => (t, []) end.
Definition one (ts : list stree) : stree := match ts with [t] => t | _ => SNode None false ts end.
Definition under_layer (ts : list stree) (layer : stree * list stree) : list stree := fst layer :: one ts :: snd layer.
Definition applied (t : stree) (ls : list (stree * list stree)) : stree :=
  match t with SLeaf _ _ => t | SNode ns c ts => SNode ns c (fold_left under_layer (rev ls) ts) end.

(** [grown t None]: the tree of the token [t] and its children, with its own layers
    applied.  [grown t (Some (R, ls))]: the tree of [t] when what it nests goes
    around another tree [R] with layers [ls], and what [R], [ls] become. *)
Fixpoint grown (t : token) (root : option (stree * list layer)) : stree * (stree * list layer) :=
  match t with
  | Token _ _ _ _ _ _ _ l r =>
      let in_self pos (s : stree * list layer) (c : token) :=
        if left_out c then s
        else if nests (fst s) c then let '(C, (T, ls)) := grown c (Some s) in (wrap_leaf T, ls ++ [layer_of C])
        else if joins c then (add_first pos (fst s) (fst (grown c None)), snd s)
        else (add_last (fst s) (fst (grown c None)), snd s) in
      let in_other pos (s : stree * (stree * list layer)) (c : token) :=
        if left_out c then s
        else if nests (fst s) c then let '(C, (R, ls)) := grown c (Some (snd s)) in (fst s, (wrap_leaf R, ls ++ [layer_of C]))
        else if joins c then (add_first pos (fst s) (fst (grown c None)), snd s)
        else (add_last (fst s) (fst (grown c None)), snd s) in
      match root with
      | None => let s := fold_left (in_self RIGHT) r (fold_left (in_self LEFT) l (SLeaf None t, [])) in (applied (fst s) (snd s), s)
      | Some R => fold_left (in_other RIGHT) r (fold_left (in_other LEFT) l (SLeaf None t, R))
      end
  end.
(** a node whose only element is a node is replaced by it *)
Fixpoint squash (t : stree) : stree :=
  match t with
  | SLeaf _ _ => t
  | SNode ns c ts => match List.map squash ts with [SNode ns' c' ks] => SNode ns' c' ks | ts' => SNode ns c ts' end
  end.
Definition alpha_tree (t : token) : stree := squash (fst (grown t None)).

(** No node has a node as its only child. *)
Fixpoint no_chains (t : stree) : Prop :=
  match t with
  | SLeaf _ _ => True
  | SNode _ _ ts =>
      (forall ns c ks, ts <> [SNode ns c ks]) /\ (fix all (l : list stree) : Prop := match l with [] => True | x :: r => no_chains x /\ all r end) ts
  end.
(** Every node has a child. *)
Fixpoint full (t : stree) : Prop :=
  match t with
  | SLeaf _ _ => True
  | SNode _ _ ts => ts <> [] /\ (fix go l := match l with [] => True | x :: r => full x /\ go r end) ts
  end.

(** Every node has at least two children. *)
Fixpoint wide (t : stree) : Prop :=
  match t with
  | SLeaf _ _ => True
  | SNode _ _ ts => 2 <= List.length ts /\ (fix go l := match l with [] => True | x :: r => wide x /\ go r end) ts
  end.

(** ** Beta: what the marks should be *)

(** All children are leaves with one and the same non-empty entity type. *)
Definition one_entity (ts : list stree) : Prop :=
  exists e : str, e <> [] /\ Forall (fun t => exists ns k, t = SLeaf ns k /\ t_ent k = e) ts.
(** All words below have one of the labels pobj, compound, dobj, nsubj. *)
Definition compound_label (k : token) : Prop :=
  In (t_dep k) [lit "pobj"; lit "compound"; lit "dobj"; lit "nsubj"]%string.
(** [u] is [t] with every namespace '1' and each node marked as a compound exactly
    when one of these holds. *)
Inductive marked : stree -> stree -> Prop :=
| marked_leaf ns k : marked (SLeaf ns k) (SLeaf (Some (lit "1")) k)
| marked_node ns c ts b us :
    Forall2 marked ts us -> (b = true <-> one_entity ts \/ Forall compound_label (leaves (SNode ns c ts))) ->
    marked (SNode ns c ts) (SNode (Some (lit "1")) b us).

(** ** Gamma: what may be left out *)

(** the words with their namespaces, in order *)
Fixpoint labelled (t : stree) : list (option str * token) :=
  match t with SLeaf ns k => [(ns, k)] | SNode _ _ ts => flat_map labelled ts end.
Definition is_article (k : token) : Prop := t_pos k = lit "DET" /\ In (t_lemma k) [lit "the"; lit "an"; lit "a"]%string.
(** the second list is the first without some articles *)
Inductive less_articles : list (option str * token) -> list (option str * token) -> Prop :=
| la_nil : less_articles [] []
| la_keep x l m : less_articles l m -> less_articles (x :: l) (x :: m)
| la_drop ns k l m : is_article k -> less_articles l m -> less_articles ((ns, k) :: l) m.

(** the tree gamma should make: bottom up, a node all of whose elements are words
    that are verbs, adverbs, adpositions or particles becomes a compound; of a pair,
    an article is dropped, and a relation before a node that starts with a relation
    is joined to that *)
Definition relation_pos : list string := ["VERB"; "ADV"; "ADP"; "PART"]%string.
Fixpoint setc (b : bool) (t : stree) : stree :=
  match t with SLeaf _ _ => t | SNode ns _ ts => SNode ns b (List.map (setc b) ts) end.
Definition rel_leaf (t : stree) : bool := match t with SLeaf _ k => one_of (t_pos k) relation_pos | SNode _ _ _ => false end.
Definition rel_all (t : stree) : bool := forallb (fun k => one_of (t_pos k) relation_pos) (leaves t).
Definition article_token (k : token) : bool := str_eqb (t_pos k) (lit "DET") && one_of (t_lemma k) ["the"; "an"; "a"]%string.
Definition article (t : stree) : bool := match t with SLeaf _ k => article_token k | SNode _ _ _ => false end.
Fixpoint comb (a s : stree) : stree :=
  match s with
  | SNode ns c (y :: ts) => if terminal y then SNode ns c (setc true (SNode None false [a; y]) :: ts) else SNode ns c (comb a y :: ts)
  | _ => s
  end.
Definition first_rel (s : stree) : bool := match s with SNode _ _ (y :: _) => rel_all y | _ => false end.
Definition pe1 (t : stree) : stree :=
  match t with
  | SLeaf _ _ => t
  | SNode ns c ts =>
      if forallb rel_leaf ts then setc true t
      else match ts with
           | [a; s] => if article a then s else if negb (terminal s) && (rel_all a && first_rel s) then comb a s else t
           | _ => t
           end
  end.
Fixpoint gamma_t (t : stree) : stree :=
  match t with SLeaf _ _ => t | SNode ns c ts => pe1 (SNode ns c (List.map gamma_t ts)) end.

(** ** Delta: how well a candidate fits the tree it was made from *)

(** The same tree: same shape, and word for word the same text, part of speech and
    dependency label.  Namespaces and compound marks do not count. *)
Inductive equal_trees : stree -> stree -> Prop :=
| eqt_leaf ns k ns' k' : t_word k = t_word k' -> t_pos k = t_pos k' -> t_dep k = t_dep k' -> equal_trees (SLeaf ns k) (SLeaf ns' k')
| eqt_node ns c ts ns' c' ts' : Forall2 equal_trees ts ts' -> equal_trees (SNode ns c ts) (SNode ns' c' ts').
(** [t] and [u] have a word in common *)
Definition share_word (t u : stree) : Prop :=
  exists k k', In k (leaves t) /\ In k' (leaves u) /\ t_word k = t_word k' /\ t_pos k = t_pos k' /\ t_dep k = t_dep k'.
(** Somewhere in [T], [child] is an argument of a relation that shares a word with
    [parent].  Compounds are not looked into, nor first elements. *)
Inductive directly_under (parent child : stree) : stree -> Prop :=
| du_here ns rel args a : share_word rel parent -> In a args -> equal_trees a child -> directly_under parent child (SNode ns false (rel :: args))
| du_below ns rel args a : In a args -> directly_under parent child a -> directly_under parent child (SNode ns false (rel :: args)).
(** The number of parts of a relation. *)
Definition parts (t : stree) : nat := match t with SNode _ false ts => List.length ts | _ => 1 end.
(** Which part of the relation of a candidate should come from above which of its
    arguments: the first part is for the first two arguments, each further part for
    the next argument. *)
Definition part_pairs (rel : stree) (args : list stree) : list (stree * stree) :=
  match rel, args with
  | SNode _ false (p :: ps), a :: b :: rest => (p, a) :: (p, b) :: combine ps rest
  | _, _ => []
  end.
(** [points P l n]: [n] of the elements of [l] satisfy [P]. *)
Inductive points {A} (P : A -> Prop) : list A -> nat -> Prop :=
| pt_nil : points P [] 0
| pt_yes x l n : P x -> points P l n -> points P (x :: l) (S n)
| pt_no x l n : ~ P x -> points P l n -> points P (x :: l) n.
(** The fit of the candidate [C] to the original [O]: 0 unless its first element is
    made of relation words only; otherwise 1000 if the relation has as many parts as
    its arguments need (one part for one argument or for two, two parts for three,
    ...), and 100 for every pair that is found in [O]. *)
Definition needs (n args : nat) : bool := (Nat.eqb n 1 && Nat.eqb args 1) || Nat.eqb (S n) args.
Inductive fits (O : stree) : stree -> Z -> Prop :=
| fits_leaf ns k : fits O (SLeaf ns k) 0
| fits_no ns c rel args : rel_all rel = false -> fits O (SNode ns c (rel :: args)) 0
| fits_rel ns rel args n : rel_all rel = true -> points (fun p => directly_under (fst p) (snd p) O) (part_pairs rel args) n ->
    fits O (SNode ns false (rel :: args)) ((if needs (parts rel) (List.length args) then 1000 else 0) + 100 * Z.of_nat n)
| fits_compound ns rel args : rel_all rel = true ->
    fits O (SNode ns true (rel :: args)) (if needs (parts rel) (List.length args) then 1000 else 0).

(** ** Epsilon: the hyperedge of a tree *)
Inductive hyperedge_of : stree -> value -> Prop :=
| he_leaf ns k : hyperedge_of (SLeaf (Some ns) k) (VStr (t_word k ++ lit "/" ++ ns))
| he_compound ns ts : hyperedge_of (SNode ns true ts) (VStr (join (lit "_") (List.map t_word (leaves (SNode ns true ts))) ++ lit "/?"))
| he_node ns ts vs : Forall2 hyperedge_of ts vs -> hyperedge_of (SNode ns false ts) (VTup vs).
(** Some leaf that is in no compound has no namespace. *)
Inductive nameless : stree -> Prop :=
| nl_leaf k : nameless (SLeaf None k)
| nl_node ns ts t : In t ts -> nameless t -> nameless (SNode ns false ts).

(** ** Printing: the text of a tree *)
Fixpoint text_of (t : stree) : str :=
  match t with
  | SLeaf _ k => t_word k
  | SNode _ c ts => if c then join (lit "_") (List.map text_of ts) else lit "(" ++ join (lit " ") (List.map text_of ts) ++ lit ")"
  end.

(** ** The trees the stages work on: what alpha builds, and what beta and gamma make of it *)
Inductive built : tree -> Prop :=
| built_alpha sentence h : alpha sentence = (Ok tt, h) -> built h
| built_beta h h' : built h -> beta h = (Ok tt, h') -> built h'
| built_gamma h h' : built h -> gamma h = (Ok tt, h') -> built h'.
