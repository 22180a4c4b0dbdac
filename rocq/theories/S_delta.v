(** * S_delta.v -- what the delta stage may build from a tree, in words

    A specification, independent of objects and ids: from a relation with its
    arguments, which relation words and which arguments can come out.  It is used by
    C92 (and C60, C61) and does not use the model of delta. *)

From Verif Require Import Py M_symbol M_token M_tree S_tree.
From Coq Require Import String.
Open Scope list_scope.

(** verb, adverb, adposition or particle *)
Definition relation_word (k : token) : Prop := In (t_pos k) [lit "VERB"; lit "ADV"; lit "ADP"; lit "PART"]%string.

(** words, each with its namespace *)
Definition words := list (option str * token).

(** [apart T rel args]: [T], a relation followed by its arguments, can become a
    relation with the words [rel] whose arguments have the words [args], one list
    for each argument.

    [adding rel args ts rel' args']: the same, for a relation and arguments already
    collected and the children [ts] still to come.  Each child either becomes one
    more argument as it is, or -- if it can itself become a relation [m] with
    arguments [ms], and all words of [m] are relation words -- is taken apart: its
    relation joins the relation, its arguments the arguments.  The relation of the
    child comes after the one collected; it may also come before it, but only if there
    is no argument yet. *)
Inductive apart : stree -> words -> list words -> Prop :=
| apart_node ns c r ts rel args : adding (labelled r) [] ts rel args -> apart (SNode ns c (r :: ts)) rel args
with adding : words -> list words -> list stree -> words -> list words -> Prop :=
| adding_done l ls : adding l ls [] l ls
| adding_whole l ls t ts rel args : adding l (ls ++ [labelled t]) ts rel args -> adding l ls (t :: ts) rel args
| adding_before l t ts m ms rel args : apart t m ms -> Forall (fun p => relation_word (snd p)) m -> adding (m ++ l) ms ts rel args -> adding l [] (t :: ts) rel args
| adding_after l ls t ts m ms rel args : apart t m ms -> Forall (fun p => relation_word (snd p)) m -> adding (l ++ m) (ls ++ ms) ts rel args -> adding l ls (t :: ts) rel args.

(** some candidate there always is *)
Lemma adding_some ts : forall l ls, exists rel args, adding l ls ts rel args.
Proof. induction ts as [|t ts IH]; intros l ls; [exists l, ls; constructor|]. destruct (IH l (ls ++ [labelled t])) as (rel & args & A). exists rel, args. now constructor. Qed.
Lemma adding_nil l ls rel args : adding l ls [] rel args <-> rel = l /\ args = ls.
Proof. split; [now inversion 1|]. intros [-> ->]. constructor. Qed.
Lemma apart_leaf ns k rel args : ~ apart (SLeaf ns k) rel args.
Proof. intros A. inversion A. Qed.
Lemma apart_iff ns c r ts rel args : apart (SNode ns c (r :: ts)) rel args <-> adding (labelled r) [] ts rel args.
Proof. split; [intros A; inversion A; subst; assumption|apply apart_node]. Qed.
Lemma adding_cons l ls t ts rel args : adding l ls (t :: ts) rel args <->
  adding l (ls ++ [labelled t]) ts rel args
  \/ (exists m ms, apart t m ms /\ Forall (fun p => relation_word (snd p)) m /\ ((ls = [] /\ adding (m ++ l) ms ts rel args) \/ adding (l ++ m) (ls ++ ms) ts rel args)).
Proof.
  split.
  - intros A. inversion A; subst; [now left| |]; right; eauto 10.
  - intros [A|(m & ms & A & F & [[-> B]|B])]; [now apply adding_whole|now apply (adding_before _ _ _ m ms)|now apply (adding_after _ _ _ _ m ms)].
Qed.

(** a relation with the words [rel] and arguments with the words [args] *)
Definition parts (C : stree) (rel : words) (args : list words) : Prop :=
  exists ns c r ts, C = SNode ns c (r :: ts) /\ labelled r = rel /\ List.map labelled ts = args.

(** delta has nothing to do: the root is a word or a compound, or some word of the
    first child is not a relation word *)
Definition settled (T : stree) : Prop :=
  match T with
  | SLeaf _ _ => True
  | SNode _ c ts => c = true \/ exists t rest, ts = t :: rest /\ ~ Forall relation_word (leaves t)
  end.
(** what delta may make of a tree *)
Definition rebuilt (T C : stree) : Prop :=
  (settled T /\ C = T) \/ (~ settled T /\ exists rel args, apart T rel args /\ parts C rel args).

(** [nodes h i l]: [l] are the ids of the nodes at and below element [i], in order,
    each as often as it occurs.  No node object is used twice if [l] has no
    duplicates. *)
Inductive nodes (h : tree) : Z -> list Z -> Prop :=
| nodes_leaf i r ns k : table h i = Some r -> objs h r = Some (OLeaf i ns k) -> nodes h i []
| nodes_node i r ns l ls y c cs ids : table h i = Some r -> objs h r = Some (ONode i ns l ls y c) -> lists h l = Some cs ->
    Forall2 (nodes h) cs ids -> nodes h i (i :: List.concat ids).
Definition unshared (h : tree) (i : Z) : Prop := exists l, nodes h i l /\ NoDup l.
