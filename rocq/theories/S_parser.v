(** * S_parser.v -- what a parsed text is, and what a label tree shows.  Specification
    only: models no repository code. *)

From Verif Require Import Py M_token M_stages M_parser.
From Coq Require Import String.
Open Scope list_scope.

Definition kids (w : raw) : list nat := w_lefts w ++ w_rights w.
(** The dependency tree under the token at position [i] has at most [n] levels. *)
Fixpoint deep (dc : doc) (n i : nat) : Prop :=
  match n with
  | O => False
  | S m => exists w, nth_error (dc_toks dc) i = Some w /\ Forall (deep dc m) (kids w)
  end.
(** [below dc i j]: [j] is [i] or a descendant of [i]. *)
Inductive below (dc : doc) (i : nat) : nat -> Prop :=
| below_refl : below dc i i
| below_kid j k w : below dc i j -> nth_error (dc_toks dc) j = Some w -> In k (kids w) -> below dc i k.
(** What spaCy says about the token at position [i], as a token value. *)
Inductive says (lower : str -> str) (dc : doc) : nat -> token -> Prop :=
| says_intro i w l r : nth_error (dc_toks dc) i = Some w -> Forall2 (says lower dc) (w_lefts w) l -> Forall2 (says lower dc) (w_rights w) r ->
    says lower dc i (Token i (strip (lower (w_orth w))) (w_lemma w) (w_pos w) (w_dep w) (w_ent w) false l r).

(** The positions of a span; the positions in the sentences; these and their descendants. *)
Definition range (span : nat * nat) : list nat := seq (fst span) (snd span - fst span).
Definition in_sents (dc : doc) (i : nat) : Prop := exists span, In span (dc_sents dc) /\ In i (range span).
Definition in_text (dc : doc) (i : nat) : Prop := exists j, in_sents dc j /\ below dc j i.
(** The parser after texts were parsed, each under its own recursion limit; calls that
    raised are included. *)
Definition after_texts (lower : str -> str) (h : list (nat * doc)) : parser :=
  fold_left (fun s fd => snd (parse_text lower (fst fd) (snd fd) s)) h parser0.
(** The extractor after texts were read (recursion limit, budget of the stages, document). *)
Definition after_reads (lower : str -> str) (stages : list str) (h : list (nat * nat * doc)) : extractor :=
  fold_left (fun e x => snd (read_text lower (fst (fst x)) (snd (fst x)) (snd x) e)) h (extractor0 stages).

(** ** Label trees *)

(** The children of a token with the prefixes under which they are shown, and their labels. *)
Definition kids_of (t : token) : list (token * str) :=
  List.map (fun c => (c, lit "L")) (t_left t) ++ List.map (fun c => (c, lit "R")) (t_right t).
(** e.g. "[L]telmo/PROPN (nsubj) {PERSON}" *)
Definition label (c : token * str) : str :=
  List.concat [lit "["; snd c; lit "]"; strip (t_word (fst c)); lit "/"; t_pos (fst c); lit " ("; t_dep (fst c); lit ") {"; t_ent (fst c); lit "}"].
(** [earlier l a b]: the first [a] in [l] comes before the first [b]. *)
Definition earlier (l : list str) (a b : str) : Prop := exists l1 l2, l = l1 ++ a :: l2 /\ ~ In b l1 /\ In b l2.
(** What is shown under a token: each label of a child once, in the order of their first
    children; under it, what is shown under the last child that has this label. *)
Inductive shown : token -> ltree -> Prop :=
| shown_intro t its : NoDup (List.map fst its) ->
    (forall a b, earlier (List.map fst its) a b -> earlier (List.map label (kids_of t)) a b) -> (forall k, In k (List.map fst its) <-> In k (List.map label (kids_of t))) ->
    (forall k v, In (k, v) its -> exists l1 c l2, kids_of t = l1 ++ c :: l2 /\ label c = k /\ (forall c', In c' l2 -> label c' <> k) /\ shown (fst c) v) ->
    shown t (LT its).
(** Each child in its place, with all that is under it. *)
Inductive mirrors : token -> ltree -> Prop :=
| mirrors_intro t its : Forall2 (fun c kv => fst kv = label c /\ mirrors (fst c) (snd kv)) (kids_of t) its -> mirrors t (LT its).
(** How many labels a label tree has. *)
Fixpoint labels (t : ltree) : nat := match t with LT its => list_sum (List.map (fun kv => S (labels (snd kv))) its) end.
