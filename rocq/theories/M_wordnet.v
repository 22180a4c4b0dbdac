(** * M_wordnet.v -- model of /repo/gb/readers/wordnet.py *)

From Verif Require Import Py M_symbol M_edge M_sql M_hypergraph M_batch.
From Coq Require Import String.
Open Scope list_scope.

(** What the reader uses of the NLTK objects.  A lemma: lemma.name(),
    lemma.synset().name() and the three lists of related lemmas.  To keep the data
    finite, a related lemma is given by its two names, and a related synset by the
    names of its lemmas (only lemmas()[0] is used). *)
Record lemma_ref := LRef { l_name : str; l_synset : str }.
Record lemma := Lemma { l_ref : lemma_ref; l_antonyms : list lemma_ref; l_pertainyms : list lemma_ref; l_derived : list lemma_ref }.
Record synset := Synset {
  s_name : str; s_part : str; s_lemmas : list lemma;
  s_hypernyms : list (list lemma_ref); s_instance_hypernyms : list (list lemma_ref); s_member_meronyms : list (list lemma_ref);
  s_attributes : list (list lemma_ref); s_entailments : list (list lemma_ref); s_causes : list (list lemma_ref);
  s_also_sees : list (list lemma_ref); s_verb_groups : list (list lemma_ref); s_similar_tos : list (list lemma_ref) }.

(** wordnet.py:27-29 [lemma2symbol] *)
Definition lemma2symbol (l : lemma_ref) : res value := build [VStr (l_name l); VStr (lit "wn." ++ l_synset l)].

(** wordnet.py:32-40 [pos2symbol]: None for any other part of speech *)
Definition pos2symbol (pos : str) : value :=
  if str_eqb pos (lit "n") then VStr (lit "noun/gb")
  else if str_eqb pos (lit "v") then VStr (lit "verb/gb")
  else if str_eqb pos (lit "a") || str_eqb pos (lit "s") then VStr (lit "adjective/gb")
  else if str_eqb pos (lit "r") then VStr (lit "adverb/gb")
  else VNone.

(** Sequencing of batch-writer calls. *)
Definition bbind {A B} (m : BM A) (k : A -> BM B) : BM B := fun s =>
  match m s with (Ok a, s1) => k a s1 | (Err e, s1) => (Err e, s1) end.
Definition bret {A} (a : A) : BM A := fun s => (Ok a, s).
Definition blift {A} (r : res A) : BM A := fun s => (r, s).
Fixpoint bfor {A} (l : list A) (f : A -> BM unit) : BM unit :=
  match l with [] => bret tt | x :: r => bbind (f x) (fun _ => bfor r f) end.

(** hg.add_belief(u'wordnet/gb', edge), timestamp -1, on the batch writer *)
Definition wn_source : value := VStr (lit "wordnet/gb").
Definition belief (max : Z) (edge : value) : BM unit := bhg_add_belief max wn_source edge (-1).

(** wordnet.py:43-46 [add_relationship] *)
Definition add_relationship (max : Z) (rel : string) (lemma1 lemma2 : lemma_ref) : BM unit :=
  bbind (blift (lemma2symbol lemma1)) (fun a =>
  bbind (blift (lemma2symbol lemma2)) (fun b =>
  belief max (VTup [VStr (lit rel); a; b]))).

(** wordnet.py:49-52 [process_relationships] *)
Definition process_relationships (max : Z) (root_lemma : lemma_ref) (synsets : list (list lemma_ref)) (rel : string) : BM unit :=
  bfor synsets (fun s => bbind (blift (nth_res s 0)) (fun l => add_relationship max rel root_lemma l)).

(** wordnet.py:55-57 [process_lemma_relationships] *)
Definition process_lemma_relationships (max : Z) (root_lemma : lemma_ref) (lemmas : list lemma_ref) (rel : string) : BM unit :=
  bfor lemmas (fun l => add_relationship max rel root_lemma l).

Notation "m >> k" := (bbind m (fun _ => k)) (at level 60, right associativity).

(** wordnet.py:60-91 [process_synset] *)
Definition process_synset (max : Z) (s : synset) : BM unit :=
  bbind (blift (nth_res (s_lemmas s) 0)) (fun root =>
  let root_lemma := l_ref root in
  bbind (blift (lemma2symbol root_lemma)) (fun r =>
  belief max (VTup [VStr (lit "pos/gb"); r; pos2symbol (s_part s)]) >>
  bfor (tl (s_lemmas s)) (fun l => add_relationship max "synonym/gb" root_lemma (l_ref l)) >>
  process_relationships max root_lemma (s_hypernyms s) "hypernym/gb" >>
  process_relationships max root_lemma (s_instance_hypernyms s) "instance_hypernym/gb" >>
  process_relationships max root_lemma (s_member_meronyms s) "member_meronym/gb" >>
  process_relationships max root_lemma (s_attributes s) "attribute/gb" >>
  process_relationships max root_lemma (s_entailments s) "entailment/gb" >>
  process_relationships max root_lemma (s_causes s) "cause/gb" >>
  process_relationships max root_lemma (s_also_sees s) "also_see/gb" >>
  process_relationships max root_lemma (s_verb_groups s) "verb_group/gb" >>
  process_relationships max root_lemma (s_similar_tos s) "similar_to/gb" >>
  bfor (s_lemmas s) (fun l =>
    process_lemma_relationships max (l_ref l) (l_antonyms l) "antonym/gb" >>
    process_lemma_relationships max (l_ref l) (l_pertainyms l) "pertainym/gb" >>
    process_lemma_relationships max (l_ref l) (l_derived l) "derivationally_related_form/gb"))).

(** wordnet.py:94-98 [read]; buffer_max is 1000 (batch_hypergraph.py:28) *)
Definition wn_read (max : Z) (synsets : list synset) (c : conn) : res unit * bhg :=
  (bfor synsets (process_synset max) >> flush (-1)) (Bhg [] c).
