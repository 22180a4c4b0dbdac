(** * M_parser.v -- model of /repo/gb/nlp/parser.py with its token objects and its
    table of converted tokens, of the rest of sentence.py, and of reading a text
    (/repo/gb/knowledge/extractor.py) *)

From Verif Require Import Py M_token M_tree M_stages.
From Coq Require Import String.
Open Scope list_scope.

(** ** What spaCy gives *)

(** A spaCy token: the strings of parser.py:39-51, and its lefts and rights by their
    positions in the document. *)
Record raw := Raw { w_orth : str; w_lemma : str; w_pos : str; w_dep : str; w_ent : str;
                    w_lefts : list nat; w_rights : list nat }.
(** A spaCy document: its tokens, and its sentences as spans start..end (end not
    included).  Every call of the spaCy parser makes a new document object. *)
Record doc := Doc { dc_toks : list raw; dc_sents : list (nat * nat) }.

(** ** The Token objects *)

(** nlp_token.py:25-36.  Objects refer to each other by number.  [o_index] is ghost:
    the position of the token.  [o_parent]: the field parent (None, the Parser object, or
    a Token object).  Fields are None until set: left_children and right_children are [] here until
    then.  shape and logprob, which nothing reads, are left out. *)
Inductive parent := PaParser | PaToken (o : nat).
Record tobj := TObj { o_index : nat; o_word : str; o_lemma : str; o_pos : str; o_dep : str; o_ent : str;
                      o_left : list nat; o_right : list nat; o_parent : option parent }.

(** parser.py:30-32: the Parser: its token_table, whose keys are spaCy tokens -- two are
    equal when they belong to the same document object and have the same position --,
    with the Token objects there are and the number of documents made so far. *)
Record parser := Parser { ps_objs : list tobj; ps_table : list ((nat * nat) * nat); ps_docs : nat }.
Definition parser0 : parser := Parser [] [] 0.

Definition PM (A : Type) := parser -> res A * parser.
Definition qret {A} (a : A) : PM A := fun s => (Ok a, s).
Definition qbind {A B} (m : PM A) (k : A -> PM B) : PM B := fun s =>
  match m s with (Ok a, s1) => k a s1 | (Err e, s1) => (Err e, s1) end.
Notation "'have' x <- m ; k" := (qbind m (fun x => k))
  (at level 200, x pattern, m at level 100, k at level 200, right associativity).
Notation "m ;q k" := (qbind m (fun _ => k)) (at level 199, right associativity).
(** [f(x) for x in l] *)
Definition qmap {A B} (f : A -> PM B) : list A -> PM (list B) :=
  fix go (l : list A) : PM (list B) := match l with [] => qret [] | x :: r => have y <- f x; have ys <- go r; qret (y :: ys) end.

Definition set_obj (o : nat) (x : tobj) (l : list tobj) : list tobj := firstn o l ++ x :: skipn (S o) l.
(** Token(), with its fields set as far as they are known *)
Definition new_token (x : tobj) : PM nat := fun s =>
  (Ok (List.length (ps_objs s)), Parser (ps_objs s ++ [x]) (ps_table s) (ps_docs s)).
Definition put_token (o : nat) (x : tobj) : PM unit := fun s =>
  (Ok tt, Parser (set_obj o x (ps_objs s)) (ps_table s) (ps_docs s)).
(** parser.py:47-50 t.parent = self, where self is the Parser *)
Definition mark_parent (o : nat) : PM unit := fun s =>
  match nth_error (ps_objs s) o with
  | Some x => (Ok tt, Parser (set_obj o (TObj (o_index x) (o_word x) (o_lemma x) (o_pos x) (o_dep x) (o_ent x) (o_left x) (o_right x) (Some PaParser)) (ps_objs s))
                      (ps_table s) (ps_docs s))
  | None => (Err AttributeError, s)
  end.
Definition key_eqb (a b : nat * nat) : bool := Nat.eqb (fst a) (fst b) && Nat.eqb (snd a) (snd b).
Fixpoint tlook (k : nat * nat) (t : list ((nat * nat) * nat)) : option nat :=
  match t with [] => None | (k', o) :: r => if key_eqb k k' then Some o else tlook k r end.
Definition put_table (k : nat * nat) (o : nat) : PM unit := fun s =>
  (Ok tt, Parser (ps_objs s) ((k, o) :: ps_table s) (ps_docs s)).

(** parser.py:34-54 [__spacy2token] of the token at position [i] of document [dc] (whose
    number is [d]); [lower] is str.lower.  [fuel]: how many nested calls Python still
    allows. *)
Fixpoint conv (lower : str -> str) (d : nat) (dc : doc) (fuel : nat) (i : nat) : PM nat := fun s =>
  match fuel with
  | O => (Err RecursionError, s)
  | S f =>
      match tlook (d, i) (ps_table s) with
      | Some o => (Ok o, s)
      | None =>
          match nth_error (dc_toks dc) i with
          | None => (Err IndexError, s)
          | Some w =>
              let x l r := TObj i (strip (lower (w_orth w))) (w_lemma w) (w_pos w) (w_dep w) (w_ent w) l r None in
              (have o <- new_token (x [] []);
               have l <- qmap (conv lower d dc f) (w_lefts w);
               put_token o (x l []);q
               have r <- qmap (conv lower d dc f) (w_rights w);
               put_token o (x l r);q
               qmap mark_parent l;q
               qmap mark_parent r;q
               put_table (d, i) o;q
               qret o) s
          end
      end
  end.

(** parser.py:56-64 [parse_text], given the document spaCy makes of the text *)
Definition new_doc : PM nat := fun s => (Ok (ps_docs s), Parser (ps_objs s) (ps_table s) (S (ps_docs s))).
Definition parse_text (lower : str -> str) (fuel : nat) (dc : doc) : PM (list (list nat)) :=
  have d <- new_doc;
  qmap (fun span => qmap (conv lower d dc fuel) (seq (fst span) (snd span - fst span))) (dc_sents dc).

(** ** Reading a text *)

(** A Token object as the value that the stages read (M_token): its fields and,
    through left_children and right_children, those of its descendants. *)
Fixpoint tok_of (objs : list tobj) (fuel : nat) (o : nat) : res token :=
  match fuel with
  | O => Err RecursionError
  | S f =>
      match nth_error objs o with
      | None => Err AttributeError
      | Some x =>
          let? l := mapr (tok_of objs f) (o_left x) in
          let? r := mapr (tok_of objs f) (o_right x) in
          Ok (Token (o_index x) (o_word x) (o_lemma x) (o_pos x) (o_dep x) (o_ent x) false l r)
      end
  end.

(** extractor.py:32-37: an Extractor: its stages, its parser (made at the first use)
    and self.outputs.  hg, which the stages of this version do not use, and debug are
    left out. *)
Record extractor := Extractor { ex_stages : list str; ex_parser : option parser; ex_outputs : list (option str) }.
Definition extractor0 (stages : list str) : extractor := Extractor stages None [].

(** extractor.py:69-84: what read_sentence leaves in self.outputs, also when it raises *)
Fixpoint stage_outs (fuel : nat) (names : list str) (o : output) (outs : list (option str)) : list (option str) :=
  match names with
  | [] => outs
  | name :: rest =>
      match do_stage fuel name o with
      | Err _ => outs
      | Ok o' => match out_str o' with Err _ => outs | Ok s => stage_outs fuel rest o' (outs ++ [s]) end
      end
  end.
Definition sentence_outs (fuel : nat) (stages : list str) (sentence : list token) : list (option str) :=
  match stages with
  | [] => []
  | name :: rest =>
      if str_eqb name (lit "alpha") then
        match alpha sentence with
        | (Err _, _) => []
        | (Ok _, h) => match out_str (OTree h) with Err _ => [] | Ok s => stage_outs fuel rest (OTree h) [s] end
        end
      else []
  end.

(** extractor.py:62, the list comprehension: the results, and self.outputs *)
Fixpoint read_sentences (fuel : nat) (stages : list str) (sents : list (list token)) (outs : list (option str))
    : res (list output) * list (option str) :=
  match sents with
  | [] => (Ok [], outs)
  | s :: rest =>
      match read_sentence fuel stages s with
      | Err e => (Err e, sentence_outs fuel stages s)
      | Ok (o, _) =>
          match read_sentences fuel stages rest (sentence_outs fuel stages s) with
          | (Ok os, outs2) => (Ok (o :: os), outs2)
          | (Err e, outs2) => (Err e, outs2)
          end
      end
  end.
(** extractor.py:57-62 [read_text], given the document spaCy makes of the text.  [fuel]
    is the recursion limit; the stages have their own budget [n]. *)
Definition read_text (lower : str -> str) (fuel n : nat) (dc : doc) (e : extractor) : res (list output) * extractor :=
  let p := match ex_parser e with Some p => p | None => parser0 end in
  match parse_text lower fuel dc p with
  | (Err x, p1) => (Err x, Extractor (ex_stages e) (Some p1) (ex_outputs e))
  | (Ok sents, p1) =>
      match mapr (mapr (tok_of (ps_objs p1) fuel)) sents with
      | Err x => (Err x, Extractor (ex_stages e) (Some p1) (ex_outputs e))
      | Ok toks =>
          let (r, outs) := read_sentences n (ex_stages e) toks (ex_outputs e) in
          (r, Extractor (ex_stages e) (Some p1) outs)
      end
  end.

(** ** The label tree of a sentence *)

(** nlp_token.py:71-72 [__str__] *)
Definition token_str (t : token) : str :=
  strip (t_word t) ++ lit "/" ++ t_pos t ++ lit " (" ++ t_dep t ++ lit ") {" ++ t_ent t ++ lit "}".
(** sentence.py:26-27 [node_label] *)
Definition node_label (t : token) (prefix : str) : str := lit "[" ++ prefix ++ lit "]" ++ token_str t.

(** An OrderedDict whose values are again such dictionaries. *)
Inductive ltree := LT (items : list (str * ltree)).
Definition items (t : ltree) : list (str * ltree) := match t with LT l => l end.
(** OrderedDict(pairs): a key keeps its first position and gets its last value *)
Fixpoint od_set (k : str) (v : ltree) (d : list (str * ltree)) : list (str * ltree) :=
  match d with
  | [] => [(k, v)]
  | (k', v') :: r => if str_eqb k k' then (k, v) :: r else (k', v') :: od_set k v r
  end.
Definition ordered_dict (pairs : list (str * ltree)) : ltree :=
  LT (fold_left (fun d kv => od_set (fst kv) (snd kv) d) pairs []).

(** sentence.py:30-34 [token2label_tree] *)
Fixpoint token2label_tree (t : token) (prefix : str) : str * ltree :=
  match t with
  | Token _ _ _ _ _ _ _ l r =>
      let children := List.map (fun leaf => token2label_tree leaf (lit "L")) l
                      ++ List.map (fun leaf => token2label_tree leaf (lit "R")) r in
      (node_label t prefix, ordered_dict children)
  end.
(** sentence.py:47-52 [label_tree]; print_tree (54-56) gives it to asciitree *)
Definition label_tree (tokens : list token) : ltree :=
  match sentence_root tokens with
  | None => LT []
  | Some r => let (label, children) := token2label_tree r (lit "*") in LT [(label, children)]
  end.
(** sentence.py:58-59 [__str__] *)
Definition sentence_str (tokens : list token) : str := join [c_space] (List.map (fun t => strip (t_word t)) tokens).
