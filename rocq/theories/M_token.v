(** * M_token.v -- model of /repo/gb/nlp/nlp_token.py, sentence.py and the token
    conversion of parser.py *)

From Verif Require Import Py.
From Coq Require Import String.
Open Scope list_scope.

(** nlp_token.py:25-36: a token.  [t_pos], [t_dep], [t_lemma], [t_word] are the
    strings spaCy gives; [t_ent] is entity_type ([] for ''; None never occurs with
    the parser); [t_index] identifies the object: its position in the document
    (not a field of the code, ghost identity).  shape, logprob and parent, which
    nothing modelled here reads, are left out. *)
Inductive token := Token {
  t_index : nat; t_word : str; t_lemma : str; t_pos : str; t_dep : str; t_ent : str; t_sep : bool;
  t_left : list token; t_right : list token }.

(** nlp_token.py:38-45 [to_list] *)
Fixpoint to_list (t : token) : list token :=
  match t with
  | Token _ _ _ _ _ _ _ l r => flat_map to_list l ++ [t] ++ flat_map to_list r
  end.

(** nlp_token.py:47-54 [is_word] *)
Definition is_word (t : token) : bool :=
  if t_sep t then false
  else if str_eqb (t_pos t) (lit "PUNCT") then false
  else if str_eqb (t_pos t) (lit "SPACE") then false
  else true.

(** nlp_token.py:56-58 [to_word_token_list] *)
Definition to_word_token_list (t : token) : list token := filter is_word (to_list t).

(** nlp_token.py:60-62 [chunk_str] *)
Definition chunk_str (t : token) : str := join [c_space] (List.map t_word (to_word_token_list t)).

(** nlp_token.py:64-69 [__eq__] on two tokens *)
Definition token_eq (a b : token) : bool :=
  str_eqb (t_word a) (t_word b) && str_eqb (t_pos a) (t_pos b) && str_eqb (t_dep a) (t_dep b).

(** sentence.py:41-45 [Sentence.root] *)
Fixpoint sentence_root (tokens : list token) : option token :=
  match tokens with
  | [] => None
  | t :: r => if str_eqb (t_dep t) (lit "ROOT") then Some t else sentence_root r
  end.

(** [str.strip()] *)
Fixpoint lstrip (s : str) : str :=
  match s with c :: r => if is_space c then lstrip r else s | [] => [] end.
Definition strip (s : str) : str := rev (lstrip (rev (lstrip s))).

(** What spaCy gives for one token (parser.py:39-51). *)
Inductive stoken := SToken {
  s_index : nat; s_orth : str; s_lemma : str; s_pos : str; s_dep : str; s_ent : str;
  s_lefts : list stoken; s_rights : list stoken }.

(** parser.py:34-54 [__spacy2token]; [lower] is str.lower.  Simplification: the
    memo table only avoids converting a token twice (a token is in one tree), and
    the field parent, which parser.py:48 and 50 set to the parser itself, is not
    modelled. *)
Fixpoint spacy2token (lower : str -> str) (s : stoken) : token :=
  match s with
  | SToken i orth lemma pos dep ent l r =>
      Token i (strip (lower orth)) lemma pos dep ent false
            (List.map (spacy2token lower) l) (List.map (spacy2token lower) r)
  end.
