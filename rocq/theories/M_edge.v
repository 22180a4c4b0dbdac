(** * M_edge.v -- model of /repo/gb/hypergraph/edge.py *)

From Verif Require Import Py M_symbol.
From Coq Require Import String.

(** edge.py:25-31 [TokenType] *)
Inductive token_kind := TInteger | TDouble | TString.

(** edge.py:34-39 [open_pars]; running off the end raises IndexError *)
Fixpoint open_pars (s : str) : res Z :=
  match s with
  | [] => Err IndexError
  | c :: s' => if N.eqb c c_lpar then let? n := open_pars s' in Ok (1 + n)%Z else Ok 0%Z
  end.

(** edge.py:42-47 [close_pars]: the same from the end ([s[-1]], [s[-2]], ...) *)
Fixpoint count_close (r : str) : res Z :=
  match r with
  | [] => Err IndexError
  | c :: r' => if N.eqb c c_rpar then let? n := count_close r' in Ok (1 + n)%Z else Ok 0%Z
  end.
Definition close_pars (s : str) : res Z := count_close (rev s).

(** edge.py:50-75 [token_type]; loop state: pos > 0, point *)
Fixpoint token_type_loop (pos : bool) (point : bool) (s : str) : token_kind :=
  match s with
  | [] => if point then TDouble else TInteger
  | c :: s' =>
      if N.eqb c c_minus then
        if pos then TString else token_type_loop true point s'
      else if N.eqb c c_dot then
        if point then TString else token_type_loop true true s'
      else if ((c <? c_0) || (c_9 <? c))%N then TString
      else token_type_loop true point s'
  end.
Definition token_type (token : str) : token_kind := token_type_loop false false token.

(** edge.py:92-118 [split_edge_str], the loop at 101-116.
    [curtok] is None or the token being assembled. *)
Fixpoint split_loop (curtok : option str) (depth : Z) (stoks : list str) : res (list str) :=
  match stoks with
  | [] => Ok []
  | tok :: rest =>
      let? o := open_pars tok in
      let? c := close_pars tok in
      let depth := (depth + o - c)%Z in
      let bottom := Z.eqb depth 0 in
      let cur := match curtok with
                 | None => tok
                 | Some t => t ++ [c_space] ++ tok
                 end in
      if bottom
      then let? more := split_loop None depth rest in Ok (cur :: more)
      else split_loop (Some cur) depth rest
  end.

(** [s[1:-1]] *)
Definition strip_ends (s : str) : str := removelast (tl s).

Definition split_edge_str (edge_str : str) : res (list str) :=
  match edge_str with
  | [] => Err IndexError                                  (* edge_str[0] *)
  | c :: _ =>
      let inner := if N.eqb c c_lpar then strip_ends edge_str else edge_str in
      split_loop None 0 (split_ws inner)
  end.

(** edge.py:78-89 [parsed_token]; [rec] is the recursive [str2edge] *)
Definition parsed_token (rec : str -> res value) (token : str) : res value :=
  match token with
  | [] => Err IndexError                                   (* token[0] *)
  | c :: _ =>
      if N.eqb c c_lpar then rec token
      else match token_type token with
           | TString => Ok (VStr token)
           | TInteger => let? z := py_int token in Ok (VInt z)
           | TDouble => let? x := py_float token in Ok (VFlt x)
           end
  end.

(** edge.py:121-128 [str2edge]; [fuel] bounds the mutual recursion with
    [parsed_token] (see str2edge below). *)
Fixpoint str2edge_f (fuel : nat) (edge_str : str) : res value :=
  match fuel with
  | O => Err OutOfFuel
  | S f =>
      let? tokens := split_edge_str edge_str in
      let? elements := mapr (parsed_token (str2edge_f f)) tokens in
      match elements with
      | [] => Err IndexError                               (* elements[0] *)
      | [x] => Ok x
      | _ => Ok (VTup elements)
      end
  end.
(** Each recursive call is on a token strictly inside the outer parentheses, so
    the length of the string (plus one) is enough fuel (proved in P_edge). *)
Definition str2edge (edge_str : str) : res value := str2edge_f (S (List.length edge_str)) edge_str.

(** edge.py:142-147 [edge2str], with edge.py:131-139 [nodes2str] inlined in the
    recursion; [str(node)] of an atom is [show_atom]. *)
Fixpoint edge2str (edge : value) : str :=
  match edge with
  | VTup l => c_lpar :: join [c_space] (List.map edge2str l) ++ [c_rpar]
  | _ => show_atom edge
  end.

(** edge.py:131-139 [nodes2str] *)
Definition nodes2str (nodes : list value) : str := join [c_space] (List.map edge2str nodes).

(** edge.py:150-152 [is_negative] *)
Definition edge_is_negative (edge : value) : res bool :=
  let? x := index0 edge in M_symbol.is_negative x.

(** edge.py:155-157 [negative]; [edge[1:]] of a tuple.  For a string edge the
    tuple + str concatenation raises TypeError. *)
Definition edge_negative (edge : value) : res value :=
  let? x := index0 edge in
  let? n := M_symbol.negative x in
  match edge with
  | VTup (_ :: r) => Ok (VTup (n :: r))
  | _ => Err TypeError
  end.
