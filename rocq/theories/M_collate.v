(** * M_collate.v -- how MySQL compares the texts of mysql.py's tables.

    mysql.py:50-59 creates its tables with DEFAULT CHARSET=utf8 and no COLLATE, so
    the comparisons in the WHERE clauses of sql.py, and the primary keys, go by the
    collation utf8_general_ci: character by character, by weight, the shorter text
    being padded with spaces (PAD SPACE).  The definitions here are those of M_mysql
    and M_steps once more, with that comparison in place of equality and order of
    the texts. *)

From Verif Require Import Py M_symbol M_edge M_sql M_mysql M_hypergraph Spec S_history M_driver M_steps.
Open Scope list_scope.

(** The weights of utf8_general_ci: those of the ASCII and Latin-1 characters (the
    case and the accents make no difference; sharp s is an S).  Simplified: all other
    characters are given weights of their own. *)
Definition general_ci (c : char) : N :=
  let within (lo hi : N) := (lo <=? c)%N && (c <=? hi)%N in
  if within 97%N 122%N then (c - 32)%N                                  (* a-z *)
  else if within 192%N 197%N || within 224%N 229%N then 65%N                (* A with an accent *)
  else if (c =? 199)%N || (c =? 231)%N then 67%N                    (* C cedilla *)
  else if within 200%N 203%N || within 232%N 235%N then 69%N                (* E *)
  else if within 204%N 207%N || within 236%N 239%N then 73%N                (* I *)
  else if (c =? 209)%N || (c =? 241)%N then 78%N                    (* N tilde *)
  else if within 210%N 214%N || within 242%N 246%N then 79%N                (* O *)
  else if (c =? 223)%N then 83%N                                    (* sharp s *)
  else if within 217%N 220%N || within 249%N 252%N then 85%N                (* U *)
  else if (c =? 221)%N || (c =? 253)%N || (c =? 255)%N then 89%N    (* Y *)
  else if (c =? 230)%N || (c =? 240)%N || (c =? 248)%N || (c =? 254)%N then (c - 32)%N   (* ae, eth, o slash, thorn *)
  else c.

Section collation.
Variable wt : char -> N.

(** the empty text against [b]: spaces against its characters *)
Fixpoint pad_cmp (b : str) : comparison :=
  match b with
  | [] => Eq
  | y :: b' => match (wt c_space ?= wt y)%N with Eq => pad_cmp b' | r => r end
  end.
Fixpoint ci_cmp (a b : str) : comparison :=
  match a, b with
  | [], _ => pad_cmp b
  | _, [] => CompOpp (pad_cmp a)
  | x :: a', y :: b' => match (wt x ?= wt y)%N with Eq => ci_cmp a' b' | r => r end
  end.
(** id = s, and lo <= id AND id < hi *)
Definition ci_eq (s id : str) : bool := match ci_cmp s id with Eq => true | _ => false end.
Definition ci_range (lo hi id : str) : bool :=
  match ci_cmp lo id with Gt => false | _ => true end && match ci_cmp id hi with Lt => true | _ => false end.

(** The statements (compare [sql_run_my]).  The rowcount of an UPDATE is the number
    of rows that are not, byte for byte, what they were; it sets the id of the rows
    it finds, too (sql.py:136-141). *)
Definition sql_run_ci (s : stmt) (w : db) : res (db * nat) :=
  match s with
  | UpdVertex id d t =>
      Ok (Db (List.map (fun r => if ci_eq id (fst r) then (id, (d, t)) else r) (vertices w)) (perms w),
          List.length (filter (fun r => ci_eq id (fst r) && negb (str_eqb id (fst r) && Z.eqb (fst (snd r)) d && Z.eqb (snd (snd r)) t)) (vertices w)))
  | InsVertex id d t =>
      if existsb (fun r => ci_eq (my_key id) (my_key (fst r))) (vertices w) then Err IntegrityError
      else Ok (Db (vertices w ++ [(id, (d, t))]) (perms w), 1%nat)
  | UpdPerm id =>
      Ok (Db (vertices w) (List.map (fun r => if ci_eq id r then id else r) (perms w)),
          List.length (filter (fun r => ci_eq id r && negb (str_eqb id r)) (perms w)))
  | InsPerm id =>
      if existsb (fun r => ci_eq (my_key id) (my_key r)) (perms w) then Err IntegrityError
      else Ok (Db (vertices w) (perms w ++ [id]), 1%nat)
  | DelPerm id =>
      Ok (Db (vertices w) (filter (fun r => negb (ci_eq id r)) (perms w)),
          List.length (filter (ci_eq id) (perms w)))
  | DelVertex id =>
      Ok (Db (filter (fun r => negb (ci_eq id (fst r))) (vertices w)) (perms w),
          List.length (filter (fun r => ci_eq id (fst r)) (vertices w)))
  | IncDegree id k =>
      Ok (Db (List.map (fun r => if ci_eq id (fst r) then (fst r, (fst (snd r) + k, snd (snd r))%Z) else r)
                       (vertices w)) (perms w),
          if Z.eqb k 0 then O else List.length (filter (fun r => ci_eq id (fst r)) (vertices w)))
  | DelAllVertices | DelAllPerms => sql_run s w
  end.

(** The queries (compare [sel_run]). *)
Definition sel_ci {A} (q : sel A) : db -> A :=
  match q in sel A return db -> A with
  | SelRange lo hi => fun w => filter (ci_range lo hi) (perms w)
  | SelRow id => fun w => option_map snd (find (fun r => ci_eq id (fst r)) (vertices w))
  | SelAll => sel_run SelAll
  end.

(** Programs, calls (compare [execute_on], [run_on], [run_op_on]). *)
Definition execute_ci (h : handle) (s : stmt) : M nat := fun c =>
  if negb (usable h c) then (Err ProgrammingError, c, [])
  else match bind_error s with Some e => (Err e, c, []) | None =>
       match sql_run_ci s (c_work c) with
       | Err e => (Err e, c, [])
       | Ok (w, n) =>
           let comm := if c_auto c then w else c_comm c in
           (Ok n, Conn (c_auto c) comm w (c_cur c), [comm])
       end end.
Definition run_act_ci {X} (a : act X) : M X :=
  match a in act X return M X with
  | AExec h s => execute_ci h s
  | AQuery h q => query h (sel_texts q) (sel_ci q)
  | ACommit => commit
  | AGetCur => get_cur
  | ASetCur s => set_cur s
  end.
Fixpoint run_ci {A} (p : prog A) : M A :=
  match p with
  | PRet r => lift r
  | PAct a k => bind (run_act_ci a) (fun x => run_ci (k x))
  end.
Definition run_op_ci (ord : list value -> list value) (o : op) : M unit :=
  match o with OReopen => reopen_op | _ => run_ci (p_op ord o) end.
Definition run_ops_ci (ord : list value -> list value) (ops : list op) : M unit := mfor ops (run_op_ci ord).
End collation.
