(** * M_steps.v -- the methods of sql.py and hypergraph.py as programs whose
    single database actions can be seen, for executions in which several
    processes use the same database, statements are refused, and processes die.

    The programs are those of M_sql and M_hypergraph, written once more over an
    explicit list of actions; [run_p_op] (P_steps) shows that running them alone
    is the same as M_sql and M_hypergraph. *)

From Verif Require Import Py M_symbol M_edge M_sql M_mysql M_hypergraph Spec S_history M_driver.
From Coq Require Import String Factorial.
Open Scope list_scope.

(** The SELECTs of the modelled methods: the rows of perms between two texts
    (sql.py:187, sql.py:199, sql.py:278), the record of a vertex (sql.py:298, sql.py:310)
    and all vertices with their degrees (sql.py:330); the texts they bind, and their
    answers. *)
Inductive sel : Type -> Type :=
| SelRange (lo hi : str) : sel (list str)
| SelRow (id : str) : sel (option (Z * Z))
| SelAll : sel (list (str * Z)).
Definition sel_texts {A} (q : sel A) : list str :=
  match q with SelRange lo hi => [lo; hi] | SelRow id => [id] | SelAll => [] end.
Definition sel_run {A} (q : sel A) : db -> A :=
  match q in sel A return db -> A with
  | SelRange lo hi => fun w => filter (in_range lo hi) (perms w)
  | SelRow id => vlook id
  | SelAll => fun w => List.map (fun r => (fst r, fst (snd r))) (vertices w)
  end.

(** One action on the connection: cur.execute of a change, a SELECT, conn.commit(),
    and reading or setting self.cur. *)
Inductive act : Type -> Type :=
| AExec (h : handle) (s : stmt) : act nat
| AQuery {A} (h : handle) (q : sel A) : act A
| ACommit : act unit
| AGetCur : act curstate
| ASetCur (s : curstate) : act unit.

(** A program: done (with a result or an exception), or an action and what to do
    with its answer.  sql.py has no try/except, so an action that raises ends it. *)
Inductive prog (A : Type) : Type :=
| PRet (r : res A)
| PAct {X} (a : act X) (k : X -> prog A).
Arguments PRet {A} _. Arguments PAct {A X} _ _.

Fixpoint pbind {A B} (p : prog A) (k : A -> prog B) : prog B :=
  match p with
  | PRet (Ok a) => k a
  | PRet (Err e) => PRet (Err e)
  | PAct a f => PAct a (fun x => pbind (f x) k)
  end.
Notation "'pdo' x <- m ; k" := (pbind m (fun x => k))
  (at level 200, x pattern, m at level 100, k at level 200, right associativity).
Notation "m ;p k" := (pbind m (fun _ => k)) (at level 199, right associativity).

Definition pret {A} (a : A) : prog A := PRet (Ok a).
Definition pact {X} (a : act X) : prog X := PAct a (fun x => pret x).
Fixpoint pfor {A} (l : list A) (f : A -> prog unit) : prog unit :=
  match l with
  | [] => pret tt
  | x :: r => f x ;p pfor r f
  end.

(** ** Running a program alone, on the connection of M_sql *)

Definition run_act {X} (a : act X) : M X :=
  match a in act X return M X with
  | AExec h s => execute h s
  | AQuery h q => query h (sel_texts q) (sel_run q)
  | ACommit => commit
  | AGetCur => get_cur
  | ASetCur s => set_cur s
  end.
Fixpoint run {A} (p : prog A) : M A :=
  match p with
  | PRet r => lift r
  | PAct a k => bind (run_act a) (fun x => run (k x))
  end.

(** The same on the connection's own engine (M_mysql): mysql.py differs from
    sqlite.py in what a statement counts and refuses. *)
Definition execute_on (h : handle) (s : stmt) : M nat := fun c =>
  if negb (usable h c) then (Err ProgrammingError, c, [])
  else match bind_error s with Some e => (Err e, c, []) | None =>
       match engine (c_auto c) s (c_work c) with
       | Err e => (Err e, c, [])
       | Ok (w, n) =>
           let comm := if c_auto c then w else c_comm c in
           (Ok n, Conn (c_auto c) comm w (c_cur c), [comm])
       end end.
Definition run_act_on {X} (a : act X) : M X :=
  match a in act X return M X with
  | AExec h s => execute_on h s
  | AQuery h q => query h (sel_texts q) (sel_run q)
  | ACommit => commit
  | AGetCur => get_cur
  | ASetCur s => set_cur s
  end.
Fixpoint run_on {A} (p : prog A) : M A :=
  match p with
  | PRet r => lift r
  | PAct a k => bind (run_act_on a) (fun x => run_on (k x))
  end.

(** ** The methods; each is the definition of the same name in M_sql or M_hypergraph *)

(** sql.py:110-119 *)
Definition p_open_cursor (local : bool) : prog handle :=
  pdo s <- pact AGetCur;
  if local then
    match s with CNone => pret HLocal | _ => pret HShared end
  else
    match s with CNone => pact (ASetCur COpen);p pret HShared | _ => pret HShared end.
Definition p_close_handle (h : handle) : prog unit :=
  match h with HLocal => pret tt | HShared => pact (ASetCur CClosed) end.
(** sql.py:121-131 *)
Definition p_close_cursor (h : handle) (local do_commit : bool) : prog unit :=
  if local then
    pdo s <- pact AGetCur;
    match s with
    | CNone => p_close_handle h;p if do_commit then pact ACommit else pret tt
    | _ => pret tt
    end
  else
    (if do_commit then pact ACommit else pret tt);p
    pdo s <- pact AGetCur;
    match s with
    | CNone => PRet (Err AttributeError)
    | _ => pact (ASetCur CClosed);p pact (ASetCur CNone)
    end.
(** sql.py:133-147 *)
Definition p_update_or_insert (upd ins : stmt) : prog unit :=
  pdo cur <- p_open_cursor true;
  pdo n <- pact (AExec cur upd);
  (if Nat.eqb n 0 then pact (AExec cur ins);p pret tt else pret tt);p
  p_close_cursor cur true true.
(** sql.py:149-153 *)
Definition p_add_str (vert_str : str) (degree timestamp : Z) : prog unit :=
  p_update_or_insert (UpdVertex vert_str degree timestamp) (InsVertex vert_str degree timestamp).
(** sql.py:155-157 *)
Definition p_write_edge_permutation (perm : str) : prog unit :=
  p_update_or_insert (UpdPerm perm) (InsPerm perm).
(** sql.py:41-47 *)
Definition p_do_with_edge_permutations (edge : list value) (f : str -> prog unit) : prog unit :=
  pfor (seq 0 (fact (List.length edge)))
       (fun nperm => pdo s <- PRet (perm_str edge nperm); f s).
(** sql.py:163-168 *)
Definition p_remove_edge_permutation (perm : str) : prog unit :=
  pact (AExec HLocal (DelPerm perm));p pact ACommit.
(** sql.py:174-178 *)
Definition p_remove_str (vert_str : str) : prog unit :=
  pdo cur <- p_open_cursor true;
  pact (AExec cur (DelVertex vert_str));p
  p_close_cursor cur true true.
(** sql.py:180-190 *)
Definition p_str2perms (center_id : str) : prog (list value) :=
  let start_str := center_id ++ [c_space] in
  pdo end_str <- PRet (str_plus_1 start_str);
  pdo cur <- p_open_cursor true;
  pdo rows <- pact (AQuery cur (SelRange start_str end_str));
  pdo edges <- PRet (cur2edges rows);
  p_close_cursor cur true false;p
  pret (py_set edges).
(** sql.py:192-202 *)
Definition p_pattern2edges (pattern : value) : prog (list value) :=
  pdo items <- PRet (as_seq pattern);
  let nodes := filter not_none items in
  let start_str := nodes2str nodes in
  pdo end_str <- PRet (str_plus_1 start_str);
  pdo cur <- p_open_cursor true;
  pdo rows <- pact (AQuery cur (SelRange start_str end_str));
  pdo edges <- PRet (cur2edges rows);
  p_close_cursor cur true false;p
  pdo flags <- PRet (mapr (fun e => edge_matches_pattern e items) edges);
  pret (py_set (List.map fst (filter snd (combine edges flags)))).
(** sql.py:204-206 *)
Definition p_exists (vertex : value) : prog bool :=
  pdo edges <- p_pattern2edges vertex;
  pret (Nat.ltb 0 (List.length edges)).
(** sql.py:208-222 *)
Definition p_change_degree (vert_str : str) (k : Z) : prog bool :=
  pdo cur <- p_open_cursor true;
  pdo n <- pact (AExec cur (IncDegree vert_str k));
  p_close_cursor cur true true;p
  pret (Nat.ltb 0 n).
(** sql.py:224-233 *)
Definition p_add_vertex (timestamp : Z) (vert : value) : prog unit :=
  let vert_str := edge2str vert in
  pdo found <- p_change_degree vert_str 1;
  if found then pret tt else p_add_str vert_str 1 timestamp.
Definition p_add_raw (edge : value) (timestamp : Z) : prog value :=
  pdo b <- p_exists edge;
  (if b then pret tt
   else
     pdo items <- PRet (as_seq edge);
     pfor items (p_add_vertex timestamp);p
     p_add_str (edge2str edge) 0 timestamp;p
     p_do_with_edge_permutations items p_write_edge_permutation);p
  pret edge.
(** sql.py:235-245 *)
Definition p_add (edges : value) (timestamp : Z) : prog value :=
  pdo x <- PRet (index0 edges);
  (if is_tup x then
     pdo cur <- p_open_cursor false;
     pdo items <- PRet (as_seq edges);
     pfor items (fun edge => p_add_raw edge timestamp;p pret tt);p
     p_close_cursor cur false true
   else
     p_add_raw edges timestamp;p pret tt);p
  pret edges.
(** sql.py:247-253 *)
Definition p_remove_raw (edge : value) : prog unit :=
  pdo b <- p_exists edge;
  if b then
    pdo items <- PRet (as_seq edge);
    pfor items (fun vert => p_change_degree (edge2str vert) (-1);p pret tt);p
    p_do_with_edge_permutations items p_remove_edge_permutation;p
    p_remove_str (edge2str edge)
  else pret tt.
(** sql.py:255-263 *)
Definition p_remove (edges : value) : prog unit :=
  pdo x <- PRet (index0 edges);
  if is_tup x then
    pdo items <- PRet (as_seq edges);
    pfor items p_remove_raw
  else p_remove_raw edges.
(** sql.py:265-271 *)
Definition p_star (center : value) : prog (list value) := p_str2perms (edge2str center).
(** sql.py:273-285 *)
Definition p_symbols_with_root (root : value) : prog (list str) :=
  let start_str := show_atom root ++ [c_slash] in
  pdo end_str <- PRet (str_plus_1 start_str);
  pdo cur <- p_open_cursor true;
  pdo rows <- pact (AQuery cur (SelRange start_str end_str));
  pdo symbs <- PRet (mapr (fun row => let? toks := split_edge_str row in nth_res toks 0) rows);
  p_close_cursor cur true false;p
  pret (str_set symbs).
(** sql.py:325-334, consumed completely (step by step: M_lazy) *)
Definition p_f_all {B} (f : value * Z -> B) : prog (list B) :=
  pdo cur <- p_open_cursor true;
  pdo rows <- pact (AQuery cur SelAll);
  pdo out <- PRet (mapr (fun '(id, d) => let? v := str2edge id in Ok (f (v, d))) rows);
  p_close_cursor cur true false;p
  pret out.
(** sql.py:287-292 *)
Definition p_destroy : prog unit :=
  pdo cur <- p_open_cursor true;
  pact (AExec cur DelAllVertices);p
  pact (AExec cur DelAllPerms);p
  p_close_cursor cur true true.
(** sql.py:294-304, sql.py:306-316 *)
Definition p_degree (vertex : value) : prog Z :=
  let vert_str := edge2str vertex in
  pdo cur <- p_open_cursor true;
  pdo row <- pact (AQuery cur (SelRow vert_str));
  match row with
  | Some (d, _) => p_close_handle cur;p pret d
  | None => p_close_cursor cur true false;p pret 0%Z
  end.
Definition p_timestamp (vertex : value) : prog Z :=
  let vert_str := edge2str vertex in
  pdo cur <- p_open_cursor true;
  pdo row <- pact (AQuery cur (SelRow vert_str));
  match row with
  | Some (_, t) => p_close_handle cur;p pret t
  | None => p_close_cursor cur true false;p pret (-1)%Z
  end.
(** sql.py:318-323 *)
Definition p_batch_exec (funs : list (prog unit)) : prog unit :=
  pdo cur <- p_open_cursor false;
  pfor funs (fun f => f);p
  p_close_cursor cur false true.
(** hypergraph.py:97-101 *)
Definition p_remove_by_pattern (ord : list value -> list value) (pattern : value) : prog unit :=
  pdo edges <- p_pattern2edges pattern;
  pfor (ord edges) p_remove.
(** hypergraph.py:113-127 *)
Definition p_add_belief (source edges : value) (timestamp : Z) : prog unit :=
  pdo x <- PRet (index0 edges);
  if is_tup x then
    pdo items <- PRet (as_seq edges);
    p_add (VTup (flat_map (fun edge => [edge; link source edge]) items)) timestamp;p pret tt
  else
    p_add (VTup [edges; link source edges]) timestamp;p pret tt.
(** hypergraph.py:129-133 *)
Definition p_sources (edge : value) : prog (list value) :=
  pdo edges <- p_pattern2edges (VTup [const_source; edge; VNone]);
  pdo ss <- PRet (mapr (fun e => let? l := as_seq e in nth_res l 2) edges);
  pret (py_set ss).
(** hypergraph.py:135-141 *)
Definition p_remove_belief (source edge : value) : prog unit :=
  p_remove (link source edge);p
  pdo ss <- p_sources edge;
  if Nat.eqb (List.length ss) 0 then p_remove edge else pret tt.

(** the calls of M_driver *)
Definition p_ask (q : ask) : prog unit :=
  match q with
  | QExists e => p_exists e;p pret tt
  | QPattern p => p_pattern2edges (VTup p);p pret tt
  | QStar a => p_star a;p pret tt
  | QDegree v => p_degree v;p pret tt
  | QTimestamp v => p_timestamp v;p pret tt
  | QSources e => p_sources e;p pret tt
  | QRoot r => p_symbols_with_root (VStr r);p pret tt
  | QAll => p_f_all (fun x => x);p pret tt
  end.
Definition p_bop (b : bop) : prog unit :=
  match b with
  | BAdd e t => p_add e t;p pret tt
  | BRemove e => p_remove e
  | BRemoveMany es => p_remove (VTup es)
  | BDestroy => p_destroy
  | BExists e => p_exists e;p pret tt
  | BPattern p => p_pattern2edges (VTup p);p pret tt
  | BStar a => p_star a;p pret tt
  | BRoot r => p_symbols_with_root (VStr r);p pret tt
  | BAll => p_f_all (fun x => x);p pret tt
  end.
Definition p_op (ord : list value -> list value) (o : op) : prog unit :=
  match o with
  | OAdd e t => p_add e t;p pret tt
  | OAddMany es t => p_add (VTup es) t;p pret tt
  | ORemove e => p_remove e
  | ORemoveMany es => p_remove (VTup es)
  | ODestroy => p_destroy
  | OAddBelief s e t => p_add_belief s e t
  | OAddBeliefs s es t => p_add_belief s (VTup es) t
  | ORemoveBelief s e => p_remove_belief s e
  | ORemovePattern p => p_remove_by_pattern ord (VTup p)
  | OBatch fs => p_batch_exec (List.map (fun f => pfor f p_bop) fs)
  | OAsk q => p_ask q
  | OReopen => pret tt   (* opening again is not a program: see [SReopen] *)
  end.

(** calls made on the connection's own engine (compare [run_ops] of M_driver) *)
Definition run_op_on (ord : list value -> list value) (o : op) : M unit :=
  match o with OReopen => reopen_op | _ => run_on (p_op ord o) end.
Definition run_ops_on (ord : list value -> list value) (ops : list op) : M unit := mfor ops (run_op_on ord).

(** ** Several processes on one database *)

(** A process: its self.cur, the rest of the call it is in (if any), the calls it
    has still to make, and whether every call so far returned normally. *)
Record proc := Proc { pr_cur : curstate; pr_now : option (prog unit); pr_todo : list op; pr_ok : bool }.

(** What the processes share: the disk, and (SQLite) the one process that has
    an open write transaction, with its working copy. *)
Record world := World { wd_disk : db; wd_writer : option (nat * db); wd_procs : nat -> proc }.

Definition set_proc (i : nat) (p : proc) (ps : nat -> proc) : nat -> proc := fun j => if Nat.eqb j i then p else ps j.
(** what the statements of process i see *)
Definition view (i : nat) (w : world) : db :=
  match wd_writer w with Some (j, d) => if Nat.eqb j i then d else wd_disk w | None => wd_disk w end.
Definition holds (i : nat) (w : world) : bool :=
  match wd_writer w with Some (j, _) => Nat.eqb j i | None => false end.
Definition lock_free (i : nat) (w : world) : bool :=
  match wd_writer w with Some (j, _) => Nat.eqb j i | None => true end.

(** executing on a closed cursor raises *)
Definition closed (h : handle) (cur : curstate) : bool := match h, cur with HShared, CClosed => true | _, _ => false end.

(** The effect of an action of process i, when the engine accepts it: the answer
    or exception, and the new disk, writer and self.cur.  None: the process has to
    wait (another one has the write lock).  [auto]: MySQL's autocommit; a statement
    is then on the disk at once and nobody waits.  On SQLite a change takes the write
    lock, which the commit gives back; a failed change keeps it. *)
Definition act_on {X} (auto : bool) (i : nat) (w : world) (cur : curstate) (a : act X)
    : option (res X * db * option (nat * db) * curstate) :=
  match a in act X return option (res X * db * option (nat * db) * curstate) with
  | AExec h s =>
      if closed h cur
      then Some (Err ProgrammingError, wd_disk w, wd_writer w, cur)
      else match bind_error s with Some e => Some (Err e, wd_disk w, wd_writer w, cur) | None =>
      if auto then
        match engine true s (wd_disk w) with
        | Ok (d, n) => Some (Ok n, d, wd_writer w, cur)
        | Err e => Some (Err e, wd_disk w, wd_writer w, cur)
        end
      else if lock_free i w then
        match engine false s (view i w) with
        | Ok (d, n) => Some (Ok n, wd_disk w, Some (i, d), cur)
        | Err e => Some (Err e, wd_disk w, Some (i, view i w), cur)
        end
      else None
      end
  | AQuery h q =>
      if closed h cur
      then Some (Err ProgrammingError, wd_disk w, wd_writer w, cur)
      else if negb (forallb bindable (sel_texts q)) then Some (Err UnicodeEncodeError, wd_disk w, wd_writer w, cur)
      else Some (Ok (sel_run q (view i w)), wd_disk w, wd_writer w, cur)
  | ACommit =>
      if holds i w then Some (Ok tt, view i w, None, cur) else Some (Ok tt, wd_disk w, wd_writer w, cur)
  | AGetCur => Some (Ok cur, wd_disk w, wd_writer w, cur)
  | ASetCur s => Some (Ok tt, wd_disk w, wd_writer w, s)
  end.

(** the rest of a call after its action *)
Definition after_act {X A} (r : res X) (k : X -> prog A) : prog A :=
  match r with Ok x => k x | Err e => PRet (Err e) end.

(** [flt]: whether statements can be refused and processes can die. *)
Inductive step (flt auto : bool) (ord : list value -> list value) : world -> world -> Prop :=
(** process i begins its next call *)
| SCall i w p o todo : wd_procs w i = p -> pr_now p = None -> pr_todo p = o :: todo -> o <> OReopen ->
    step flt auto ord w (World (wd_disk w) (wd_writer w)
      (set_proc i (Proc (pr_cur p) (Some (p_op ord o)) todo (pr_ok p)) (wd_procs w)))
(** it closes the database and opens it again *)
| SReopen i w p todo : wd_procs w i = p -> pr_now p = None -> pr_todo p = OReopen :: todo ->
    step flt auto ord w (World (wd_disk w) (if holds i w then None else wd_writer w)
      (set_proc i (Proc CNone None todo (pr_ok p)) (wd_procs w)))
(** one action of its call *)
| SAct i w p X (a : act X) k r d wr cur : wd_procs w i = p -> pr_now p = Some (PAct a k) ->
    act_on auto i w (pr_cur p) a = Some (r, d, wr, cur) ->
    step flt auto ord w (World d wr (set_proc i (Proc cur (Some (after_act r k)) (pr_todo p) (pr_ok p)) (wd_procs w)))
(** the call returns or raises (the client catches the exception and goes on) *)
| SDone i w p r : wd_procs w i = p -> pr_now p = Some (PRet r) ->
    step flt auto ord w (World (wd_disk w) (wd_writer w)
      (set_proc i (Proc (pr_cur p) None (pr_todo p) (pr_ok p && match r with Ok _ => true | Err _ => false end)) (wd_procs w)))
(** the engine refuses the action ("database is locked" after waiting too long,
    disk full, ...): OperationalError *)
| SRefused i w p X (a : act X) k : flt = true -> wd_procs w i = p -> pr_now p = Some (PAct a k) ->
    step flt auto ord w (World (wd_disk w) (wd_writer w)
      (set_proc i (Proc (pr_cur p) (Some (PRet (Err OperationalError))) (pr_todo p) (pr_ok p)) (wd_procs w)))
(** process i dies: what it has not committed is lost, and its lock is free; it may
    be started again, to make the calls [todo'] it had left (or fewer) *)
| SDies i w p todo' : flt = true -> wd_procs w i = p -> incl todo' (pr_todo p) ->
    step flt auto ord w (World (wd_disk w) (if holds i w then None else wd_writer w)
      (set_proc i (Proc CNone None todo' false) (wd_procs w))).

(** The processes start on a database that no one is writing to. *)
Definition start_proc (ops : list op) : proc := Proc CNone None ops true.
Definition start_world (d : db) (calls : nat -> list op) : world := World d None (fun i => start_proc (calls i)).
Inductive steps (flt auto : bool) (ord : list value -> list value) (w0 : world) : world -> Prop :=
| steps_refl : steps flt auto ord w0 w0
| steps_next w w' : steps flt auto ord w0 w -> step flt auto ord w w' -> steps flt auto ord w0 w'.
