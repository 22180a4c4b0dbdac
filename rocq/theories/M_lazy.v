(** * M_lazy.v -- [f_all] (sql.py:325-334) step by step: a generator, whose steps
    and other calls on the same connection take turns. *)

From Verif Require Import Py M_symbol M_edge M_sql M_mysql M_hypergraph Spec S_history M_driver M_steps.
Open Scope list_scope.

(** Where the generator is: not started (sql.py:329 not reached); at the loop of
    sql.py:331 with the rows that are to come, from its own cursor or from self.cur;
    at the loop, but another statement was executed on the same cursor, and its rows
    have been read; its cursor has been closed; its table was changed, on the same
    connection, while rows were to come; finished. *)
Inductive gen := GNew | GOn (h : handle) (rows : list (str * Z)) | GSpent | GLost | GUnsure | GEnd.

(** What an action does to the generator.
    - A statement on the shared cursor replaces the result the generator reads from,
      if that is the shared cursor (sqlite3 and MySQLdb: execute drops the previous
      result).  The methods read the new rows themselves (sql.py:68, 280, 299, 311).
    - Closing self.cur closes the generator's cursor, if that is it.
    - On SQLite a change or commit on the connection while a SELECT is not finished:
      which rows the SELECT still gives is not defined (SQLite's documentation); on
      MySQL the rows are in the client already (MySQLdb's Cursor stores the result).
    - A statement that is refused on the shared cursor: nothing is assumed. *)
Definition beside {X} (a : act X) (auto ok : bool) (g : gen) : gen :=
  match g with
  | GOn HShared rows =>
      match a with
      | AExec HShared _ | AQuery HShared _ => if ok then GSpent else GUnsure
      | AExec HLocal _ | ACommit => if auto then g else GUnsure
      | AQuery HLocal _ | AGetCur | ASetCur COpen => g
      | ASetCur CClosed | ASetCur CNone => GLost
      end
  | GOn HLocal rows =>
      match a with
      | AExec _ _ | ACommit => if auto then g else GUnsure
      | _ => g
      end
  | GSpent =>
      match a with
      | AExec HShared _ | AQuery HShared _ => if ok then GSpent else GUnsure
      | ASetCur CClosed | ASetCur CNone => GLost
      | _ => g
      end
  | _ => g
  end.

Definition is_ok {A} (r : res A) : bool := match r with Ok _ => true | Err _ => false end.

(** A call that is made while the generator waits.  If it raises, rows of its last
    statement may be left in the shared cursor: nothing is assumed then. *)
Definition upset (ok : bool) (g : gen) : gen :=
  match g with GSpent => if ok then GSpent else GUnsure | _ => g end.
Fixpoint call_beside {A} (p : prog A) (c : conn) (g : gen) : res A * conn * gen :=
  match p with
  | PRet r => (r, c, upset (is_ok r) g)
  | PAct a k =>
      match run_act_on a c with
      | (Ok x, c1, _) => call_beside (k x) c1 (beside a (c_auto c) true g)
      | (Err e, c1, _) => (Err e, c1, upset false (beside a (c_auto c) false g))
      end
  end.

(** What a step gives: a value, StopIteration, or an exception. *)
Inductive outcome (B : Type) := Gives (b : B) | Stops | Raises (e : exn).
Arguments Gives {B} _. Arguments Stops {B}. Arguments Raises {B} _.

(** sql.py:331-334: one round of the loop, or its end *)
Definition round {B} (f : value * Z -> B) (h : handle) (rows : list (str * Z)) (c : conn) : outcome B * conn * gen :=
  match rows with
  | [] => match run_on (p_close_cursor h true false) c with
          | (Ok _, c1, _) => (Stops, c1, GEnd)
          | (Err e, c1, _) => (Raises e, c1, GEnd)
          end
  | (id, d) :: rest =>
      match str2edge id with
      | Ok v => (Gives (f (v, d)), c, GOn h rest)
      | Err e => (Raises e, c, GEnd)
      end
  end.
(** sql.py:325-334: a step of the generator.  Reading from a closed cursor raises on
    SQLite; on MySQL it raises or ends, depending on the version of MySQLdb. *)
Inductive next {B} (f : value * Z -> B) (c : conn) : gen -> outcome B -> conn -> gen -> Prop :=
| NStart h c1 t1 rows c2 t2 o c3 g : run_on (p_open_cursor true) c = (Ok h, c1, t1) -> run_on (pact (AQuery h SelAll)) c1 = (Ok rows, c2, t2) ->
    round f h rows c2 = (o, c3, g) -> next f c GNew o c3 g
| NStartErr h c1 t1 e c2 t2 : run_on (p_open_cursor true) c = (Ok h, c1, t1) -> run_on (pact (AQuery h SelAll)) c1 = (Err e, c2, t2) ->
    next f c GNew (Raises e) c2 GEnd
| NRow h rows o c1 g : round f h rows c = (o, c1, g) -> next f c (GOn h rows) o c1 g
| NSpent o c1 g : round f HShared [] c = (o, c1, g) -> next f c GSpent o c1 g
| NLost : next f c GLost (Raises ProgrammingError) c GEnd
| NLostMy : c_auto c = true -> next f c GLost Stops c GEnd
| NUnsure o : next f c GUnsure o c GUnsure
| NEnd : next f c GEnd Stops c GEnd.

(** Steps and calls take turns; what each gives. *)
Inductive turn := Next | Call {A} (p : prog A).
Inductive event (B : Type) := Got (o : outcome B) | Did {A} (r : res A).
Arguments Got {B} _. Arguments Did {B A} _.
Inductive play {B} (f : value * Z -> B) : list turn -> conn -> gen -> list (event B) -> conn -> gen -> Prop :=
| PlayNil c g : play f [] c g [] c g
| PlayNext ts c g o c1 g1 es c2 g2 : next f c g o c1 g1 -> play f ts c1 g1 es c2 g2 -> play f (Next :: ts) c g (Got o :: es) c2 g2
| PlayCall A (p : prog A) ts c g r c1 g1 es c2 g2 : call_beside p c g = (r, c1, g1) -> play f ts c1 g1 es c2 g2 ->
    play f (Call p :: ts) c g (Did r :: es) c2 g2.
