(** * M_schema.v -- model of the table creation of /repo/gb/hypergraph/sqlite.py
    (and mysql.py, whose statements have the same effect up to column types) *)

From Verif Require Import Py M_sql.
From Coq Require Import String.
Open Scope list_scope.

(** A database file: the table vertices, if it is there, with the names of its
    columns after id and its rows; and the table perms, if it is there. *)
Record vtable := VTable { vt_cols : list string; vt_rows : list (str * list Z) }.
Record file := File { f_vertices : option vtable; f_perms : option (list str) }.

(** The statements of sqlite.py:45-50 (mysql.py:50-59). *)
Inductive ddl :=
| CreateVertices                              (* CREATE TABLE vertices (id TEXT PRIMARY KEY) *)
| AddColumn (name : string) (default : Z)     (* ALTER TABLE vertices ADD COLUMN name INTEGER DEFAULT d *)
| CreatePerms.                                (* CREATE TABLE perms (id TEXT PRIMARY KEY) *)

(** What the engine does: OperationalError if the table exists already, if the
    column exists already, or if there is no table to alter; a new column gets its
    default in every row. *)
Definition ddl_run (s : ddl) (f : file) : res file :=
  match s with
  | CreateVertices =>
      match f_vertices f with
      | Some _ => Err OperationalError
      | None => Ok (File (Some (VTable [] [])) (f_perms f))
      end
  | AddColumn name d =>
      match f_vertices f with
      | None => Err OperationalError
      | Some t =>
          if existsb (String.eqb name) (vt_cols t) then Err OperationalError
          else Ok (File (Some (VTable (vt_cols t ++ [name]) (List.map (fun r => (fst r, snd r ++ [d])) (vt_rows t)))) (f_perms f))
      end
  | CreatePerms =>
      match f_perms f with
      | Some _ => Err OperationalError
      | None => Ok (File (f_vertices f) (Some []))
      end
  end.

(** sqlite.py:26-30, mysql.py:24-30 [exec_or_ignore].  [busy]: the engine refuses
    the statement (also an OperationalError, e.g. "database is locked").  A DDL
    statement is atomic and durable by itself (sqlite3 opens no transaction for
    it; MySQL commits it implicitly). *)
Definition exec_or_ignore (busy : bool) (s : ddl) (f : file) : file :=
  if busy then f
  else match ddl_run s f with
       | Ok f' => f'
       | Err _ => f
       end.

(** sqlite.py:44-50: the statements, in order *)
Definition create_stmts : list ddl :=
  [CreateVertices; AddColumn "degree" 0; AddColumn "timestamp" (-1); CreatePerms].

(** sqlite.py:40-53 [create_tables]: the file after each statement (the crash
    points), the last one being the result.  [busy n]: statement n is refused. *)
Fixpoint create_steps (busy : nat -> bool) (n : nat) (ss : list ddl) (f : file) : list file :=
  match ss with
  | [] => []
  | s :: r => let f' := exec_or_ignore (busy n) s f in f' :: create_steps busy (S n) r f'
  end.
Definition create_tables (busy : nat -> bool) (f : file) : list file := create_steps busy 0 create_stmts f.

(** sqlite.py:36-38, sql.py:100-105: opening runs create_tables *)
Definition opened (f : file) : file := last (create_tables (fun _ => false) f) f.

(** What the statements of M_sql see: degree and timestamp of each row by column
    name; None when a table or a column is missing (they would raise
    OperationalError). *)
Fixpoint col_index (name : string) (cols : list string) : option nat :=
  match cols with
  | [] => None
  | c :: r => if String.eqb name c then Some O else option_map S (col_index name r)
  end.
Definition to_db (f : file) : option db :=
  match f_vertices f, f_perms f with
  | Some t, Some ps =>
      match col_index "degree" (vt_cols t), col_index "timestamp" (vt_cols t) with
      | Some d, Some ts => Some (Db (List.map (fun r => (fst r, (nth d (snd r) 0%Z, nth ts (snd r) 0%Z))) (vt_rows t)) ps)
      | _, _ => None
      end
  | _, _ => None
  end.
