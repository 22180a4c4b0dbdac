(** * M_cli.v -- model of the choice of a backend (/repo/gb/hypergraph/hypergraph.py,
    the constructors of mysql.py, sqlite.py and null.py) and of the commands of
    /repo/gb/gbrain.py *)

From Verif Require Import Py M_symbol M_edge M_sql M_hypergraph M_batch M_wordnet M_schema.
From Coq Require Import String.
Open Scope list_scope.

(** A dictionary of strings. *)
Definition params := list (string * str).
(** params[k] *)
Fixpoint pget (k : string) (p : params) : res str :=
  match p with [] => Err KeyError | (k', v) :: r => if String.eqb k k' then Ok v else pget k r end.

(** What a HyperGraph object has as its backend: nothing, a Null object, an SQLite or a
    MySQL connection. *)
Inductive backend :=
| BNone
| BNull
| BSqlite (file : str)
| BMysql (host user password db : str).

(** hypergraph.py:31-42 [HyperGraph.__init__]; null.py:28-29, sqlite.py:36-38 and
    mysql.py:36-43: the parameters that the constructors take *)
Definition make_hypergraph (p : params) : res backend :=
  let? backend := pget "backend" p in
  if str_eqb backend (lit "none") then Ok BNone
  else if str_eqb backend (lit "null") then Ok BNull
  else if str_eqb backend (lit "sqlite") then
    let? file_path := pget "db" p in Ok (BSqlite file_path)
  else if str_eqb backend (lit "mysql") then
    let? host := pget "host" p in
    let? user := pget "user" p in
    let? password := pget "password" p in
    let? dbname := pget "db" p in
    Ok (BMysql host user password dbname)
  else Err RuntimeError.

(** gbrain.py:30-33: an option given on the command line, or its default *)
Record options := Options { op_backend : option str; op_db : option str; op_dbuser : option str; op_dbpass : option str }.
Definition given (o : option str) (default : string) : str := match o with Some s => s | None => lit default end.
(** gbrain.py:35-41 [cli] *)
Definition cli (o : options) : params :=
  [("backend"%string, given (op_backend o) "sqlite"); ("db"%string, given (op_db o) "gb.db");
   ("dbuser"%string, given (op_dbuser o) "gb"); ("dbpass"%string, given (op_dbpass o) "gb")].

(** The files of the machine; a file that is not there is one without tables. *)
Definition files := str -> file.
Definition put_file (path : str) (f : file) (fs : files) : files := fun p => if str_eqb p path then f else fs p.

(** A file with the tables of create_tables and the rows of [w]. *)
Definition of_db (w : db) : file :=
  File (Some (VTable ["degree"; "timestamp"]%string (List.map (fun r => (fst r, [fst (snd r); snd (snd r)])) (vertices w)))) (Some (perms w)).

(** The commands (gbrain.py:49-72).  Simplifications: a MySQL server is not one of the
    files; the shell (tools/shell.py:26-27) only prints; click's messages are left out;
    the wordnet command is modelled on SQLite (a complete database file is rewritten
    with the rows it has at the end; what is not committed is lost); on Null it writes
    nothing and is taken to return normally. *)
Inductive command := Create | Wordnet (synsets : list synset) | RunShell.
Definition run_command (c : command) (o : options) (fs : files) : res unit * files :=
  match make_hypergraph (cli o) with
  | Err e => (Err e, fs)
  | Ok (BSqlite path) =>
      let f := opened (fs path) in
      let fs1 := put_file path f fs in
      match c with
      | Create | RunShell => (Ok tt, fs1)
      | Wordnet synsets =>
          match to_db f with
          | None => (Err OperationalError, fs1)
          | Some w => let (r, b) := wn_read 1000 synsets (open_db false w) in
                      (r, put_file path (of_db (c_comm (b_conn b))) fs)
          end
      end
  | Ok BNone => (match c with Wordnet _ => Err AttributeError | _ => Ok tt end, fs)   (* batch_hypergraph.py:31: hg.backend *)
  | Ok _ => (Ok tt, fs)
  end.
