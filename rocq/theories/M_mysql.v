(** * M_mysql.v -- where the engine behind mysql.py differs from SQLite *)

From Verif Require Import Py M_symbol M_edge M_sql.
Open Scope list_scope.

(** mysql.py:50-51, 57-58: PRIMARY KEY (id(250)): two ids may not agree on their
    first 250 characters *)
Definition my_key (id : str) : str := firstn 250 id.

(** mysql.py:41: MySQLdb.connect without the flag CLIENT.FOUND_ROWS: the rowcount
    of an UPDATE is the number of rows whose contents it changed, not of those it
    matched.  Comparison of ids in WHERE clauses is simplified to equality of the
    texts (M_collate has the collation). *)
Definition sql_run_my (s : stmt) (w : db) : res (db * nat) :=
  match s with
  | UpdVertex id d t =>
      Ok (Db (List.map (fun r => if vkey id r then (id, (d, t)) else r) (vertices w)) (perms w),
          List.length (filter (fun r => vkey id r && negb (Z.eqb (fst (snd r)) d && Z.eqb (snd (snd r)) t)) (vertices w)))
  | InsVertex id d t =>
      if existsb (fun r => str_eqb (my_key id) (my_key (fst r))) (vertices w) then Err IntegrityError
      else Ok (Db (vertices w ++ [(id, (d, t))]) (perms w), 1%nat)
  | UpdPerm id => Ok (w, O)                         (* it sets id to id *)
  | InsPerm id =>
      if existsb (fun r => str_eqb (my_key id) (my_key r)) (perms w) then Err IntegrityError
      else Ok (Db (vertices w) (perms w ++ [id]), 1%nat)
  | IncDegree id k =>
      Ok (Db (List.map (fun r => if vkey id r then (fst r, (fst (snd r) + k, snd (snd r))%Z) else r)
                       (vertices w)) (perms w),
          if Z.eqb k 0 then O else List.length (filter (vkey id) (vertices w)))
  | DelPerm _ | DelVertex _ | DelAllVertices | DelAllPerms => sql_run s w
  end.

(** The engine of a connection: MySQL's if it is the one with autocommit. *)
Definition engine (auto : bool) (s : stmt) (w : db) : res (db * nat) :=
  if auto then sql_run_my s w else sql_run s w.
