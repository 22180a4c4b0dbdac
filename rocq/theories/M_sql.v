(** * M_sql.v -- model of /repo/gb/hypergraph/sql.py (and the parts of
    sqlite.py / mysql.py it depends on: placeholder binding, commit mode). *)

From Verif Require Import Py M_symbol M_edge.
From Coq Require Import String Factorial.
Open Scope list_scope.

(** ** Permutations *)

(** Every element with the list of the others, in order. *)
Fixpoint selects {A} (l : list A) : list (A * list A) :=
  match l with
  | [] => []
  | x :: r => (x, r) :: List.map (fun '(y, s) => (y, x :: s)) (selects r)
  end.

(** itertools.permutations(l) (Python library): lexicographic in positions. *)
Fixpoint perms_n {A} (n : nat) (l : list A) : list (list A) :=
  match n with
  | O => [[]]
  | S n' => flat_map (fun '(x, r) => List.map (cons x) (perms_n n' r)) (selects l)
  end.
Definition permutations {A} (l : list A) : list (list A) := perms_n (List.length l) l.

(** sql.py:30-37: the loop that stops at the first permutation with pos >= n *)
Fixpoint perm_loop (pos n : Z) (ps : list (list nat)) : option (list nat) :=
  match ps with
  | [] => None
  | p :: ps' => if (n <=? pos)%Z then Some p else perm_loop (pos + 1) n ps'
  end.

Definition nth_res {A} (l : list A) (i : nat) : res A :=
  match nth_error l i with Some x => Ok x | None => Err IndexError end.

(** sql.py:28-38 [nthperm]; subscripting None raises TypeError (only when the
    generator runs at all) *)
Definition nthperm {A} (li : list A) (n : Z) : res (list A) :=
  match perm_loop 0 n (permutations (seq 0 (List.length li))) with
  | Some p => mapr (fun i => let? j := nth_res p i in nth_res li j) (seq 0 (List.length li))
  | None => match li with [] => Ok [] | _ => Err TypeError end
  end.

(** [res[i] = x] *)
Fixpoint set_nth {A} (l : list A) (i : nat) (x : A) : res (list A) :=
  match l, i with
  | [], _ => Err IndexError
  | _ :: r, O => Ok (x :: r)
  | y :: r, S i' => let? r' := set_nth r i' x in Ok (y :: r')
  end.

(** sql.py:57-60: the loop [for i in indices: res[i] = tokens[pos]; pos += 1] *)
Fixpoint unperm_loop {A} (tokens : list A) (pos : nat) (indices : list nat)
    (r : list (option A)) : res (list (option A)) :=
  match indices with
  | [] => Ok r
  | i :: is => let? t := nth_res tokens pos in
               let? r' := set_nth r i (Some t) in
               unperm_loop tokens (S pos) is r'
  end.

(** sql.py:50-62 [unpermutate]; an unset slot (None) would make the later
    ' '.join raise TypeError *)
Definition unpermutate {A} (tokens : list A) (nper : Z) : res (list A) :=
  let n := List.length tokens in
  let? indices := nthperm (seq 0 n) nper in
  let? r := unperm_loop tokens 0 indices (repeat None n) in
  mapr (fun o => match o with Some t => Ok t | None => Err TypeError end) r.

(** sql.py:45-46: the string passed to f in one round of
    [do_with_edge_permutations] *)
Definition perm_str (edge : list value) (nperm : nat) : res str :=
  let? p := nthperm edge (Z.of_nat nperm) in
  Ok (join [c_space] (List.map edge2str p) ++ [c_space] ++ show_Z (Z.of_nat nperm)).

(** ** Rows to edges *)

(** sql.py:68-75: one row of cur2edges *)
Definition row2edge (row : str) : res value :=
  let? tokens := split_edge_str row in
  match rev tokens with
  | [] => Err IndexError                                  (* tokens[-1] *)
  | lastt :: rfront =>
      let? nper := py_int lastt in
      let? tokens' := unpermutate (rev rfront) nper in
      str2edge (join [c_space] tokens')
  end.

(** sql.py:65-76 [cur2edges] *)
Definition cur2edges (rows : list str) : res (list value) :=
  let? edges := mapr row2edge rows in Ok (py_set edges).

(** sql.py:79-83 [str_plus_1]; chr raises ValueError beyond U+10FFFF *)
Definition str_plus_1 (s : str) : res str :=
  match rev s with
  | [] => Err IndexError
  | c :: r => if (c + 1 <=? max_cp)%N then Ok (rev r ++ [(c + 1)%N]) else Err ValueError
  end.

(** sql.py:86-94 [edge_matches_pattern]: the loop *)
Fixpoint matches_loop (edge pattern : list value) : bool :=
  match edge, pattern with
  | x :: e', p :: p' =>
      if (match p with VNone => false | _ => true end) && negb (py_eq p x)
      then false else matches_loop e' p'
  | _, _ => true
  end.
(** [len], indexing of a decoded value: TypeError on numbers *)
Definition edge_matches_pattern (edge : value) (pattern : list value) : res bool :=
  let? l := as_seq edge in
  if negb (Nat.eqb (List.length l) (List.length pattern)) then Ok false
  else Ok (matches_loop l pattern).

(** ** The database *)

(** sqlite.py:40-53: tables vertices(id, degree, timestamp) and perms(id), both
    keyed by id *)
Record db := Db { vertices : list (str * (Z * Z)); perms : list str }.
Definition db_empty : db := Db [] [].

Definition vkey (id : str) (r : str * (Z * Z)) : bool := str_eqb id (fst r).

(** The SQL statements of sql.py, each with its rowcount. *)
Inductive stmt :=
| UpdVertex (id : str) (degree timestamp : Z)   (* sql.py:140, table vertices *)
| InsVertex (id : str) (degree timestamp : Z)   (* sql.py:145 *)
| UpdPerm (id : str)                            (* sql.py:140, table perms *)
| InsPerm (id : str)                            (* sql.py:145 *)
| DelPerm (id : str)                            (* sql.py:166 *)
| DelVertex (id : str)                          (* sql.py:177 *)
| IncDegree (id : str) (by_ : Z)                (* sql.py:211, 219 *)
| DelAllVertices | DelAllPerms.                 (* sql.py:290, 291 *)

Definition bound_text (s : stmt) : str :=
  match s with
  | UpdVertex i _ _ | InsVertex i _ _ | UpdPerm i | InsPerm i | DelPerm i
  | DelVertex i | IncDegree i _ => i
  | _ => []
  end.

(** What binding the parameters of a statement raises, if anything: a string with
    a lone surrogate, an int outside 64 bits.  (MySQL's driver lets the server
    refuse such an int: the exception is then called DataError.) *)
Definition bindable (s : str) : bool := forallb (fun c => negb (is_surrogate c)) s.
Definition bind_error (s : stmt) : option exn :=
  if negb (bindable (bound_text s)) then Some UnicodeEncodeError
  else match s with
       | UpdVertex _ _ t | InsVertex _ _ t => if int64 t then None else Some OverflowError
       | _ => None
       end.

(** What the engine does: new database and rowcount, or IntegrityError. *)
Definition sql_run (s : stmt) (w : db) : res (db * nat) :=
  match s with
  | UpdVertex id d t =>
      Ok (Db (List.map (fun r => if vkey id r then (id, (d, t)) else r) (vertices w)) (perms w),
          List.length (filter (vkey id) (vertices w)))
  | InsVertex id d t =>
      if existsb (vkey id) (vertices w) then Err IntegrityError
      else Ok (Db (vertices w ++ [(id, (d, t))]) (perms w), 1%nat)
  | UpdPerm id => Ok (w, List.length (filter (str_eqb id) (perms w)))
  | InsPerm id =>
      if existsb (str_eqb id) (perms w) then Err IntegrityError
      else Ok (Db (vertices w) (perms w ++ [id]), 1%nat)
  | DelPerm id =>
      Ok (Db (vertices w) (filter (fun r => negb (str_eqb id r)) (perms w)),
          List.length (filter (str_eqb id) (perms w)))
  | DelVertex id =>
      Ok (Db (filter (fun r => negb (vkey id r)) (vertices w)) (perms w),
          List.length (filter (vkey id) (vertices w)))
  | IncDegree id k =>
      Ok (Db (List.map (fun r => if vkey id r then (fst r, (fst (snd r) + k, snd (snd r))%Z) else r)
                       (vertices w)) (perms w),
          List.length (filter (vkey id) (vertices w)))
  | DelAllVertices => Ok (Db [] (perms w), List.length (vertices w))
  | DelAllPerms => Ok (Db (vertices w) [], List.length (perms w))
  end.

(** SQLite's BINARY collation: memcmp of the UTF-8 encodings *)
Definition in_range (lo hi id : str) : bool :=
  lex_leb (utf8 lo) (utf8 id) && lex_ltb (utf8 id) (utf8 hi).

(** ** The connection and the shared cursor *)

(** [self.cur]: None, an open cursor, or a closed one *)
Inductive curstate := CNone | COpen | CClosed.

(** [c_comm] is what is on disk (survives a crash), [c_work] what statements
    of this connection see.  [c_auto]: MySQL's autocommit(True) (mysql.py:42);
    false for SQLite. *)
Record conn := Conn { c_auto : bool; c_comm : db; c_work : db; c_cur : curstate }.

(** A method run: result or exception, new state, and the contents of the disk
    after each execute/commit (the crash points). *)
Definition M (A : Type) := conn -> res A * conn * list db.

Definition ret {A} (a : A) : M A := fun c => (Ok a, c, []).
Definition raise {A} (e : exn) : M A := fun c => (Err e, c, []).
Definition bind {A B} (m : M A) (k : A -> M B) : M B := fun c =>
  match m c with
  | (Ok a, c1, t1) => let '(r, c2, t2) := k a c1 in (r, c2, t1 ++ t2)
  | (Err e, c1, t1) => (Err e, c1, t1)
  end.
Definition lift {A} (r : res A) : M A := match r with Ok a => ret a | Err e => raise e end.
Definition get_cur : M curstate := fun c => (Ok (c_cur c), c, []).
Definition set_cur (s : curstate) : M unit := fun c =>
  (Ok tt, Conn (c_auto c) (c_comm c) (c_work c) s, []).

Notation "'do' x <- m ; k" := (bind m (fun x => k))
  (at level 200, x pattern, m at level 100, k at level 200, right associativity).
Notation "m ;; k" := (bind m (fun _ => k)) (at level 199, right associativity).

Fixpoint mfor {A} (l : list A) (f : A -> M unit) : M unit :=
  match l with
  | [] => ret tt
  | x :: r => f x ;; mfor r f
  end.

(** [conn.commit()] *)
Definition commit : M unit := fun c =>
  (Ok tt, Conn (c_auto c) (c_work c) (c_work c) (c_cur c), [c_work c]).

(** A cursor handle: a fresh local cursor, or [self.cur]. *)
Inductive handle := HLocal | HShared.

(** [cur.execute] of a closed cursor raises ProgrammingError; see also [bind_error] *)
Definition usable (h : handle) (c : conn) : bool :=
  match h, c_cur c with HShared, CClosed => false | _, _ => true end.

Definition execute (h : handle) (s : stmt) : M nat := fun c =>
  if negb (usable h c) then (Err ProgrammingError, c, [])
  else match bind_error s with Some e => (Err e, c, []) | None =>
       match sql_run s (c_work c) with
       | Err e => (Err e, c, [])
       | Ok (w, n) =>
           let comm := if c_auto c then w else c_comm c in
           (Ok n, Conn (c_auto c) comm w (c_cur c), [comm])
       end end.

(** A SELECT: all its rows (the code always consumes the cursor at once). *)
Definition query {A} (h : handle) (texts : list str) (f : db -> A) : M A := fun c =>
  if negb (usable h c) then (Err ProgrammingError, c, [])
  else if negb (forallb bindable texts) then (Err UnicodeEncodeError, c, [])
  else (Ok (f (c_work c)), c, []).

(** sql.py:110-119 [open_cursor] *)
Definition open_cursor (local : bool) : M handle :=
  do s <- get_cur;
  if local then
    match s with CNone => ret HLocal | _ => ret HShared end
  else
    match s with CNone => set_cur COpen;; ret HShared | _ => ret HShared end.

(** [cur.close()] on a handle *)
Definition close_handle (h : handle) : M unit :=
  match h with HLocal => ret tt | HShared => set_cur CClosed end.

(** sql.py:121-131 [close_cursor]; [self.cur.close()] with self.cur None raises
    AttributeError *)
Definition close_cursor (h : handle) (local do_commit : bool) : M unit :=
  if local then
    do s <- get_cur;
    match s with
    | CNone => close_handle h;; if do_commit then commit else ret tt
    | _ => ret tt
    end
  else
    (if do_commit then commit else ret tt);;
    do s <- get_cur;
    match s with
    | CNone => raise AttributeError
    | _ => set_cur CClosed;; set_cur CNone
    end.

(** sql.py:133-147 [update_or_insert], for the two tables *)
Definition update_or_insert (upd ins : stmt) : M unit :=
  do cur <- open_cursor true;
  do n <- execute cur upd;
  (if Nat.eqb n 0 then execute cur ins;; ret tt else ret tt);;
  close_cursor cur true true.

(** sql.py:149-153 [add_str] *)
Definition add_str (vert_str : str) (degree timestamp : Z) : M unit :=
  update_or_insert (UpdVertex vert_str degree timestamp) (InsVertex vert_str degree timestamp).

(** sql.py:155-157 [write_edge_permutation]; [edge2str] of a string is the string *)
Definition write_edge_permutation (perm : str) : M unit :=
  update_or_insert (UpdPerm perm) (InsPerm perm).

(** sql.py:41-47 [do_with_edge_permutations] *)
Definition do_with_edge_permutations (edge : list value) (f : str -> M unit) : M unit :=
  mfor (seq 0 (fact (List.length edge)))
       (fun nperm => do s <- lift (perm_str edge nperm); f s).

(** sql.py:159-161 [write_edge_permutations] *)
Definition write_edge_permutations (edge : list value) : M unit :=
  do_with_edge_permutations edge write_edge_permutation.

(** sql.py:163-168 [remove_edge_permutation]: own cursor, always commits *)
Definition remove_edge_permutation (perm : str) : M unit :=
  execute HLocal (DelPerm perm);; commit.

(** sql.py:170-172 [remove_edge_permutations] *)
Definition remove_edge_permutations (edge : list value) : M unit :=
  do_with_edge_permutations edge remove_edge_permutation.

(** sql.py:174-178 [remove_str] *)
Definition remove_str (vert_str : str) : M unit :=
  do cur <- open_cursor true;
  execute cur (DelVertex vert_str);;
  close_cursor cur true true.

(** sql.py:180-190 [str2perms] *)
Definition str2perms (center_id : str) : M (list value) :=
  let start_str := center_id ++ [c_space] in
  do end_str <- lift (str_plus_1 start_str);
  do cur <- open_cursor true;
  do rows <- query cur [start_str; end_str] (fun w => filter (in_range start_str end_str) (perms w));
  do edges <- lift (cur2edges rows);
  close_cursor cur true false;;
  ret (py_set edges).

Definition not_none (v : value) : bool := match v with VNone => false | _ => true end.

(** sql.py:192-202 [pattern2edges]; [pattern] is any value: iterating a number
    raises TypeError, a string is the sequence of its characters *)
Definition pattern2edges (pattern : value) : M (list value) :=
  do items <- lift (as_seq pattern);
  let nodes := filter not_none items in
  let start_str := nodes2str nodes in
  do end_str <- lift (str_plus_1 start_str);
  do cur <- open_cursor true;
  do rows <- query cur [start_str; end_str] (fun w => filter (in_range start_str end_str) (perms w));
  do edges <- lift (cur2edges rows);
  close_cursor cur true false;;
  do flags <- lift (mapr (fun e => edge_matches_pattern e items) edges);
  ret (py_set (List.map fst (filter snd (combine edges flags)))).

(** sql.py:204-206 [exists] *)
Definition exists_ (vertex : value) : M bool :=
  do edges <- pattern2edges vertex;
  ret (Nat.ltb 0 (List.length edges)).

(** sql.py:208-214 [inc_degree], sql.py:216-222 [dec_degree] *)
Definition change_degree (vert_str : str) (k : Z) : M bool :=
  do cur <- open_cursor true;
  do n <- execute cur (IncDegree vert_str k);
  close_cursor cur true true;;
  ret (Nat.ltb 0 n).
Definition inc_degree (vert_str : str) : M bool := change_degree vert_str 1.
Definition dec_degree (vert_str : str) : M bool := change_degree vert_str (-1).

(** sql.py:224-233 [add_raw] *)
Definition add_raw (edge : value) (timestamp : Z) : M value :=
  do b <- exists_ edge;
  (if b then ret tt
   else
     do items <- lift (as_seq edge);
     mfor items (fun vert =>
       let vert_str := edge2str vert in
       do found <- inc_degree vert_str;
       if found then ret tt else add_str vert_str 1 timestamp);;
     add_str (edge2str edge) 0 timestamp;;
     write_edge_permutations items);;
  ret edge.

(** sql.py:235-245 [add] *)
Definition add (edges : value) (timestamp : Z) : M value :=
  do x <- lift (index0 edges);
  (if is_tup x then
     do cur <- open_cursor false;
     do items <- lift (as_seq edges);
     mfor items (fun edge => add_raw edge timestamp;; ret tt);;
     close_cursor cur false true
   else
     add_raw edges timestamp;; ret tt);;
  ret edges.

(** sql.py:247-253 [remove_raw] *)
Definition remove_raw (edge : value) : M unit :=
  do b <- exists_ edge;
  if b then
    do items <- lift (as_seq edge);
    mfor items (fun vert => dec_degree (edge2str vert);; ret tt);;
    remove_edge_permutations items;;
    remove_str (edge2str edge)
  else ret tt.

(** sql.py:255-263 [remove] *)
Definition remove (edges : value) : M unit :=
  do x <- lift (index0 edges);
  if is_tup x then
    do items <- lift (as_seq edges);
    mfor items remove_raw
  else remove_raw edges.

(** sql.py:265-271 [star]; ['%s ' % center] of a non-tuple is its str() *)
Definition star (center : value) : M (list value) :=
  str2perms (edge2str center).

(** sql.py:273-285 [symbols_with_root]; ['%s/' % root] of a tuple is not modelled *)
Definition symbols_with_root (root : value) : M (list str) :=
  let start_str := show_atom root ++ [c_slash] in
  do end_str <- lift (str_plus_1 start_str);
  do cur <- open_cursor true;
  do rows <- query cur [start_str; end_str] (fun w => filter (in_range start_str end_str) (perms w));
  do symbs <- lift (mapr (fun row => let? toks := split_edge_str row in nth_res toks 0) rows);
  close_cursor cur true false;;
  ret (str_set symbs).

(** sql.py:287-292 [destroy] *)
Definition destroy : M unit :=
  do cur <- open_cursor true;
  execute cur DelAllVertices;;
  execute cur DelAllPerms;;
  close_cursor cur true true.

(** the row of a vertex *)
Definition vlook (id : str) (w : db) : option (Z * Z) :=
  match find (vkey id) (vertices w) with Some r => Some (snd r) | None => None end.

(** sql.py:294-304 [degree], sql.py:306-316 [timestamp]: note [cur.close()] on
    the cursor returned by open_cursor, which may be the shared one *)
Definition degree (vertex : value) : M Z :=
  let vert_str := edge2str vertex in
  do cur <- open_cursor true;
  do row <- query cur [vert_str] (vlook vert_str);
  match row with
  | Some (d, _) => close_handle cur;; ret d
  | None => close_cursor cur true false;; ret 0%Z
  end.
Definition timestamp (vertex : value) : M Z :=
  let vert_str := edge2str vertex in
  do cur <- open_cursor true;
  do row <- query cur [vert_str] (vlook vert_str);
  match row with
  | Some (_, t) => close_handle cur;; ret t
  | None => close_cursor cur true false;; ret (-1)%Z
  end.

(** sql.py:318-323 [batch_exec] *)
Definition batch_exec (funs : list (M unit)) : M unit :=
  do cur <- open_cursor false;
  mfor funs (fun f => f);;
  close_cursor cur false true.

(** sql.py:325-334 [f_all], consumed completely; [f] is a pure function of the
    vertex map (vertex, degree).  Simplification: the generator is lazy, here
    its whole output is produced at once (step by step: M_lazy). *)
Definition f_all {B} (f : value * Z -> B) : M (list B) :=
  do cur <- open_cursor true;
  do rows <- query cur [] (fun w => List.map (fun r => (fst r, fst (snd r))) (vertices w));
  do out <- lift (mapr (fun '(id, d) => let? v := str2edge id in Ok (f (v, d))) rows);
  close_cursor cur true false;;
  ret out.

(** Opening a database file (sql.py:100-105, sqlite.py:36-38), tables created:
    see M_schema for table creation itself. *)
Definition open_db (auto : bool) (w : db) : conn := Conn auto w w CNone.

(** The process dies and the file is opened again: only the disk survives. *)
Definition reopen (auto : bool) (disk : db) : conn := open_db auto disk.
