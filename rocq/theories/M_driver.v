(** * M_driver.v -- which API calls the operations of S_history are *)

From Verif Require Import Py M_symbol M_edge M_sql M_hypergraph Spec S_history.
From Coq Require Import Permutation.
Open Scope list_scope.

(** One API call that only asks; its answer is dropped. *)
Definition run_ask (q : ask) : M unit :=
  match q with
  | QExists e => exists_ e;; ret tt
  | QPattern p => pattern2edges (VTup p);; ret tt
  | QStar a => star a;; ret tt
  | QDegree v => degree v;; ret tt
  | QTimestamp v => timestamp v;; ret tt
  | QSources e => sources e;; ret tt
  | QRoot r => symbols_with_root (VStr r);; ret tt
  | QAll => f_all (fun x => x);; ret tt
  end.

(** Inside batch_exec (sql.py:318-323) the functions get the backend. *)
Definition run_bop (b : bop) : M unit :=
  match b with
  | BAdd e t => add e t;; ret tt
  | BRemove e => remove e
  | BRemoveMany es => remove (VTup es)
  | BDestroy => destroy
  | BExists e => exists_ e;; ret tt
  | BPattern p => pattern2edges (VTup p);; ret tt
  | BStar a => star a;; ret tt
  | BRoot r => symbols_with_root (VStr r);; ret tt
  | BAll => f_all (fun x => x);; ret tt
  end.

(** The process ends and the file is opened again: what was not committed is
    lost, there is no shared cursor. *)
Definition reopen_op : M unit := fun c => (Ok tt, reopen (c_auto c) (c_comm c), [c_comm c]).

Definition run_op (ord : list value -> list value) (o : op) : M unit :=
  match o with
  | OAdd e t => add e t;; ret tt
  | OAddMany es t => add (VTup es) t;; ret tt
  | ORemove e => remove e
  | ORemoveMany es => remove (VTup es)
  | ODestroy => destroy
  | OAddBelief s e t => add_belief s e t
  | OAddBeliefs s es t => add_belief s (VTup es) t
  | ORemoveBelief s e => remove_belief s e
  | ORemovePattern p => remove_by_pattern ord (VTup p)
  | OBatch fs => batch_exec (List.map (fun f => mfor f run_bop) fs)
  | OAsk q => run_ask q
  | OReopen => reopen_op
  end.

Definition run_ops (ord : list value -> list value) (ops : list op) : M unit := mfor ops (run_op ord).

(** ** Reachable states *)

(** The empty database, opened (auto = true: MySQL's commit mode). *)
Definition start (auto : bool) : conn := open_db auto db_empty.

(** [c] is the state of the connection after the calls [ops], starting with an
    empty database; every edge used is storable with elements from V, and
    remove_by_pattern met the edges in an arbitrary order. *)
Definition reached (V : value -> Prop) (ops : list op) (c : conn) : Prop :=
  exists ord auto tr,
    (forall l, Permutation (ord l) l) /\ Forall (op_in V) ops
    /\ run_ops ord ops (start auto) = (Ok tt, c, tr).
