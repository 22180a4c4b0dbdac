(** * X_project.v -- the project's own unit tests, run on the model

    Every assertion of /repo/gb/hypergraph/tests, evaluated in the model (those of
    /repo/gb/knowledge/tests are in C_stages and X_extractor).  These are not proofs of any property: they show that the
    definitions of the model compute what the project's authors expect of the
    program, on the inputs they chose.  [Example]s, checked by computation. *)

From Verif Require Import Py M_symbol M_edge M_sql M_hypergraph M_batch M_driver M_steps.
From Coq Require Import String.
Open Scope list_scope.

Definition s (x : string) : value := VStr (lit x).
Definition i (n : Z) : value := VInt n.
Definition e3 (a b c : value) : value := VTup [a; b; c].
Definition f7 : value := VFlt (FFin false 7 0).
Definition fm7 : value := VFlt (FFin true 7 0).

(** assertEqual on values: Python's == *)
Definition eqv (a b : value) : bool := py_eq a b.
Definition is_ok {A} (p : A -> bool) (r : res A) : bool := match r with Ok a => p a | Err _ => false end.
(** the two sets are equal *)
Definition subset (l m : list value) : bool := forallb (fun x => existsb (py_eq x) m) l.
Definition seteq (l m : list value) : bool := subset l m && subset m l && Nat.eqb (List.length l) (List.length m).

(** ** tests/test_edge.py *)

Definition strs (l : list string) : list str := List.map lit l.
Example test_split_edge_str :
  List.map (fun x => split_edge_str (lit x))
    ["(is graphbrain/1 great/1)"; "(size graphbrain/1 7)"; "(size graphbrain/1 7.0)"; "(size graphbrain/1 -7)";
     "(size graphbrain/1 -7.0)"; "(src graphbrain/1 (is graphbrain/1 great/1))"]%string =
  List.map (fun l => Ok (strs l))
    [["is"; "graphbrain/1"; "great/1"]; ["size"; "graphbrain/1"; "7"]; ["size"; "graphbrain/1"; "7.0"]; ["size"; "graphbrain/1"; "-7"];
     ["size"; "graphbrain/1"; "-7.0"]; ["src"; "graphbrain/1"; "(is graphbrain/1 great/1)"]]%string.
Proof. vm_compute. reflexivity. Qed.

Definition edge_texts : list (string * value) :=
  [("(is graphbrain/1 great/1)"%string, e3 (s "is") (s "graphbrain/1") (s "great/1"));
   ("(size graphbrain/1 7)"%string, e3 (s "size") (s "graphbrain/1") (i 7));
   ("(size graphbrain/1 7.0)"%string, e3 (s "size") (s "graphbrain/1") f7);
   ("(size graphbrain/1 -7)"%string, e3 (s "size") (s "graphbrain/1") (i (-7)));
   ("(size graphbrain/1 -7.0)"%string, e3 (s "size") (s "graphbrain/1") fm7);
   ("(src graphbrain/1 (is graphbrain/1 great/1))"%string, e3 (s "src") (s "graphbrain/1") (e3 (s "is") (s "graphbrain/1") (s "great/1")))].
Example test_str2edge : forallb (fun p => is_ok (eqv (snd p)) (str2edge (lit (fst p)))) edge_texts = true.
Proof. vm_compute. reflexivity. Qed.
Example test_edge2str : forallb (fun p => str_eqb (edge2str (snd p)) (lit (fst p))) edge_texts = true.
Proof. vm_compute. reflexivity. Qed.

Example test_edge_negative :
  let n := e3 (s "~is") (s "graphbrain/1") (s "great/1") in let p := e3 (s "is") (s "graphbrain/1") (s "great/1") in
  edge_is_negative n = Ok true /\ edge_is_negative p = Ok false /\ edge_negative n = Ok p /\ edge_negative p = Ok n.
Proof. vm_compute. easy. Qed.

(** ** tests/test_symbol.py *)

Example test_hashed : hashed (lit "graphbrain/1") = lit "821dd667c0d1e35b".
Proof. vm_compute. reflexivity. Qed.
Definition f1 : value := VFlt (FFin false 1 0).
Example test_sym_type :
  List.map sym_type [s "graphbrain/1"; i 42; VFlt (FFin true 79 (-1)); s "http://graphbrain.org"; s "https://graphbrain.org"]
  = [CONCEPT; INTEGER; FLOAT; URL; URL].
Proof. vm_compute. reflexivity. Qed.
Definition syms : list value := [s "graphbrain/1"; s "graphbrain"; s "http://graphbrain.org"; i 1; f1].
Example test_parts : List.map parts syms = [[s "graphbrain"; s "1"]; [s "graphbrain"]; [s "http://graphbrain.org"]; [i 1]; [f1]].
Proof. vm_compute. reflexivity. Qed.
Example test_root : List.map root syms = [s "graphbrain"; s "graphbrain"; s "http://graphbrain.org"; i 1; f1].
Proof. vm_compute. reflexivity. Qed.
Example test_nspace : List.map nspace syms = [s "1"; VNone; VNone; VNone; VNone].
Proof. vm_compute. reflexivity. Qed.
Example test_is_root : List.map is_root syms = [false; true; true; true; true].
Proof. vm_compute. reflexivity. Qed.
Example test_build : build [s "graphbrain"; s "1"] = Ok (s "graphbrain/1").
Proof. vm_compute. reflexivity. Qed.
Example test_negative : is_negative (s "~is") = Ok true /\ is_negative (s "is") = Ok false /\ negative (s "~is") = Ok (s "is") /\ negative (s "is") = Ok (s "~is").
Proof. vm_compute. easy. Qed.

(** ** tests/test_sql.py *)

Definition abc : list (list string) :=
  [["a"; "b"; "c"]; ["a"; "c"; "b"]; ["b"; "a"; "c"]; ["b"; "c"; "a"]; ["c"; "a"; "b"]; ["c"; "b"; "a"]]%string.
Example test_perms : List.map (fun n => nthperm ["a"; "b"; "c"]%string (Z.of_nat n)) (seq 0 6) = List.map Ok abc.
Proof. vm_compute. reflexivity. Qed.
Example test_unperm : List.map (fun p => unpermutate (snd p) (Z.of_nat (fst p))) (combine (seq 0 6) abc) = List.repeat (Ok ["a"; "b"; "c"]%string) 6.
Proof. vm_compute. reflexivity. Qed.

(** ** tests/aux_backend.py, on the SQL backend.  A test is a program; [T], [F],
    [EqS], [EqZ]: assertTrue, assertFalse and assertEqual, which raise when they fail. *)

Definition fail_unless (b : bool) : M unit := if b then ret tt else raise AssertionError.
Definition T (m : M bool) : M unit := do b <- m; fail_unless b.
Definition F (m : M bool) : M unit := do b <- m; fail_unless (negb b).
Definition EqS (m : M (list value)) (l : list value) : M unit := do x <- m; fail_unless (seteq x l).
Definition EqZ (m : M Z) (n : Z) : M unit := do x <- m; fail_unless (Z.eqb x n).
Definition EqT (m : M (list str)) (l : list string) : M unit :=
  do x <- m; fail_unless (seteq (List.map VStr x) (List.map s l)).
(** the test passes, starting with an empty database: on SQLite and with autocommit *)
Definition passes (m : M unit) : bool :=
  forallb (fun auto => match m (start auto) with (Ok _, _, _) => true | _ => false end) [false; true].
Definition add0 (v : value) : M unit := add v (-1);; ret tt.

Definition great : value := e3 (s "is") (s "graphbrain/1") (s "great/1").
Definition size_ (x : value) : value := e3 (s "size") (s "graphbrain/1") x.
Definition src_ : value := e3 (s "src") (s "graphbrain/1") (size_ fm7).
Definition ops_test (v : value) : M unit := add0 v;; T (exists_ v);; remove v;; F (exists_ v).
Example test_ops : forallb (fun v => passes (ops_test v)) [great; size_ (i 7); size_ f7; size_ (i (-7)); size_ fm7; src_] = true.
Proof. vm_compute. reflexivity. Qed.
Example test_destroy : passes (add0 src_;; T (exists_ src_);; destroy;; F (exists_ src_)) = true.
Proof. vm_compute. reflexivity. Qed.
Definition says : value := e3 (s "says") (s "mary/1") great.
Example test_pattern2edges : passes (
  add0 great;; add0 says;;
  EqS (pattern2edges (VTup [VNone; s "graphbrain/1"; VNone])) [great];;
  EqS (pattern2edges (VTup [s "is"; s "graphbrain/1"; VNone])) [great];;
  EqS (pattern2edges (VTup [s "x"; VNone; VNone])) [];;
  EqS (pattern2edges (VTup [s "says"; VNone; great])) [says];;
  remove great;; remove says) = true.
Proof. vm_compute. reflexivity. Qed.
Example test_star : passes (add0 great;; EqS (star (s "graphbrain/1")) [great];; EqS (star (s "graphbrain/2")) [];; remove great) = true.
Proof. vm_compute. reflexivity. Qed.
Definition great2 : value := e3 (s "is") (s "graphbrain/2") (s "great/1").
Example test_symbols_with_root : passes (
  add0 great;; EqT (symbols_with_root (s "graphbrain")) ["graphbrain/1"%string];;
  add0 great2;; EqT (symbols_with_root (s "graphbrain")) ["graphbrain/1"; "graphbrain/2"]%string;;
  remove great;; remove great2;; EqT (symbols_with_root (s "graphbrain")) []) = true.
Proof. vm_compute. reflexivity. Qed.
Example test_degree : passes (
  EqZ (degree (s "graphbrain/1")) 0;;
  add0 great;; EqZ (degree (s "graphbrain/1")) 1;; EqZ (degree (s "great/1")) 1;;
  add0 (size_ (i 7));; EqZ (degree (s "graphbrain/1")) 2;; EqZ (degree (s "great/1")) 1;;
  remove great;; EqZ (degree (s "graphbrain/1")) 1;; EqZ (degree (s "great/1")) 0;;
  remove (size_ (i 7));; EqZ (degree (s "graphbrain/1")) 0) = true.
Proof. vm_compute. reflexivity. Qed.
Example test_timestamp : passes (
  destroy;; EqZ (timestamp (s "graphbrain/1")) (-1);;
  (add great 123456789;; ret tt);;
  EqZ (timestamp (s "graphbrain/1")) 123456789;; EqZ (timestamp (s "great/1")) 123456789;; EqZ (timestamp great) 123456789;;
  remove great;;
  EqZ (timestamp (s "graphbrain/1")) 123456789;; EqZ (timestamp (s "great/1")) 123456789;; EqZ (timestamp great) (-1)) = true.
Proof. vm_compute. reflexivity. Qed.
Example test_add_remove_multiple : passes (
  add0 (VTup [great; src_]);; T (exists_ great);; T (exists_ src_);;
  remove (VTup [great; src_]);; F (exists_ great);; F (exists_ src_)) = true.
Proof. vm_compute. reflexivity. Qed.
Example test_batch_exec : passes (
  batch_exec [add0 great; add0 src_];; T (exists_ great);; T (exists_ src_);;
  batch_exec [remove great; remove src_];; F (exists_ great);; F (exists_ src_)) = true.
Proof. vm_compute. reflexivity. Qed.
(** '%s %s' % (edge2str(vertex), degree) *)
Definition label (x : value * Z) : str := edge2str (fst x) ++ [c_space] ++ show_atom (VInt (snd x)).
Example test_f_all : passes (
  destroy;; add0 (size_ fm7);; add0 great;; add0 (e3 (s "src") (s "mary/1") great);;
  EqT (f_all label) ["size 1"; "graphbrain/1 2"; "-7.0 1"; "is 1"; "great/1 1"; "src 1"; "mary/1 1";
                     "(size graphbrain/1 -7.0) 0"; "(is graphbrain/1 great/1) 1"; "(src mary/1 (is graphbrain/1 great/1)) 0"]%string;;
  destroy;; EqT (f_all label) []) = true.
Proof. vm_compute. reflexivity. Qed.

(** ** tests/test_hypergraph.py *)

Example test_beliefs : passes (
  add_belief (s "mary/1") great (-1);; EqS (sources great) [s "mary/1"];;
  add_belief (s "john/1") great (-1);; EqS (sources great) [s "mary/1"; s "john/1"];;
  remove_belief (s "mary/1") great;; T (exists_ great);;
  remove_belief (s "john/1") great;; F (exists_ great)) = true.
Proof. vm_compute. reflexivity. Qed.
Example test_timestamp_beliefs :
  let ts v n := EqZ (timestamp v) n in let n := 123456789%Z in
  let src p := e3 const_source great (s p) in
  passes (
  destroy;; ts (s "graphbrain/1") (-1)%Z;;
  add_belief (s "mary/1") great n;;
  ts (s "graphbrain/1") n;; ts (s "great/1") n;; ts (s "mary/1") n;; ts great n;; ts (src "mary/1"%string) n;;
  add_belief (s "john/1") great (-1);;
  ts (s "graphbrain/1") n;; ts (s "great/1") n;; ts (s "john/1") (-1)%Z;; ts great n;; ts (src "john/1"%string) (-1)%Z;;
  remove_belief (s "mary/1") great;;
  ts (s "graphbrain/1") n;; ts (s "great/1") n;; ts (s "mary/1") n;; ts great n;; ts (src "mary/1"%string) (-1)%Z;;
  remove_belief (s "john/1") great;;
  ts (s "graphbrain/1") n;; ts (s "great/1") n;; ts great (-1)%Z;; ts (src "john/1"%string) (-1)%Z) = true.
Proof. vm_compute. reflexivity. Qed.

(** ** tests/test_mysql.py: the tests of aux_backend on MySQL (its own row counts and
    refusals, autocommit); symbols_with_root and f_all send one SELECT and are as above *)

Definition on {A} (p : prog A) : M A := run_on p.
Definition my_passes (m : M unit) : bool := match m (start true) with (Ok _, _, _) => true | _ => false end.
Definition my_add (v : value) (t : Z) : M unit := on (p_add v t);; ret tt.
Example mysql_ops : forallb (fun v => my_passes (my_add v (-1);; T (on (p_exists v));; on (p_remove v);; F (on (p_exists v))))
  [great; size_ (i 7); size_ f7; size_ (i (-7)); size_ fm7; src_] = true.
Proof. vm_compute. reflexivity. Qed.
Example mysql_destroy : my_passes (my_add src_ (-1);; T (on (p_exists src_));; on p_destroy;; F (on (p_exists src_))) = true.
Proof. vm_compute. reflexivity. Qed.
Example mysql_pattern2edges : my_passes (
  my_add great (-1);; my_add says (-1);;
  EqS (on (p_pattern2edges (VTup [VNone; s "graphbrain/1"; VNone]))) [great];;
  EqS (on (p_pattern2edges (VTup [s "is"; s "graphbrain/1"; VNone]))) [great];;
  EqS (on (p_pattern2edges (VTup [s "x"; VNone; VNone]))) [];;
  EqS (on (p_pattern2edges (VTup [s "says"; VNone; great]))) [says];;
  on (p_remove great);; on (p_remove says)) = true.
Proof. vm_compute. reflexivity. Qed.
Example mysql_star : my_passes (my_add great (-1);; EqS (on (p_star (s "graphbrain/1"))) [great];; EqS (on (p_star (s "graphbrain/2"))) [];; on (p_remove great)) = true.
Proof. vm_compute. reflexivity. Qed.
Example mysql_degree :
  let deg v n := EqZ (on (p_degree v)) n in
  my_passes (
  deg (s "graphbrain/1") 0%Z;;
  my_add great (-1);; deg (s "graphbrain/1") 1%Z;; deg (s "great/1") 1%Z;;
  my_add (size_ (i 7)) (-1);; deg (s "graphbrain/1") 2%Z;; deg (s "great/1") 1%Z;;
  on (p_remove great);; deg (s "graphbrain/1") 1%Z;; deg (s "great/1") 0%Z;;
  on (p_remove (size_ (i 7)));; deg (s "graphbrain/1") 0%Z) = true.
Proof. vm_compute. reflexivity. Qed.
Example mysql_timestamp :
  let ts v n := EqZ (on (p_timestamp v)) n in let n := 123456789%Z in
  my_passes (
  on p_destroy;; ts (s "graphbrain/1") (-1)%Z;; my_add great n;;
  ts (s "graphbrain/1") n;; ts (s "great/1") n;; ts great n;;
  on (p_remove great);; ts (s "graphbrain/1") n;; ts (s "great/1") n;; ts great (-1)%Z) = true.
Proof. vm_compute. reflexivity. Qed.
Example mysql_multiple : my_passes (
  my_add (VTup [great; src_]) (-1);; T (on (p_exists great));; T (on (p_exists src_));;
  on (p_remove (VTup [great; src_]));; F (on (p_exists great));; F (on (p_exists src_))) = true.
Proof. vm_compute. reflexivity. Qed.
Example mysql_batch_exec : my_passes (
  on (p_batch_exec [p_add great (-1);p pret tt; p_add src_ (-1);p pret tt]);; T (on (p_exists great));; T (on (p_exists src_));;
  on (p_batch_exec [p_remove great; p_remove src_]);; F (on (p_exists great));; F (on (p_exists src_))) = true.
Proof. vm_compute. reflexivity. Qed.

(** ** tests/test_null.py: the same calls on the Null backend, which answers as if empty *)

Example null_tests :
  forallb (fun v => match null_add v (-1), null_exists v, null_remove v with Ok _, Ok false, Ok _ => true | _, _, _ => false end)
    [great; size_ (i 7); size_ f7; size_ (i (-7)); size_ fm7; src_; VTup [great; src_]] = true
  /\ null_pattern2edges (VTup [VNone; s "graphbrain/1"; VNone]) = Ok [] /\ null_star (s "graphbrain/1") = Ok []
  /\ null_symbols_with_root (s "graphbrain") = Ok [] /\ null_degree (s "graphbrain/1") = Ok 0%Z /\ null_timestamp great = Ok (-1)%Z
  /\ null_f_all label = Ok [] /\ null_destroy = Ok tt.
Proof. vm_compute. easy. Qed.
