(** * C_cli.v -- property theorem C76 (choosing a backend, the command line) *)

From Verif Require Import Py M_symbol M_edge M_sql M_hypergraph M_batch M_wordnet M_schema P_py Spec P_edge P_perm P_range P_query
  S_history M_driver P_ops P_hist P_graph P_answers C_graph C_crash C_schema C_batch C_wordnet M_cli.
From Coq Require Import String Permutation.
Open Scope list_scope.

(** The dictionary has [v] under [k]. *)
Definition has (p : params) (k : string) (v : str) : Prop := exists p1 p2, p = p1 ++ (k, v) :: p2 /\ ~ In k (List.map fst p1).
Definition lacks (p : params) (k : string) : Prop := ~ In k (List.map fst p).
Lemma pget_has k p v : pget k p = Ok v <-> has p k v.
Proof.
  induction p as [|[k' v'] p IH]; cbn.
  - split; [discriminate|]. intros (p1 & p2 & E & _). now destruct p1.
  - destruct (String.eqb_spec k k') as [->|N].
    + split.
      * intros E. injection E as <-. exists [], p. now split.
      * intros ([|[a b] p1] & p2 & E & H); injection E as E1 E2; [congruence|]. exfalso. apply H. left. cbn. congruence.
    + rewrite IH. split.
      * intros (p1 & p2 & -> & H). exists ((k', v') :: p1), p2. split; [reflexivity|]. cbn. intros [X|X]; [congruence|contradiction].
      * intros ([|[a b] p1] & p2 & E & H); injection E as E1 E2; [congruence|]. exists p1, p2. split; [assumption|]. intros X. apply H. now right.
Qed.
Lemma pget_lacks k p : pget k p = Err KeyError <-> lacks p k.
Proof.
  unfold lacks. induction p as [|[k' v'] p IH]; cbn; [tauto|]. destruct (String.eqb_spec k k') as [->|N]; [split; [discriminate|intros H; exfalso; apply H; now left]|].
  rewrite IH. intuition congruence.
Qed.
Lemma pget_cases k p : (exists v, pget k p = Ok v) \/ pget k p = Err KeyError.
Proof. induction p as [|[k' v'] p IH]; cbn; [now right|]. destruct (String.eqb k k'); eauto. Qed.

(** What a backend needs: the value of "backend", and the other keys. *)
Definition needs (b : backend) : str * list (string * str) :=
  match b with
  | BNone => (lit "none", [])
  | BNull => (lit "null", [])
  | BSqlite f => (lit "sqlite", [("db"%string, f)])
  | BMysql h u pw d => (lit "mysql", [("host"%string, h); ("user"%string, u); ("password"%string, pw); ("db"%string, d)])
  end.
Definition known (n : str) : Prop := In n (List.map lit ["none"; "null"; "sqlite"; "mysql"]%string).

(** C76 (a).  HyperGraph(params) has the backend that "backend" names, with the values
    of the keys it needs; it raises RuntimeError exactly for an unknown name, and
    KeyError exactly when a key is missing. *)
Theorem C76_hypergraph_of_parameters :
  forall p,
    (forall b, make_hypergraph p = Ok b <-> has p "backend" (fst (needs b)) /\ forall k v, In (k, v) (snd (needs b)) -> has p k v)
    /\ (make_hypergraph p = Err RuntimeError <-> exists n, has p "backend" n /\ ~ known n)
    /\ (make_hypergraph p = Err KeyError <-> lacks p "backend" \/ (has p "backend" (lit "sqlite") /\ lacks p "db")
          \/ (has p "backend" (lit "mysql") /\ exists k, In k ["host"; "user"; "password"; "db"]%string /\ lacks p k)).
Proof.
  intros p. unfold make_hypergraph. setoid_rewrite <- pget_has. setoid_rewrite <- pget_lacks.
  destruct (pget_cases "backend" p) as [(n & En)| En]; rewrite En; cbn [rbind].
  2: { split; [|split].
    - intros b. split; [discriminate|]. now intros [H _].
    - split; [discriminate|]. now intros (n & H & _).
    - split; auto. }
  assert (Eq : forall m, str_eqb n (lit m) = true -> n = lit m) by (intros m H; now apply str_eqb_eq).
  destruct (str_eqb n (lit "none")) eqn:E1; [apply Eq in E1; subst n|]; [|destruct (str_eqb n (lit "null")) eqn:E2; [apply Eq in E2; subst n|]];
    [| |destruct (str_eqb n (lit "sqlite")) eqn:E3; [apply Eq in E3; subst n|]]; [| | |destruct (str_eqb n (lit "mysql")) eqn:E4; [apply Eq in E4; subst n|]].
  - split; [|split].
    + intros b. split; [intros H; injection H as <-; split; [reflexivity|intros k v []]|]. intros [H K]. destruct b; cbn in H; try discriminate. reflexivity.
    + split; [discriminate|]. intros (m & H & N). injection H as <-. exfalso. apply N. now left.
    + split; [discriminate|]. intros [H|[[H _]|[H _]]]; discriminate.
  - split; [|split].
    + intros b. split; [intros H; injection H as <-; split; [reflexivity|intros k v []]|]. intros [H K]. destruct b; cbn in H; try discriminate. reflexivity.
    + split; [discriminate|]. intros (m & H & N). injection H as <-. exfalso. apply N. right. now left.
    + split; [discriminate|]. intros [H|[[H _]|[H _]]]; discriminate.
  - destruct (pget_cases "db" p) as [(f & Ef)|Ef]; rewrite Ef; cbn [rbind].
    + split; [|split].
      * intros b. split.
        -- intros H. injection H as <-. split; [reflexivity|]. intros k v [H|[]]. injection H as <- <-. exact Ef.
        -- intros [H K]. destruct b; cbn in H; try discriminate. specialize (K "db"%string file (or_introl eq_refl)). congruence.
      * split; [discriminate|]. intros (m & H & N). injection H as <-. exfalso. apply N. right. right. now left.
      * split; [discriminate|]. intros [H|[[_ H]|[H _]]]; discriminate.
    + split; [|split].
      * intros b. split; [discriminate|]. intros [H K]. destruct b; cbn in H; try discriminate. specialize (K "db"%string file (or_introl eq_refl)). congruence.
      * split; [discriminate|]. intros (m & H & N). injection H as <-. exfalso. apply N. right. right. now left.
      * split; [|reflexivity]. intros _. right. left. now split.
  - assert (K : (exists b, (let? host := pget "host" p in let? user := pget "user" p in let? password := pget "password" p in let? dbname := pget "db" p in Ok (BMysql host user password dbname)) = Ok b
         /\ exists h u pw d, b = BMysql h u pw d /\ pget "host" p = Ok h /\ pget "user" p = Ok u /\ pget "password" p = Ok pw /\ pget "db" p = Ok d)
       \/ ((let? host := pget "host" p in let? user := pget "user" p in let? password := pget "password" p in let? dbname := pget "db" p in Ok (BMysql host user password dbname)) = Err KeyError
         /\ exists k, In k ["host"; "user"; "password"; "db"]%string /\ pget k p = Err KeyError)).
    { destruct (pget_cases "host" p) as [(h & Eh)|Eh]; rewrite Eh; cbn [rbind]; [|right; split; [reflexivity|]; eexists; split; [|exact Eh]; cbn; auto].
      destruct (pget_cases "user" p) as [(u & Eu)|Eu]; rewrite Eu; cbn [rbind]; [|right; split; [reflexivity|]; eexists; split; [|exact Eu]; cbn; auto].
      destruct (pget_cases "password" p) as [(w & Ew)|Ew]; rewrite Ew; cbn [rbind]; [|right; split; [reflexivity|]; eexists; split; [|exact Ew]; cbn; auto].
      destruct (pget_cases "db" p) as [(d & Ed)|Ed]; rewrite Ed; cbn [rbind]; [|right; split; [reflexivity|]; eexists; split; [|exact Ed]; cbn; auto].
      left. eexists. split; [reflexivity|]. now exists h, u, w, d. }
    destruct K as [(b0 & Eb & h & u & pw & d & -> & Eh & Eu & Ew & Ed)|(Ek & k & Hk & Nk)].
    + rewrite Eb. split; [|split].
      * intros b. split.
        -- intros H. injection H as <-. split; [reflexivity|]. cbn. intros k v [H|[H|[H|[H|[]]]]]; injection H as <- <-; assumption.
        -- intros [H K]. destruct b as [| | |h' u' pw' d']; cbn in H; try discriminate. cbn in K.
           pose proof (K "host"%string h' ltac:(auto)). pose proof (K "user"%string u' ltac:(auto)). pose proof (K "password"%string pw' ltac:(auto)). pose proof (K "db"%string d' ltac:(auto)). congruence.
      * split; [discriminate|]. intros (m & H & N). injection H as <-. exfalso. apply N. right. right. right. now left.
      * split; [discriminate|]. intros [H|[[H _]|[_ (k & Hk & Nk)]]]; [discriminate|discriminate|]. exfalso. destruct Hk as [<-|[<-|[<-|[<-|[]]]]]; congruence.
    + rewrite Ek. split; [|split].
      * intros b. split; [discriminate|]. intros [H K]. destruct b as [| | |h' u' pw' d']; cbn in H; try discriminate. cbn in K. exfalso.
        pose proof (K "host"%string h' ltac:(auto)). pose proof (K "user"%string u' ltac:(auto)). pose proof (K "password"%string pw' ltac:(auto)). pose proof (K "db"%string d' ltac:(auto)).
        destruct Hk as [<-|[<-|[<-|[<-|[]]]]]; congruence.
      * split; [discriminate|]. intros (m & H & N). injection H as <-. exfalso. apply N. right. right. right. now left.
      * split; [|reflexivity]. intros _. right. right. split; [reflexivity|]. now exists k.
  - assert (N : ~ known n). { unfold known. cbn. intros [<-|[<-|[<-|[<-|[]]]]]; discriminate. }
    split; [|split].
    + intros b. split; [discriminate|]. intros [H _]. injection H as ->. exfalso. apply N. destruct b; cbn; auto.
    + split; [|reflexivity]. intros _. now exists n.
    + split; [discriminate|]. intros [H|[[H _]|[H _]]]; [discriminate| |]; injection H as ->; discriminate.
Qed.
Print Assumptions C76_hypergraph_of_parameters.

(** C76 (b).  The commands of gbrain, with any options.  With --backend sqlite (or
    without --backend) they open the file --db (or gb.db), which then has all tables and
    everything it had; no other file changes.  With --backend mysql no command can work,
    whatever the other options are: KeyError. *)
Theorem C76_command_line :
  forall cmd o fs,
    (given (op_backend o) "sqlite" = lit "sqlite" -> (forall l, cmd <> Wordnet l) -> regular (fs (given (op_db o) "gb.db")) ->
       exists fs', run_command cmd o fs = (Ok tt, fs') /\ (exists w, to_db (fs' (given (op_db o) "gb.db")) = Some w)
         /\ keeps (fs (given (op_db o) "gb.db")) (fs' (given (op_db o) "gb.db")) /\ forall path, path <> given (op_db o) "gb.db" -> fs' path = fs path)
    /\ (op_backend o = Some (lit "null") -> run_command cmd o fs = (Ok tt, fs))
    /\ (op_backend o = Some (lit "mysql") -> run_command cmd o fs = (Err KeyError, fs))
    /\ (forall n, op_backend o = Some n -> ~ known n -> run_command cmd o fs = (Err RuntimeError, fs)).
Proof.
  intros cmd o fs. unfold run_command. split; [|split; [|split]].
  - intros E Nw R. assert (M : make_hypergraph (cli o) = Ok (BSqlite (given (op_db o) "gb.db"))) by (unfold make_hypergraph, cli; cbn [pget String.eqb Ascii.eqb Bool.eqb rbind]; rewrite E; reflexivity).
    rewrite M. set (path := given (op_db o) "gb.db") in *. exists (put_file path (opened (fs path)) fs). split; [destruct cmd as [|l|]; [reflexivity|now destruct (Nw l)|reflexivity]|].
    assert (P : put_file path (opened (fs path)) fs path = opened (fs path)) by (unfold put_file; now rewrite str_eqb_refl). rewrite P.
    destruct (C50_opening (fs path) R) as (K & W & _). split; [exact W|]. split; [apply (K (fun _ => false)), opened_in|].
    intros q N. unfold put_file. destruct (str_eqb q path) eqn:Eq; [apply str_eqb_eq in Eq; contradiction|reflexivity].
  - intros E. unfold cli. now rewrite E.
  - intros E. unfold cli. now rewrite E.
  - intros n E N. assert (M : make_hypergraph (cli o) = Err RuntimeError).
    { apply C76_hypergraph_of_parameters. exists n. split; [|exact N]. unfold cli. rewrite E. exists [], (tl (cli o)). unfold cli. now rewrite E. }
    now rewrite M.
Qed.
Print Assumptions C76_command_line.

(** a file that holds a hypergraph *)
Lemma to_of_db w : to_db (opened (of_db w)) = Some w.
Proof.
  assert (T : to_db (of_db w) = Some w).
  { destruct w as [vs ps]. unfold to_db, of_db. cbn. do 2 f_equal. rewrite map_map. cbn. induction vs as [|[i [d t]] vs IH]; [reflexivity|]. cbn. now rewrite IH. }
  assert (R : regular (of_db w)).
  { intros t r E. cbn in E. injection E as <-. cbn. intros H. apply in_map_iff in H as (x & <- & _). reflexivity. }
  destruct (C50_opening (of_db w) R) as (_ & _ & _ & _ & K & _). now rewrite (K w T).
Qed.

Lemma exists_auto x a a' w b : exists_ x (open_db a w) = (Ok b, open_db a w, []) -> exists_ x (open_db a' w) = (Ok b, open_db a' w, []).
Proof.
  unfold exists_, pattern2edges, bind, lift, ret, open_cursor, close_cursor, close_handle, query, get_cur, open_db. cbn [c_cur c_work c_auto c_comm usable].
  destruct (as_seq x) as [it|]; [|discriminate]. cbn. destruct (str_plus_1 (nodes2str (filter not_none it))) as [e|]; [|discriminate]. cbn.
  destruct (negb (bindable (nodes2str (filter not_none it)) && (bindable e && true))); [discriminate|]. destruct (cur2edges _) as [es|]; [|discriminate]. cbn.
  destruct (mapr _ es); [|discriminate]. cbn. intros H. injection H as ->. reflexivity.
Qed.

(** C76 (c).  gbrain wordnet on a file that holds a reachable hypergraph (also a new
    file): whoever opens the file afterwards finds what was there and exactly the
    relation edges of WordNet with their links -- also when the command raised. *)
Theorem C76_wordnet_command :
  forall V ops c l o fs, noalias V -> has_texts V -> reached V ops c -> c_auto c = false -> Forall synset_ok l ->
    given (op_backend o) "sqlite" = lit "sqlite" -> to_db (opened (fs (given (op_db o) "gb.db"))) = Some (c_comm c) ->
    exists r fs' w, run_command (Wordnet l) o fs = (r, fs')
      /\ to_db (opened (fs' (given (op_db o) "gb.db"))) = Some w
      /\ (forall path, path <> given (op_db o) "gb.db" -> fs' path = fs path)
      /\ forall x, edge_in V x -> exists b b', exists_ x c = (Ok b, c, []) /\ exists_ x (open_db false w) = (Ok b', open_db false w, [])
           /\ (b' = true <-> b = true \/ exists s e, In s l /\ fact s e /\ (x = e \/ x = link_edge (VStr (lit "wordnet/gb")) e)).
Proof.
  intros V ops c l o fs HV HT Hr Ha Hl E Hf. destruct (C53_wordnet_reader V ops c l HV HT Hr Hl) as (r & c2 & Er & _ & Du & X).
  pose proof (reached_ready V ops c HV Hr) as R. assert (Ec : open_db false (c_comm c) = c).
  { destruct R as [Cu Sy _]. destruct c as [a m k u]. cbn in *. now subst. }
  assert (M : make_hypergraph (cli o) = Ok (BSqlite (given (op_db o) "gb.db"))) by (unfold make_hypergraph, cli; cbn [pget String.eqb Ascii.eqb Bool.eqb rbind]; rewrite E; reflexivity).
  set (path := given (op_db o) "gb.db") in *.
  exists r, (put_file path (of_db (c_comm c2)) fs), (c_comm c2). split; [|split; [|split]].
  - unfold run_command. rewrite M, Hf, Ec, Er. reflexivity.
  - unfold put_file. rewrite str_eqb_refl. apply to_of_db.
  - intros q N. unfold put_file. destruct (str_eqb q path) eqn:Eq; [apply str_eqb_eq in Eq; contradiction|reflexivity].
  - intros x Hx. destruct (X x Hx) as (b & b' & E1 & E2 & H). exists b, b'. split; [exact E1|]. split; [|exact H].
    rewrite <- Du in E2. now apply (exists_auto x (c_auto c2) false).
Qed.
Print Assumptions C76_wordnet_command.
(** The hypotheses are met: a new file, and one synset. *)
Example C76_nonvacuous :
  let fs := fun _ : str => File None None in
  to_db (opened (fs (lit "gb.db"))) = Some (c_comm (start false)) /\ reached plain_values [] (start false)
  /\ given (op_backend (Options None None None None)) "sqlite" = lit "sqlite" /\ regular (fs (lit "gb.db"))
  /\ run_command Create (Options (Some (lit "mysql")) (Some (lit "wiki")) (Some (lit "root")) None) fs = (Err KeyError, fs).
Proof.
  cbv zeta. split; [reflexivity|]. split; [exists (fun l => l), false, []; split; [reflexivity|split; [constructor|reflexivity]]|].
  split; [reflexivity|]. split; [intros t r E; discriminate|reflexivity].
Qed.
