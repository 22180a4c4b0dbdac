(** * C_schema.v -- property theorem C50 (opening a database) *)

From Verif Require Import Py M_sql M_schema.
From Coq Require Import String.
Open Scope list_scope.

(** A row of the table vertices is [vid] with the value [v] in column [c]. *)
Definition vertex_cell (f : file) (vid : str) (c : string) (v : Z) : Prop :=
  exists t vs i, f_vertices f = Some t /\ In (vid, vs) (vt_rows t) /\ nth_error (vt_cols t) i = Some c /\ nth_error vs i = Some v.
Definition vertex_ids (f : file) : list str := match f_vertices f with Some t => List.map fst (vt_rows t) | None => [] end.
Definition perm_rows (f : file) : list str := match f_perms f with Some l => l | None => [] end.

(** A file: every row has a value in every column. *)
Definition regular (f : file) : Prop :=
  forall t r, f_vertices f = Some t -> In r (vt_rows t) -> List.length (snd r) = List.length (vt_cols t).

(** Nothing of [f] is lost in [g]. *)
Definition keeps (f g : file) : Prop :=
  vertex_ids g = vertex_ids f /\ perm_rows g = perm_rows f
  /\ forall vid c v, vertex_cell f vid c v -> vertex_cell g vid c v.

Lemma keeps_refl f : keeps f f.
Proof. repeat apply conj; auto. Qed.
Lemma keeps_trans f g h : keeps f g -> keeps g h -> keeps f h.
Proof. intros (A1 & A2 & A3) (B1 & B2 & B3). split; [congruence|]. split; [congruence|]. auto. Qed.

Lemma ddl_keeps s f g : regular f -> ddl_run s f = Ok g -> keeps f g /\ regular g.
Proof.
  intros R. destruct s as [|name d|]; cbn.
  - destruct (f_vertices f) eqn:E; [discriminate|]. intros H. injection H as <-. split.
    + split; [cbn; unfold vertex_ids; now rewrite E|]. split; [reflexivity|]. intros vid c v (t & vs & i & X & _). congruence.
    + intros t r H. cbn in H. injection H as <-. intros [].
  - destruct (f_vertices f) as [t|] eqn:E; [|discriminate]. destruct (existsb _ _); [discriminate|]. intros H. injection H as <-. split.
    + split; [cbn; unfold vertex_ids; rewrite E; cbn; now rewrite map_map|]. split; [reflexivity|].
      intros vid c v (t' & vs & i & X & Hr & Hc & Hv). rewrite E in X. injection X as <-.
      exists (VTable (vt_cols t ++ [name]) (List.map (fun r => (fst r, snd r ++ [d])) (vt_rows t))), (vs ++ [d]), i.
      split; [reflexivity|]. split; [|split].
      * cbn. apply in_map_iff. now exists (vid, vs).
      * cbn. rewrite nth_error_app1; [exact Hc|]. apply nth_error_Some. congruence.
      * rewrite nth_error_app1; [exact Hv|]. apply nth_error_Some. congruence.
    + intros t' r H. cbn in H. injection H as <-. cbn. intros Hr. apply in_map_iff in Hr as (r0 & <- & Hr). cbn.
      rewrite !app_length. now rewrite (R t r0 E Hr).
  - destruct (f_perms f) eqn:E; [discriminate|]. intros H. injection H as <-. split.
    + split; [reflexivity|]. split; [unfold perm_rows; now rewrite E|]. intros vid c v (t & vs & i & X). now exists t, vs, i.
    + intros t r H. cbn in H. now apply R.
Qed.
Lemma exec_keeps b s f : regular f -> keeps f (exec_or_ignore b s f) /\ regular (exec_or_ignore b s f).
Proof.
  intros R. unfold exec_or_ignore. destruct b; [split; [apply keeps_refl|exact R]|].
  destruct (ddl_run s f) eqn:E; [now apply (ddl_keeps s)|]. split; [apply keeps_refl|exact R].
Qed.
Lemma steps_keeps busy ss : forall n f g, regular f -> In g (create_steps busy n ss f) -> keeps f g /\ regular g.
Proof.
  induction ss as [|s ss IH]; intros n f g R; cbn; [intros []|]. destruct (exec_keeps (busy n) s f R) as [K R']. intros [<-|H]; [now split|].
  destruct (IH _ _ _ R' H) as [K2 R2]. split; [now apply (keeps_trans f (exec_or_ignore (busy n) s f) g)|exact R2].
Qed.

(** the shape that matters: which tables and columns are there *)
Lemma opened_eq f : opened f =
  File (Some (let t := match f_vertices f with Some t => t | None => VTable [] [] end in
              let t1 := if existsb (String.eqb "degree") (vt_cols t) then t
                        else VTable (vt_cols t ++ ["degree"%string]) (List.map (fun r => (fst r, snd r ++ [0%Z])) (vt_rows t)) in
              if existsb (String.eqb "timestamp") (vt_cols t1) then t1
              else VTable (vt_cols t1 ++ ["timestamp"%string]) (List.map (fun r => (fst r, snd r ++ [(-1)%Z])) (vt_rows t1))))
       (Some (perm_rows f)).
Proof.
  destruct f as [v p]. unfold opened, create_tables, create_stmts, create_steps, exec_or_ignore, ddl_run, perm_rows.
  destruct v as [t|]; cbn [f_vertices f_perms last];
  [destruct (existsb (String.eqb "degree") (vt_cols t)) eqn:D; cbn [f_vertices f_perms vt_cols];
   [destruct (existsb (String.eqb "timestamp") (vt_cols t)) eqn:T|destruct (existsb (String.eqb "timestamp") (vt_cols t ++ ["degree"%string])) eqn:T];
   cbn [f_vertices f_perms vt_cols]; destruct p; reflexivity|].
  destruct p; reflexivity.
Qed.

(** ** What the queries see, by column name, defaults for missing columns *)
Definition cell (name : string) (d : Z) (cols : list string) (vs : list Z) : Z :=
  match col_index name cols with Some i => nth i vs 0%Z | None => d end.
Definition view_v (t : vtable) : list (str * (Z * Z)) :=
  List.map (fun r => (fst r, (cell "degree" 0 (vt_cols t) (snd r), cell "timestamp" (-1) (vt_cols t) (snd r)))) (vt_rows t).
Definition view (f : file) : db := Db (match f_vertices f with Some t => view_v t | None => [] end) (perm_rows f).

Lemma col_index_app n l m : col_index n (l ++ [m]) =
  match col_index n l with Some i => Some i | None => if String.eqb n m then Some (List.length l) else None end.
Proof.
  induction l as [|a l IH]; cbn; [now destruct (String.eqb n m)|]. destruct (String.eqb n a); [reflexivity|]. rewrite IH.
  destruct (col_index n l); [reflexivity|]. now destruct (String.eqb n m).
Qed.
Lemma col_index_lt n l i : col_index n l = Some i -> (i < List.length l)%nat.
Proof.
  revert i. induction l as [|a l IH]; cbn; [discriminate|]. intros i. destruct (String.eqb n a); [intros H; injection H as <-; lia|].
  destruct (col_index n l) as [j|]; [|discriminate]. intros H. injection H as <-. specialize (IH j eq_refl). lia.
Qed.
Lemma col_index_in n l : existsb (String.eqb n) l = true <-> exists i, col_index n l = Some i.
Proof.
  induction l as [|a l IH]; cbn; [split; [discriminate|intros (i & H); discriminate]|]. destruct (String.eqb n a); cbn.
  - split; [intros _; now exists O|reflexivity].
  - rewrite IH. split; intros (i & H).
    + exists (S i). now rewrite H.
    + destruct (col_index n l) as [j|]; [now exists j|discriminate].
Qed.
Lemma cell_add n d m dm cols vs : List.length vs = List.length cols -> (n = m -> d = dm) ->
  cell n d (cols ++ [m]) (vs ++ [dm]) = cell n d cols vs.
Proof.
  intros L D. unfold cell. rewrite col_index_app. destruct (col_index n cols) as [i|] eqn:E.
  - rewrite app_nth1; [reflexivity|]. rewrite L. now apply (col_index_lt n).
  - destruct (String.eqb_spec n m) as [->|]; [|reflexivity]. rewrite <- L, nth_middle. symmetry. now apply D.
Qed.
Lemma exec_view b s f : regular f -> In s create_stmts -> view (exec_or_ignore b s f) = view f.
Proof.
  intros R Hs. unfold exec_or_ignore. destruct b; [reflexivity|].
  assert (A : forall name d t, (name = "degree"%string -> 0%Z = d) -> (name = "timestamp"%string -> (-1)%Z = d) -> f_vertices f = Some t ->
     view_v (VTable (vt_cols t ++ [name]) (List.map (fun r => (fst r, snd r ++ [d])) (vt_rows t))) = view_v t).
  { intros name d t H1 H2 E. unfold view_v. cbn [vt_rows vt_cols]. rewrite map_map. apply map_ext_in. intros r Hr. cbn [fst snd].
    pose proof (R t r E Hr) as L. rewrite !cell_add; auto. }
  cbn in Hs. destruct Hs as [<-|[<-|[<-|[<-|[]]]]]; cbn [ddl_run].
  - unfold view, perm_rows. destruct (f_vertices f) as [t|] eqn:E; [now rewrite E|reflexivity].
  - unfold view, perm_rows. destruct (f_vertices f) as [t|] eqn:E; [|now rewrite E]. destruct (existsb _ _); [now rewrite E|]. cbn [f_vertices f_perms].
    rewrite (A "degree"%string 0%Z t); [reflexivity|reflexivity|discriminate|reflexivity].
  - unfold view, perm_rows. destruct (f_vertices f) as [t|] eqn:E; [|now rewrite E]. destruct (existsb _ _); [now rewrite E|]. cbn [f_vertices f_perms].
    rewrite (A "timestamp"%string (-1)%Z t); [reflexivity|discriminate|reflexivity|reflexivity].
  - unfold view, perm_rows. destruct (f_perms f) as [t|] eqn:E; [now rewrite E|reflexivity].
Qed.
Lemma steps_view busy ss : incl ss create_stmts -> forall n f g, regular f -> In g (create_steps busy n ss f) -> view g = view f.
Proof.
  induction ss as [|s ss IH]; intros Hs n f g R; cbn; [intros []|]. destruct (exec_keeps (busy n) s f R) as [_ R'].
  assert (E : view (exec_or_ignore (busy n) s f) = view f) by (apply exec_view; [exact R|apply Hs; now left]).
  intros [<-|H]; [exact E|]. rewrite <- E. eapply IH; [intros x Hx; apply Hs; now right|exact R'|exact H].
Qed.
Lemma opened_in f : In (opened f) (create_tables (fun _ => false) f).
Proof. unfold opened, create_tables, create_stmts, create_steps. cbn [last In]. auto 6. Qed.
Lemma opened_view f : regular f -> view (opened f) = view f.
Proof. intros R. apply (steps_view (fun _ => false) create_stmts (incl_refl _) 0 f); [exact R|apply opened_in]. Qed.
Lemma opened_complete f : exists t ps, f_vertices (opened f) = Some t /\ f_perms (opened f) = Some ps
   /\ existsb (String.eqb "degree") (vt_cols t) = true /\ existsb (String.eqb "timestamp") (vt_cols t) = true.
Proof.
  rewrite opened_eq. cbn [f_vertices f_perms]. set (t0 := match f_vertices f with Some t => t | None => VTable [] [] end).
  set (t1 := if existsb (String.eqb "degree") (vt_cols t0) then t0 else VTable (vt_cols t0 ++ ["degree"%string]) (List.map (fun r => (fst r, snd r ++ [0%Z])) (vt_rows t0))).
  assert (D : existsb (String.eqb "degree") (vt_cols t1) = true).
  { unfold t1. destruct (existsb (String.eqb "degree") (vt_cols t0)) eqn:E; [exact E|]. cbn [vt_cols]. rewrite existsb_app. now rewrite orb_true_r. }
  cbv zeta. destruct (existsb (String.eqb "timestamp") (vt_cols t1)) eqn:T.
  - now exists t1, (perm_rows f).
  - eexists _, _. split; [reflexivity|]. split; [reflexivity|]. cbn [vt_cols]. rewrite !existsb_app, D. cbn. now rewrite orb_true_r.
Qed.
Lemma complete_view f t ps : f_vertices f = Some t -> f_perms f = Some ps ->
  existsb (String.eqb "degree") (vt_cols t) = true -> existsb (String.eqb "timestamp") (vt_cols t) = true -> to_db f = Some (view f).
Proof.
  intros E1 E2 D T. unfold to_db, view, perm_rows. rewrite E1, E2. apply col_index_in in D as (i & D). apply col_index_in in T as (j & T).
  rewrite D, T. f_equal. f_equal. unfold view_v. apply map_ext. intros r. unfold cell. now rewrite D, T.
Qed.
Lemma opened_to_db f : regular f -> to_db (opened f) = Some (view f).
Proof.
  intros R. destruct (opened_complete f) as (t & ps & E1 & E2 & D & T). rewrite (complete_view _ t ps E1 E2 D T). f_equal. now apply opened_view.
Qed.
Lemma opened_complete_id f t ps : f_vertices f = Some t -> f_perms f = Some ps ->
  existsb (String.eqb "degree") (vt_cols t) = true -> existsb (String.eqb "timestamp") (vt_cols t) = true -> opened f = f.
Proof.
  intros E1 E2 D T. rewrite opened_eq. unfold perm_rows. rewrite E1, E2. cbv zeta. rewrite D, T. destruct f as [v p]. cbn in *. now subst.
Qed.

(** C50.  [f]: any database file (tables and columns may be missing, e.g. one
    made by an older version or by an interrupted creation); [busy]: statements
    the engine refuses while opening; [g]: the file at any moment of an opening. *)
Theorem C50_opening :
  forall f, regular f ->
    (** nothing is lost at any moment of an opening, refused statements or not *)
    (forall busy g, In g (create_tables busy f) -> keeps f g)
    (** an opening that is not refused anything leaves a complete database *)
    /\ (exists w, to_db (opened f) = Some w)
    (** opening again changes nothing *)
    /\ opened (opened f) = opened f
    (** dying at any moment of an opening and opening again: the same database *)
    /\ (forall busy g, In g (create_tables busy f) -> to_db (opened g) = to_db (opened f))
    (** a complete database is what it was; a new file is the empty hypergraph *)
    /\ (forall w, to_db f = Some w -> opened f = f)
    /\ to_db (opened (File None None)) = Some db_empty.
Proof.
  intros f R. split; [|split; [|split; [|split; [|split]]]].
  - intros busy g H. apply (steps_keeps busy create_stmts 0 f g R H).
  - exists (view f). now apply opened_to_db.
  - destruct (opened_complete f) as (t & ps & E1 & E2 & D & T). now apply (opened_complete_id _ t ps).
  - intros busy g H. destruct (steps_keeps busy create_stmts 0 f g R H) as [_ Rg]. rewrite !opened_to_db by assumption. f_equal.
    exact (steps_view busy create_stmts (incl_refl _) 0 f g R H).
  - intros w H. unfold to_db in H. destruct (f_vertices f) as [t|] eqn:E1; [|discriminate]. destruct (f_perms f) as [ps|] eqn:E2; [|discriminate].
    destruct (col_index "degree" (vt_cols t)) as [i|] eqn:D; [|discriminate]. destruct (col_index "timestamp" (vt_cols t)) as [j|] eqn:T; [|discriminate].
    apply (opened_complete_id f t ps E1 E2); apply col_index_in; eauto.
  - reflexivity.
Qed.
Print Assumptions C50_opening.
(** an old file: no degree column, no perms *)
Definition c50_old : file := File (Some (VTable ["timestamp"%string] [(lit "a", [7%Z]); (lit "b", [8%Z])])) None.
Example C50_nonvacuous : regular c50_old
  /\ to_db (opened c50_old) = Some (Db [(lit "a", (0, 7)%Z); (lit "b", (0, 8)%Z)] [])
  /\ List.length (create_tables (fun _ => false) c50_old) = 4%nat
  /\ to_db (last (create_tables (fun n => Nat.eqb n 1) (File None None)) (File None None)) = None
  /\ to_db (opened (last (create_tables (fun n => Nat.eqb n 1) (File None None)) (File None None))) = Some db_empty.
Proof.
  split; [|repeat apply conj; vm_compute; reflexivity]. intros t r H. injection H as <-. cbn. intros [<-|[<-|[]]]; reflexivity.
Qed.
