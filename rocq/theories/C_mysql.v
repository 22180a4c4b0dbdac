(** * C_mysql.v -- property theorem C69 (the calls on MySQL's engine) *)

From Verif Require Import Py M_symbol M_edge M_sql M_mysql M_hypergraph P_py Spec P_edge P_perm P_range P_query
  S_history M_driver P_ops P_hist P_graph P_answers P_rows P_crash S_steps M_steps P_steps P_owned C_steps P_mysql.
From Coq Require Import Permutation Factorial String.
Open Scope list_scope.

(** Reading guide.  [run_ops_on ord ops c]: the calls [ops] on the engine of the
    connection [c] ([start true]: MySQL with an empty database); [run_ops]: the same
    calls on the tables of M_sql.  [my_fine h] (S_steps): in the history [h], every
    add that puts an edge in is of an edge with texts of less than 250 characters,
    and does not repeat a vertex record. *)

(** C69.  On MySQL, whose driver counts changed rows only and whose primary keys
    are 250 characters long, the calls return normally and leave the same tables as
    in the model that the other theorems are about, provided that the history is
    fine; and queries are always answered in the same way. *)
Theorem C69_mysql_runs_as_modelled :
  forall V ord ops, noalias V -> (forall l, Permutation (ord l) l) -> Forall (op_in V) ops -> my_fine (history ops) ->
    exists c tr, run_ops_on ord ops (start true) = (Ok tt, c, tr) /\ run_ops ord ops (start true) = (Ok tt, c, tr) /\ reached V ops c.
Proof.
  intros V ord ops HV Ho Hi Hf. destruct (reachable_ready ord V true ops HV Ho Hi) as (c & tr & E & _ & _). exists c, tr.
  split; [|split; [exact E|now exists ord, true, tr]].
  rewrite <- E. apply (ops_same ord V ops []); auto. constructor; [reflexivity|reflexivity|apply Inv_empty].
Qed.
Print Assumptions C69_mysql_runs_as_modelled.
Theorem C69_queries_do_not_depend_on_the_engine :
  forall c, (forall e, run_on (p_exists e) c = exists_ e c) /\ (forall p, run_on (p_pattern2edges (VTup p)) c = pattern2edges (VTup p) c)
    /\ (forall a, run_on (p_star a) c = star a c) /\ (forall v, run_on (p_degree v) c = degree v c)
    /\ (forall v, run_on (p_timestamp v) c = timestamp v c) /\ (forall e, run_on (p_sources e) c = sources e c)
    /\ (forall r, run_on (p_symbols_with_root r) c = symbols_with_root r c) /\ (forall B (f : value * Z -> B), run_on (p_f_all f) c = f_all f c).
Proof.
  intros c. split; [|split; [|split; [|split; [|split; [|split; [|split]]]]]].
  - intros e. rewrite (blind_exists e c). apply ir_exists.
  - intros p. rewrite (blind_pattern (VTup p) c). apply ir_pattern.
  - intros a. rewrite (blind_star a c). apply ir_star.
  - intros v. rewrite (blind_degree v c). apply ir_degree.
  - intros v. rewrite (blind_timestamp v c). apply ir_timestamp.
  - intros e. rewrite (blind_sources e c). apply ir_sources.
  - intros r. rewrite (blind_symbols r c). apply ir_symbols.
  - intros B f. rewrite (blind_f_all f c). apply ir_f_all.
Qed.
Print Assumptions C69_queries_do_not_depend_on_the_engine.

(** A process that works alone on MySQL: its steps (M_steps) are those of the
    model, if the history is fine. *)
Theorem C69_sequential_runs_are_runs :
  forall V flt ord ops i, noalias V -> (forall l, Permutation (ord l) l) -> Forall (op_in V) ops -> my_fine (history ops) ->
    exists w c, steps flt true ord (start_world db_empty (fun j => if Nat.eqb j i then ops else [])) w
      /\ between_calls i [] w /\ wd_disk w = c_comm c /\ view i w = c_work c /\ c_auto c = true /\ reached V ops c.
Proof.
  intros V flt ord ops i HV Ho Hi Hf. destruct (reachable_ready ord V true ops HV Ho Hi) as (c & tr & E & _ & A). set (w0 := start_world db_empty (fun j => if Nat.eqb j i then ops else [])).
  assert (E' : run_ops_on ord ops (start true) = (Ok tt, c, tr)).
  { rewrite <- E. apply (ops_same ord V ops []); auto. constructor; [reflexivity|reflexivity|apply Inv_empty]. }
  destruct (solo_ops flt true ord i ops (start true) c tr w0 E') as (w & S & Al & P).
  - constructor; try reflexivity; intros X; discriminate X.
  - cbn. unfold start_proc. now rewrite Nat.eqb_refl.
  - exists w, c. split; [exact S|]. unfold between_calls. cbv zeta. rewrite P. split; [split; [reflexivity|split; reflexivity]|].
    split; [apply Al|]. split; [apply Al|]. split; [exact A|now exists ord, true, tr].
Qed.
Print Assumptions C69_sequential_runs_are_runs.

(** An add that repeats a record raises on MySQL: the edge is not put in (nor
    anything else found or not found), but its elements have been counted. *)
Theorem C69_repeated_record_is_lost :
  forall V ord ops c e t, noalias V -> reached V ops c -> c_auto c = true -> edge_in V e -> int64 t = true -> short_texts e -> same_record e t (history ops) ->
    exists c' tr, run_op_on ord (OAdd e t) c = (Err IntegrityError, c', tr)
      /\ c_comm c' = c_work c'
      /\ (forall x, edge_in V x -> exists b, gives (exists_ x) c b /\ gives (exists_ x) c' b /\ (x = e -> b = false))
      /\ forall v, db_vertex v = true -> exists d, gives (degree v) c d /\ gives (degree v) c' (d + Z.of_nat (count v (elems e)))%Z.
Proof.
  intros V ord ops c e t HV Hr Ha He Ht Hs Hrep. pose proof (reached_ready V ops c HV Hr) as R. pose proof (reached_in V ops c Hr) as Hh.
  destruct (add_repeat V (history ops) e t c HV Ha R Hh He Ht Hs Hrep) as (tr & E). cbv zeta in E.
  set (w := runs (List.map (fun x => touch (edge2str x) t) (elems e)) (c_work c)) in *.
  exists (Conn true w w CNone), tr. pose proof (rd_inv _ _ _ R) as I. pose proof (ready_live _ _ _ R) as L.
  assert (Pw : perms w = perms (c_work c)).
  { apply perms_same_runs. intros f d Hf. apply in_map_iff in Hf as (x & <- & _). apply perms_touch. }
  split; [|split; [reflexivity|split]].
  - cbn [run_op_on p_op]. rewrite run_on_bind. unfold bind. rewrite E. reflexivity.
  - intros x Hx. pose proof (Inv_exists V _ _ c x HV I eq_refl L Hx) as G. exists (memb x (stored (history ops))). split; [exact G|].
    split; [|intros ->; apply memb_nin; rewrite stored_present; apply Hrep].
    pose proof (wf_rows _ _ (i_wf _ _ _ I)) as Rk.
    destruct (exists_run V (c_work c) c x HV Rk eq_refl L Hx) as (b1 & G1 & H1).
    assert (Rw : rows_ok V w) by (unfold rows_ok in *; now rewrite Pw).
    destruct (exists_run V w (Conn true w w CNone) x HV Rw eq_refl ltac:(easy) Hx) as (b2 & G2 & H2).
    assert (b1 = memb x (stored (history ops))) by (unfold gives in G, G1; congruence). subst b1.
    unfold hit in H1, H2. rewrite Pw in H2. assert (b2 = memb x (stored (history ops))) as <-; [|exact G2].
    apply Bool.eq_true_iff_eq. rewrite H1, H2. reflexivity.
  - intros v Hv. pose proof (edge_in_db _ _ He) as De. destruct (db_edge_elems e De) as (Ee & Ae & Le).
    pose proof (degree_gives v c (rd_cur _ _ _ R) Hv) as G1. pose proof (degree_gives v (Conn true w w CNone) eq_refl Hv) as G2. cbn [c_work] in G2.
    unfold w in G2 at 3. rewrite (touch_runs _ _ _ v Ae Hv) in G2.
    exists (match vlook (edge2str v) (c_work c) with Some (d, _) => d | None => 0%Z end). split; [exact G1|].
    destruct (count v (elems e)) as [|n], (vlook (edge2str v) (c_work c)) as [[d s]|]; cbn [Z.of_nat] in *; rewrite ?Z.add_0_r; exact G2.
Qed.
Print Assumptions C69_repeated_record_is_lost.

(** ** concrete cases *)

Definition m_in : value := VTup [VStr (lit "is"); VStr (lit "sky"); VStr (lit "blue")].
Definition m_out : value := VTup [VStr (lit "says"); VStr (lit "mary"); m_in].
(** what a call or a list of calls returns or raises *)
Definition outcome {A} (x : res A * conn * list db) : res A := fst (fst x).

(** With the default timestamp -1, [same_record] is reached by three calls: an edge
    around (is sky blue) is added and removed, then (is sky blue) is added; that
    raises on MySQL, and does not on SQLite. *)
Theorem C69_default_timestamp_refuted :
  let ops := [OAdd m_out (-1); ORemove m_out; OAdd m_in (-1)] in
  Forall (op_in plain_values) ops
  /\ outcome (run_ops_on (fun l => l) ops (start true)) = Err IntegrityError
  /\ outcome (run_ops_on (fun l => l) ops (start false)) = Ok tt
  /\ ~ my_fine (history ops).
Proof.
  intros ops. assert (F : Forall (op_in plain_values) ops) by (repeat apply Forall_cons; try apply Forall_nil; cbn; edge_ok).
  assert (O : outcome (run_ops_on (fun l => l) ops (start true)) = Err IntegrityError) by (vm_compute; reflexivity).
  split; [exact F|]. split; [exact O|]. split; [vm_compute; reflexivity|]. intros Hf.
  destruct (C69_mysql_runs_as_modelled plain_values (fun l => l) ops plain_noalias (fun l => Permutation_refl l) F Hf) as (c & tr & E & _).
  rewrite E in O. discriminate O.
Qed.
Print Assumptions C69_default_timestamp_refuted.

(** A text of 250 characters: an edge with two elements beside it cannot be added
    on MySQL at all, since two of its index rows have the same key. *)
Definition m_long : value := VTup [VStr (lit "is"); VStr (repeat 97%N 250); VStr (lit "blue")].
Theorem C69_long_text_refuted :
  edge_in plain_values m_long
  /\ outcome (run_ops_on (fun l => l) [OAdd m_long 1] (start true)) = Err IntegrityError
  /\ outcome (run_ops_on (fun l => l) [OAdd m_long 1] (start false)) = Ok tt.
Proof. split; [apply edge_inb_ok; vm_compute; reflexivity|]. split; [vm_compute; reflexivity|vm_compute; reflexivity]. Qed.
Print Assumptions C69_long_text_refuted.

(** Histories whose adds have different times are fine, if the texts are short. *)
Theorem C69_different_times_are_fine :
  forall h, (forall e t, In (EAdd e t) h -> short_texts e) ->
    (forall later e t mid e' earlier, h <> later ++ EAdd e t :: mid ++ EAdd e' t :: earlier) -> my_fine h.
Proof.
  intros h Hs Hd later e t earlier E Np. split; [apply (Hs e t); rewrite E; apply in_app_iff; right; now left|].
  intros (_ & h0 & Eb & _). apply born_spec in Eb. destruct Eb as (mid & e' & E0 & _).
  apply (Hd later e t mid e' h0). now rewrite <- E0.
Qed.
Print Assumptions C69_different_times_are_fine.

Fixpoint total (l : list str) : nat := match l with [] => O | s :: l' => (List.length s + 1 + total l')%nat end.
Lemma total_perm l m : Permutation l m -> total l = total m.
Proof. induction 1; cbn; lia. Qed.
Lemma join_total l x : List.length (join [c_space] (l ++ [x])) = (total l + List.length x)%nat.
Proof.
  induction l as [|s l IH]; [reflexivity|]. cbn [app total]. destruct (l ++ [x]) as [|y m] eqn:E; [now destruct l|].
  rewrite join_cons, !app_length, IH. cbn [List.length]. lia.
Qed.
Lemma short_by e d : (forall k, (0 <= k < Z.of_nat (fact (List.length (elems e))))%Z -> (List.length (edge2str (VInt k)) <= d)%nat) ->
  (total (List.map edge2str (elems e)) + d < 250)%nat -> short_texts e.
Proof.
  intros Hd Ht p k P Hk. rewrite map_app. change (List.map edge2str [VInt k]) with [edge2str (VInt k)]. rewrite join_total. rewrite (total_perm _ (List.map edge2str (elems e))) by now apply Permutation_map.
  specialize (Hd k Hk). lia.
Qed.
Lemma short3 e : List.length (elems e) = 3%nat -> (total (List.map edge2str (elems e)) <? 249)%nat = true -> short_texts e.
Proof.
  intros L T. apply Nat.ltb_lt in T. apply (short_by e 1); [|lia]. rewrite L. intros k Hk. change (Z.of_nat (fact 3)) with 6%Z in Hk.
  assert (k = 0 \/ k = 1 \/ k = 2 \/ k = 3 \/ k = 4 \/ k = 5)%Z as D by lia. destruct D as [->|[->|[->|[->|[->| ->]]]]]; apply le_n.
Qed.
Example C69_nonvacuous :
  let ops := [OAdd m_out 1; ORemove m_out; OAdd m_in 2; OAdd m_in 2] in
  Forall (op_in plain_values) ops /\ my_fine (history ops)
  /\ outcome (run_ops_on (fun l => l) ops (start true)) = Ok tt
  /\ same_record m_in 1 (history [OAdd m_out 1; ORemove m_out]) /\ short_texts m_in.
Proof.
  assert (S1 : short_texts m_in) by (apply short3; reflexivity). assert (S2 : short_texts m_out) by (apply short3; reflexivity).
  intros ops. split; [repeat apply Forall_cons; try apply Forall_nil; cbn; edge_ok|]. split; [|split; [vm_compute; reflexivity|split; [|exact S1]]].
  - intros later e t earlier E Np. change (history ops) with [EAdd m_in 2; EAdd m_in 2; ERem m_out; EAdd m_out 1] in E.
    destruct later as [|? [|? [|? [|? later]]]]; cbn [app] in E; try (injection E as; subst; discriminate).
    + injection E as <- <- <-. exfalso. apply Np. apply stored_present. vm_compute. tauto.
    + injection E as _ <- <- <-. split; [exact S1|]. intros (_ & h0 & Eb & _). vm_compute in Eb. discriminate Eb.
    + injection E as _ _ _ <- <- <-. split; [exact S2|]. intros (_ & h0 & Eb & _). vm_compute in Eb. discriminate Eb.
    + apply (f_equal (@List.length ev)) in E. cbn in E. rewrite app_length in E. cbn in E. lia.
  - split; [rewrite <- stored_present; vm_compute; tauto|]. exists []. split; [vm_compute; reflexivity|vm_compute; reflexivity].
Qed.
