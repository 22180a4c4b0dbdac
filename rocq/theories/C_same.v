(** * C_same.v -- property theorems C78-C80 (what answers depend on) *)

From Verif Require Import Py M_symbol M_edge M_sql M_hypergraph P_py Spec P_edge P_perm P_range P_query
  S_history M_driver P_ops P_hist P_graph P_answers P_rows P_crash C_graph M_queries.
From Coq Require Import Permutation Factorial String.
Open Scope list_scope.

(** ** C78: queries *)

(** In every state whatsoever the query [q] changes nothing, whether it answers or
    raises, and two connections that see the same tables (and whose shared cursor is
    closed on both or on neither) get the same outcome. *)
Definition pure {A} (q : M A) : Prop :=
  forall c, exists r, q c = (r, c, [])
    /\ forall c', c_work c' = c_work c -> (c_cur c' = CClosed <-> c_cur c = CClosed) -> q c' = (r, c', []).
(** The tables, the disk and the commit mode stay as they are; outside a batch
    everything does. *)
Definition harmless {A} (q : M A) : Prop :=
  forall c, exists r c', q c = (r, c', []) /\ c_work c' = c_work c /\ c_comm c' = c_comm c /\ c_auto c' = c_auto c
    /\ (c_cur c = CNone -> c' = c
          /\ forall c1, c_work c1 = c_work c -> c_cur c1 = CNone -> q c1 = (r, c1, [])).

Lemma pure_qq {A} (q : M A) : (forall c1 c2, compat c1 c2 -> qq q c1 q c2) -> pure q.
Proof.
  intros H c. destruct (H c c (compat_refl c)) as (r & E & _). exists r. split; [exact E|]. intros c' W C.
  destruct (H c c') as (r' & E1 & E2); [split; [now symmetry|now symmetry]|]. rewrite E in E1. now injection E1 as <-.
Qed.
Lemma degree_none v c : c_cur c = CNone ->
  degree v c = (if forallb bindable [edge2str v] then Ok (match vlook (edge2str v) (c_work c) with Some (d, t) => d | None => 0%Z end)
                else Err UnicodeEncodeError, c, []).
Proof.
  intros C. unfold degree, bind at 1. unfold open_cursor, get_cur, bind at 1. rewrite C. cbn [ret].
  unfold bind at 1, query. cbn [usable negb]. destruct (forallb bindable [edge2str v]); cbn [negb]; [|reflexivity].
  destruct (vlook (edge2str v) (c_work c)) as [[d t]|]; [reflexivity|]. unfold close_cursor, bind, get_cur. now rewrite C.
Qed.
Lemma degree_other v c : c_cur c <> CNone -> exists r c', degree v c = (r, c', []) /\ c_work c' = c_work c /\ c_comm c' = c_comm c /\ c_auto c' = c_auto c.
Proof.
  intros C. unfold degree, bind at 1. unfold open_cursor, get_cur, bind at 1.
  assert (H : (match c_cur c with CNone => ret HLocal | _ => ret HShared end) c = (Ok HShared, c, [])) by (destruct (c_cur c); [now elim C|reflexivity|reflexivity]).
  rewrite H. unfold bind at 1, query. destruct (negb (usable HShared c)); [now exists (Err ProgrammingError), c|].
  destruct (negb (forallb bindable [edge2str v])); [now exists (Err UnicodeEncodeError), c|].
  destruct (vlook (edge2str v) (c_work c)) as [[d t]|]; [eexists; eexists; split; [reflexivity|]; auto|].
  unfold close_cursor, bind, get_cur. destruct (c_cur c); [now elim C| |]; (eexists; eexists; split; [reflexivity|]; auto).
Qed.
Lemma degree_harmless v : harmless (degree v).
Proof.
  intros c. destruct (c_cur c) eqn:C.
  - eexists; eexists. split; [apply (degree_none v c C)|]. split; [reflexivity|]. split; [reflexivity|]. split; [reflexivity|].
    intros _. split; [reflexivity|]. intros c1 W C1. rewrite (degree_none v c1 C1), W. reflexivity.
  - destruct (degree_other v c) as (r & c' & E & H1 & H2 & H3); [congruence|]. exists r, c'. split; [exact E|]. split; [exact H1|]. split; [exact H2|]. split; [exact H3|]. congruence.
  - destruct (degree_other v c) as (r & c' & E & H1 & H2 & H3); [congruence|]. exists r, c'. split; [exact E|]. split; [exact H1|]. split; [exact H2|]. split; [exact H3|]. congruence.
Qed.
Lemma timestamp_none v c : c_cur c = CNone ->
  timestamp v c = (if forallb bindable [edge2str v] then Ok (match vlook (edge2str v) (c_work c) with Some (d, t) => t | None => (-1)%Z end)
                else Err UnicodeEncodeError, c, []).
Proof.
  intros C. unfold timestamp, bind at 1. unfold open_cursor, get_cur, bind at 1. rewrite C. cbn [ret].
  unfold bind at 1, query. cbn [usable negb]. destruct (forallb bindable [edge2str v]); cbn [negb]; [|reflexivity].
  destruct (vlook (edge2str v) (c_work c)) as [[d t]|]; [reflexivity|]. unfold close_cursor, bind, get_cur. now rewrite C.
Qed.
Lemma timestamp_other v c : c_cur c <> CNone -> exists r c', timestamp v c = (r, c', []) /\ c_work c' = c_work c /\ c_comm c' = c_comm c /\ c_auto c' = c_auto c.
Proof.
  intros C. unfold timestamp, bind at 1. unfold open_cursor, get_cur, bind at 1.
  assert (H : (match c_cur c with CNone => ret HLocal | _ => ret HShared end) c = (Ok HShared, c, [])) by (destruct (c_cur c); [now elim C|reflexivity|reflexivity]).
  rewrite H. unfold bind at 1, query. destruct (negb (usable HShared c)); [now exists (Err ProgrammingError), c|].
  destruct (negb (forallb bindable [edge2str v])); [now exists (Err UnicodeEncodeError), c|].
  destruct (vlook (edge2str v) (c_work c)) as [[d t]|]; [eexists; eexists; split; [reflexivity|]; auto|].
  unfold close_cursor, bind, get_cur. destruct (c_cur c); [now elim C| |]; (eexists; eexists; split; [reflexivity|]; auto).
Qed.
Lemma timestamp_harmless v : harmless (timestamp v).
Proof.
  intros c. destruct (c_cur c) eqn:C.
  - eexists; eexists. split; [apply (timestamp_none v c C)|]. split; [reflexivity|]. split; [reflexivity|]. split; [reflexivity|].
    intros _. split; [reflexivity|]. intros c1 W C1. rewrite (timestamp_none v c1 C1), W. reflexivity.
  - destruct (timestamp_other v c) as (r & c' & E & H1 & H2 & H3); [congruence|]. exists r, c'. split; [exact E|]. split; [exact H1|]. split; [exact H2|]. split; [exact H3|]. congruence.
  - destruct (timestamp_other v c) as (r & c' & E & H1 & H2 & H3); [congruence|]. exists r, c'. split; [exact E|]. split; [exact H1|]. split; [exact H2|]. split; [exact H3|]. congruence.
Qed.
Lemma bind_harmless {A B} (m : M A) (k : A -> M B) : harmless m -> (forall a, harmless (k a)) -> harmless (bind m k).
Proof.
  intros Hm Hk c. destruct (Hm c) as (r & c1 & E & W & D & A1 & N). unfold bind. rewrite E. destruct r as [a|e].
  - destruct (Hk a c1) as (r2 & c2 & E2 & W2 & D2 & A2 & N2). rewrite E2. exists r2, c2. split; [reflexivity|].
    split; [congruence|]. split; [congruence|]. split; [congruence|]. intros C. destruct (N C) as [-> N']. destruct (N2 C) as [-> N2']. split; [reflexivity|].
    intros c' W' C'. rewrite (N' c' W' C'), (N2' c' W' C'). reflexivity.
  - exists (Err e), c1. split; [reflexivity|]. split; [exact W|]. split; [exact D|]. split; [exact A1|]. intros C. destruct (N C) as [-> N']. split; [reflexivity|].
    intros c' W' C'. now rewrite (N' c' W' C').
Qed.
Lemma ret_harmless {A} (a : A) : harmless (ret a).
Proof. intros c. exists (Ok a), c. split; [reflexivity|]. split; [reflexivity|]. split; [reflexivity|]. split; [reflexivity|]. intros ?. split; [reflexivity|]. reflexivity. Qed.
Lemma include_harmless e : harmless (include_edge e).
Proof.
  unfold include_edge, exclude_edge. apply bind_harmless; [|intros; apply ret_harmless].
  induction (tl e) as [|v r IH]; cbn [exclude_loop]; [apply ret_harmless|].
  apply bind_harmless; [apply degree_harmless|]. intros d. destruct (250 <? d)%Z; [apply ret_harmless|exact IH].
Qed.

(** C78 *)
Theorem C78_queries_change_nothing :
  (forall e, pure (exists_ e)) /\ (forall p, pure (pattern2edges p)) /\ (forall v, pure (star v))
  /\ (forall r, pure (symbols_with_root r)) /\ (forall e, pure (sources e)) /\ (forall B (f : value * Z -> B), pure (f_all f))
  /\ (forall v, harmless (degree v)) /\ (forall v, harmless (timestamp v)) /\ (forall e, harmless (include_edge e)).
Proof.
  split; [intros e; apply pure_qq; intros; now apply qq_exists|]. split; [intros e; apply pure_qq; intros; now apply qq_pattern|].
  split; [intros e; apply pure_qq; intros; now apply qq_star|]. split; [intros e; apply pure_qq; intros; now apply qq_symbols|].
  split; [intros e; apply pure_qq; intros; now apply qq_sources|]. split; [intros B f; apply pure_qq; intros; now apply qq_f_all|].
  split; [exact degree_harmless|]. split; [exact timestamp_harmless|]. exact include_harmless.
Qed.
Print Assumptions C78_queries_change_nothing.
(** a query that answers and one that raises, on a database with edges *)
Example C78_nonvacuous : exists_ ex_e1 ex_c = (Ok true, ex_c, []) /\ exists_ (VInt 3) ex_c = (Err TypeError, ex_c, [])
  /\ degree (VStr (lit "mary")) ex_c = (Ok 4%Z, ex_c, []).
Proof. split; [|split]; vm_compute; reflexivity. Qed.

(** ** C79: the answers depend on the set of edges alone *)

(** the same members, none twice *)
Definition same_list {A} (q : M (list A)) (c c' : conn) : Prop :=
  exists l l', q c = (Ok l, c, []) /\ q c' = (Ok l', c', []) /\ Permutation l l'.
Definition same {A} (q : M A) (c c' : conn) : Prop := exists a, q c = (Ok a, c, []) /\ q c' = (Ok a, c', []).
(** Everything that can be asked about edges is answered alike. *)
Record alike (V : value -> Prop) (c c' : conn) : Prop := {
  al_exists : forall e, edge_in V e -> same (exists_ e) c c';
  al_pattern : forall p, pattern_in V p -> same_list (pattern2edges (VTup p)) c c';
  al_star : forall a, db_atom a = true -> same_list (star a) c c';
  al_symbols : forall r, forallb is_scalar r = true -> no_white r = true -> starts_with c_lpar r = false -> same_list (symbols_with_root (VStr r)) c c';
  al_sources : forall e, db_vertex e = true -> V e -> V (VStr (lit "src/1")) -> same_list (sources e) c c';
  al_degree : forall a, db_atom a = true -> same (degree a) c c';
  al_include : forall e rest, Forall (fun v => db_atom v = true) rest -> same (include_edge (e :: rest)) c c' }.

Lemma ready_symbols V c h r : noalias V -> ready V c h -> forallb is_scalar r = true -> no_white r = true -> starts_with c_lpar r = false ->
  exists l, symbols_with_root (VStr r) c = (Ok l, c, []) /\ NoDup l
    /\ forall s, In s l <-> (exists e, present h e /\ In (VStr s) (elems e)) /\ exists t, s = r ++ c_slash :: t.
Proof.
  intros HV R H1 H2 H3. destruct (Inv_symbols V _ r c (rd_inv _ _ _ R) (ready_live _ _ _ R) H1 H2 H3) as (l & G & N & I).
  exists l. split; [exact G|]. split; [exact N|]. intros s. rewrite I. split; intros [(e & He & X) Y]; (split; [|exact Y]); exists e; [now rewrite <- stored_present|now rewrite stored_present].
Qed.
Lemma ready_degree_atom V c h a : Forall (ev_in V) h -> ready V c h -> db_atom a = true ->
  degree a c = (Ok (Z.of_nat (occurrences a (stored h))), c, []).
Proof.
  intros Hh R Ha. rewrite (ready_degree V c h a R (db_atom_vertex a Ha)).
  pose proof (degree_quiet V h a Hh (quiet_atom V h a Hh Ha)) as D. destruct (vrow h a) as [[d s]|]; now rewrite D.
Qed.

Lemma nodup_same {A} (l l' : list A) : NoDup l -> NoDup l' -> (forall x, In x l <-> In x l') -> Permutation l l'.
Proof. apply NoDup_Permutation. Qed.
Lemma ready_alike V c h c' h' : noalias V -> Forall (ev_in V) h -> Forall (ev_in V) h' -> ready V c h -> ready V c' h' ->
  (forall e, present h e <-> present h' e) -> alike V c c'.
Proof.
  intros HV Hh Hh' R R' P.
  assert (D : forall a, db_atom a = true -> same (degree a) c c').
  { intros a Ha. exists (Z.of_nat (occurrences a (stored h))). split; [now apply (ready_degree_atom V)|].
    rewrite (occ_enum a h' (stored h)); [now apply (ready_degree_atom V)|apply stored_nodup|]. intros e. now rewrite stored_present. }
  constructor.
  - intros e He. now apply (ready_exists_same V c h c' h').
  - intros p Hp. destruct (ready_pattern V c h p HV R Hp) as (l & E & N & I). destruct (ready_pattern V c' h' p HV R' Hp) as (l' & E' & N' & I').
    exists l, l'. split; [exact E|]. split; [exact E'|]. apply nodup_same; [exact N|exact N'|]. intros x. now rewrite I, I', P.
  - intros a Ha. destruct (ready_star V c h a HV R Ha) as (l & E & N & I). destruct (ready_star V c' h' a HV R' Ha) as (l' & E' & N' & I').
    exists l, l'. split; [exact E|]. split; [exact E'|]. apply nodup_same; [exact N|exact N'|]. intros x. now rewrite I, I', P.
  - intros r H1 H2 H3. destruct (ready_symbols V c h r HV R H1 H2 H3) as (l & E & N & I). destruct (ready_symbols V c' h' r HV R' H1 H2 H3) as (l' & E' & N' & I').
    exists l, l'. split; [exact E|]. split; [exact E'|]. apply nodup_same; [exact N|exact N'|]. intros x. rewrite I, I'.
    split; intros [(e & He & X) Y]; (split; [|exact Y]); exists e; (split; [now apply P|exact X]).
  - intros e H1 H2 H3. destruct (ready_sources V c h e HV R H1 H2 H3) as (l & E & N & I). destruct (ready_sources V c' h' e HV R' H1 H2 H3) as (l' & E' & N' & I').
    exists l, l'. split; [exact E|]. split; [exact E'|]. apply nodup_same; [exact N|exact N'|]. intros x. now rewrite I, I', P.
  - exact D.
  - intros e rest Hrest. unfold include_edge, exclude_edge, same. cbn [tl].
    assert (K : same (exclude_loop rest) c c').
    { induction Hrest as [|v rest Hv Hrest IH]; cbn [exclude_loop]; [now exists false|].
      destruct (D v Hv) as (d & E & E'). destruct IH as (b & G & G'). unfold same, bind. rewrite E, E'.
      destruct (250 <? d)%Z; [now exists true|]. rewrite G, G'. now exists b. }
    destruct K as (b & G & G'). exists (negb b). unfold bind. now rewrite G, G'.
Qed.

(** C79.  Two hypergraphs, whatever happened to each of them and whatever their
    backends: if exists answers alike for every edge, everything is answered alike. *)
Theorem C79_answers_depend_on_the_edges_only :
  forall V ops ops' c c', noalias V -> reached V ops c -> reached V ops' c' ->
    (forall e, edge_in V e -> same (exists_ e) c c') -> alike V c c'.
Proof.
  intros V ops ops' c c' HV Hr Hr' H. pose proof (reached_ready V ops c HV Hr) as R. pose proof (reached_ready V ops' c' HV Hr') as R'.
  apply (ready_alike V c (history ops) c' (history ops')); auto; [now apply (reached_in V ops c)|now apply (reached_in V ops' c')|].
  intros e.
  assert (K : edge_in V e -> (present (history ops) e <-> present (history ops') e)).
  { intros He. destruct (H e He) as (b & E & E'). destruct (ready_exists V c _ e HV R He) as (b1 & E1 & B1).
    destruct (ready_exists V c' _ e HV R' He) as (b2 & E2 & B2). rewrite E in E1. injection E1 as <-. rewrite E' in E2. injection E2 as <-.
    rewrite <- B1, <- B2. reflexivity. }
  split; intros P; apply K; try exact P; [now apply (present_in V (history ops) e (reached_in V ops c Hr))|now apply (present_in V (history ops') e (reached_in V ops' c' Hr'))].
Qed.
Print Assumptions C79_answers_depend_on_the_edges_only.

(** two different histories with the same edges, on the two backends *)
Definition ops79 : list op := [OAdd ex_e1 1; OAdd ex_e2 2].
Definition ops79b : list op := [OAddMany [ex_e3; ex_e2] 7; ORemove ex_e3; OReopen; OAdd ex_e1 8; OAdd ex_e1 9].
Lemma reached_79 : reached plain_values ops79 (snd (fst (run_ops (fun l => l) ops79 (start false)))).
Proof.
  exists (fun l => l), false. exists (snd (run_ops (fun l => l) ops79 (start false))). split; [intros l; apply Permutation_refl|]. split; [|vm_compute; reflexivity].
  apply Forall_cons; [edge_ok|]. apply Forall_cons; [edge_ok|]. apply Forall_nil.
Qed.
Lemma reached_79b : reached plain_values ops79b (snd (fst (run_ops (fun l => l) ops79b (start true)))).
Proof.
  exists (fun l => l), true. exists (snd (run_ops (fun l => l) ops79b (start true))). split; [intros l; apply Permutation_refl|]. split; [|vm_compute; reflexivity].
  apply Forall_cons; [split; [split; [discriminate|]; apply Forall_cons; [edge_ok|apply Forall_cons; [edge_ok|apply Forall_nil]]|reflexivity]|].
  apply Forall_cons; [edge_ok|]. apply Forall_cons; [exact I|]. apply Forall_cons; [edge_ok|].
  apply Forall_cons; [edge_ok|]. apply Forall_nil.
Qed.
Example C79_nonvacuous : let c := snd (fst (run_ops (fun l => l) ops79 (start false))) in let c' := snd (fst (run_ops (fun l => l) ops79b (start true))) in
  reached plain_values ops79 c /\ reached plain_values ops79b c' /\ c_work c <> c_work c'
  /\ forall e, edge_in plain_values e -> same (exists_ e) c c'.
Proof.
  cbv zeta. split; [exact reached_79|]. split; [exact reached_79b|]. split; [vm_compute; discriminate|]. intros e He.
  apply (ready_exists_same plain_values _ (history ops79) _ (history ops79b) e plain_noalias); [apply (reached_ready _ _ _ plain_noalias reached_79)|apply (reached_ready _ _ _ plain_noalias reached_79b)|exact He|].
  rewrite <- !stored_present. vm_compute. tauto.
Qed.
(** It does not hold for the degree of an edge, nor for timestamps: there the
    order of the calls shows (same edges, see C19 and C20). *)
Theorem C79_degree_of_edge_refuted : let c := snd (fst (run_ops (fun l => l) ops79 (start false))) in let c' := snd (fst (run_ops (fun l => l) ops79b (start true))) in
  reached plain_values ops79 c /\ reached plain_values ops79b c' /\ (forall e, edge_in plain_values e -> same (exists_ e) c c')
  /\ degree ex_e1 c = (Ok 1%Z, c, []) /\ degree ex_e1 c' = (Ok 0%Z, c', [])
  /\ timestamp ex_e2 c = (Ok 2%Z, c, []) /\ timestamp ex_e2 c' = (Ok 7%Z, c', []).
Proof.
  destruct C79_nonvacuous as (H1 & H2 & _ & H3). cbv zeta. split; [exact H1|]. split; [exact H2|]. split; [exact H3|].
  split; [|split; [|split]]; vm_compute; reflexivity.
Qed.
Print Assumptions C79_degree_of_edge_refuted.

(** ** C80: taking back *)

Lemma vrow_born_none V h v : Forall (ev_in V) h -> (vrow h v = None <-> born v h = None).
Proof. intros Hh. rewrite (vrow_born V h v Hh). destruct (born v h); cbn [option_map]; split; easy. Qed.
Lemma memb_just_added e t h : memb e (stored (EAdd e t :: h)) = true.
Proof. apply memb_present. apply present_add. now left. Qed.
Lemma memb_just_removed e h : memb e (stored (ERem e :: h)) = false.
Proof. apply memb_absent. rewrite present_rem. tauto. Qed.
Lemma vrow_add_remove h e t v : ~ present h e ->
  vrow (ERem e :: EAdd e t :: h) v =
    if veqb v e then None else match count v (elems e), vrow h v with O, r => r | S n, Some r => Some r | S n, None => Some (0%Z, t) end.
Proof.
  intros P. apply memb_absent in P. cbn [vrow]. rewrite memb_just_added, P. destruct (veqb v e); [reflexivity|].
  destruct (count v (elems e)) as [|n], (vrow h v) as [[d s]|]; cbn [option_map fst snd]; try reflexivity; f_equal; f_equal; lia.
Qed.
Lemma vrow_remove_add h e t v : present h e ->
  vrow (EAdd e t :: ERem e :: h) v =
    if veqb v e then Some (0%Z, t) else match count v (elems e), vrow h v with O, r => r | S n, Some r => Some r | S n, None => Some (Z.of_nat (S n), t) end.
Proof.
  intros P. apply memb_present in P. cbn [vrow]. rewrite memb_just_removed, P. destruct (veqb v e); [reflexivity|].
  destruct (count v (elems e)) as [|n], (vrow h v) as [[d s]|]; cbn [option_map fst snd]; try reflexivity; f_equal; f_equal; lia.
Qed.

(** C80, first half.  Taking back the add of a new edge: everything about edges is
    answered as if neither call had been made, and so is the degree of every other
    vertex.  What stays is the record of the vertices first seen in that edge (with
    degree 0 and the time of the add); what is lost is the record of the edge itself
    as an element of others. *)
Theorem C80_adding_then_removing :
  forall V ops c e t, noalias V -> reached V ops c -> edge_in V e -> int64 t = true -> ~ present (history ops) e ->
    exists c' tr, (add e t;; remove e) c = (Ok tt, c', tr) /\ alike V c c'
      /\ degree e c' = (Ok 0%Z, c', []) /\ timestamp e c' = (Ok (-1)%Z, c', [])
      /\ forall v, db_vertex v = true -> v <> e ->
           same (degree v) c c'
           /\ (born v (history ops) <> None \/ ~ In v (elems e) -> same (timestamp v) c c')
           /\ (born v (history ops) = None -> In v (elems e) ->
                 timestamp v c = (Ok (-1)%Z, c, []) /\ timestamp v c' = (Ok t, c', [])).
Proof.
  intros V ops c e t HV Hr He Ht P. pose proof (reached_ready V ops c HV Hr) as R. pose proof (reached_in V ops c Hr) as Hh. set (h := history ops) in *.
  assert (G : goes false V h (ERem e :: EAdd e t :: h) (add e t;; remove e) tt).
  { apply (goes_bind false V h (EAdd e t :: h) _ (add e t) (fun _ => remove e) e tt); [now apply goes_weaken, goes_add|now apply goes_remove]. }
  destruct (goes_top false V h _ _ tt c G R) as (us & c' & tr & [E _ R' _ _]).
  assert (Dh : db_vertex e = true) by (apply db_edge_vertex, (edge_in_db V), He).
  exists c', tr. split; [exact E|]. split.
  { refine (ready_alike V c h c' _ HV Hh _ R R' _); [repeat apply Forall_cons; assumption|]. intros x. rewrite present_rem, present_add.
    split; [intros X; split; [congruence|now right]|]. intros [N [X|X]]; [easy|exact X]. }
  pose proof (ready_degree V c' _ e R' Dh) as D. pose proof (ready_timestamp V c' _ e R' Dh) as T.
  rewrite (vrow_add_remove h e t e P), veqb_refl in D, T. split; [exact D|]. split; [exact T|].
  intros v Hv Nv. apply veqb_neq in Nv.
  pose proof (ready_degree V c h v R Hv) as D0. pose proof (ready_timestamp V c h v R Hv) as T0.
  pose proof (ready_degree V c' _ v R' Hv) as D1. pose proof (ready_timestamp V c' _ v R' Hv) as T1.
  rewrite (vrow_add_remove h e t v P), Nv in D1, T1. pose proof (vrow_born_none V h v Hh) as B. split; [|split].
  - eexists. split; [exact D0|]. rewrite D1. destruct (count v (elems e)), (vrow h v) as [[d s]|]; reflexivity.
  - intros K. eexists. split; [exact T0|]. rewrite T1. destruct (vrow h v) as [[d s]|]; [now destruct (count v (elems e))|].
    destruct K as [K|K]; [elim K; now apply B|]. now rewrite (count_0 _ _ K).
  - intros K I. apply B in K. rewrite K in T0, T1. split; [exact T0|]. apply count_pos in I. destruct (count v (elems e)) as [|n]; [lia|exact T1].
Qed.
Print Assumptions C80_adding_then_removing.

(** C80, second half.  Taking back the removal of an edge. *)
Theorem C80_removing_then_adding :
  forall V ops c e t, noalias V -> reached V ops c -> edge_in V e -> int64 t = true -> present (history ops) e ->
    exists c' tr, (remove e;; add e t) c = (Ok e, c', tr) /\ alike V c c'
      /\ degree e c' = (Ok 0%Z, c', []) /\ timestamp e c' = (Ok t, c', [])
      /\ forall v, db_vertex v = true -> v <> e ->
           (born v (history ops) <> None \/ ~ In v (elems e) -> same (degree v) c c' /\ same (timestamp v) c c')
           /\ (born v (history ops) = None -> In v (elems e) ->
                 degree v c = (Ok 0%Z, c, []) /\ degree v c' = (Ok (Z.of_nat (count v (elems e))), c', [])
                 /\ timestamp v c = (Ok (-1)%Z, c, []) /\ timestamp v c' = (Ok t, c', [])).
Proof.
  intros V ops c e t HV Hr He Ht P. pose proof (reached_ready V ops c HV Hr) as R. pose proof (reached_in V ops c Hr) as Hh. set (h := history ops) in *.
  assert (G : goes false V h (EAdd e t :: ERem e :: h) (remove e;; add e t) e).
  { apply (goes_bind false V h (ERem e :: h) _ (remove e) (fun _ => add e t) tt e); [now apply goes_remove|now apply goes_weaken, goes_add]. }
  destruct (goes_top false V h _ _ e c G R) as (us & c' & tr & [E _ R' _ _]).
  assert (Dh : db_vertex e = true) by (apply db_edge_vertex, (edge_in_db V), He).
  exists c', tr. split; [exact E|]. split.
  { refine (ready_alike V c h c' _ HV Hh _ R R' _); [repeat apply Forall_cons; assumption|]. intros x. rewrite present_add, present_rem.
    split; [|intros [->|[_ X]]; [exact P|exact X]]. intros X. destruct (veqb x e) eqn:K; [apply veqb_eq in K; now left|]. apply veqb_neq in K. right. now split. }
  pose proof (ready_degree V c' _ e R' Dh) as D. pose proof (ready_timestamp V c' _ e R' Dh) as T.
  rewrite (vrow_remove_add h e t e P), veqb_refl in D, T. split; [exact D|]. split; [exact T|].
  intros v Hv Nv. apply veqb_neq in Nv.
  pose proof (ready_degree V c h v R Hv) as D0. pose proof (ready_timestamp V c h v R Hv) as T0.
  pose proof (ready_degree V c' _ v R' Hv) as D1. pose proof (ready_timestamp V c' _ v R' Hv) as T1.
  rewrite (vrow_remove_add h e t v P), Nv in D1, T1. pose proof (vrow_born_none V h v Hh) as B. split.
  - intros K. split; (eexists; split; [first [exact D0|exact T0]|]); rewrite ?D1, ?T1; (destruct (vrow h v) as [[d s]|]; [now destruct (count v (elems e))|]);
      (destruct K as [K|K]; [elim K; now apply B|]); now rewrite (count_0 _ _ K).
  - intros K I. apply B in K. rewrite K in D0, D1, T0, T1. apply count_pos in I. destruct (count v (elems e)) as [|n]; [lia|].
    split; [exact D0|]. split; [exact D1|]. split; [exact T0|exact T1].
Qed.
Print Assumptions C80_removing_then_adding.

(** an edge that is not there, with one known and one unknown atom; and one that is there *)
Definition ex80 : value := VTup [VStr (lit "likes"); VStr (lit "mary"); VStr (lit "zoe")].
Example C80_nonvacuous : reached plain_values ex_ops ex_c /\ edge_in plain_values ex80 /\ ~ present (history ex_ops) ex80
  /\ born (VStr (lit "mary")) (history ex_ops) <> None /\ born (VStr (lit "zoe")) (history ex_ops) = None
  /\ edge_in plain_values ex_e2 /\ present (history ex_ops) ex_e2
  (* the edge ex_e1 is an element of two others: removing and adding ex_e1 forgets that *)
  /\ degree ex_e1 ex_c = (Ok 2%Z, ex_c, []).
Proof.
  split; [exact ex_reached|]. split; [edge_ok|]. split; [apply memb_absent; vm_compute; reflexivity|].
  split; [vm_compute; discriminate|]. split; [vm_compute; reflexivity|]. split; [edge_ok|]. split; [apply memb_present; vm_compute; reflexivity|].
  vm_compute. reflexivity.
Qed.
