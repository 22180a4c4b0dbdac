(** * P_answers.v -- what the queries answer in a state that encodes a history *)

From Verif Require Import Py M_symbol M_edge M_sql M_hypergraph P_py Spec P_edge P_perm P_range P_query
  S_history M_driver P_ops P_hist P_graph.
From Coq Require Import Permutation Factorial String.
Open Scope list_scope.

Lemma ready_exists V c h e : noalias V -> ready V c h -> edge_in V e ->
  exists b, exists_ e c = (Ok b, c, []) /\ (b = true <-> present h e).
Proof.
  intros HV R He. exists (memb e (stored h)). split.
  - apply (Inv_exists V _ h c e HV (rd_inv _ _ _ R) eq_refl (ready_live _ _ _ R) He).
  - now rewrite memb_in, stored_present.
Qed.
Lemma ready_exists_true V c h e : noalias V -> ready V c h -> edge_in V e -> present h e ->
  exists_ e c = (Ok true, c, []).
Proof.
  intros HV R He P. destruct (ready_exists V c h e HV R He) as (b & E & Hb). apply Hb in P. now subst b.
Qed.
Lemma ready_exists_false V c h e : noalias V -> ready V c h -> edge_in V e -> ~ present h e ->
  exists_ e c = (Ok false, c, []).
Proof.
  intros HV R He P. destruct (ready_exists V c h e HV R He) as (b & E & Hb).
  destruct b; [exfalso; apply P; now apply Hb|exact E].
Qed.
Lemma ready_exists_same V c h c' h' e : noalias V -> ready V c h -> ready V c' h' -> edge_in V e ->
  (present h e <-> present h' e) ->
  exists b, exists_ e c = (Ok b, c, []) /\ exists_ e c' = (Ok b, c', []).
Proof.
  intros HV R R' He P. destruct (ready_exists V c h e HV R He) as (b & E & Hb).
  destruct (ready_exists V c' h' e HV R' He) as (b' & E' & Hb'). exists b. split; [exact E|].
  assert (b = b'); [|now subst b']. rewrite P, <- Hb' in Hb. destruct b, b'; intuition.
Qed.

Lemma ready_pattern V c h p : noalias V -> ready V c h -> pattern_in V p ->
  exists l, pattern2edges (VTup p) c = (Ok l, c, []) /\ NoDup l
    /\ forall e, In e l <-> present h e /\ matches p (elems e).
Proof.
  intros HV R Hp. destruct (Inv_pattern V h p c HV (rd_inv _ _ _ R) (ready_live _ _ _ R) Hp) as (l & G & N & I).
  exists l. split; [exact G|]. split; [exact N|]. intros e. now rewrite I, stored_present.
Qed.
Lemma ready_star V c h a : noalias V -> ready V c h -> db_atom a = true ->
  exists l, star a c = (Ok l, c, []) /\ NoDup l /\ forall e, In e l <-> present h e /\ In a (elems e).
Proof.
  intros HV R Hp. destruct (Inv_star V h a c HV (rd_inv _ _ _ R) (ready_live _ _ _ R) Hp) as (l & G & N & I).
  exists l. split; [exact G|]. split; [exact N|]. intros e. now rewrite I, stored_present.
Qed.
Lemma ready_sources V c h e : noalias V -> ready V c h -> db_vertex e = true -> V e -> V (VStr (lit "src/1")) ->
  exists l, sources e c = (Ok l, c, []) /\ NoDup l /\ forall s, In s l <-> present h (link_edge s e).
Proof.
  intros HV R He Ve Vs. destruct (Inv_sources V h e c HV (rd_inv _ _ _ R) (ready_live _ _ _ R) He Ve Vs) as (l & G & N & I).
  exists l. split; [exact G|]. split; [exact N|]. intros s. rewrite I. apply stored_present.
Qed.
Lemma ready_degree V c h v : ready V c h -> db_vertex v = true ->
  degree v c = (Ok (match vrow h v with Some (d, _) => d | None => 0%Z end), c, []).
Proof.
  intros R Hv. rewrite <- (i_vert _ _ _ (rd_inv _ _ _ R) v Hv). apply degree_gives; [apply R|exact Hv].
Qed.
Lemma ready_timestamp V c h v : ready V c h -> db_vertex v = true ->
  timestamp v c = (Ok (match vrow h v with Some (_, t) => t | None => (-1)%Z end), c, []).
Proof.
  intros R Hv. rewrite <- (i_vert _ _ _ (rd_inv _ _ _ R) v Hv). apply timestamp_gives; [apply R|exact Hv].
Qed.

(** presence after one more event *)
Lemma present_add e t h x : present (EAdd e t :: h) x <-> x = e \/ present h x.
Proof. rewrite <- !stored_present. apply stored_add. Qed.
Lemma present_rem e h x : present (ERem e :: h) x <-> x <> e /\ present h x.
Proof. rewrite <- !stored_present. apply stored_rem. Qed.
Lemma present_in V h e : Forall (ev_in V) h -> present h e -> edge_in V e.
Proof. intros H. rewrite <- stored_present. now apply stored_in. Qed.
Lemma present_adds es t h x : present (fold_left (fun h e => EAdd e t :: h) es h) x <-> In x es \/ present h x.
Proof.
  revert h. induction es as [|e es IH]; intros h; cbn [fold_left]; [cbn; tauto|].
  rewrite IH, present_add. cbn. split; [intros [H|[H|H]]; auto|intros [[H|H]|H]; auto].
Qed.
Lemma present_rems es h x : present (fold_left (fun h e => ERem e :: h) es h) x <-> ~ In x es /\ present h x.
Proof. rewrite <- !stored_present. apply (stored_rems es h x). Qed.
Lemma present_beliefs s es t h x :
  present (fold_left (fun h e => EAdd (link_edge s e) t :: EAdd e t :: h) es h) x
  <-> (exists e, In e es /\ (x = e \/ x = link_edge s e)) \/ present h x.
Proof.
  revert h. induction es as [|e es IH]; intros h; cbn [fold_left].
  - split; [tauto|]. intros [(e & [] & _)|H]; exact H.
  - rewrite IH, !present_add. cbn [In]. split.
    + intros [(e' & H & X)|[X|[X|X]]]; [left; exists e'; tauto|left; exists e; tauto|left; exists e; tauto|tauto].
    + intros [(e' & [<-|H] & X)|X]; [tauto|left; exists e'; tauto|tauto].
Qed.

(** occurrences do not depend on the enumeration *)
Lemma occ_perm v E E' : Permutation E E' -> occurrences v E = occurrences v E'.
Proof. induction 1; cbn; lia. Qed.
Lemma occ_enum v h E : NoDup E -> (forall e, In e E <-> present h e) -> occurrences v E = occurrences v (stored h).
Proof.
  intros N H. apply occ_perm. apply NoDup_Permutation; [exact N|apply stored_nodup|].
  intros x. now rewrite H, stored_present.
Qed.

(** a set of values without float: no aliasing *)
Fixpoint no_float (v : value) : bool :=
  match v with VFlt _ => false | VTup l => forallb no_float l | _ => true end.
Lemma no_float_eq a : forall b, no_float a = true -> no_float b = true -> py_eq a b = true -> a = b.
Proof.
  induction a as [|s|z|f|l IH] using value_nested_ind; intros [|s'|z'|f'|l']; cbn [no_float py_eq]; try easy.
  - intros _ _ H. apply str_eqb_eq in H. now subst.
  - intros _ _ H. apply Z.eqb_eq in H. now subst.
  - intros H1 H2 E. f_equal. revert l' H2 E. induction l as [|x l IHl]; intros [|y l'] H2 E; try easy.
    inversion IH as [|? ? Hx IH']; subst. cbn in H1, H2.
    apply andb_true_iff in H1 as [H1 H1']. apply andb_true_iff in H2 as [H2 H2']. apply andb_true_iff in E as [E E'].
    f_equal; [now apply Hx|]. now apply IHl.
Qed.
Definition plain_values (v : value) : Prop := no_float v = true.
Lemma plain_noalias : noalias plain_values.
Proof. intros x y. apply no_float_eq. Qed.
Definition edge_inb (e : value) : bool := db_edge e && forallb no_float (elems e).
Lemma edge_inb_ok e : edge_inb e = true -> edge_in plain_values e.
Proof.
  unfold edge_inb. intros [H1 H2]%andb_true_iff. split; [exact H1|]. intros x Hx.
  rewrite forallb_forall in H2. now apply H2.
Qed.
(** a concrete edge, or an addition of one at a concrete time, is in scope *)
Ltac edge_ok := first [apply edge_inb_ok; reflexivity | split; [apply edge_inb_ok; reflexivity|reflexivity]].
