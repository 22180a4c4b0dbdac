(** * C_batch.v -- property theorems C34-C36 (batch writer, null backend) *)

From Verif Require Import Py M_symbol M_edge M_sql M_hypergraph M_batch P_py Spec P_edge P_perm P_range P_query
  S_history M_driver P_ops P_hist P_graph P_answers P_crash C_graph.
From Coq Require Import Permutation Factorial String.
Open Scope list_scope.

(** ** C34 *)

(** The writing calls: on a BatchHyperGraph, and the same call on the wrapped
    hypergraph itself. *)
Inductive write :=
| WAdd (e : value) (t : Z) | WAddMany (es : list value) (t : Z)
| WBelief (s e : value) (t : Z) | WBeliefs (s : value) (es : list value) (t : Z).
Definition buffered (max : Z) (w : write) : BM unit := fun s =>
  match w with
  | WAdd e t => let '(r, s') := bhg_add max e t s in (match r with Ok _ => Ok tt | Err x => Err x end, s')
  | WAddMany es t => let '(r, s') := bhg_add max (VTup es) t s in (match r with Ok _ => Ok tt | Err x => Err x end, s')
  | WBelief src e t => bhg_add_belief max src e t s
  | WBeliefs src es t => bhg_add_belief max src (VTup es) t s
  end.
Definition direct (w : write) : M unit :=
  match w with
  | WAdd e t => add e t;; ret tt
  | WAddMany es t => add (VTup es) t;; ret tt
  | WBelief src e t => add_belief src e t
  | WBeliefs src es t => add_belief src (VTup es) t
  end.
Fixpoint buffered_all (max : Z) (ws : list write) : BM unit := fun s =>
  match ws with
  | [] => (Ok tt, s)
  | w :: ws' => match buffered max w s with
                | (Ok _, s1) => buffered_all max ws' s1
                | (Err x, s1) => (Err x, s1)
                end
  end.
(** The edges a call adds; calls on storable edges. *)
Definition written (w : write) : list value :=
  match w with
  | WAdd e _ => [e]
  | WAddMany es _ => es
  | WBelief s e _ => [e; link_edge s e]
  | WBeliefs s es _ => flat_map (fun e => [e; link_edge s e]) es
  end.
Definition write_in (V : value -> Prop) (w : write) : Prop :=
  match w with
  | WAdd e t => edge_in V e /\ int64 t = true
  | WAddMany es t => (es <> [] /\ Forall (edge_in V) es) /\ int64 t = true
  | WBelief s e t => (edge_in V e /\ edge_in V (link_edge s e)) /\ int64 t = true
  | WBeliefs s es t => (es <> [] /\ Forall (fun e => edge_in V e /\ edge_in V (link_edge s e)) es) /\ int64 t = true
  end.

(** histories up to timestamps *)
Definition strip1 (x : ev) : ev := match x with EAdd e _ => EAdd e 0 | y => y end.
Definition strip (h : list ev) : list ev := List.map strip1 h.
Lemma strip_stored h1 : forall h2, strip h1 = strip h2 -> stored h1 = stored h2.
Proof.
  induction h1 as [|a h1 IH]; intros [|b h2] E; try discriminate; [reflexivity|]. cbn in E. injection E as E1 E2.
  apply IH in E2. destruct a, b; try discriminate; cbn in *.
  - injection E1 as ->. now rewrite E2.
  - injection E1 as ->. now rewrite E2.
  - reflexivity.
Qed.
Lemma strip_degree h1 : forall h2 v, strip h1 = strip h2 ->
  option_map fst (vrow h1 v) = option_map fst (vrow h2 v).
Proof.
  induction h1 as [|a h1 IH]; intros [|b h2] v E; try discriminate; [reflexivity|]. cbn in E. injection E as E1 E2.
  pose proof (strip_stored _ _ E2) as S. specialize (IH h2 v E2). destruct a as [e t|e|], b as [e' t'|e'|]; try discriminate; cbn [vrow].
  - injection E1 as ->. rewrite S. destruct (memb e' (stored h2)); [exact IH|]. destruct (veqb v e'); [reflexivity|].
    destruct (count v (elems e')); [exact IH|]. destruct (vrow h1 v) as [[d s]|], (vrow h2 v) as [[d' s']|]; cbn in *; try discriminate.
    + injection IH as ->. reflexivity.
    + reflexivity.
  - injection E1 as ->. rewrite S. destruct (memb e' (stored h2)); [|exact IH]. destruct (veqb v e'); [reflexivity|].
    destruct (vrow h1 v) as [[d s]|], (vrow h2 v) as [[d' s']|]; cbn in *; try discriminate; [|reflexivity].
    injection IH as ->. reflexivity.
  - reflexivity.
Qed.
Definition adds (es : list value) (t : Z) (h : list ev) : list ev := fold_left (fun h e => EAdd e t :: h) es h.
Lemma strip_adds es t h : strip (adds es t h) = adds es 0 (strip h).
Proof. revert h. induction es as [|e es IH]; intros h; [reflexivity|]. cbn. unfold adds in *. now rewrite IH. Qed.
Lemma adds_app es fs t h : adds (es ++ fs) t h = adds fs t (adds es t h).
Proof. apply fold_left_app. Qed.

Definition as_op (w : write) : op :=
  match w with WAdd e t => OAdd e t | WAddMany es t => OAddMany es t | WBelief s e t => OAddBelief s e t | WBeliefs s es t => OAddBeliefs s es t end.
Lemma strip_after w h : strip (after h (as_op w)) = adds (written w) 0 (strip h).
Proof.
  destruct w; cbn [as_op after written]; try reflexivity.
  - apply strip_adds.
  - revert h. induction es as [|e es IH]; intros h; [reflexivity|]. cbn [fold_left flat_map]. rewrite IH. reflexivity.
Qed.
Lemma written_in V w : write_in V w -> Forall (edge_in V) (written w) /\ written w <> [].
Proof.
  destruct w; cbn.
  - intros [H _]. split; [apply Forall_cons; [exact H|apply Forall_nil]|easy].
  - tauto.
  - intros [[H1 H2] _]. split; [apply Forall_cons; [exact H1|apply Forall_cons; [exact H2|apply Forall_nil]]|easy].
  - intros [[Hn H] _]. split; [|destruct es; easy]. clear Hn. induction H as [|e es [H1 H2] _ IH]; [constructor|]. cbn. apply Forall_cons; [exact H1|apply Forall_cons; [exact H2|exact IH]].
Qed.

Definition stamp (w : write) : Z := match w with WAdd _ t | WAddMany _ t | WBelief _ _ t | WBeliefs _ _ t => t end.
Lemma write_stamp V w : write_in V w -> int64 (stamp w) = true.
Proof. destruct w; cbn; tauto. Qed.

Lemma flush_ok V h t buf c : noalias V -> int64 t = true -> ready V c h -> Forall (edge_in V) buf -> buf <> [] ->
  exists c', flush t (Bhg buf c) = (Ok tt, Bhg [] c') /\ ready V c' (adds buf t h).
Proof.
  intros HV Ht R Hb Hn.
  destruct (op_top (fun l => l) V h (OAddMany buf t) c HV (fun l => Permutation_refl l) (conj (conj Hn Hb) Ht) R) as (us & c' & tr & [Er _ R' _ _]).
  exists c'. split; [|exact R']. unfold flush. cbn [b_buffer b_conn]. cbn [run_op] in Er. unfold bind in Er.
  destruct (add (VTup buf) t c) as [[[a|y] c1] t1]; [|discriminate]. now injection Er as <- _.
Qed.

(** one buffered call: the buffer plus the tables hold the right events *)
Lemma bhg_add_ok V max h buf c v t : noalias V -> int64 t = true -> (0 <= max)%Z -> ready V c h -> Forall (edge_in V) buf ->
  forall items, Forall (edge_in V) items -> items <> [] ->
  (v = VTup items \/ items = [v]) ->
  exists buf' c' h', bhg_add max v t (Bhg buf c) = (Ok v, Bhg buf' c') /\ ready V c' h' /\ Forall (edge_in V) buf'
    /\ (Z.of_nat (List.length buf') <= max)%Z
    /\ adds buf' 0 (strip h') = adds items 0 (adds buf 0 (strip h)).
Proof.
  intros HV Ht Hm R Hb items Hi Hn Hv. unfold bhg_add.
  assert (X : exists x, index0 v = Ok x /\ (if is_tup x then Bhg (buf ++ items_of v) c else Bhg (buf ++ [v]) c) = Bhg (buf ++ items) c).
  { destruct Hv as [->| ->].
    - destruct (index0_edges V items Hn Hi) as (x & E & T). exists x. rewrite T. now split.
    - inversion Hi as [|? ? He _]; subst. destruct (index0_edge v (edge_in_db _ _ He)) as (x & E & T). exists x. rewrite T. now split. }
  destruct X as (x & E & S). rewrite E. cbn [b_buffer b_conn]. rewrite S. cbn [b_buffer].
  assert (Hbi : Forall (edge_in V) (buf ++ items)) by (now apply Forall_app).
  destruct (Z.ltb_spec max (Z.of_nat (List.length (buf ++ items)))) as [L|L].
  - destruct (flush_ok V h t (buf ++ items) c HV Ht R Hbi) as (c' & F & R').
    { intros H. now apply app_eq_nil in H. }
    rewrite F. exists [], c', (adds (buf ++ items) t h). split; [reflexivity|]. split; [exact R'|]. split; [constructor|].
    split; [cbn; lia|]. rewrite strip_adds, adds_app. reflexivity.
  - exists (buf ++ items), c, h. split; [reflexivity|]. split; [exact R|]. split; [exact Hbi|]. split; [exact L|]. now rewrite adds_app.
Qed.
Lemma buffered_ok V max h buf c w : noalias V -> (0 <= max)%Z -> ready V c h -> Forall (edge_in V) buf -> write_in V w ->
  exists buf' c' h', buffered max w (Bhg buf c) = (Ok tt, Bhg buf' c') /\ ready V c' h' /\ Forall (edge_in V) buf'
    /\ (Z.of_nat (List.length buf') <= max)%Z
    /\ adds buf' 0 (strip h') = adds (written w) 0 (adds buf 0 (strip h)).
Proof.
  intros HV Hm R Hb Hw. destruct (written_in V w Hw) as [Hi Hn]. pose proof (write_stamp V w Hw) as Ht.
  assert (B : forall s v t items, bhg_add_belief max s v t (Bhg buf c) =
      (let '(r, s') := bhg_add max (VTup items) t (Bhg buf c) in (match r with Ok _ => Ok tt | Err e => Err e end, s')) ->
      items = written w -> t = stamp w ->
      exists buf' c' h', bhg_add_belief max s v t (Bhg buf c) = (Ok tt, Bhg buf' c') /\ ready V c' h' /\ Forall (edge_in V) buf'
        /\ (Z.of_nat (List.length buf') <= max)%Z /\ adds buf' 0 (strip h') = adds (written w) 0 (adds buf 0 (strip h))).
  { intros s v t items E -> ->. destruct (bhg_add_ok V max h buf c (VTup (written w)) (stamp w) HV Ht Hm R Hb (written w) Hi Hn (or_introl eq_refl))
      as (buf' & c' & h' & E' & X). exists buf', c', h'. split; [rewrite E, E'; reflexivity|exact X]. }
  destruct w; cbn [buffered].
  - destruct (bhg_add_ok V max h buf c e t HV Ht Hm R Hb [e] Hi Hn (or_intror eq_refl)) as (buf' & c' & h' & E' & X).
    exists buf', c', h'. split; [rewrite E'; reflexivity|exact X].
  - destruct (bhg_add_ok V max h buf c (VTup es) t HV Ht Hm R Hb es Hi Hn (or_introl eq_refl)) as (buf' & c' & h' & E' & X).
    exists buf', c', h'. split; [rewrite E'; reflexivity|exact X].
  - apply (B s e t [e; link_edge s e]); [|reflexivity|reflexivity]. destruct Hw as [[He _] _]. destruct (index0_edge e (edge_in_db _ _ He)) as (x & E & T).
    unfold bhg_add_belief. now rewrite E, T.
  - apply (B s (VTup es) t (written (WBeliefs s es t))); [|reflexivity|reflexivity]. destruct Hw as [[Hes Hw] _].
    assert (Fe : Forall (edge_in V) es) by (eapply Forall_impl; [|exact Hw]; now intros x [H _]).
    destruct (index0_edges V es Hes Fe) as (x & E & T). unfold bhg_add_belief. now rewrite E, T.
Qed.

Lemma direct_op ord w : run_op ord (as_op w) = direct w.
Proof. now destruct w. Qed.
Lemma write_op V w : write_in V w -> op_in V (as_op w).
Proof. now destruct w. Qed.

(** C34.  [c]: any reachable state of the wrapped hypergraph; [ws]: any calls
    on the batch writer.  [finish]: flush unless the buffer is empty (flush of an
    empty buffer raises: C35). *)
Definition finish (t : Z) : BM unit := fun s =>
  match b_buffer s with [] => (Ok tt, s) | _ => flush t s end.
Theorem C34_batch_writer :
  forall V ops c max ws, noalias V -> reached V ops c -> (0 <= max)%Z -> Forall (write_in V) ws ->
    exists s', buffered_all max ws (Bhg [] c) = (Ok tt, s')
      /\ (Z.of_nat (List.length (b_buffer s')) <= max)%Z
      /\ forall t, int64 t = true -> exists c2 cd tr, finish t s' = (Ok tt, Bhg [] c2)
           /\ mfor ws direct c = (Ok tt, cd, tr)
           /\ (forall x, edge_in V x -> exists b b', exists_ x c = (Ok b, c, []) /\ exists_ x c2 = (Ok b', c2, [])
                 /\ (b' = true <-> b = true \/ exists w, In w ws /\ In x (written w)))
           /\ (forall x, edge_in V x -> exists b, exists_ x c2 = (Ok b, c2, []) /\ exists_ x cd = (Ok b, cd, []))
           /\ (forall v, db_vertex v = true -> exists d, degree v c2 = (Ok d, c2, []) /\ degree v cd = (Ok d, cd, []))
           (** ... and a process that opens the database again finds it so *)
           /\ reopen (c_auto c2) (c_comm c2) = c2.
Proof.
  intros V ops c max ws HV Hr Hm Hws. pose proof (reached_ready V ops c HV Hr) as R. set (h := history ops) in *.
  assert (K : forall ws buf c h, Forall (write_in V) ws -> ready V c h -> Forall (edge_in V) buf -> (Z.of_nat (List.length buf) <= max)%Z ->
     exists buf' c' h', buffered_all max ws (Bhg buf c) = (Ok tt, Bhg buf' c') /\ ready V c' h' /\ Forall (edge_in V) buf'
       /\ (Z.of_nat (List.length buf') <= max)%Z /\ adds buf' 0 (strip h') = adds (flat_map written ws) 0 (adds buf 0 (strip h))).
  { clear -HV Hm. induction ws as [|w ws IH]; intros buf c h Hws R Hb Hl.
    - exists buf, c, h. auto.
    - inversion Hws as [|? ? Hw Hws']; subst.
      destruct (buffered_ok V max h buf c w HV Hm R Hb Hw) as (b1 & c1 & h1 & E1 & R1 & B1 & L1 & A1).
      destruct (IH b1 c1 h1 Hws' R1 B1 L1) as (b2 & c2 & h2 & E2 & R2 & B2 & L2 & A2).
      exists b2, c2, h2. cbn [buffered_all]. rewrite E1. repeat (split; [assumption|]). cbn [flat_map]. now rewrite A2, A1, adds_app. }
  destruct (K ws [] c h Hws R) as (buf & c1 & h1 & E & R1 & B1 & L1 & A1); [constructor|cbn; lia|]. clear K.
  exists (Bhg buf c1). split; [exact E|]. split; [exact L1|]. intros t Ht.
  assert (F : exists c2, finish t (Bhg buf c1) = (Ok tt, Bhg [] c2) /\ ready V c2 (adds buf t h1)).
  { unfold finish. cbn [b_buffer]. destruct buf as [|e buf]; [now exists c1|]. apply (flush_ok V h1 t (e :: buf) c1 HV Ht R1 B1). easy. }
  destruct F as (c2 & F & R2).
  assert (D : forall ws c h, Forall (write_in V) ws -> ready V c h ->
     exists cd tr hd, mfor ws direct c = (Ok tt, cd, tr) /\ ready V cd hd /\ strip hd = adds (flat_map written ws) 0 (strip h)).
  { clear -HV. induction ws as [|w ws IH]; intros c h Hws R.
    - exists c, [], h. auto.
    - inversion Hws as [|? ? Hw Hws']; subst.
      destruct (op_top (fun l => l) V h (as_op w) c HV (fun l => Permutation_refl l) (write_op V w Hw) R) as (us & c1 & t1 & [Er _ R1 _ _]).
      rewrite direct_op in Er. destruct (IH c1 _ Hws' R1) as (cd & tr & hd & Ed & Rd & Sd).
      exists cd, (t1 ++ tr), hd. cbn [mfor]. unfold bind. rewrite Er, Ed. split; [reflexivity|]. split; [exact Rd|].
      rewrite Sd, strip_after. cbn [flat_map]. now rewrite adds_app. }
  destruct (D ws c h Hws R) as (cd & tr & hd & Ed & Rd & Sd). clear D. exists c2, cd, tr. split; [exact F|]. split; [exact Ed|].
  assert (S : strip (adds buf t h1) = strip hd) by (now rewrite strip_adds, A1, Sd).
  assert (P : forall x, present (adds buf t h1) x <-> (exists w, In w ws /\ In x (written w)) \/ present h x).
  { intros x. rewrite <- !stored_present. rewrite (strip_stored _ _ S).
    assert (Sh : strip hd = strip (adds (flat_map written ws) 0 h)) by (now rewrite strip_adds, Sd).
    rewrite (strip_stored _ _ Sh). rewrite !stored_present. unfold adds. rewrite present_adds, in_flat_map. tauto. }
  split; [|split; [|split]].
  4: { destruct R2 as [Cu Sy _]. destruct c2 as [a m k u]. cbn in *. now subst. }
  - intros x Hx. destruct (ready_exists V c h x HV R Hx) as (b & E1 & Hb). destruct (ready_exists V c2 _ x HV R2 Hx) as (b' & E2 & Hb').
    exists b, b'. split; [exact E1|]. split; [exact E2|]. rewrite Hb, Hb', P. tauto.
  - intros x Hx. apply (ready_exists_same V c2 _ cd _ x HV R2 Rd Hx). rewrite <- !stored_present. now rewrite (strip_stored _ _ S).
  - intros v Hv. pose proof (strip_degree _ _ v S) as Dv.
    rewrite (ready_degree V c2 _ v R2 Hv), (ready_degree V cd _ v Rd Hv).
    destruct (vrow (adds buf t h1) v) as [[d s]|], (vrow hd v) as [[d' s']|]; cbn in Dv; try discriminate.
    + injection Dv as ->. now exists d'.
    + now exists 0%Z.
Qed.
Print Assumptions C34_batch_writer.
Definition c34_e5 : value := VTup [VStr (lit "is"); VStr (lit "sky"); VStr (lit "blue")].
Definition c34_e6 : value := VTup [VStr (lit "says"); VStr (lit "bob"); c34_e5].
(** one automatic flush, then one edge waiting *)
Example C34_nonvacuous : Forall (write_in plain_values) [WAdd c34_e5 1; WAddMany [c34_e6; ex_e1] 2; WAdd ex_e4 3]
  /\ let s := snd (buffered_all 2 [WAdd c34_e5 1; WAddMany [c34_e6; ex_e1] 2; WAdd ex_e4 3] (Bhg [] (start false))) in
     b_buffer s = [ex_e4] /\ fst (fst (exists_ c34_e6 (b_conn s))) = Ok true.
Proof.
  split.
  - repeat (apply Forall_cons || apply Forall_nil); cbn [write_in]; try (edge_ok).
    split; [|reflexivity]. split; [discriminate|]. repeat (apply Forall_cons || apply Forall_nil); edge_ok.
  - split; vm_compute; reflexivity.
Qed.

(** ** C35 *)

(** Calls on a batch writer: a write, a flush, or any other call (a query, a
    removal, even a direct add on the wrapped hypergraph), which goes to the
    wrapped hypergraph.  [run_calls] runs them all, collecting the results. *)
Inductive bcall := CWrite (w : write) | CFlush (t : Z) | CWrapped (o : op).
Definition run_call (ord : list value -> list value) (max : Z) (k : bcall) : BM unit :=
  match k with
  | CWrite w => buffered max w
  | CFlush t => flush t
  | CWrapped o => bhg_lift (run_op ord o)
  end.
Fixpoint run_calls (ord : list value -> list value) (max : Z) (ks : list bcall) (s : bhg) : list (res unit) * bhg :=
  match ks with
  | [] => ([], s)
  | k :: ks' => let '(r, s1) := run_call ord max k s in let '(rs, s2) := run_calls ord max ks' s1 in (r :: rs, s2)
  end.
Definition call_in (V : value -> Prop) (k : bcall) : Prop :=
  match k with CWrite w => write_in V w | CFlush t => int64 t = true | CWrapped o => op_in V o /\ o <> OReopen end.

(** What the calls amount to: calls on the wrapped hypergraph, the edges that
    wait, and the results.  An edge waits until its write or a later one makes the
    edges that wait more than [max], or until a flush; then all that wait are added
    in one multi-edge add with the timestamp of that write or flush; a flush with
    nothing waiting raises IndexError. *)
Record outcome := { ran_ops : list op; waiting : list value; results : list (res unit) }.
Fixpoint meaning (max : Z) (waits : list value) (ks : list bcall) : outcome :=
  match ks with
  | [] => {| ran_ops := []; waiting := waits; results := [] |}
  | k :: ks' =>
      let go (ops : list op) (waits' : list value) (r : res unit) :=
        let m := meaning max waits' ks' in {| ran_ops := ops ++ ran_ops m; waiting := waiting m; results := r :: results m |} in
      match k with
      | CWrite w => let all := waits ++ written w in
                    if (max <? Z.of_nat (List.length all))%Z then go [OAddMany all (stamp w)] [] (Ok tt) else go [] all (Ok tt)
      | CFlush t => match waits with [] => go [] [] (Err IndexError) | _ => go [OAddMany waits t] [] (Ok tt) end
      | CWrapped o => go [o] waits (Ok tt)
      end
  end.

Lemma buffered_bhg_add V max w buf c : write_in V w ->
  buffered max w (Bhg buf c) =
    (if (max <? Z.of_nat (List.length (buf ++ written w)))%Z then flush (stamp w) (Bhg (buf ++ written w) c) else (Ok tt, Bhg (buf ++ written w) c)).
Proof.
  intros Hw. destruct (written_in V w Hw) as [Hi Hn].
  assert (A : forall v t, (v = VTup (written w) \/ written w = [v]) ->
     bhg_add max v t (Bhg buf c) = (if (max <? Z.of_nat (List.length (buf ++ written w)))%Z
        then match flush t (Bhg (buf ++ written w) c) with (Ok _, s2) => (Ok v, s2) | (Err e, s2) => (Err e, s2) end
        else (Ok v, Bhg (buf ++ written w) c))).
  { intros v t Hv. unfold bhg_add.
    assert (X : exists x, index0 v = Ok x /\ (if is_tup x then Bhg (buf ++ items_of v) c else Bhg (buf ++ [v]) c) = Bhg (buf ++ written w) c).
    { destruct Hv as [->|E].
      - destruct (index0_edges V _ Hn Hi) as (x & E & T). exists x. rewrite T. now split.
      - rewrite E in *. inversion Hi as [|? ? He _]; subst. destruct (index0_edge v (edge_in_db _ _ He)) as (x & E0 & T). exists x. rewrite T. now split. }
    destruct X as (x & E & S). rewrite E. cbn [b_buffer b_conn]. rewrite S. reflexivity. }
  assert (F : forall t (v : value), match (if (max <? Z.of_nat (List.length (buf ++ written w)))%Z
        then match flush t (Bhg (buf ++ written w) c) with (Ok _, s2) => (Ok v, s2) | (Err e, s2) => (Err e, s2) end
        else (Ok v, Bhg (buf ++ written w) c)) with (r, s') => (match r with Ok _ => Ok tt | Err e => Err e end, s') end
     = (if (max <? Z.of_nat (List.length (buf ++ written w)))%Z then flush t (Bhg (buf ++ written w) c) else (Ok tt, Bhg (buf ++ written w) c))).
  { intros t v. destruct (max <? _)%Z; [|reflexivity]. destruct (flush t _) as [[[]|e] s2]; reflexivity. }
  destruct w as [e t|es t|s e t|s es t]; cbn [buffered stamp].
  - rewrite (A e t (or_intror eq_refl)). apply F.
  - rewrite (A (VTup es) t (or_introl eq_refl)). apply F.
  - destruct Hw as [[He _] _]. destruct (index0_edge e (edge_in_db _ _ He)) as (x & E & T). unfold bhg_add_belief. rewrite E, T.
    change (VTup [e; link s e]) with (VTup (written (WBelief s e t))). rewrite (A _ t (or_introl eq_refl)). apply F.
  - destruct Hw as [[Hes Hw] _]. assert (Fe : Forall (edge_in V) es) by (eapply Forall_impl; [|exact Hw]; now intros x [H _]).
    destruct (index0_edges V es Hes Fe) as (x & E & T). unfold bhg_add_belief. rewrite E, T. cbn [items_of as_seq].
    change (flat_map (fun edge => [edge; link s edge]) es) with (written (WBeliefs s es t)). rewrite (A _ t (or_introl eq_refl)). apply F.
Qed.
Lemma flush_as_op ord V h t buf c : noalias V -> int64 t = true -> (forall l, Permutation (ord l) l) -> ready V c h -> Forall (edge_in V) buf -> buf <> [] ->
  exists c' tr, flush t (Bhg buf c) = (Ok tt, Bhg [] c') /\ run_op ord (OAddMany buf t) c = (Ok tt, c', tr) /\ ready V c' (after h (OAddMany buf t)).
Proof.
  intros HV Ht Ho R Hb Hn. destruct (op_top ord V h (OAddMany buf t) c HV Ho (conj (conj Hn Hb) Ht) R) as (us & c' & tr & [Er _ R' _ _]).
  exists c', tr. split; [|now split]. unfold flush. cbn [b_buffer b_conn]. cbn [run_op] in Er. unfold bind in Er.
  destruct (add (VTup buf) t c) as [[[a|y] c1] t1]; [|discriminate]. now injection Er as <- _.
Qed.

(** For every sequence of calls: the results are those of [meaning], the buffer
    holds the edges that wait, and the wrapped hypergraph is exactly in the state
    in which the calls of [meaning] on it, without a batch writer, leave it -- so
    every later query answers what it answers there, and sees no waiting edge. *)
Theorem C35_batch_writer :
  forall V ord auto ops c tr max ks, noalias V -> (forall l, Permutation (ord l) l) -> Forall (op_in V) ops ->
    run_ops ord ops (start auto) = (Ok tt, c, tr) -> Forall (call_in V) ks ->
    let m := meaning max [] ks in
    exists s' tr', run_calls ord max ks (Bhg [] c) = (results m, s')
      /\ b_buffer s' = waiting m
      /\ Forall (op_in V) (ops ++ ran_ops m)
      /\ run_ops ord (ops ++ ran_ops m) (start auto) = (Ok tt, b_conn s', tr').
Proof.
  intros V ord auto ops c tr max ks HV Ho Hi Er Hk m.
  destruct (reachable_ready ord V auto ops HV Ho Hi) as (c0 & tr0 & E0 & R & _). rewrite Er in E0. injection E0 as <- <-.
  assert (K : forall ks buf c h, Forall (call_in V) ks -> ready V c h -> Forall (edge_in V) buf ->
     exists s' tr', run_calls ord max ks (Bhg buf c) = (results (meaning max buf ks), s') /\ b_buffer s' = waiting (meaning max buf ks)
       /\ Forall (op_in V) (ran_ops (meaning max buf ks)) /\ run_ops ord (ran_ops (meaning max buf ks)) c = (Ok tt, b_conn s', tr')).
  { clear -HV Ho. induction ks as [|k ks IH]; intros buf c h Hk R Hb.
    - exists (Bhg buf c), []. split; [reflexivity|]. split; [reflexivity|]. split; [constructor|reflexivity].
    - inversion Hk as [|? ? Hk1 Hks]; subst.
      assert (Go : forall o c1 t1 buf1 r, run_call ord max k (Bhg buf c) = (r, Bhg buf1 c1) ->
                 run_op ord o c = (Ok tt, c1, t1) -> op_in V o -> ready V c1 (after h o) -> Forall (edge_in V) buf1 ->
                 exists s' tr', run_calls ord max (k :: ks) (Bhg buf c) = (r :: results (meaning max buf1 ks), s') /\ b_buffer s' = waiting (meaning max buf1 ks)
                   /\ Forall (op_in V) ([o] ++ ran_ops (meaning max buf1 ks)) /\ run_ops ord ([o] ++ ran_ops (meaning max buf1 ks)) c = (Ok tt, b_conn s', tr')).
      { intros o c1 t1 buf1 r E1 E2 Hop R1 Hb1. destruct (IH buf1 c1 _ Hks R1 Hb1) as (s' & tr' & A & B & C & D).
        exists s', (t1 ++ tr'). cbn [run_calls]. rewrite E1, A. split; [reflexivity|]. split; [exact B|]. split; [now constructor|].
        unfold run_ops in *. cbn [app mfor]. unfold bind. now rewrite E2, D. }
      assert (Stay : forall buf1 r, run_call ord max k (Bhg buf c) = (r, Bhg buf1 c) -> Forall (edge_in V) buf1 ->
                 exists s' tr', run_calls ord max (k :: ks) (Bhg buf c) = (r :: results (meaning max buf1 ks), s') /\ b_buffer s' = waiting (meaning max buf1 ks)
                   /\ Forall (op_in V) ([] ++ ran_ops (meaning max buf1 ks)) /\ run_ops ord ([] ++ ran_ops (meaning max buf1 ks)) c = (Ok tt, b_conn s', tr')).
      { intros buf1 r E1 Hb1. destruct (IH buf1 c _ Hks R Hb1) as (s' & tr' & A & B & C & D).
        exists s', tr'. cbn [run_calls]. rewrite E1, A. split; [reflexivity|]. split; [exact B|]. now split. }
      destruct k as [w|t|o]; cbn [call_in] in Hk1; cbn [meaning].
      + destruct (written_in V w Hk1) as [Hw Hn]. assert (Ha : Forall (edge_in V) (buf ++ written w)) by (now apply Forall_app).
        pose proof (buffered_bhg_add V max w buf c Hk1) as Eb.
        destruct (max <? Z.of_nat (List.length (buf ++ written w)))%Z; cbn [results waiting ran_ops].
        * assert (Nn : buf ++ written w <> []) by (intros X; now apply app_eq_nil in X).
          destruct (flush_as_op ord V h (stamp w) (buf ++ written w) c HV (write_stamp V w Hk1) Ho R Ha Nn) as (c1 & t1 & F & E2 & R1).
          apply (Go (OAddMany (buf ++ written w) (stamp w)) c1 t1 [] (Ok tt)); [cbn [run_call]; now rewrite Eb|exact E2|exact (conj (conj Nn Ha) (write_stamp V w Hk1))|exact R1|constructor].
        * apply Stay; [exact Eb|exact Ha].
      + destruct buf as [|x buf]; cbn [results waiting ran_ops].
        * apply Stay; [reflexivity|constructor].
        * destruct (flush_as_op ord V h t (x :: buf) c HV Hk1 Ho R Hb ltac:(easy)) as (c1 & t1 & F & E2 & R1).
          apply (Go (OAddMany (x :: buf) t) c1 t1 [] (Ok tt)); [exact F|exact E2|split; [now split|exact Hk1]|exact R1|constructor].
      + destruct Hk1 as [Hop _]. destruct (op_top ord V h o c HV Ho Hop R) as (us & c1 & t1 & [E1 _ R1 _ _]). cbn [results waiting ran_ops].
        apply (Go o c1 t1 buf (Ok tt)); [|exact E1|exact Hop|exact R1|exact Hb]. cbn [run_call]. unfold bhg_lift. cbn [b_buffer b_conn]. now rewrite E1. }
  destruct (K ks [] c _ Hk R ltac:(constructor)) as (s' & tr' & A & B & C & D). exists s', (tr ++ tr').
  split; [exact A|]. split; [exact B|]. split; [now apply Forall_app|]. unfold run_ops in *. rewrite mfor_app. unfold bind. fold m in D. now rewrite Er, D.
Qed.
Print Assumptions C35_batch_writer.
Example C35_example :
  let ks := [CWrite (WAdd c34_e5 1); CFlush 2; CFlush 3; CWrite (WAdd c34_e6 4); CWrapped (ORemove c34_e6); CWrite (WAddMany [ex_e1; ex_e4] 5)] in
  Forall (call_in plain_values) ks
  /\ ran_ops (meaning 2 [] ks) = [OAddMany [c34_e5] 2; ORemove c34_e6; OAddMany [c34_e6; ex_e1; ex_e4] 5]%Z
  /\ results (meaning 2 [] ks) = [Ok tt; Ok tt; Err IndexError; Ok tt; Ok tt; Ok tt].
Proof.
  split; [|split; reflexivity]. repeat (apply Forall_cons || apply Forall_nil); cbn [call_in write_in op_in]; try reflexivity; try (split; [|discriminate]); try (edge_ok).
  split; [|reflexivity]. split; [discriminate|]. repeat (apply Forall_cons || apply Forall_nil); edge_ok.
Qed.

(** So what a user may expect is false in all its parts: (a) the timestamp of an earlier buffered add
    is lost; (b) an added edge is not visible; (c) removing it has no effect; (d)
    flush on an empty buffer raises. *)
Theorem C35_batch_writer_refuted :
  (exists s1 s2, bhg_add 1 c34_e5 11 (Bhg [] (start false)) = (Ok c34_e5, s1) /\ bhg_add 1 ex_e4 22 s1 = (Ok ex_e4, s2)
     /\ fst (fst (timestamp c34_e5 (b_conn s2))) = Ok 22%Z)
  /\ (exists s1, bhg_add 5 c34_e5 11 (Bhg [] (start false)) = (Ok c34_e5, s1)
     /\ fst (bhg_lift (exists_ c34_e5) s1) = Ok false
     /\ exists s2 s3, bhg_lift (remove c34_e5) s1 = (Ok tt, s2) /\ flush 1 s2 = (Ok tt, s3)
        /\ fst (bhg_lift (exists_ c34_e5) s3) = Ok true)
  /\ fst (flush 1 (Bhg [] (start false))) = Err IndexError.
Proof.
  split; [|split; [|vm_compute; reflexivity]].
  - exists (snd (bhg_add 1 c34_e5 11 (Bhg [] (start false)))).
    exists (snd (bhg_add 1 ex_e4 22 (snd (bhg_add 1 c34_e5 11 (Bhg [] (start false)))))). repeat apply conj; vm_compute; reflexivity.
  - exists (snd (bhg_add 5 c34_e5 11 (Bhg [] (start false)))). split; [vm_compute; reflexivity|]. split; [vm_compute; reflexivity|].
    set (s1 := snd (bhg_add 5 c34_e5 11 (Bhg [] (start false)))).
    exists (snd (bhg_lift (remove c34_e5) s1)), (snd (flush 1 (snd (bhg_lift (remove c34_e5) s1)))). repeat apply conj; vm_compute; reflexivity.
Qed.
Print Assumptions C35_batch_writer_refuted.

(** Flush of a non-empty buffer succeeds at any time, makes every buffered edge visible, and every buffered edge that was not in the
    hypergraph gets the timestamp given to flush. *)
Theorem C35_flush :
  forall V ops c buf t, noalias V -> reached V ops c -> int64 t = true -> Forall (edge_in V) buf -> buf <> [] ->
    exists c', flush t (Bhg buf c) = (Ok tt, Bhg [] c')
      /\ forall e, In e buf -> exists_ e c' = (Ok true, c', [])
           /\ (exists_ e c = (Ok false, c, []) -> timestamp e c' = (Ok t, c', [])).
Proof.
  intros V ops c buf t HV Hr Ht Hb Hn. pose proof (reached_ready V ops c HV Hr) as R. set (h := history ops) in *.
  destruct (flush_ok V h t buf c HV Ht R Hb Hn) as (c' & F & R'). exists c'. split; [exact F|]. intros e He. rewrite Forall_forall in Hb.
  pose proof (Hb e He) as Ee. assert (P : present (adds buf t h) e) by (apply present_adds; now left). split.
  - now apply (ready_exists_true V c' _ e HV R' Ee).
  - intros Hf. destruct (ready_exists V c h e HV R Ee) as (b & Eb & Hb'). rewrite Eb in Hf. injection Hf as ->.
    assert (Np : ~ In e (stored h)) by (rewrite stored_present; intros X; apply Hb' in X; discriminate).
    rewrite (ready_timestamp V c' _ e R' (db_edge_vertex _ (edge_in_db _ _ Ee))).
    apply stored_present in P. destruct (vrow_edge _ e P) as (d & t' & E1 & E2). rewrite E1.
    assert (I : forall l h, ~ In e (stored h) -> In e l -> inserted e (adds l t h) = Some t).
    { assert (I1 : forall l h, In e (stored h) -> inserted e (adds l t h) = inserted e h).
      { induction l as [|x l IHl]; intros h0 Hs; [reflexivity|]. cbn [adds fold_left]. unfold adds in IHl. rewrite IHl.
        - cbn [inserted]. destruct (veqb e x) eqn:X; [|reflexivity]. apply memb_in in Hs. now rewrite Hs.
        - apply stored_add. now right. }
      induction l as [|x l IHl]; intros h0 Hs Hl; [easy|]. cbn [adds fold_left]. destruct (veqb e x) eqn:X.
      - apply veqb_eq in X as <-. fold (adds l t (EAdd e t :: h0)). rewrite I1; [|apply stored_add; now left]. cbn [inserted].
        rewrite veqb_refl. apply memb_nin in Hs. now rewrite Hs.
      - apply veqb_neq in X. apply IHl; [rewrite stored_add; intros [->|Y]; easy|]. destruct Hl as [->|Hl]; [easy|exact Hl]. }
    rewrite (I buf h Np He) in E2. now injection E2 as <-.
Qed.
Print Assumptions C35_flush.
Example C35_nonvacuous : reached plain_values ex_ops ex_c /\ Forall (edge_in plain_values) [c34_e5; ex_e1]
  /\ fst (fst (exists_ c34_e5 ex_c)) = Ok false /\ fst (fst (timestamp ex_e1 (b_conn (snd (flush 77 (Bhg [c34_e5; ex_e1] ex_c)))))) = Ok 10%Z.
Proof.
  split; [exact ex_reached|]. split; [repeat (apply Forall_cons || apply Forall_nil); edge_ok|].
  split; vm_compute; reflexivity.
Qed.

(** ** C36 *)

(** A history of calls on a HyperGraph with the null backend; the calls of C34
    plus removals, and what they return ([log]). *)
Definition null_run (o : op) : res unit :=
  match o with
  | OAdd e t => let? _ := null_add e t in Ok tt
  | OAddMany es t => let? _ := null_add (VTup es) t in Ok tt
  | ORemove e => null_remove e
  | ORemoveMany es => null_remove (VTup es)
  | ODestroy => null_destroy
  | OAddBelief s e t => null_add_belief s e t
  | OAddBeliefs s es t => null_add_belief s (VTup es) t
  | ORemoveBelief s e => null_remove_belief s e
  | ORemovePattern p => null_remove_by_pattern (VTup p)
  | OBatch fs => null_batch_exec fs
  | OAsk _ | OReopen => Ok tt
  end.

(** Whatever was called before (the null backend has no state), all calls on
    storable edges return normally, add returns its argument, and every query
    answers what an SQL backend answers on an empty database. *)
Theorem C36_null_backend :
  (forall V o, op_in V o -> null_run o = Ok tt)
  /\ (forall e t, null_add e t = Ok e)
  (** whatever is asked, and of whatever value *)
  /\ (forall v, null_exists v = Ok false /\ null_pattern2edges v = Ok [] /\ null_star v = Ok [] /\ null_symbols_with_root v = Ok []
        /\ null_sources v = Ok [] /\ null_degree v = Ok 0%Z /\ null_timestamp v = Ok (-1)%Z /\ null_remove v = Ok tt
        /\ forall B (f : value * Z -> B), null_f_all f = Ok [])
  (** these are the answers of an empty hypergraph on another backend *)
  /\ forall V auto, noalias V -> let c0 := start auto in
       (forall e, edge_in V e -> exists_ e c0 = (null_exists e, c0, []))
       /\ (forall p, pattern_in V p -> pattern2edges (VTup p) c0 = (null_pattern2edges (VTup p), c0, []))
       /\ (forall v, db_vertex v = true -> star v c0 = (null_star v, c0, [])
             /\ degree v c0 = (null_degree v, c0, []) /\ timestamp v c0 = (null_timestamp v, c0, []))
       /\ (forall e, db_vertex e = true -> V e -> V (VStr (lit "src/1")) -> sources e c0 = (null_sources e, c0, []))
       /\ (forall B (f : value * Z -> B), f_all f c0 = (null_f_all f, c0, []))
       /\ (forall r, root_in r -> symbols_with_root (VStr r) c0 = (null_symbols_with_root (VStr r), c0, []))
       /\ (forall v n, db_vertex v = true -> ego v n c0 = (null_ego v n, c0, [])).
Proof.
  split; [|split; [reflexivity|split; [repeat split|]]].
  - intros V o Ho. destruct o; try reflexivity.
    + destruct Ho as [[He _] _]. destruct (index0_edge e (edge_in_db _ _ He)) as (x & E & T). cbn [null_run]. unfold null_add_belief. now rewrite E.
    + destruct Ho as [[Hn Hw] _]. destruct es as [|e es]; [easy|]. reflexivity.
  - intros V auto HV c0.
    assert (Hr : reached V [] c0).
    { exists (fun l => l), auto, []. split; [intros l; apply Permutation_refl|]. split; [constructor|reflexivity]. }
    destruct (C21_destroy_empties V [] c0 HV Hr) as [_ H]. specialize (H auto). cbv zeta in H.
    destruct H as (H1 & H2 & H3 & H4 & H5 & H6). repeat (split; [assumption|]).
    intros v n Hv. unfold ego, null_ego. destruct (0 <? n)%Z; [|reflexivity]. unfold bind at 1. unfold c0 in H3 |- *.
    pose proof (proj1 (H3 v Hv)) as Q. fold (start auto). rewrite Q. reflexivity.
Qed.
Print Assumptions C36_null_backend.
Example C36_nonvacuous : edge_in plain_values ex_e1 /\ null_exists ex_e1 = Ok false /\ root_in (lit "great").
Proof. split; [edge_ok|]. split; [reflexivity|]. vm_compute. tauto. Qed.
