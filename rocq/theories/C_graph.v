(** * C_graph.v -- property theorems C11-C22, C29-C33, C47 (any history) *)

From Verif Require Import Py M_symbol M_edge M_sql M_hypergraph P_py Spec P_edge P_perm P_range P_query
  S_history M_driver P_ops P_hist P_graph P_answers P_rows P_alias P_nested.
From Coq Require Import Permutation Factorial String.
Open Scope list_scope.

(** witness: the state and the trace of a run *)
Ltac ran m c := exists (snd (fst (m c))), (snd (m c)).

(** Reading guide.  [reached V ops c]: [c] is the state after the API calls
    [ops] on an empty database (both commit modes, any set iteration order),
    all edges storable with elements from V.  [noalias V]: Python's == is
    equality on V (no 7 next to 7.0).  A query [q c = (Ok r, c, [])] answers r
    and changes nothing; [present h e]: e was added and neither removed nor
    wiped since; [history ops]: the elementary events, newest first. *)

(** *** a concrete history, used by all the non-vacuity examples *)
Definition ex_e1 : value := VTup [VStr (lit "is/1"); VStr (lit "graphbrain/1"); VStr (lit "great/1")].
Definition ex_e2 : value := VTup [VStr (lit "says"); VStr (lit "mary"); ex_e1].
Definition ex_e3 : value := VTup [VStr (lit "born"); VStr (lit "mary"); VInt 1970].
Definition ex_e4 : value := VTup [VStr (lit "likes"); VStr (lit "mary"); VStr (lit "mary")].
Definition ex_s : value := VStr (lit "wikipedia/gb").
Definition ex_ops : list op :=
  [OAdd ex_e1 10; OAddMany [ex_e2; ex_e3] 20; OAdd ex_e1 99; OAddBelief ex_s ex_e1 30;
   OBatch [[BAdd ex_e4 40; BExists ex_e4]; [BRemove ex_e3]];
   OAsk (QDegree (VStr (lit "mary"))); OReopen; ORemove ex_e3; OAdd ex_e3 50].
Lemma ex_ops_in : Forall (op_in plain_values) ex_ops.
Proof.
  unfold ex_ops. repeat (apply Forall_cons || apply Forall_nil);
    match goal with
    | |- op_in _ (OBatch _) => repeat (apply Forall_cons || apply Forall_nil);
        edge_ok
    | |- op_in _ (OAddMany _ _) =>
        split; [split; [discriminate|]; repeat (apply Forall_cons || apply Forall_nil); edge_ok|reflexivity]
    | |- op_in _ (OAddBelief _ _ _) => split; [split; edge_ok|reflexivity]
    | |- op_in _ (OAdd _ _) => split; [edge_ok|reflexivity]
    | |- op_in _ (OAsk _) => reflexivity
    | |- op_in _ OReopen => exact I
    | |- _ => edge_ok
    end.
Qed.
Definition ex_c : conn := snd (fst (run_ops (fun l => l) ex_ops (start false))).
Lemma ex_reached : reached plain_values ex_ops ex_c.
Proof.
  exists (fun l => l), false.
  destruct (reachable_ready (fun l => l) plain_values false ex_ops plain_noalias (fun l => Permutation_refl l) ex_ops_in)
    as (c & tr & E & _ & _).
  exists tr. split; [apply Permutation_refl|]. split; [exact ex_ops_in|]. unfold ex_c. rewrite E. reflexivity.
Qed.
Example ex_history : history ex_ops =
  [EAdd ex_e3 50; ERem ex_e3; ERem ex_e3; EAdd ex_e4 40; EAdd (link_edge ex_s ex_e1) 30; EAdd ex_e1 30;
   EAdd ex_e1 99; EAdd ex_e3 20; EAdd ex_e2 20; EAdd ex_e1 10].
Proof. vm_compute. reflexivity. Qed.

(** C11: the calls never raise, and exists answers membership. *)
Theorem C11_exists_answers_membership :
  forall V ord auto ops, noalias V -> (forall l, Permutation (ord l) l) -> Forall (op_in V) ops ->
  exists c tr, run_ops ord ops (start auto) = (Ok tt, c, tr)
    /\ forall e, edge_in V e ->
         exists b, exists_ e c = (Ok b, c, [])
           /\ (b = true <-> exists later t earlier, history ops = later ++ EAdd e t :: earlier
                              /\ ~ In (ERem e) later /\ ~ In EDestroy later).
Proof.
  intros V ord auto ops HV Ho Hi. destruct (reachable_ready ord V auto ops HV Ho Hi) as (c & tr & E & R & _).
  exists c, tr. split; [exact E|]. intros e He. apply (ready_exists V c _ e HV R He).
Qed.
Print Assumptions C11_exists_answers_membership.
Example C11_nonvacuous : noalias plain_values /\ Forall (op_in plain_values) ex_ops
  /\ exists_ ex_e3 ex_c = (Ok true, ex_c, []) /\ exists_ (VTup [VStr (lit "says"); VStr (lit "mary")]) ex_c = (Ok false, ex_c, []).
Proof. split; [exact plain_noalias|]. split; [exact ex_ops_in|]. vm_compute. split; reflexivity. Qed.

(** C12 *)
Theorem C12_add_idempotent :
  forall V ops c e t, noalias V -> reached V ops c -> present (history ops) e ->
    exists_ e c = (Ok true, c, []) /\ add e t c = (Ok e, c, []).
Proof.
  intros V ops c e t HV Hr P. pose proof (reached_ready V ops c HV Hr) as R.
  pose proof (present_in V _ e (reached_in V ops c Hr) P) as He.
  pose proof (ready_exists_true V c _ e HV R He P) as E. split; [exact E|].
  destruct (index0_edge e (edge_in_db _ _ He)) as (a & E0 & Ea). unfold add.
  rewrite (bind_gives _ _ c a) by (now apply gives_lift). rewrite Ea.
  rewrite (bind_gives _ _ c tt); [reflexivity|]. unfold gives.
  rewrite (bind_gives _ _ c e) by (now apply add_old_does). reflexivity.
Qed.
Print Assumptions C12_add_idempotent.
Example C12_nonvacuous : present (history ex_ops) ex_e2 /\ add ex_e2 77 ex_c = (Ok ex_e2, ex_c, []).
Proof.
  split; [|vm_compute; reflexivity]. rewrite <- stored_present. vm_compute. tauto.
Qed.

(** C13 *)
Theorem C13_remove_removes_exactly_that_edge :
  forall V ops c e, noalias V -> reached V ops c -> edge_in V e ->
    (~ present (history ops) e -> remove e c = (Ok tt, c, []))
    /\ exists c' tr, remove e c = (Ok tt, c', tr)
      /\ exists_ e c' = (Ok false, c', [])
      /\ (forall x, edge_in V x -> x <> e ->
            exists b, exists_ x c = (Ok b, c, []) /\ exists_ x c' = (Ok b, c', []))
      /\ (forall p, pattern_in V p ->
            exists l l', pattern2edges (VTup p) c = (Ok l, c, []) /\ pattern2edges (VTup p) c' = (Ok l', c', [])
              /\ forall x, In x l' <-> In x l /\ x <> e)
      /\ (forall a, db_atom a = true ->
            exists l l', star a c = (Ok l, c, []) /\ star a c' = (Ok l', c', [])
              /\ forall x, In x l' <-> In x l /\ x <> e)
      /\ (forall v, db_vertex v = true -> v <> e ->
            exists d t, timestamp v c = (Ok t, c, []) /\ timestamp v c' = (Ok t, c', [])
              /\ degree v c = (Ok d, c, [])
              /\ (~ In v (elems e) -> degree v c' = (Ok d, c', []))
              /\ (present (history ops) e -> db_atom v = true -> degree v c' = (Ok (d - Z.of_nat (count v (elems e)))%Z, c', []))).
Proof.
  intros V ops c e HV Hr He. pose proof (reached_ready V ops c HV Hr) as R. pose proof (reached_in V ops c Hr) as Hi. set (h := history ops) in *. split.
  { intros P. destruct (index0_edge e (edge_in_db _ _ He)) as (a & E0 & Ea). unfold remove.
    rewrite (bind_gives _ _ c a) by (now apply gives_lift). rewrite Ea.
    apply remove_absent_does. now apply (ready_exists_false V c h). }
  destruct (goes_top false V h (ERem e :: h) (remove e) tt c (goes_remove V h e HV He) R) as (us & c' & tr & [E _ R' _ _]).
  exists c', tr. split; [exact E|]. split.
  { apply (ready_exists_false V c' _ e HV R' He). rewrite present_rem. tauto. }
  split. { intros x Hx Nx. apply (ready_exists_same V c h c' _ x HV R R' Hx). rewrite present_rem. tauto. }
  split.
  { intros p Hp. destruct (ready_pattern V c h p HV R Hp) as (l & E1 & _ & I1).
    destruct (ready_pattern V c' _ p HV R' Hp) as (l' & E2 & _ & I2). exists l, l'. split; [exact E1|]. split; [exact E2|].
    intros x. rewrite I1, I2, present_rem. tauto. }
  split.
  { intros a Ha. destruct (ready_star V c h a HV R Ha) as (l & E1 & _ & I1).
    destruct (ready_star V c' _ a HV R' Ha) as (l' & E2 & _ & I2). exists l, l'. split; [exact E1|]. split; [exact E2|].
    intros x. rewrite I1, I2, present_rem. tauto. }
  intros v Hv Nv. pose proof (ready_degree V c h v R Hv) as D. pose proof (ready_degree V c' _ v R' Hv) as D'.
  pose proof (ready_timestamp V c h v R Hv) as T. pose proof (ready_timestamp V c' _ v R' Hv) as T'.
  eexists. eexists. split; [exact T|]. apply veqb_neq in Nv. cbn [vrow] in D', T'. rewrite Nv in D', T'. split.
  - rewrite T'. destruct (memb e (stored h)); [|reflexivity]. now destruct (vrow h v) as [[d s]|].
  - split; [exact D|]. split.
    + intros N. rewrite D'. destruct (memb e (stored h)); [|reflexivity].
      rewrite (count_0 _ _ N). destruct (vrow h v) as [[d s]|]; [|reflexivity]. cbn. repeat f_equal. lia.
    + intros P Av. apply stored_present in P. rewrite D'. apply memb_in in P as M. rewrite M.
      destruct (vrow_atom V h v Hi Av) as [F1 F2]. destruct (vrow h v) as [[d s]|]; [reflexivity|].
      rewrite (count_0 _ _ (F2 (eq_sym F1) e P)). reflexivity.
Qed.
Print Assumptions C13_remove_removes_exactly_that_edge.
Example C13_nonvacuous : reached plain_values ex_ops ex_c /\ edge_in plain_values ex_e2
  /\ (exists c' tr, remove ex_e2 ex_c = (Ok tt, c', tr) /\ c' <> ex_c).
Proof.
  split; [exact ex_reached|]. split; [edge_ok|].
  eexists. eexists. split; [vm_compute; reflexivity|]. vm_compute. discriminate.
Qed.

(** C14 *)
Theorem C14_pattern2edges_exact :
  forall V ops c p, noalias V -> reached V ops c -> pattern_in V p ->
    exists l, pattern2edges (VTup p) c = (Ok l, c, []) /\ NoDup l
      /\ forall e, In e l <-> present (history ops) e /\ Forall2 (fun q x => q = VNone \/ q = x) p (elems e).
Proof. intros V ops c p HV Hr Hp. apply (ready_pattern V c _ p HV (reached_ready V ops c HV Hr) Hp). Qed.
Print Assumptions C14_pattern2edges_exact.
Example C14_nonvacuous : pattern_in plain_values [VNone; VStr (lit "mary"); VNone]
  /\ pattern2edges (VTup [VNone; VStr (lit "mary"); VNone]) ex_c = (Ok [ex_e2; ex_e4; ex_e3], ex_c, [])
  /\ pattern2edges (VTup [VStr (lit "says"); VNone; ex_e1]) ex_c = (Ok [ex_e2], ex_c, []).
Proof.
  split; [|vm_compute; split; reflexivity]. constructor.
  - exists (VStr (lit "mary")), []. split; reflexivity.
  - intros x [<-|[<-|[<-|[]]]] H; try discriminate. split; reflexivity.
Qed.

(** C15 *)
Theorem C15_star_of_atom_exact :
  forall V ops c a, noalias V -> reached V ops c -> db_atom a = true ->
    exists l, star a c = (Ok l, c, []) /\ NoDup l
      /\ forall e, In e l <-> present (history ops) e /\ In a (elems e).
Proof. intros V ops c a HV Hr Ha. apply (ready_star V c _ a HV (reached_ready V ops c HV Hr) Ha). Qed.
Print Assumptions C15_star_of_atom_exact.
Example C15_nonvacuous : db_atom (VStr (lit "mary")) = true
  /\ star (VStr (lit "mary")) ex_c = (Ok [ex_e2; ex_e4; ex_e3], ex_c, [])
  /\ star (VInt 1970) ex_c = (Ok [ex_e3], ex_c, []).
Proof. vm_compute. repeat apply conj; reflexivity. Qed.

(** C16: the claim is false for an edge that some stored edge contains: the call
    raises, or answers something that is not a stored edge. *)
Theorem C16_star_of_edge_refuted :
  exists ops c f e, reached plain_values ops c /\ edge_in plain_values f
    /\ present (history ops) e /\ In f (elems e)
    /\ star f c = (Err ValueError, c, [])
    /\ pattern2edges (VTup [VNone; VNone; f]) c = (Err ValueError, c, []).
Proof.
  exists ex_ops, ex_c, ex_e1, ex_e2. split; [exact ex_reached|]. split; [edge_ok|].
  split; [rewrite <- stored_present; vm_compute; tauto|]. split; [cbn; tauto|].
  split; vm_compute; reflexivity.
Qed.
Print Assumptions C16_star_of_edge_refuted.
(** C16.  The answer of star for an edge used as a vertex: correct (empty) when
    no stored edge contains it, and never correct otherwise: the call raises, or
    its answer misses a stored edge that contains the vertex (any largest one). *)
Theorem C16_star_of_edge :
  forall V ops c f, noalias V -> reached V ops c -> db_vertex f = true -> is_tup f = true ->
    ((forall e, present (history ops) e -> ~ In f (elems e)) -> star f c = (Ok [], c, []))
    /\ ((exists e, present (history ops) e /\ In f (elems e)) ->
        (exists x, star f c = (Err x, c, []))
        \/ exists l e, star f c = (Ok l, c, []) /\ present (history ops) e /\ In f (elems e) /\ ~ In e l).
Proof.
  intros V ops c f HV Hr Hv Tf. pose proof (reached_ready V ops c HV Hr) as R. split.
  - intros Hno. apply (Inv_star_edge_empty V (history ops) f c (rd_inv _ _ _ R) (ready_live _ _ _ R) Hv).
    intros e He. apply Hno. now apply stored_present.
  - intros (e0 & P0 & I0). destruct (nested_star V (history ops) f c (rd_inv _ _ _ R) (ready_live _ _ _ R) Hv Tf) as (r & E & H).
    destruct r as [l|x]; [right|left; now exists x].
    assert (X : exists e, present (history ops) e /\ In f (elems e)
              /\ forall e', In e' (stored (history ops)) -> In f (elems e') -> (leaves e' <= leaves e)%nat).
    { apply stored_present in P0. assert (G : forall e, In e (stored (history ops)) -> present (history ops) e) by (intros e; apply stored_present).
      revert P0 G. generalize (stored (history ops)). intros S. clear - I0. revert e0 I0. induction S as [|a S IH]; intros e0 I0 P0 G; [destruct P0|].
      assert (D : In f (elems a) \/ ~ In f (elems a)).
      { destruct (memb f (elems a)) eqn:Em; [left; now apply memb_in|right]. intros Hi. apply memb_in in Hi. congruence. }
      assert (Y : (exists e1, In e1 S /\ In f (elems e1)) \/ forall e1, In e1 S -> ~ In f (elems e1)).
      { clear. induction S as [|b S [(e1 & H1 & H2)|IH]]; [right; easy|left; exists e1; split; [now right|exact H2]|].
        destruct (memb f (elems b)) eqn:Em; [left; exists b; split; [now left|now apply memb_in]|right].
        intros e1 [<-|H1]; [|now apply IH]. intros Hi. apply memb_in in Hi. congruence. }
      destruct Y as [(e1 & H1 & H2)|Y].
      - destruct (IH e1 H2 H1 (fun e He => G e (or_intror He))) as (m & Pm & Im & Mm).
        destruct D as [Da|Da].
        + destruct (Nat.leb_spec (leaves a) (leaves m)).
          * exists m. split; [exact Pm|]. split; [exact Im|]. intros e' [<-|He']; [easy|]. now apply Mm.
          * exists a. split; [apply G; now left|]. split; [exact Da|]. intros e' [<-|He'] Hf; [lia|]. specialize (Mm e' He' Hf). lia.
        + exists m. split; [exact Pm|]. split; [exact Im|]. intros e' [<-|He']; [easy|]. now apply Mm.
      - destruct P0 as [->|P0]; [|now destruct (Y e0 P0)]. exists e0. split; [apply G; now left|]. split; [exact I0|].
        intros e' [<-|He'] Hf; [lia|]. now destruct (Y e' He'). }
    destruct X as (e & P & I & M). exists l, e. split; [exact E|]. split; [exact P|]. split; [exact I|].
    intros Hl. destruct (H l e eq_refl Hl) as (e' & H1 & H2 & H3). specialize (M e' H1 H2). lia.
Qed.
Print Assumptions C16_star_of_edge.
(** Patterns whose first non-wildcard item is an edge: the call raises, or it
    misses every stored edge that has as many atoms as each stored edge that
    contains an edge (so the largest matches are always missed), and it is right
    (empty) if no stored edge contains an edge. *)
Theorem C16_pattern_with_edge :
  forall V ops c p f rest, noalias V -> reached V ops c ->
    filter bound p = f :: rest -> is_tup f = true -> Forall (fun x => db_vertex x = true) (f :: rest) ->
    (exists x, pattern2edges (VTup p) c = (Err x, c, []))
    \/ exists l, pattern2edges (VTup p) c = (Ok l, c, [])
         /\ (forall e, present (history ops) e ->
               (forall e' y, present (history ops) e' -> In y (elems e') -> is_tup y = true -> (leaves e' <= leaves e)%nat) -> ~ In e l)
         /\ ((forall e y, present (history ops) e -> In y (elems e) -> is_tup y = false) -> l = []).
Proof.
  intros V ops c p f rest HV Hr Ep Tf Hd. pose proof (reached_ready V ops c HV Hr) as R.
  destruct (nested_pattern V (history ops) f rest p c (rd_inv _ _ _ R) (ready_live _ _ _ R) Ep Tf Hd) as (r & E & H).
  destruct r as [l|x]; [right|left; now exists x]. exists l. split; [exact E|]. split.
  - intros e Pe M Hl. destruct (H l e eq_refl Hl) as (_ & e' & y & H1 & H2 & H3 & _ & H4).
    apply stored_present in H1. specialize (M e' y H1 H2 H3). lia.
  - intros Hno. destruct l as [|v l]; [reflexivity|]. destruct (H _ v eq_refl (or_introl eq_refl)) as (_ & e' & y & H1 & H2 & H3 & _).
    apply stored_present in H1. rewrite (Hno e' y H1 H2) in H3. discriminate.
Qed.
Print Assumptions C16_pattern_with_edge.
Example C16_nonvacuous : db_vertex ex_e3 = true /\ star ex_e3 ex_c = (Ok [], ex_c, [])
  /\ db_vertex ex_e1 = true /\ is_tup ex_e1 = true /\ present (history ex_ops) ex_e2 /\ In ex_e1 (elems ex_e2).
Proof.
  split; [vm_compute; reflexivity|]. split; [vm_compute; reflexivity|]. split; [vm_compute; reflexivity|]. split; [reflexivity|].
  split; [rewrite <- stored_present; vm_compute; tauto|cbn; tauto].
Qed.
(** and a case where star answers something: f = (a 0 b) inside (says f): the
    answer is the atom a, which contains nothing *)
Example C16_wrong_answer : let f := VTup [VStr (lit "a"); VInt 0; VStr (lit "b")] in let e := VTup [VStr (lit "says"); f] in
  let c := snd (fst (add e 1 (start false))) in star f c = (Ok [VStr (lit "a")], c, []) /\ exists_ e c = (Ok true, c, []).
Proof. split; vm_compute; reflexivity. Qed.

(** C17 *)
Theorem C17_symbols_with_root_exact :
  forall V ops c r, noalias V -> reached V ops c ->
    forallb is_scalar r = true -> no_white r = true -> starts_with c_lpar r = false ->
    exists l, symbols_with_root (VStr r) c = (Ok l, c, []) /\ NoDup l
      /\ forall s, In s l <-> (exists e, present (history ops) e /\ In (VStr s) (elems e))
                              /\ exists t, s = r ++ c_slash :: t.
Proof.
  intros V ops c r HV Hr H1 H2 H3. pose proof (reached_ready V ops c HV Hr) as R.
  destruct (Inv_symbols V _ r c (rd_inv _ _ _ R) (ready_live _ _ _ R) H1 H2 H3) as (l & G & N & I).
  exists l. split; [exact G|]. split; [exact N|]. intros s. rewrite I. split.
  - intros [(e & He & X) Y]. split; [|exact Y]. exists e. now rewrite <- stored_present.
  - intros [(e & He & X) Y]. split; [|exact Y]. exists e. now rewrite stored_present.
Qed.
Print Assumptions C17_symbols_with_root_exact.
Example C17_nonvacuous : no_white (lit "graphbrain") = true
  /\ symbols_with_root (VStr (lit "graphbrain")) ex_c = (Ok [lit "graphbrain/1"], ex_c, []).
Proof. vm_compute. split; reflexivity. Qed.

(** C18: [E] is any enumeration of the stored edges. *)
Theorem C18_degree_of_atom :
  forall V ops c a E, noalias V -> reached V ops c -> db_atom a = true ->
    NoDup E -> (forall e, In e E <-> present (history ops) e) ->
    degree a c = (Ok (Z.of_nat (occurrences a E)), c, []).
Proof.
  intros V ops c a E HV Hr Ha N HE. pose proof (reached_ready V ops c HV Hr) as R.
  pose proof (reached_in V ops c Hr) as Hi. rewrite (ready_degree V c _ a R (db_atom_vertex a Ha)).
  pose proof (degree_quiet V _ a Hi (quiet_atom V _ a Hi Ha)) as D. rewrite (occ_enum a _ E N HE).
  destruct (vrow (history ops) a) as [[d s]|]; [now rewrite D|now rewrite D].
Qed.
Print Assumptions C18_degree_of_atom.
Example C18_nonvacuous : degree (VStr (lit "mary")) ex_c = (Ok 4, ex_c, [])%Z
  /\ NoDup (stored (history ex_ops)) /\ occurrences (VStr (lit "mary")) (stored (history ex_ops)) = 4%nat.
Proof. split; [vm_compute; reflexivity|]. split; [apply stored_nodup|]. vm_compute. reflexivity. Qed.

(** C19: false; the degree of an edge used as a vertex is reset when the edge is
    (re-)added, forgotten when it is removed, and can become negative. *)
Theorem C19_degree_of_edge_refuted :
  (exists ops c f e, reached plain_values ops c /\ edge_in plain_values f /\ present (history ops) e
      /\ In f (elems e) /\ degree f c = (Ok 0, c, [])%Z)
  /\ (exists ops c f, reached plain_values ops c /\ edge_in plain_values f /\ degree f c = (Ok (-1), c, [])%Z).
Proof.
  assert (W : forall ops, Forall (op_in plain_values) ops ->
            reached plain_values ops (snd (fst (run_ops (fun l => l) ops (start false))))).
  { intros ops H. exists (fun l => l), false.
    destruct (reachable_ready (fun l => l) plain_values false ops plain_noalias (fun l => Permutation_refl l) H)
      as (c & tr & E & _ & _).
    exists tr. split; [apply Permutation_refl|]. split; [exact H|]. now rewrite E. }
  split.
  - exists [OAdd ex_e2 1; OAdd ex_e1 2]. eexists. exists ex_e1, ex_e2. split; [apply W|].
    + repeat (apply Forall_cons || apply Forall_nil); cbn [op_in]; edge_ok.
    + split; [edge_ok|]. split; [rewrite <- stored_present; vm_compute; tauto|].
      split; [cbn; tauto|]. vm_compute. reflexivity.
  - exists [OAdd ex_e2 1; OAdd ex_e1 2; ORemove ex_e2]. eexists. exists ex_e1. split; [apply W|].
    + repeat (apply Forall_cons || apply Forall_nil); cbn [op_in]; edge_ok.
    + split; [edge_ok|]. vm_compute. reflexivity.
Qed.
Print Assumptions C19_degree_of_edge_refuted.
(** What holds, for every vertex and every history: the degree counts the
    occurrences gained since the current record of the vertex was started
    ([born], explained by C19_born_meaning): 0 without a record; it is never more
    than the occurrences, and it is the occurrences if the edge was only inserted
    and removed while no stored edge contained it (so always for atoms). *)
Theorem C19_degree_of_any_vertex :
  forall V ops c v E, noalias V -> reached V ops c -> db_vertex v = true ->
    NoDup E -> (forall e, In e E <-> present (history ops) e) ->
    exists d, degree v c = (Ok d, c, [])
      /\ match born v (history ops) with
         | None => d = 0%Z
         | Some (_, earlier) => forall E0, NoDup E0 -> (forall e, In e E0 <-> present earlier e) ->
             d = (Z.of_nat (occurrences v E) - Z.of_nat (occurrences v E0))%Z
         end
      /\ (d <= Z.of_nat (occurrences v E))%Z
      /\ (quiet v (history ops) -> d = Z.of_nat (occurrences v E)).
Proof.
  intros V ops c v E HV Hr Hv N HE. pose proof (reached_ready V ops c HV Hr) as R.
  pose proof (reached_in V ops c Hr) as Hi. eexists. split; [apply (ready_degree V c _ v R Hv)|].
  rewrite (occ_enum v _ E N HE). split; [|split].
  - rewrite (vrow_born V _ v Hi). destruct (born v (history ops)) as [[t h0]|]; [|reflexivity]. intros E0 N0 H0.
    now rewrite (occ_enum v _ E0 N0 H0).
  - apply (degree_upper V _ v Hi).
  - intros Q. pose proof (degree_quiet V _ v Hi Q) as D.
    destruct (vrow (history ops) v) as [[d s]|]; [exact D|now rewrite D].
Qed.
Print Assumptions C19_degree_of_any_vertex.
Theorem C19_born_meaning :
  forall v h t earlier, born v h = Some (t, earlier) <->
    exists later e, h = later ++ EAdd e t :: earlier /\ ~ present earlier e
      /\ (v = e \/ In v (elems e) /\ born v earlier = None)
      /\ forall a x b, later = a ++ x :: b ->
           x <> EDestroy /\ (x = ERem v -> ~ present (b ++ EAdd e t :: earlier) v)
           /\ (forall s, x = EAdd v s -> present (b ++ EAdd e t :: earlier) v).
Proof. exact born_spec. Qed.
Print Assumptions C19_born_meaning.
(** both records of an edge: started by an edge around it, then by itself *)
Example C19_born_example :
  born ex_e1 [EAdd ex_e1 2; EAdd ex_e2 1] = Some (2, [EAdd ex_e2 1])%Z
  /\ born ex_e1 [EAdd ex_e4 2; EAdd ex_e2 1] = Some (1, [])%Z
  /\ born ex_e1 [ERem ex_e1; EAdd ex_e1 2; EAdd ex_e2 1] = None.
Proof. vm_compute. repeat apply conj; reflexivity. Qed.
Example C19_nonvacuous : quiet ex_e1 (history ex_ops) /\ degree ex_e1 ex_c = (Ok 2, ex_c, [])%Z.
Proof.
  split; [|vm_compute; reflexivity]. rewrite ex_history. cbn [quiet].
  repeat split; intros H; try (exfalso; revert H; discriminate); vm_compute; intuition discriminate.
Qed.

(** C20 *)
Theorem C20_timestamps :
  forall V ops c, noalias V -> reached V ops c ->
    (forall a, db_atom a = true ->
       timestamp a c = (Ok (match first_seen a (history ops) with Some t => t | None => -1 end), c, [])%Z)
    /\ (forall e, present (history ops) e ->
       exists t, inserted e (history ops) = Some t /\ timestamp e c = (Ok t, c, []))
    /\ (forall v, db_vertex v = true -> forgotten v (history ops) -> timestamp v c = (Ok (-1), c, [])%Z)
    /\ (forall v, db_vertex v = true ->
         timestamp v c = (Ok (match born v (history ops) with Some (t, _) => t | None => -1 end), c, [])%Z).
Proof.
  intros V ops c HV Hr. pose proof (reached_ready V ops c HV Hr) as R. pose proof (reached_in V ops c Hr) as Hi. split.
  - intros a Ha. rewrite (ready_timestamp V c _ a R (db_atom_vertex a Ha)).
    destruct (vrow_atom V _ a Hi Ha) as [<- _]. now destruct (vrow (history ops) a) as [[d s]|].
  - split.
    + intros e P. pose proof (present_in V _ e Hi P) as He. apply stored_present in P.
      destruct (vrow_edge _ e P) as (d & t & E1 & E2). exists t. split; [exact E2|].
      rewrite (ready_timestamp V c _ e R (db_edge_vertex _ (edge_in_db _ _ He))). now rewrite E1.
    + split.
      * intros v Hv F. rewrite (ready_timestamp V c _ v R Hv). now rewrite (vrow_forgotten _ v F).
      * intros v Hv. rewrite (ready_timestamp V c _ v R Hv), (vrow_born V _ v Hi). now destruct (born v (history ops)) as [[t h0]|].
Qed.
Print Assumptions C20_timestamps.
(** [first_seen], [inserted] in words *)
Theorem C20_first_seen_meaning :
  forall a later e t earlier,
    In a (elems e) -> ~ In EDestroy later ->
    (forall before e' t' between, earlier = before ++ EAdd e' t' :: between -> ~ In EDestroy before -> ~ In a (elems e')) ->
    first_seen a (later ++ EAdd e t :: earlier) = Some t.
Proof.
  intros a later e t earlier Ha Hd Hb.
  assert (N : first_seen a earlier = None).
  { clear -Hb. induction earlier as [|x h IH]; [reflexivity|]. destruct x as [e' t'|e'|]; cbn; [| |reflexivity].
    - rewrite IH.
      + assert (M : memb a (elems e') = false) by (apply memb_nin, (Hb [] e' t' h eq_refl); easy). now rewrite M.
      + intros before e2 t2 btw -> Hnd. apply (Hb (EAdd e' t' :: before) e2 t2 btw eq_refl).
        intros [X|X]; [discriminate|tauto].
    - apply IH. intros before e2 t2 btw -> Hnd. apply (Hb (ERem e' :: before) e2 t2 btw eq_refl).
      intros [X|X]; [discriminate|tauto]. }
  induction later as [|x l IH]; cbn.
  - rewrite N. apply memb_in in Ha. now rewrite Ha.
  - destruct x as [e' t'|e'|]; [| |exfalso; apply Hd; now left]; rewrite IH; auto; intros X; apply Hd; now right.
Qed.
Print Assumptions C20_first_seen_meaning.
Theorem C20_inserted_meaning :
  forall e later t earlier, ~ present earlier e -> ~ In EDestroy later -> ~ In (ERem e) later ->
    inserted e (later ++ EAdd e t :: earlier) = Some t.
Proof.
  intros e later t earlier P Hd Hr. rewrite <- stored_present in P.
  induction later as [|x l IH]; cbn [app inserted].
  - apply memb_nin in P. now rewrite veqb_refl, P.
  - assert (IH' : inserted e (l ++ EAdd e t :: earlier) = Some t) by (apply IH; intros X; [apply Hd|apply Hr]; now right).
    destruct x as [e' t'|e'|].
    + assert (S : memb e (stored (l ++ EAdd e t :: earlier)) = true).
      { apply memb_in, stored_present. exists l, t, earlier. split; [reflexivity|]. split; intros X; [apply Hr|apply Hd]; now right. }
      rewrite S. cbn. now rewrite andb_false_r.
    + destruct (veqb e e') eqn:E; [|exact IH']. apply veqb_eq in E as ->. exfalso. apply Hr. now left.
    + exfalso. apply Hd. now left.
Qed.
Print Assumptions C20_inserted_meaning.
Example C20_nonvacuous :
  timestamp (VStr (lit "mary")) ex_c = (Ok 20, ex_c, [])%Z /\ first_seen (VStr (lit "mary")) (history ex_ops) = Some 20%Z
  /\ timestamp ex_e3 ex_c = (Ok 50, ex_c, [])%Z /\ inserted ex_e3 (history ex_ops) = Some 50%Z
  /\ timestamp ex_e1 ex_c = (Ok 10, ex_c, [])%Z
  /\ forgotten (VStr (lit "never")) (history ex_ops).
Proof.
  do 5 (split; [vm_compute; reflexivity|]). rewrite ex_history. cbn [forgotten].
  do 1 (split; [discriminate|]; split; [vm_compute; intuition discriminate|]). right. right.
  do 7 (split; [discriminate|]; split; [vm_compute; intuition discriminate|]). exact I.
Qed.

(** C21 *)
Theorem C21_destroy_empties :
  forall V ops c, noalias V -> reached V ops c ->
    (exists tr, destroy c = (Ok tt, start (c_auto c), tr))
    /\ (forall auto, let c0 := start auto in
         (forall e, edge_in V e -> exists_ e c0 = (Ok false, c0, []))
         /\ (forall p, pattern_in V p -> pattern2edges (VTup p) c0 = (Ok [], c0, []))
         /\ (forall v, db_vertex v = true -> star v c0 = (Ok [], c0, []) /\ degree v c0 = (Ok 0, c0, [])%Z
                         /\ timestamp v c0 = (Ok (-1), c0, [])%Z)
         /\ (forall e, db_vertex e = true -> V e -> V (VStr (lit "src/1")) -> sources e c0 = (Ok [], c0, []))
         /\ (forall B (f : value * Z -> B), f_all f c0 = (Ok [], c0, []))
         /\ (forall r, root_in r -> symbols_with_root (VStr r) c0 = (Ok [], c0, []))).
Proof.
  intros V ops c HV Hr. pose proof (reached_ready V ops c HV Hr) as R. split.
  - destruct (destroy_does c (ready_live _ _ _ R)) as (c' & tr & E & S). exists tr. rewrite E. repeat f_equal.
    destruct (st_sync _ _ _ _ _ S (or_introl (rd_cur _ _ _ R)) (rd_sync _ _ _ R)) as [Hs _].
    pose proof (st_cur _ _ _ _ _ S) as C. pose proof (st_auto _ _ _ _ _ S) as A. pose proof (st_work _ _ _ _ _ S) as W.
    destruct c' as [a' cm wk cu]; cbn in *. rewrite (rd_cur _ _ _ R) in C. subst. reflexivity.
  - intros auto c0.
    assert (R0 : ready V c0 []) by (constructor; [reflexivity|reflexivity|apply Inv_empty]).
    assert (Np : forall e, ~ present [] e) by (intros e; rewrite <- stored_present; easy).
    assert (Nl : forall A (l : list A), (forall x, In x l -> False) -> l = []).
    { intros A [|x l] H; [reflexivity|]. exfalso. apply (H x). now left. }
    split; [intros e He; now apply (ready_exists_false V c0 [])|]. split.
    { intros p Hp. destruct (ready_pattern V c0 [] p HV R0 Hp) as (l & E & _ & I). rewrite E.
      rewrite (Nl _ l); [reflexivity|]. intros x Hx. apply I in Hx as [Hx _]. now apply Np in Hx. }
    split.
    { intros v Hv. split; [|split; [apply (ready_degree V c0 [] v R0 Hv)|apply (ready_timestamp V c0 [] v R0 Hv)]].
      apply (Inv_star_edge_empty V [] v c0 (rd_inv _ _ _ R0) (ready_live _ _ _ R0) Hv). easy. }
    split; [|split; [reflexivity|]].
    { intros e De Ve Vs. destruct (ready_sources V c0 [] e HV R0 De Ve Vs) as (l & E & _ & I). rewrite E.
      rewrite (Nl _ l); [reflexivity|]. intros s Hs. apply I in Hs. now apply Np in Hs. }
    intros r (H1 & H2 & H3). destruct (Inv_symbols V [] r c0 (rd_inv _ _ _ R0) (ready_live _ _ _ R0) H1 H2 H3) as (l & E & _ & I). unfold gives in E. rewrite E.
    rewrite (Nl _ l); [reflexivity|]. intros s Hs. apply I in Hs as [(e & [] & _) _].
Qed.
Print Assumptions C21_destroy_empties.
Example C21_nonvacuous : exists tr, destroy ex_c = (Ok tt, start false, tr) /\ ex_c <> start false.
Proof. eexists. split; [vm_compute; reflexivity|]. vm_compute. discriminate. Qed.

(** C22 *)
Theorem C22_multi_equals_singles :
  forall V ops c, noalias V -> reached V ops c ->
    (forall es t, es <> [] -> Forall (edge_in V) es -> int64 t = true ->
       exists c' tr1 tr2, add (VTup es) t c = (Ok (VTup es), c', tr1)
         /\ mfor es (fun e => add e t;; ret tt) c = (Ok tt, c', tr2))
    /\ (forall es, es <> [] -> Forall (edge_in V) es ->
       exists c' tr1 tr2, remove (VTup es) c = (Ok tt, c', tr1) /\ mfor es remove c = (Ok tt, c', tr2))
    /\ (forall fs, Forall (bop_in V) (List.concat fs) ->
       let funs := List.map (fun f => mfor f run_bop) fs in
       exists c' tr1 tr2, batch_exec funs c = (Ok tt, c', tr1) /\ mfor funs (fun f => f) c = (Ok tt, c', tr2)).
Proof.
  intros V ops c HV Hr. pose proof (reached_ready V ops c HV Hr) as R. set (h := history ops) in *.
  split; [|split].
  - intros es t Hn Hes Ht. destruct (index0_edges V es Hn Hes) as (a & E0 & Ea).
    assert (G1 : goesf V h (fold_left (fun h e => EAdd e t :: h) es h) (mfor es (fun edge => add_raw edge t;; ret tt)) tt
                   (loop_fs (fun h e => EAdd e t :: h) (fun h e => add_fs h e t) es h)).
    { apply goesf_mfor. intros x h' Hx. apply (goesf_bind_ret V h' _ _ x). apply goesf_add_raw; [exact HV| |exact Ht].
      rewrite Forall_forall in Hes. now apply Hes. }
    assert (G2 : goesf V h (fold_left (fun h e => EAdd e t :: h) es h) (mfor es (fun edge => add edge t;; ret tt)) tt
                   (loop_fs (fun h e => EAdd e t :: h) (fun h e => add_fs h e t) es h)).
    { apply goesf_mfor. intros x h' Hx. apply (goesf_bind_ret V h' _ _ x). apply goesf_add; [exact HV| |exact Ht].
      rewrite Forall_forall in Hes. now apply Hes. }
    destruct (goesf_shared V h _ _ c _ G1 R) as (tr1 & E1). destruct (goesf_top V h _ _ _ c _ G2 R) as (tr2 & E2).
    eexists. exists tr1, tr2. split; [|exact E2]. unfold add.
    rewrite (bind_gives _ _ c a) by (now apply gives_lift). rewrite Ea.
    assert (X : forall m : M unit, m c = (Ok tt, snd (fst (m c)), snd (m c)) ->
                (m;; ret (VTup es)) c = (Ok (VTup es), snd (fst (m c)), snd (m c))).
    { intros m Hm. unfold bind. rewrite Hm. cbn. now rewrite app_nil_r. }
    match goal with |- (?m;; _) c = _ => assert (Em : m c = (do cur <- open_cursor false;
        mfor es (fun edge => add_raw edge t;; ret tt);; close_cursor cur false true) c) end.
    { apply bind_ext. intros hd c2. apply (bind_ret_l es (fun items => mfor items (fun edge => add_raw edge t;; ret tt);; close_cursor hd false true)). }
    rewrite E1 in Em. rewrite X; rewrite Em; reflexivity.
  - intros es Hn Hes. destruct (index0_edges V es Hn Hes) as (a & E0 & Ea).
    assert (G1 : forall f, (forall x h', In x es -> goesf V h' (ERem x :: h') (f x) tt (rem_fs h' x)) ->
                goesf V h (fold_left (fun h e => ERem e :: h) es h) (mfor es f) tt
                   (loop_fs (fun h e => ERem e :: h) rem_fs es h)).
    { intros f Hf. apply goesf_mfor. exact Hf. }
    rewrite Forall_forall in Hes.
    destruct (goesf_top V h _ _ _ c _ (G1 remove_raw (fun x h' Hx => goesf_remove_raw V h' x HV (Hes x Hx))) R) as (tr1 & E1).
    destruct (goesf_top V h _ _ _ c _ (G1 remove (fun x h' Hx => goesf_remove V h' x HV (Hes x Hx))) R) as (tr2 & E2).
    eexists. exists tr1, tr2. split; [|exact E2]. unfold remove.
    rewrite (bind_gives _ _ c a) by (now apply gives_lift). rewrite Ea.
    rewrite (bind_gives _ _ c es) by (now apply gives_lift). exact E1.
  - intros fs Hfs funs.
    assert (G : goesf V h (fold_left after_bop (List.concat fs) h) (mfor funs (fun f => f)) tt
                  (loop_fs after_bop bop_fs (List.concat fs) h)).
    { assert (G' : goesf V h (fold_left after_bop (List.concat fs) h) (mfor (List.concat fs) run_bop) tt
                  (loop_fs after_bop bop_fs (List.concat fs) h)).
      { apply goesf_mfor. intros b h' Hb. apply goesf_bop; [exact HV|]. rewrite Forall_forall in Hfs. now apply Hfs. }
      intros c1 L I. destruct (G' c1 L I) as [(c2 & tr & E & S) I']. split; [|exact I'].
      exists c2, tr. split; [|exact S]. unfold funs. now rewrite mfor_nested. }
    destruct (goesf_shared V h _ _ c _ G R) as (tr1 & E1). destruct (goesf_top V h _ _ _ c _ G R) as (tr2 & E2).
    eexists. exists tr1, tr2. split; [exact E1|exact E2].
Qed.
Print Assumptions C22_multi_equals_singles.
Example C22_nonvacuous : Forall (edge_in plain_values) [ex_e3; ex_e4] /\ reached plain_values ex_ops ex_c
  /\ Forall (bop_in plain_values) (List.concat [[BAdd ex_e4 1; BRemoveMany [ex_e2; ex_e4]]; [BDestroy; BStar (VStr (lit "mary"))]]).
Proof.
  split; [repeat constructor; try (edge_ok); intros; vm_compute; intuition (subst; reflexivity)|].
  split; [exact ex_reached|]. cbn.
  repeat (apply Forall_cons || apply Forall_nil); cbn [bop_in]; try exact I; try reflexivity.
  - edge_ok.
  - split; [discriminate|]. repeat (apply Forall_cons || apply Forall_nil); edge_ok.
Qed.

(** C29 *)
Theorem C29_add_belief :
  forall V ops c s t, noalias V -> reached V ops c -> int64 t = true ->
    (forall e, edge_in V e -> edge_in V (link_edge s e) ->
       exists c' tr, add_belief s e t c = (Ok tt, c', tr)
         /\ exists_ e c' = (Ok true, c', [])
         /\ (exists l, sources e c' = (Ok l, c', []) /\ In s l)
         /\ forall x, edge_in V x -> x <> e -> x <> link_edge s e ->
              exists b, exists_ x c = (Ok b, c, []) /\ exists_ x c' = (Ok b, c', []))
    /\ (forall es, es <> [] -> Forall (fun e => edge_in V e /\ edge_in V (link_edge s e)) es ->
       exists c' tr, add_belief s (VTup es) t c = (Ok tt, c', tr)
         /\ (forall e, In e es -> exists_ e c' = (Ok true, c', [])
               /\ exists l, sources e c' = (Ok l, c', []) /\ In s l)
         /\ forall x, edge_in V x -> ~ In x es -> (forall e, In e es -> x <> link_edge s e) ->
              exists b, exists_ x c = (Ok b, c, []) /\ exists_ x c' = (Ok b, c', [])).
Proof.
  intros V ops c s t HV Hr Ht. pose proof (reached_ready V ops c HV Hr) as R. set (h := history ops) in *.
  assert (Src : forall c' h' e, ready V c' h' -> edge_in V e -> edge_in V (link_edge s e) -> present h' (link_edge s e) ->
            exists l, sources e c' = (Ok l, c', []) /\ In s l).
  { intros c' h' e R' He Hl P.
    destruct (ready_sources V c' h' e HV R') as (l & E & _ & I).
    - now apply db_edge_vertex, (edge_in_db V).
    - apply Hl. cbn. tauto.
    - apply Hl. cbn. tauto.
    - exists l. split; [exact E|]. now apply I. }
  split.
  - intros e He Hl. destruct (op_top (fun l => l) V h (OAddBelief s e t) c HV (fun l => Permutation_refl l) (conj (conj He Hl) Ht) R)
      as (us & c' & tr & [E _ R' _ _]). cbn [after] in R'. exists c', tr. split; [exact E|].
    split; [apply (ready_exists_true V c' _ e HV R' He); rewrite !present_add; tauto|].
    split; [apply (Src c' _ e R' He Hl); rewrite !present_add; tauto|].
    intros x Hx N1 N2. apply (ready_exists_same V c h c' _ x HV R R' Hx). rewrite !present_add. tauto.
  - intros es Hn Hes. destruct (op_top (fun l => l) V h (OAddBeliefs s es t) c HV (fun l => Permutation_refl l) (conj (conj Hn Hes) Ht) R)
      as (us & c' & tr & [E _ R' _ _]). cbn [after] in R'. exists c', tr. split; [exact E|]. rewrite Forall_forall in Hes. split.
    + intros e Hi. destruct (Hes e Hi) as [He Hl]. split.
      * apply (ready_exists_true V c' _ e HV R' He). rewrite present_beliefs. left. exists e. tauto.
      * apply (Src c' _ e R' He Hl). rewrite present_beliefs. left. exists e. tauto.
    + intros x Hx N1 N2. apply (ready_exists_same V c h c' _ x HV R R' Hx). rewrite present_beliefs. split; [tauto|].
      intros [(e & Hi & [->| ->])|P]; [easy|now apply N2 in Hi|exact P].
Qed.
Print Assumptions C29_add_belief.
Example C29_nonvacuous : edge_in plain_values ex_e3 /\ edge_in plain_values (link_edge ex_s ex_e3)
  /\ exists c' tr, add_belief ex_s ex_e3 5 ex_c = (Ok tt, c', tr) /\ sources ex_e3 c' = (Ok [ex_s], c', []).
Proof.
  split; [edge_ok|]. split; [edge_ok|].
  ran (add_belief ex_s ex_e3 5) ex_c. split; vm_compute; reflexivity.
Qed.

(** C30 *)
Theorem C30_sources_exact :
  forall V ops c e, noalias V -> reached V ops c -> db_vertex e = true -> V e -> V (VStr (lit "src/1")) ->
    exists l, sources e c = (Ok l, c, []) /\ NoDup l
      /\ forall s, In s l <-> present (history ops) (VTup [VStr (lit "src/1"); e; s]).
Proof. intros V ops c e HV Hr He Ve Vs. apply (ready_sources V c _ e HV (reached_ready V ops c HV Hr) He Ve Vs). Qed.
Print Assumptions C30_sources_exact.
Example C30_nonvacuous : sources ex_e1 ex_c = (Ok [ex_s], ex_c, []) /\ sources ex_e2 ex_c = (Ok [], ex_c, [])
  /\ db_vertex ex_e1 = true /\ plain_values ex_e1.
Proof. vm_compute. repeat apply conj; reflexivity. Qed.

(** C31 *)
Theorem C31_remove_belief :
  forall V ops c s e, noalias V -> reached V ops c -> edge_in V e -> edge_in V (link_edge s e) ->
    exists c' tr l l', remove_belief s e c = (Ok tt, c', tr)
      /\ sources e c = (Ok l, c, []) /\ sources e c' = (Ok l', c', [])
      /\ (forall s', In s' l' <-> In s' l /\ s' <> s)
      /\ (exists b b', exists_ e c = (Ok b, c, []) /\ exists_ e c' = (Ok b', c', [])
            /\ (b' = true <-> b = true /\ l' <> []))
      /\ (forall x, edge_in V x -> x <> e -> x <> link_edge s e ->
            exists b, exists_ x c = (Ok b, c, []) /\ exists_ x c' = (Ok b, c', []))
      /\ (forall f, edge_in V f -> V f -> f <> e -> (forall s', e <> link_edge s' f) ->
            exists m m', sources f c = (Ok m, c, []) /\ sources f c' = (Ok m', c', [])
              /\ forall s', In s' m' <-> In s' m).
Proof.
  intros V ops c s e HV Hr He Hl. pose proof (reached_ready V ops c HV Hr) as R. set (h := history ops) in *.
  destruct (op_top (fun l => l) V h (ORemoveBelief s e) c HV (fun l => Permutation_refl l) (conj He Hl) R)
    as (us & c' & tr & [E _ R' _ _]). cbn [after] in R'. set (h1 := ERem (link_edge s e) :: h) in *.
  set (h2 := if existsb (is_link_of e) (stored h1) then h1 else ERem e :: h1) in *.
  pose proof (db_edge_vertex _ (edge_in_db _ _ He)) as De.
  assert (Ve : V e) by (apply Hl; cbn; tauto). assert (Vs : V (VStr (lit "src/1"))) by (apply Hl; cbn; tauto).
  destruct (ready_sources V c h e HV R De Ve Vs) as (l & E1 & N1 & I1).
  destruct (ready_sources V c' h2 e HV R' De Ve Vs) as (l' & E2 & N2 & I2).
  assert (Ne : forall s', link_edge s' e <> e).
  { intros s' X. apply (not_self e (edge_in_db _ _ He)). rewrite <- X at 2. cbn. tauto. }
  assert (P2 : forall x, present h2 x <-> present h1 x /\ (x = e -> existsb (is_link_of e) (stored h1) = true)).
  { intros x. unfold h2. destruct (existsb (is_link_of e) (stored h1)); [tauto|]. rewrite present_rem.
    split; [intros [H1 H2]; split; [exact H2|easy]|intros [H1 H2]; split; [|exact H1]]. intros X. now apply H2 in X. }
  assert (Il : forall s', In s' l' <-> In s' l /\ s' <> s).
  { intros s'. rewrite I1, I2, P2. unfold h1 at 1. rewrite present_rem. split.
    - intros [[H1 H2] _]. split; [exact H2|]. intros ->. easy.
    - intros [H1 H2]. split; [split; [|exact H1]|intros X; now apply Ne in X]. intros X. injection X as ->. easy. }
  exists c', tr, l, l'. split; [exact E|]. split; [exact E1|]. split; [exact E2|]. split; [exact Il|]. split.
  { destruct (ready_exists V c h e HV R He) as (b & Eb & Hb). destruct (ready_exists V c' h2 e HV R' He) as (b' & Eb' & Hb').
    exists b, b'. split; [exact Eb|]. split; [exact Eb'|]. rewrite Hb, Hb', P2. unfold h1 at 1. rewrite present_rem.
    assert (X : existsb (is_link_of e) (stored h1) = true <-> l' <> []).
    { rewrite existsb_exists. split.
      - intros (x & Hx & Lx). apply (link_is s) in Lx as [s' ->]. apply stored_present in Hx.
        assert (In s' l') by (apply I2, P2; split; [exact Hx|intros Y; now apply Ne in Y]). now destruct l'.
      - intros Hne. destruct l' as [|s' l']; [easy|]. exists (link_edge s' e). split.
        + apply stored_present. now apply (proj1 (P2 (link_edge s' e))), I2; left.
        + apply (link_is s). now exists s'. }
    rewrite <- X. split.
    - intros [[_ A] B]. split; [exact A|now apply B].
    - intros [A B]. split; [split; [|exact A]|easy]. intros Y. symmetry in Y. now apply Ne in Y. }
  split.
  - intros x Hx X1 X2. apply (ready_exists_same V c h c' h2 x HV R R' Hx). rewrite P2. unfold h1 at 1. rewrite present_rem. tauto.
  - intros f Hf Vf Nf Hno. pose proof (db_edge_vertex _ (edge_in_db _ _ Hf)) as Df.
    destruct (ready_sources V c h f HV R Df Vf Vs) as (m & F1 & _ & J1).
    destruct (ready_sources V c' h2 f HV R' Df Vf Vs) as (m' & F2 & _ & J2).
    exists m, m'. split; [exact F1|]. split; [exact F2|]. intros s'. rewrite J1, J2, P2. unfold h1 at 1. rewrite present_rem.
    split; [tauto|]. intros A. split; [split; [|exact A]|].
    + intros X. injection X as X _. easy.
    + intros X. symmetry in X. now apply Hno in X.
Qed.
Print Assumptions C31_remove_belief.
Example C31_nonvacuous : edge_in plain_values ex_e1 /\ edge_in plain_values (link_edge ex_s ex_e1)
  /\ exists c' tr, remove_belief ex_s ex_e1 ex_c = (Ok tt, c', tr) /\ exists_ ex_e1 ex_c = (Ok true, ex_c, [])
       /\ exists_ ex_e1 c' = (Ok false, c', []) /\ exists_ ex_e2 c' = (Ok true, c', []).
Proof.
  split; [edge_ok|]. split; [edge_ok|].
  ran (remove_belief ex_s ex_e1) ex_c. repeat apply conj; vm_compute; reflexivity.
Qed.
(** the hypothesis on [f] is needed: if the fact [e] is itself a source link of
    [f], removing [e] for lack of sources removes a source of [f] *)
Theorem C31_link_as_fact_refuted :
  exists ops c s f s', let e := link_edge s' f in
    reached plain_values ops c /\ edge_in plain_values e /\ edge_in plain_values (link_edge s e)
    /\ sources f c = (Ok [s'], c, [])
    /\ exists c' tr, remove_belief s e c = (Ok tt, c', tr) /\ sources f c' = (Ok [], c', []).
Proof.
  exists ex_ops, ex_c, (VStr (lit "bot")), ex_e1, ex_s. split; [exact ex_reached|].
  split; [edge_ok|]. split; [edge_ok|].
  split; [vm_compute; reflexivity|].
  ran (remove_belief (VStr (lit "bot")) (link_edge ex_s ex_e1)) ex_c. split; vm_compute; reflexivity.
Qed.
Print Assumptions C31_link_as_fact_refuted.

(** C32: [ord]: the order in which Python iterates the result set. *)
Theorem C32_remove_by_pattern :
  forall V ops c p ord, noalias V -> reached V ops c -> pattern_in V p -> (forall l, Permutation (ord l) l) ->
    exists c' tr, remove_by_pattern ord (VTup p) c = (Ok tt, c', tr)
      /\ forall x, edge_in V x ->
           exists b b', exists_ x c = (Ok b, c, []) /\ exists_ x c' = (Ok b', c', [])
             /\ (b' = true <-> b = true /\ ~ matches p (elems x)).
Proof.
  intros V ops c p ord HV Hr Hp Ho. pose proof (reached_ready V ops c HV Hr) as R. set (h := history ops) in *.
  destruct (op_top ord V h (ORemovePattern p) c HV Ho Hp R) as (us & c' & tr & [E _ R' _ _]). cbn [after] in R'.
  exists c', tr. split; [exact E|]. intros x Hx.
  destruct (ready_exists V c h x HV R Hx) as (b & Eb & Hb). destruct (ready_exists V c' _ x HV R' Hx) as (b' & Eb' & Hb').
  exists b, b'. split; [exact Eb|]. split; [exact Eb'|]. rewrite Hb, Hb', present_rems, filter_In, matchb_spec, stored_present. tauto.
Qed.
Print Assumptions C32_remove_by_pattern.
Example C32_nonvacuous : exists c' tr, remove_by_pattern (fun l => l) (VTup [VNone; VStr (lit "mary"); VNone]) ex_c = (Ok tt, c', tr)
  /\ exists_ ex_e2 c' = (Ok false, c', []) /\ exists_ ex_e1 c' = (Ok true, c', []).
Proof.
  ran (remove_by_pattern (fun l => l) (VTup [VNone; VStr (lit "mary"); VNone])) ex_c. repeat apply conj; vm_compute; reflexivity.
Qed.

(** C33: exactly the vertices with a record ([born], see C19_born_meaning) are
    visited, each once, with the degree that degree() answers; among them are
    every atom of a stored edge, every stored edge, and every nested edge that was
    inserted and removed only while not nested. *)
Theorem C33_f_all :
  forall V ops c B (f : value * Z -> B), noalias V -> reached V ops c ->
    exists pairs, f_all f c = (Ok (List.map f pairs), c, []) /\ NoDup (List.map fst pairs)
      /\ (forall v d, In (v, d) pairs -> db_vertex v = true /\ degree v c = (Ok d, c, []))
      /\ (forall v, db_vertex v = true -> (In v (List.map fst pairs) <-> born v (history ops) <> None))
      /\ (forall e, present (history ops) e ->
            In e (List.map fst pairs)
            /\ forall x, In x (elems e) -> (db_atom x = true \/ quiet x (history ops)) -> In x (List.map fst pairs)).
Proof.
  intros V ops c B f HV Hr. pose proof (reached_ready V ops c HV Hr) as R. pose proof (reached_in V ops c Hr) as Hi.
  destruct (Inv_f_all f V _ c (rd_inv _ _ _ R) (ready_live _ _ _ R)) as (pairs & G & N & I).
  exists pairs. split; [exact G|]. split; [exact N|].
  assert (K : forall v d t, db_vertex v = true -> vrow (history ops) v = Some (d, t) -> In v (List.map fst pairs)).
  { intros v d t Dv Hv. apply in_map_iff. exists (v, d). split; [reflexivity|]. apply I. split; [exact Dv|now exists t]. }
  split.
  - intros v d Hp. apply I in Hp as [Dv [t Hv]]. split; [exact Dv|]. rewrite (ready_degree V c _ v R Dv). now rewrite Hv.
  - split.
  { intros v Dv. pose proof (vrow_born V _ v Hi) as Eb. split.
    - intros H. apply in_map_iff in H as ((v' & d) & Ev & Hp). cbn in Ev. subst v'. apply I in Hp as [_ [t Hv]]. rewrite Hv in Eb.
      destruct (born v (history ops)); [discriminate|discriminate Eb].
    - intros H. destruct (born v (history ops)) as [[t h0]|]; [|now destruct H]. cbn [option_map] in Eb. now apply (K v _ _ Dv Eb). }
  intros e P. pose proof (present_in V _ e Hi P) as He. apply stored_present in P. split.
    + destruct (vrow_edge _ e P) as (d & t & E1 & _). apply (K e d t); [now apply db_edge_vertex, (edge_in_db V)|exact E1].
    + intros x Hx Q. assert (Q' : quiet x (history ops)) by (destruct Q as [Q|Q]; [now apply (quiet_atom V)|exact Q]).
      pose proof (degree_quiet V _ x Hi Q') as D. pose proof (occ_pos x e _ P Hx) as O.
      destruct (vrow (history ops) x) as [[d t]|] eqn:Ev; [|lia]. apply (K x d t); [now apply (elems_db V e)|exact Ev].
Qed.
Print Assumptions C33_f_all.
(** a nested edge that is removed as an edge is no longer visited, although it
    is still a vertex of a stored edge *)
Theorem C33_f_all_nested_refuted :
  exists ops c e f, reached plain_values ops c /\ present (history ops) e /\ In f (elems e)
    /\ exists l, f_all (fun p => fst p) c = (Ok l, c, []) /\ ~ In f l.
Proof.
  exists [OAdd ex_e1 1; OAdd ex_e2 2; ORemove ex_e1].
  exists (snd (fst (run_ops (fun l => l) [OAdd ex_e1 1; OAdd ex_e2 2; ORemove ex_e1] (start false)))).
  exists ex_e2, ex_e1. split.
  - assert (H : Forall (op_in plain_values) [OAdd ex_e1 1; OAdd ex_e2 2; ORemove ex_e1]).
    { repeat (apply Forall_cons || apply Forall_nil); cbn [op_in]; edge_ok. }
    exists (fun l => l), false.
    destruct (reachable_ready (fun l => l) plain_values false _ plain_noalias (fun l => Permutation_refl l) H) as (c & tr & E & _ & _).
    exists tr. split; [apply Permutation_refl|]. split; [exact H|].
    now rewrite E.
  - split; [rewrite <- stored_present; vm_compute; tauto|]. split; [cbn; tauto|].
    eexists. split; [vm_compute; reflexivity|]. vm_compute. intuition discriminate.
Qed.
Print Assumptions C33_f_all_nested_refuted.
Example C33_nonvacuous : exists l, f_all (fun p => p) ex_c = (Ok l, ex_c, []) /\ In (VStr (lit "mary"), 4%Z) l /\ In (ex_e1, 2%Z) l.
Proof. eexists. split; [vm_compute; reflexivity|]. vm_compute. tauto. Qed.

(** C47: asking for any storable edge [q], with numbers that may be equal to
    stored ones in another type: the answer is True exactly when a stored edge is
    equal to it as a Python value and the stored elements, in some order, are
    literally those of [q] but for the last, whose text may be longer (7 and 7.0).
    Adding [q] then changes nothing. *)
Theorem C47_numerically_equal_edges :
  forall V ops c q, noalias V -> reached V ops c -> db_edge q = true ->
    exists b, exists_ q c = (Ok b, c, [])
      /\ (b = true <-> exists e x t, present (history ops) e /\ py_eq q e = true
            /\ Permutation (elems e) (removelast (elems q) ++ [x])
            /\ edge2str x = edge2str (List.last (elems q) VNone) ++ t)
      /\ (b = true -> forall t, add q t c = (Ok q, c, [])).
Proof.
  intros V ops c q HV Hr Hq. pose proof (reached_ready V ops c HV Hr) as R.
  destruct (ask_alias V _ c q HV (rd_inv _ _ _ R) (ready_live _ _ _ R) Hq) as (b & E & H). exists b. split; [exact E|]. split.
  - rewrite H. split.
    + intros (e & x & Hs & E1 & P & Px). apply prefixb_spec in Px as [t Et]. exists e, x, t. rewrite <- stored_present. now repeat split.
    + intros (e & x & t & Hs & E1 & P & Et). exists e, x. rewrite stored_present. repeat (split; [assumption|]). apply prefixb_spec. now exists t.
  - intros -> t. destruct (index0_edge q Hq) as (a & E0 & Ea). unfold add.
    rewrite (bind_gives _ _ c a) by (now apply gives_lift). rewrite Ea.
    rewrite (bind_gives _ _ c tt); [reflexivity|]. unfold gives.
    rewrite (bind_gives _ _ c q) by (now apply add_old_does). reflexivity.
Qed.
Print Assumptions C47_numerically_equal_edges.
Definition ex_q : value := VTup [VStr (lit "born"); VStr (lit "mary"); VFlt (FFin false 197 1)].
Example C47_nonvacuous : db_edge ex_q = true /\ py_eq ex_q ex_e3 = true /\ exists_ ex_q ex_c = (Ok false, ex_c, []).
Proof. vm_compute. repeat apply conj; reflexivity. Qed.
(** so the position of the number decides whether 7 and 7.0 are the same *)
Theorem C47_numeric_aliasing_refuted :
  let f7 := VFlt (FFin false 7 0) in let x := VStr (lit "x") in
  py_eq (VInt 7) f7 = true
  /\ (exists c tr, add (VTup [x; f7]) 1 (start false) = (Ok (VTup [x; f7]), c, tr)
        /\ exists_ (VTup [x; VInt 7]) c = (Ok true, c, []))
  /\ (exists c tr, add (VTup [f7; x]) 1 (start false) = (Ok (VTup [f7; x]), c, tr)
        /\ exists_ (VTup [f7; x]) c = (Ok true, c, []) /\ exists_ (VTup [VInt 7; x]) c = (Ok false, c, [])).
Proof.
  intros f7 x. split; [vm_compute; reflexivity|]. split.
  - ran (add (VTup [x; f7]) 1) (start false). repeat apply conj; vm_compute; reflexivity.
  - ran (add (VTup [f7; x]) 1) (start false). repeat apply conj; vm_compute; reflexivity.
Qed.
Print Assumptions C47_numeric_aliasing_refuted.
