(** * C_when.v -- property theorem C87 (a time the database cannot hold) *)

From Verif Require Import Py M_symbol M_edge M_sql M_hypergraph P_py Spec P_edge P_perm P_range P_query
  S_history M_driver P_ops P_hist P_graph P_answers P_rows P_crash P_stuck C_graph C_crash C_same.
From Coq Require Import Permutation Factorial String.
Open Scope list_scope.

(** The elements up to the first one there is no record of. *)
Fixpoint known_first (h : list ev) (l : list value) : list value :=
  match l with
  | [] => []
  | x :: r => match born x h with Some _ => x :: known_first h r | None => [] end
  end.

Definition fails {A} (m : M A) (c : conn) (x : exn) (fs : list upd) : Prop :=
  exists c' tr, m c = (Err x, c', tr) /\ step true c fs c' tr.
Lemma fails_bind {A B} (m : M A) (k : A -> M B) c x fs : fails m c x fs -> fails (bind m k) c x fs.
Proof. intros (c' & tr & E & S). exists c', tr. split; [|exact S]. unfold bind. now rewrite E. Qed.
Lemma fails_after {A B} (m : M A) (k : A -> M B) c a fs x gs : does true m c a fs ->
  (forall c', next c fs c' -> fails (k a) c' x gs) -> fails (bind m k) c x (fs ++ gs).
Proof.
  intros (c1 & t1 & E1 & S1) H. destruct (H c1) as (c2 & t2 & E2 & S2).
  { constructor; apply S1. }
  exists c2, (t1 ++ t2). split; [|now apply (step_app true c fs c1)]. unfold bind. now rewrite E1, E2.
Qed.
Lemma fails_gives {A B} (m : M A) (k : A -> M B) c a x gs : gives m c a -> fails (k a) c x gs -> fails (bind m k) c x gs.
Proof. intros H K. unfold fails. now rewrite (bind_gives _ _ _ _ H). Qed.

Lemma add_str_fails id d t c : live c -> bindable id = true -> int64 t = false -> fails (add_str id d t) c OverflowError [].
Proof.
  intros L B T. exists c, []. split; [|apply step_nil].
  assert (X : bind_error (UpdVertex id d t) = Some OverflowError) by (unfold bind_error; cbn [bound_text]; rewrite B, T; reflexivity).
  unfold add_str, update_or_insert, bind, open_cursor, get_cur, bind, ret.
  destruct (c_cur c) eqn:C; [| |now elim L]; cbn iota beta; unfold execute, usable; rewrite C; cbn [negb]; rewrite X; reflexivity.
Qed.

(** one round of the loop over the elements *)
Definition round (t : Z) (x : value) : M unit :=
  do found <- inc_degree (edge2str x); if found then ret tt else add_str (edge2str x) 1 t.
Lemma round_known x t c : live c -> db_vertex x = true -> vlook (edge2str x) (c_work c) <> None ->
  does true (round t x) c tt [inc_row (edge2str x) 1].
Proof.
  intros L Hx K. pose proof (change_degree_does (edge2str x) 1 c L (vertex_bindable x Hx)) as D. fold (inc_degree (edge2str x)) in D.
  destruct (vlook (edge2str x) (c_work c)) as [q|]; [|now elim K].
  change [inc_row (edge2str x) 1] with ([inc_row (edge2str x) 1] ++ []). unfold round. eapply does_bind; [exact D|]. intros c' _. apply does_ret.
Qed.
Lemma round_unknown x t c : live c -> db_vertex x = true -> int64 t = false -> vlook (edge2str x) (c_work c) = None ->
  fails (round t x) c OverflowError [inc_row (edge2str x) 1].
Proof.
  intros L Hx T K. pose proof (change_degree_does (edge2str x) 1 c L (vertex_bindable x Hx)) as D. fold (inc_degree (edge2str x)) in D.
  rewrite K in D. change [inc_row (edge2str x) 1] with ([inc_row (edge2str x) 1] ++ []). unfold round. eapply fails_after; [exact D|].
  intros c' N. apply add_str_fails; [now apply (next_live _ _ _ N)|now apply vertex_bindable|exact T].
Qed.

(** which elements have a record does not change on the way *)
Definition knows (h : list ev) (w : db) : Prop := forall v, db_vertex v = true -> (vlook (edge2str v) w = None <-> born v h = None).
Lemma knows_inc h w id k : knows h w -> knows h (inc_row id k w).
Proof.
  intros K v Hv. rewrite <- (K v Hv), vlook_inc. destruct (str_eqb (edge2str v) id); [|reflexivity].
  destruct (vlook (edge2str v) w); cbn; split; easy.
Qed.
(** the updates of the failing loop: the known ones, and one that does nothing *)
Fixpoint counts (h : list ev) (l : list value) : list upd :=
  match l with
  | [] => []
  | x :: r => inc_row (edge2str x) 1 :: match born x h with Some _ => counts h r | None => [] end
  end.
Lemma loop_stops h t (l : list value) : int64 t = false -> forall c, live c -> all_db l -> knows h (c_work c) ->
  (exists x, In x l /\ born x h = None) ->
  fails (mfor l (round t)) c OverflowError (counts h l).
Proof.
  intros T. induction l as [|x l IH]; intros c L A K (y & Hy & By); [easy|]. apply Forall_cons_iff in A as [Hx A]. cbn [mfor counts].
  destruct (born x h) as [b|] eqn:Bx.
  - change (inc_row (edge2str x) 1 :: counts h l) with ([inc_row (edge2str x) 1] ++ counts h l). apply (fails_after (round t x) (fun _ => mfor l (round t)) c tt).
    + apply round_known; [exact L|exact Hx|]. intros N. apply (K x Hx) in N. congruence.
    + intros c' N. apply IH; [now apply (next_live _ _ _ N)|exact A| |].
      * rewrite (nx_work _ _ _ N). cbn. now apply knows_inc.
      * destruct Hy as [->|Hy]; [congruence|now exists y].
  - apply fails_bind. apply round_unknown; [exact L|exact Hx|exact T|]. now apply (K x Hx).
Qed.
Lemma loop_passes h t (l : list value) : forall c, live c -> all_db l -> knows h (c_work c) ->
  (forall x, In x l -> born x h <> None) -> does true (mfor l (round t)) c tt (counts h l).
Proof.
  induction l as [|x l IH]; intros c L A K F; [apply does_ret|]. apply Forall_cons_iff in A as [Hx A]. cbn [mfor counts].
  pose proof (F x (or_introl eq_refl)) as Fx. destruct (born x h) as [b|] eqn:Bx; [|now elim Fx].
  change (inc_row (edge2str x) 1 :: counts h l) with ([inc_row (edge2str x) 1] ++ counts h l). apply (does_bind true (round t x) (fun _ => mfor l (round t)) c tt).
  - apply round_known; [exact L|exact Hx|]. intros N. apply (K x Hx) in N. congruence.
  - intros c' N. apply IH; [now apply (next_live _ _ _ N)|exact A| |].
    + rewrite (nx_work _ _ _ N). cbn. now apply knows_inc.
    + intros y Hy. apply F. now right.
Qed.
Lemma add_fails h e t c : live c -> db_edge e = true -> int64 t = false -> knows h (c_work c) ->
  gives (exists_ e) c false -> fails (add e t) c OverflowError (counts h (elems e)).
Proof.
  intros L He T K G. destruct (db_edge_elems e He) as (Ee & Ae & Le). destruct (index0_edge e He) as (a & E0 & Ea).
  unfold add. apply (fails_gives _ _ c a); [now apply gives_lift|]. rewrite Ea. apply fails_bind, fails_bind.
  unfold add_raw. apply (fails_gives _ _ c false); [exact G|]. apply fails_bind.
  apply (fails_gives _ _ c (elems e)); [now apply gives_lift, as_seq_edge|].
  change (fun vert : value => _) with (round t).
  destruct (existsb (fun x => match born x h with None => true | _ => false end) (elems e)) eqn:X.
  - apply existsb_exists in X as (y & Hy & By). apply fails_bind. apply loop_stops; auto. exists y. split; [exact Hy|]. now destruct (born y h).
  - rewrite <- (app_nil_r (counts h (elems e))). apply (fails_after (mfor (elems e) (round t)) _ c tt).
    + apply loop_passes; auto. intros y Hy N. enough (Y : existsb (fun x => match born x h with None => true | _ => false end) (elems e) = true) by congruence.
      apply existsb_exists. exists y. split; [exact Hy|]. now rewrite N.
    + intros c' N. apply fails_bind. apply add_str_fails; [now apply (next_live _ _ _ N)|now apply vertex_bindable, db_edge_vertex|exact T].
Qed.

Lemma counts_row h l v : all_db l -> db_vertex v = true -> forall w, knows h w ->
  vlook (edge2str v) (runs (counts h l) w) = option_map (fun x => (fst x + Z.of_nat (count v (known_first h l)), snd x)%Z) (vlook (edge2str v) w).
Proof.
  intros A Hv. induction l as [|x l IH]; intros w K.
  - cbn. destruct (vlook (edge2str v) w) as [[d s]|]; cbn; [|reflexivity]. now rewrite Z.add_0_r.
  - apply Forall_cons_iff in A as [Hx A]. cbn [counts known_first runs fold_left].
    destruct (born x h) as [b|] eqn:Bx.
    + change (fold_left (fun w0 f => f w0) ?a ?b) with (runs a b). rewrite (IH A _ (knows_inc _ _ _ _ K)), vlook_inc, (id_eqb v x Hv Hx). cbn [count].
      destruct (veqb v x), (vlook (edge2str v) w) as [[d s]|]; cbn [option_map fst snd]; try reflexivity; f_equal; f_equal; lia.
    + cbn [fold_left]. rewrite vlook_inc, (id_eqb v x Hv Hx). cbn [count]. destruct (veqb v x) eqn:Q.
      * apply veqb_eq in Q as ->. apply (K x Hx) in Bx. now rewrite Bx.
      * destruct (vlook (edge2str v) w) as [[d s]|]; cbn; [|reflexivity]. now rewrite Z.add_0_r.
Qed.

(** C87.  A time outside the 64 bits of the database's integers: adding an edge
    that is there does nothing; adding any other raises OverflowError, and then the
    edges and all times are as before (add works as usual afterwards), but the
    elements up to the first one without a record have been counted, for good. *)
Theorem C87_time_out_of_range :
  forall V ops c e t, noalias V -> reached V ops c -> edge_in V e -> (t < - 2 ^ 63 \/ 2 ^ 63 <= t)%Z ->
    (present (history ops) e -> add e t c = (Ok e, c, []))
    /\ (~ present (history ops) e -> exists c' tr,
          add e t c = (Err OverflowError, c', tr) /\ c_comm c' = c_work c'
          /\ answers V c' (present (history ops))
          /\ (forall v, db_vertex v = true -> exists d s,
                degree v c = (Ok d, c, []) /\ degree v c' = (Ok (d + Z.of_nat (count v (known_first (history ops) (elems e))))%Z, c', [])
                /\ timestamp v c = (Ok s, c, []) /\ timestamp v c' = (Ok s, c', []))
          /\ forall t', (- 2 ^ 63 <= t' < 2 ^ 63)%Z -> exists c2 tr2,
               add e t' c' = (Ok e, c2, tr2) /\ answers V c2 (fun x => x = e \/ present (history ops) x)).
Proof.
  intros V ops c e t HV Hr He Ht. pose proof (reached_ready V ops c HV Hr) as R. pose proof (reached_in V ops c Hr) as Hh.
  pose proof (edge_in_db _ _ He) as D. set (h := history ops) in *.
  assert (T : int64 t = false) by (unfold int64; destruct Ht as [H|H]; [apply andb_false_iff; left|apply andb_false_iff; right]; lia).
  destruct (ready_exists V c h e HV R He) as (b & G & B). split.
  - intros P. apply B in P as ->. destruct (index0_edge e D) as (a & E0 & Ea). unfold add.
    rewrite (bind_gives (lift (index0 e)) _ c a); [|now apply gives_lift]. rewrite Ea.
    assert (X : gives (add_raw e t;; ret tt) c tt). { unfold gives. rewrite (bind_gives _ _ c e); [reflexivity|]. apply add_old_does. exact G. }
    rewrite (bind_gives _ _ c tt X). reflexivity.
  - intros P. assert (b = false) as -> by (destruct b; [elim P; now apply B|reflexivity]).
    destruct (db_edge_elems e D) as (Ee & Ae & Le).
    assert (K : knows h (c_work c)).
    { intros v Hv. rewrite <- (vrow_born_none V h v Hh). now rewrite (i_vert _ _ _ (rd_inv _ _ _ R) v Hv). }
    destruct (add_fails h e t c (ready_live _ _ _ R) D T K G) as (c' & tr & E & S). exists c', tr. split; [exact E|].
    destruct (st_sync _ _ _ _ _ S (or_introl (rd_cur _ _ _ R)) (rd_sync _ _ _ R)) as [Sy _]. split; [exact Sy|].
    pose proof (Inv_Idx _ _ _ (rd_inv _ _ _ R)) as I. pose proof (st_work _ _ _ _ _ S) as W. pose proof (st_cur _ _ _ _ _ S) as Cu. rewrite (rd_cur _ _ _ R) in Cu.
    assert (Cf : forall l f, In f (counts h l) -> exists x, f = inc_row (edge2str x) 1).
    { induction l as [|x l IH]; intros f; cbn [counts In]; [easy|]. intros [<-|Hf]; [now exists x|]. destruct (born x h); [now apply IH|easy]. }
    assert (Pm : perms (c_work c') = perms (c_work c)).
    { rewrite W. apply perms_same_runs. intros f d Hf. destruct (Cf _ _ Hf) as (x & ->). reflexivity. }
    assert (Wf : wf_db V (c_work c')).
    { rewrite W. apply runs_inv; [apply I|]. intros f d Hf Hd. destruct (Cf _ _ Hf) as (x & ->). now apply wf_inc. }
    assert (I' : Idx V (c_work c') (present h)).
    { constructor; [exact Wf|apply I|]. intros x r Hx Hr'. rewrite Pm. now apply (x_rows _ _ _ I). }
    assert (L' : live c') by (unfold live; now rewrite Cu).
    split; [now apply Idx_answers|]. split.
    { intros v Hv. pose proof (degree_gives v c (rd_cur _ _ _ R) Hv) as D0. pose proof (timestamp_gives v c (rd_cur _ _ _ R) Hv) as T0.
      pose proof (degree_gives v c' Cu Hv) as D1. pose proof (timestamp_gives v c' Cu Hv) as T1.
      rewrite W, (counts_row h (elems e) v Ae Hv _ K) in D1, T1. unfold gives in *.
      destruct (vlook (edge2str v) (c_work c)) as [[d s]|] eqn:Lk; cbn [option_map fst snd] in D1, T1.
      - exists d, s. auto.
      - exists 0%Z, (-1)%Z. split; [exact D0|]. split; [|now split]. rewrite D1. repeat f_equal. apply (K v Hv) in Lk.
        rewrite count_0; [reflexivity|]. clear - Lk. induction (elems e) as [|x l IH]; cbn [known_first]; [easy|].
        destruct (born x h) eqn:Bx; [|easy]. intros [->|H]; [congruence|now apply IH]. }
    intros t' Ht'. assert (T' : int64 t' = true) by (unfold int64; apply andb_true_iff; split; lia).
    assert (H : hurt V (present h) e c').
    { constructor; [exact Cu|exact Wf|apply I|]. intros x Hx _ r Hr'. rewrite (x_rows _ _ _ I' x r Hx Hr'). reflexivity. }
    destruct (repair_add V (present h) e t' c' HV He T' H) as (c2 & tr2 & E2 & H2 & N2). exists c2, tr2. split.
    + assert (Rm : remove e c' = (Ok tt, c', [])).
      { destruct (index0_edge e D) as (a & E0 & Ea). unfold remove. rewrite (bind_gives (lift (index0 e)) _ c' a); [|now apply gives_lift]. rewrite Ea.
        apply remove_absent_does. destruct (an_exists V c' (present h) (Idx_answers V c' _ HV L' I') e He) as (b & Gb & Bb). destruct b; [elim P; now apply Bb|exact Gb]. }
      unfold bind in E2. rewrite Rm in E2. destruct (add e t' c') as [[[a|y] c3] t3]; exact E2.
    + apply Idx_answers; [exact HV|now apply (hurt_live V (present h) e)|]. apply (hurt_Idx V (present h) _ e c2 He H2). left. split; [exact N2|tauto].
Qed.
Print Assumptions C87_time_out_of_range.

(** an edge with two known elements and one unknown one: the two are counted *)
Example C87_nonvacuous : reached plain_values ex_ops ex_c /\ edge_in plain_values ex80 /\ ~ present (history ex_ops) ex80
  /\ known_first (history ex_ops) (elems ex80) = [VStr (lit "likes"); VStr (lit "mary")]
  /\ (let c' := snd (fst (add ex80 (2 ^ 63) ex_c)) in
      degree (VStr (lit "mary")) ex_c = (Ok 4%Z, ex_c, []) /\ degree (VStr (lit "mary")) c' = (Ok 5%Z, c', [])).
Proof.
  split; [exact ex_reached|]. split; [edge_ok|]. split; [apply memb_absent; vm_compute; reflexivity|].
  split; [vm_compute; reflexivity|]. cbv zeta. split; vm_compute; reflexivity.
Qed.
