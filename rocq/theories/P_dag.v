(** * P_dag.v -- reading trees that may share objects *)

From Verif Require Import Py P_py M_symbol M_token M_tree M_stages S_tree P_tree P_treeops P_alpha P_beta P_gamma C_alpha P_stages.
From Coq Require Import String Permutation.
Open Scope list_scope.

(** ** Unfoldings *)

(** the reference [r] is an element of the table that unfolds to [t] *)
Definition tref (h : tree) (r : nat) (t : stree) : Prop := exists i, table h i = Some r /\ unfolds h i t.

Lemma unf_inv h i t : unfolds h i t -> exists r, table h i = Some r /\
  match t with
  | SLeaf ns k => objs h r = Some (OLeaf i ns k)
  | SNode ns c ts => exists l ls y cs, objs h r = Some (ONode i ns l ls y c) /\ lists h l = Some cs /\ Forall2 (unfolds h) cs ts
  end.
Proof. intros U. inversion U; subst; eauto 10. Qed.
Lemma tref_inv h r t : tref h r t -> exists i, table h i = Some r /\ unfolds h i t /\
  match t with
  | SLeaf ns k => objs h r = Some (OLeaf i ns k)
  | SNode ns c ts => exists l ls y cs, objs h r = Some (ONode i ns l ls y c) /\ lists h l = Some cs /\ Forall2 (unfolds h) cs ts
  end.
Proof. intros (i & T & U). destruct (unf_inv _ _ _ U) as (r' & T' & X). assert (r' = r) by congruence. subst. eauto. Qed.
Lemma tref_fun h r t t' : tref h r t -> tref h r t' -> t = t'.
Proof.
  intros H1 H2. destruct (tref_inv _ _ _ H1) as (i & T & U & X). destruct (tref_inv _ _ _ H2) as (i' & T' & U' & X').
  assert (i = i'). { destruct t, t'; [| | |]; repeat match goal with X : exists _, _ |- _ => destruct X | X : _ /\ _ |- _ => destruct X end; congruence. }
  subst i'. now apply (unfolds_fun h i).
Qed.
Lemma unf_tref h i r t : table h i = Some r -> unfolds h i t -> tref h r t.
Proof. intros. now exists i. Qed.

(** no longer than the number of objects *)
Lemma max_in l : l <> [] -> In (list_max l) l.
Proof.
  induction l as [|x l IH]; intros H; [easy|]. change (list_max (x :: l)) with (Nat.max x (list_max l)).
  destruct l as [|y l]; [left; cbn; lia|]. specialize (IH ltac:(discriminate)). destruct (Nat.max_spec x (list_max (y :: l))) as [[_ ->]|[_ ->]]; [now right|now left].
Qed.
Lemma unf_chain h i t : wf h -> unfolds h i t -> exists rs, List.length rs = depth t /\ NoDup rs
  /\ forall r, In r rs -> r < n_obj h /\ exists t', tref h r t' /\ depth t' <= depth t.
Proof.
  intros W. revert i. induction t as [ns k|ns c ts IH] using stree_ind'; intros i U; destruct (unf_inv _ _ _ U) as (r & T & X).
  - exists [r]. repeat apply conj; [reflexivity|repeat constructor; easy|]. intros x [<-|[]]. split; [now apply (wf_obj h W r _ X)|]. exists (SLeaf ns k). split; [now exists i|lia].
  - destruct X as (l & ls & y & cs & O & L & Us). destruct ts as [|t0 ts0] eqn:Ets.
    + exists [r]. repeat apply conj; [reflexivity|repeat constructor; easy|]. intros x [<-|[]]. split; [now apply (wf_obj h W r _ O)|]. eexists. split; [exists i; split; [exact T|exact U]|lia].
    + rewrite <- Ets in *. assert (N : List.map depth ts <> []) by (rewrite Ets; discriminate). clear Ets.
      apply max_in, in_map_iff in N as (t1 & E1 & H1). destruct (in_split _ _ H1) as (ta & tb & Et).
      assert (exists i1, unfolds h i1 t1) as (i1 & U1).
      { clear - Us H1. induction Us as [|a b la lb H _ IH]; [easy|]. destruct H1 as [<-|H1]; eauto. }
      rewrite Forall_forall in IH. destruct (IH t1 H1 i1 U1) as (rs & Len & ND & K). exists (r :: rs).
      change (depth (SNode ns c ts)) with (S (list_max (List.map depth ts))). rewrite <- E1. repeat apply conj.
      * cbn. now rewrite Len.
      * constructor; [|exact ND]. intros Hr. destruct (K r Hr) as (_ & t' & R' & D').
        assert (t' = SNode ns c ts) by (apply (tref_fun h r); [exact R'|now exists i]). subst t'.
        change (depth (SNode ns c ts)) with (S (list_max (List.map depth ts))) in D'. lia.
      * intros x [<-|Hx].
        -- split; [now apply (wf_obj h W r _ O)|]. exists (SNode ns c ts). split; [now exists i|]. change (depth (SNode ns c ts)) with (S (list_max (List.map depth ts))). lia.
        -- destruct (K x Hx) as (A & t' & B & C). split; [exact A|]. exists t'. split; [exact B|lia].
Qed.
Lemma unf_depth h i t : wf h -> unfolds h i t -> depth t <= n_obj h.
Proof.
  intros W U. destruct (unf_chain h i t W U) as (rs & <- & ND & K). apply bounded_length; [exact ND|]. intros r Hr. now apply K.
Qed.
Lemma tref_depth h r t : wf h -> tref h r t -> depth t <= n_obj h.
Proof. intros W (i & _ & U). now apply (unf_depth h i). Qed.

(** ** Reading *)

Lemma tget_u h i t : unfolds h i t -> exists r, tget i h = (Ok r, h) /\ tref h r t /\ table h i = Some r.
Proof. intros U. destruct (unf_inv _ _ _ U) as (r & T & _). exists r. split; [now apply tget_ok|]. split; [now exists i|exact T]. Qed.
Definition leafb (t : stree) : bool := match t with SLeaf _ _ => true | SNode _ _ _ => false end.
Lemma deref_u h r t : tref h r t -> exists o, deref r h = (Ok o, h) /\ objs h r = Some o /\ is_leaf o = leafb t /\ is_node o = negb (leafb t) /\ is_terminal o = terminal t
  /\ is_compound o = terminal t /\ table h (obj_id o) = Some r /\ unfolds h (obj_id o) t.
Proof.
  intros R. destruct (tref_inv _ _ _ R) as (i & T & U & X). destruct t as [ns k|ns c ts].
  - exists (OLeaf i ns k). rewrite (deref_ok _ _ _ X). now repeat apply conj.
  - destruct X as (l & ls & y & cs & O & L & Us). exists (ONode i ns l ls y c). rewrite (deref_ok _ _ _ O). now repeat apply conj.
Qed.
Lemma id_of_u h r t : tref h r t -> exists i, id_of r h = (Ok i, h) /\ table h i = Some r /\ unfolds h i t.
Proof.
  intros R. destruct (tref_inv _ _ _ R) as (i & T & U & X). exists i. split; [|now split]. destruct t as [ns k|ns c ts].
  - now rewrite (id_of_ok _ _ _ X).
  - destruct X as (l & ls & y & cs & O & L & Us). now rewrite (id_of_ok _ _ _ O).
Qed.
Lemma children_ids_u h r ns c ts : tref h r (SNode ns c ts) -> exists cs, children_ids r h = (Ok cs, h) /\ Forall2 (unfolds h) cs ts.
Proof. intros R. destruct (tref_inv _ _ _ R) as (i & T & U & l & ls & y & cs & O & L & Us). exists cs. split; [exact (children_ids_ok _ _ _ _ _ _ _ _ _ O L)|exact Us]. Qed.
Lemma smap_tget_u h cs ts : Forall2 (unfolds h) cs ts -> exists rs, smap tget cs h = (Ok rs, h) /\ Forall2 (tref h) rs ts.
Proof.
  induction 1 as [|i t cs ts U _ (rs & E & H)]; [exists []; split; [reflexivity|constructor]|].
  destruct (tget_u _ _ _ U) as (r & Er & R & _). exists (r :: rs). rewrite smap_cons, (run_ok _ _ _ _ _ Er), (run_ok _ _ _ _ _ E). split; [reflexivity|now constructor].
Qed.
Lemma children_u h r ns c ts : tref h r (SNode ns c ts) -> exists rs, children r h = (Ok rs, h) /\ Forall2 (tref h) rs ts.
Proof.
  intros R. destruct (children_ids_u _ _ _ _ _ R) as (cs & E & Us). destruct (smap_tget_u _ _ _ Us) as (rs & E' & H). exists rs. split; [|exact H].
  unfold children. now rewrite (run_ok _ _ _ _ _ E).
Qed.
Lemma Forall2_nth_error_r {A B} (P : A -> B -> Prop) l m n y : Forall2 P l m -> nth_error m n = Some y -> exists x, nth_error l n = Some x /\ P x y.
Proof. intros H. revert n. induction H as [|a b la lb H _ IH]; intros [|n] E; try discriminate; [injection E as <-; now exists a|now apply IH]. Qed.
Lemma Forall2_len {A B} (P : A -> B -> Prop) l m : Forall2 P l m -> List.length l = List.length m.
Proof. induction 1; cbn; congruence. Qed.
Lemma get_child_u h r ns c ts n t : tref h r (SNode ns c ts) -> nth_error ts n = Some t -> exists x, get_child r n h = (Ok x, h) /\ tref h x t.
Proof.
  intros R N. destruct (children_ids_u _ _ _ _ _ R) as (cs & E & Us). unfold get_child. rewrite (run_ok _ _ _ _ _ E).
  destruct (Forall2_nth_error_r _ _ _ _ _ Us N) as (i & Hi & U). unfold nth_id. rewrite Hi. rewrite (run_ok (sret i) _ h i h eq_refl).
  destruct (tget_u _ _ _ U) as (x & Ex & Rx & _). eauto.
Qed.

(** results that do not change the heap *)
Definition reads {A} (h : tree) (m : SM A) (P : A -> Prop) : Prop := exists a, m h = (Ok a, h) /\ P a.
Lemma reads_ret {A} h (a : A) (P : A -> Prop) : P a -> reads h (sret a) P.
Proof. intros H. now exists a. Qed.
Lemma reads_bind {A B} h (m : SM A) (k : A -> SM B) P Q : reads h m P -> (forall a, P a -> reads h (k a) Q) -> reads h (sbind m k) Q.
Proof. intros (a & E & H) K. destruct (K a H) as (b & E' & H'). exists b. rewrite (run_ok _ _ _ _ _ E). now split. Qed.
Lemma reads_weaken {A} h (m : SM A) (P Q : A -> Prop) : reads h m P -> (forall a, P a -> Q a) -> reads h m Q.
Proof. intros (a & E & H) K. exists a. auto. Qed.
Definition anyb : bool -> Prop := fun _ => True.
Lemma reads_sany {A} h (f : A -> SM bool) l : (forall x, In x l -> reads h (f x) anyb) -> reads h (sany f l) anyb.
Proof.
  induction l as [|x l IH]; intros K; [now apply reads_ret|]. rewrite sany_cons. apply (reads_bind h _ _ anyb); [apply K; now left|].
  intros [|] _; [now apply reads_ret|]. apply IH. intros y Hy. apply K. now right.
Qed.
Lemma reads_sall {A} h (f : A -> SM bool) l : (forall x, In x l -> reads h (f x) anyb) -> reads h (sall f l) anyb.
Proof.
  induction l as [|x l IH]; intros K; [now apply reads_ret|]. rewrite sall_cons. apply (reads_bind h _ _ anyb); [apply K; now left|].
  intros [|] _; [|now apply reads_ret]. apply IH. intros y Hy. apply K. now right.
Qed.
Lemma Forall2_in_l {A B} (P : A -> B -> Prop) l m x : Forall2 P l m -> In x l -> exists y, In y m /\ P x y.
Proof. induction 1 as [|a b la lb H _ IH]; intros Hi; [easy|]. destruct Hi as [<-|Hi]; [exists b; split; [now left|exact H]|]. destruct (IH Hi) as (y & A1 & A2). exists y. split; [now right|exact A2]. Qed.
Lemma budget_u h : budget h = (Ok (S (n_obj h)), h).
Proof. reflexivity. Qed.

Lemma is_relationship_u : forall f h i t d, depth t <= f -> unfolds h i t -> is_relationship f i false d h = (Ok (rel_all t), h).
Proof.
  induction f as [|f IH]; intros h i t d Hd U; [pose proof (depth_pos t); lia|]. cbn [is_relationship]. destruct (tget_u _ _ _ U) as (r & E & R & T).
  rewrite (run_ok _ _ _ _ _ E). destruct (tref_inv _ _ _ R) as (j & Tj & Uj & X). destruct t as [ns k|ns c ts].
  - rewrite (run_ok _ _ _ _ _ (deref_ok _ _ _ X)). unfold rel_all. cbn. now rewrite andb_true_r.
  - destruct X as (l & ls & y & cs & O & L & Us). rewrite (run_ok _ _ _ _ _ (deref_ok _ _ _ O)). cbn [andb]. rewrite (run_ok _ _ _ _ _ (children_ids_ok _ _ _ _ _ _ _ _ _ O L)).
    apply depth_node in Hd. apply depth_forall in Hd. rewrite (sall_ok _ h cs (List.map rel_all ts)).
    + rewrite forallb_map. unfold rel_all at 2. cbn [leaves]. now rewrite forallb_flat.
    + clear - IH Us Hd. induction Us as [|i t cs ts U _ IHs]; [constructor|]. inversion Hd; subst. cbn. constructor; [now apply IH|now apply IHs].
Qed.
Lemma delta_rel_u h i t : wf h -> unfolds h i t -> delta_rel i h = (Ok (rel_all t), h).
Proof. intros W U. unfold delta_rel. rewrite (run_ok _ _ _ _ _ (budget_u h)). apply is_relationship_u; [|exact U]. pose proof (unf_depth h i t W U). lia. Qed.

Lemma flat_leafs_u : forall f h r t, depth t <= f -> tref h r t ->
  exists rs, flat_leafs f r h = (Ok rs, h) /\ Forall2 (fun r p => tref h r (SLeaf (fst p) (snd p))) rs (labelled t).
Proof.
  induction f as [|f IH]; intros h r t Hd R; [pose proof (depth_pos t); lia|]. cbn [flat_leafs]. destruct (deref_u _ _ _ R) as (o & E & _ & EL & _).
  rewrite (run_ok _ _ _ _ _ E), EL. destruct t as [ns k|ns c ts]; cbn [leafb].
  - exists [r]. split; [reflexivity|]. cbn. constructor; [exact R|constructor].
  - destruct (children_u _ _ _ _ _ R) as (rs & Ec & Hc). rewrite (run_ok _ _ _ _ _ Ec). apply depth_node in Hd. apply depth_forall in Hd.
    assert (X : exists rss, smap (flat_leafs f) rs h = (Ok rss, h) /\ Forall2 (fun r p => tref h r (SLeaf (fst p) (snd p))) (List.concat rss) (flat_map labelled ts)).
    { clear - IH Hc Hd. induction Hc as [|r t rs ts R _ IHs]; [exists []; split; [reflexivity|constructor]|]. inversion Hd; subst.
      destruct (IH h r t) as (r1 & E1 & G1); [assumption|exact R|]. destruct IHs as (rss & E2 & G2); [assumption|]. exists (r1 :: rss).
      rewrite smap_cons, (run_ok _ _ _ _ _ E1), (run_ok _ _ _ _ _ E2). split; [reflexivity|]. cbn. now apply Forall2_app. }
    destruct X as (rss & E2 & H2). rewrite (run_ok _ _ _ _ _ E2). exists (List.concat rss). now split.
Qed.
Lemma sany_iff {A} h (f : A -> SM bool) (Q : A -> Prop) l : (forall x, In x l -> reads h (f x) (fun b => b = true <-> Q x)) ->
  reads h (sany f l) (fun b => b = true <-> exists x, In x l /\ Q x).
Proof.
  induction l as [|x l IH]; intros K; [apply reads_ret; split; [discriminate|intros (x & [] & _)]|]. rewrite sany_cons. apply (reads_bind h _ _ (fun b => b = true <-> Q x)); [apply K; now left|].
  intros [|] Hb; [apply reads_ret; split; [intros _; exists x; split; [now left|now apply Hb]|reflexivity]|].
  refine (reads_weaken h _ _ _ (IH (fun y Hy => K y (or_intror Hy))) _). intros b ->. split.
  - intros (y & Hy & Qy). exists y. split; [now right|exact Qy].
  - intros (y & [<-|Hy] & Qy); [now apply Hb in Qy|now exists y].
Qed.
Lemma sall_iff {A} h (f : A -> SM bool) (Q : A -> Prop) l : (forall x, In x l -> reads h (f x) (fun b => b = true <-> Q x)) ->
  reads h (sall f l) (fun b => b = true <-> Forall Q l).
Proof.
  induction l as [|x l IH]; intros K; [apply reads_ret; split; [constructor|reflexivity]|]. rewrite sall_cons. apply (reads_bind h _ _ (fun b => b = true <-> Q x)); [apply K; now left|].
  intros [|] Hb; [|apply reads_ret; split; [discriminate|intros F; inversion F; subst; now apply Hb]].
  refine (reads_weaken h _ _ _ (IH (fun y Hy => K y (or_intror Hy))) _). intros b ->. split.
  - intros F. constructor; [now apply Hb|exact F].
  - intros F. now inversion F.
Qed.
(** words count as equal when text, part of speech and label are *)
Definition same_word (k k' : token) : Prop := t_word k = t_word k' /\ t_pos k = t_pos k' /\ t_dep k = t_dep k'.
Lemma token_eq_iff k k' : token_eq k k' = true <-> same_word k k'.
Proof. unfold token_eq, same_word. rewrite !andb_true_iff, !str_eqb_eq. tauto. Qed.
Lemma equal_leaf ns k ns' k' : equal_trees (SLeaf ns k) (SLeaf ns' k') <-> same_word k k'.
Proof. split; [intros E; now inversion E|intros (A & B & C); now constructor]. Qed.
Lemma elem_eq_u : forall f h a b t u, depth t <= f -> tref h a t -> tref h b u -> reads h (elem_eq f a b) (fun e => e = true <-> equal_trees t u).
Proof.
  induction f as [|f IH]; intros h a b t u Hd Ra Rb; [pose proof (depth_pos t); lia|]. cbn [elem_eq].
  destruct (tref_inv _ _ _ Ra) as (ia & Ta & Ua & Xa). destruct (tref_inv _ _ _ Rb) as (ib & Tb & Ub & Xb).
  destruct t as [ns k|ns c ts]; [|destruct Xa as (l & ls & y & cs & Oa & _)]; (destruct u as [ns2 k2|ns2 c2 ts2]; [|destruct Xb as (l2 & ls2 & y2 & cs2 & Ob & _)]);
    unfold reads; rewrite ?(run_ok _ _ _ _ _ (deref_ok _ _ _ Xa)), ?(run_ok _ _ _ _ _ (deref_ok _ _ _ Oa)), ?(run_ok _ _ _ _ _ (deref_ok _ _ _ Xb)), ?(run_ok _ _ _ _ _ (deref_ok _ _ _ Ob)).
  - eexists. split; [reflexivity|]. rewrite equal_leaf. apply token_eq_iff.
  - eexists. split; [reflexivity|]. split; [discriminate|]. intros E. inversion E.
  - eexists. split; [reflexivity|]. split; [discriminate|]. intros E. inversion E.
  - destruct (children_u _ _ _ _ _ Ra) as (ra & Ea & Ha). destruct (children_u _ _ _ _ _ Rb) as (rb & Eb & Hb).
    rewrite (run_ok _ _ _ _ _ Ea), (run_ok _ _ _ _ _ Eb). apply depth_node in Hd. apply depth_forall in Hd. fold (@reads bool).
    change (reads h (if Nat.eqb (List.length ra) (List.length rb) then sall (fun p => elem_eq f (fst p) (snd p)) (combine ra rb) else sret false) (fun e => e = true <-> equal_trees (SNode ns c ts) (SNode ns2 c2 ts2))).
    destruct (Nat.eqb (List.length ra) (List.length rb)) eqn:El.
    + apply Nat.eqb_eq in El.
      assert (K : reads h (sall (fun p => elem_eq f (fst p) (snd p)) (combine ra rb)) (fun e => e = true <-> Forall2 equal_trees ts ts2)).
      { clear - IH Ha Hb Hd El. revert rb ts2 Hb El. induction Ha as [|x tx ra ts Rx _ IHs]; intros rb ts2 Hb El.
        - destruct rb; [|discriminate]. inversion Hb; subst. cbn. apply reads_ret. split; [constructor|reflexivity].
        - destruct Hb as [|y ty rb ts2 Ry Hb]; [discriminate|]. inversion Hd as [|? ? D1 D2]; subst. cbn [combine]. rewrite sall_cons. cbn [fst snd].
          apply (reads_bind h _ _ (fun e => e = true <-> equal_trees tx ty)); [now apply IH|]. intros [|] He.
          + refine (reads_weaken h _ _ _ (IHs D2 rb ts2 Hb ltac:(cbn in El; lia)) _). intros e ->. split; [intros F; constructor; [now apply He|exact F]|intros F; now inversion F].
          + apply reads_ret. split; [discriminate|]. intros F. inversion F; subst. now apply He. }
      refine (reads_weaken h _ _ _ K _). intros e ->. split; [now constructor|]. intros E. now inversion E.
    + apply reads_ret. split; [discriminate|]. intros E. inversion E as [|? ? ? ? ? ? F]; subst. apply Nat.eqb_neq in El. exfalso. apply El.
      rewrite (Forall2_len _ _ _ Ha), (Forall2_len _ _ _ Hb). now apply Forall2_len in F.
Qed.
Lemma arity_u h r t : tref h r t -> arity r h = (Ok (match t with SNode _ false ts => List.length ts | _ => 1 end), h).
Proof.
  intros R. unfold arity. destruct (tref_inv _ _ _ R) as (i & T & U & X). destruct t as [ns k|ns c ts].
  - now rewrite (run_ok _ _ _ _ _ (deref_ok _ _ _ X)).
  - destruct X as (l & ls & y & cs & O & L & Us). rewrite (run_ok _ _ _ _ _ (deref_ok _ _ _ O)). destruct c; [reflexivity|].
    rewrite (run_ok _ _ _ _ _ (children_ids_ok _ _ _ _ _ _ _ _ _ O L)). unfold sret. now rewrite (Forall2_len _ _ _ Us).
Qed.
Lemma Forall2_in_r {A B} (P : A -> B -> Prop) l m y : Forall2 P l m -> In y m -> exists x, In x l /\ P x y.
Proof. induction 1 as [|a b la lb H _ IH]; intros Hi; [easy|]. destruct Hi as [<-|Hi]; [exists a; split; [now left|exact H]|]. destruct (IH Hi) as (x & A1 & A2). exists x. split; [now right|exact A2]. Qed.
Lemma leaves_lab t : leaves t = List.map snd (labelled t).
Proof.
  induction t as [ns k|ns c ts IH] using stree_ind'; [reflexivity|]. cbn [leaves labelled]. induction IH as [|t ts E _ IHs]; [reflexivity|]. cbn. now rewrite map_app, E, IHs.
Qed.
Lemma is_part_of_rel_u h a b t u : wf h -> tref h a t -> tref h b u -> reads h (is_part_of_rel a b) (fun e => e = true <-> share_word t u).
Proof.
  intros W Ra Rb. unfold is_part_of_rel. apply (reads_bind h _ _ (fun n => n = S (n_obj h))); [now exists (S (n_obj h))|]. intros f ->.
  destruct (flat_leafs_u (S (n_obj h)) h a t) as (rs & E & H); [pose proof (tref_depth h a t W Ra); lia|exact Ra|].
  destruct (flat_leafs_u (S (n_obj h)) h b u) as (rs2 & E2 & H2); [pose proof (tref_depth h b u W Rb); lia|exact Rb|].
  unfold reads. rewrite (run_ok _ _ _ _ _ E), (run_ok _ _ _ _ _ E2).
  set (Q2 := fun x y => exists ns k ns' k', tref h x (SLeaf ns k) /\ tref h y (SLeaf ns' k') /\ same_word k k').
  assert (K : reads h (sany (fun r => sany (fun p => elem_eq (S (n_obj h)) r p) rs2) rs) (fun e => e = true <-> exists x, In x rs /\ exists y, In y rs2 /\ Q2 x y)).
  { apply sany_iff. intros x Hx. apply sany_iff. intros y Hy. destruct (Forall2_in_l _ _ _ _ H Hx) as ([ns k] & _ & R1). destruct (Forall2_in_l _ _ _ _ H2 Hy) as ([ns' k'] & _ & R2). cbn [fst snd] in *.
    refine (reads_weaken h _ _ _ (elem_eq_u (S (n_obj h)) h x y _ _ _ R1 R2) _); [cbn; lia|]. intros e ->. rewrite equal_leaf. split.
    - intros Sm. exists ns, k, ns', k'. now split.
    - intros (n1 & k1 & n2 & k2 & A & B & Sm). pose proof (tref_fun _ _ _ _ A R1) as X. pose proof (tref_fun _ _ _ _ B R2) as Y. injection X as -> ->. injection Y as -> ->. exact Sm. }
  refine (reads_weaken h _ _ _ K _). intros e ->. unfold share_word. rewrite (leaves_lab t), (leaves_lab u). split.
  - intros (x & Hx & y & Hy & ns & k & ns' & k' & A & B & Sm). destruct (Forall2_in_l _ _ _ _ H Hx) as (p & Hp & R1). destruct (Forall2_in_l _ _ _ _ H2 Hy) as (q & Hq & R2).
    pose proof (tref_fun _ _ _ _ A R1) as X. pose proof (tref_fun _ _ _ _ B R2) as Y. injection X as -> ->. injection Y as -> ->. exists (snd p), (snd q). split; [now apply in_map|]. split; [now apply in_map|exact Sm].
  - intros (k & k' & Hk & Hk' & Sm). apply in_map_iff in Hk as (p & <- & Hp). apply in_map_iff in Hk' as (q & <- & Hq).
    destruct (Forall2_in_r _ _ _ _ H Hp) as (x & Hx & R1). destruct (Forall2_in_r _ _ _ _ H2 Hq) as (y & Hy & R2). exists x. split; [exact Hx|]. exists y. split; [exact Hy|]. now exists (fst p), (snd p), (fst q), (snd q).
Qed.
Lemma some_arg h (f : Z -> SM bool) (Q : stree -> Prop) cs ts : Forall2 (unfolds h) cs ts -> (forall i t, In t ts -> unfolds h i t -> reads h (f i) (fun b => b = true <-> Q t)) ->
  reads h (sany f cs) (fun b => b = true <-> exists t, In t ts /\ Q t).
Proof.
  induction 1 as [|i t cs ts U _ IH]; intros K; [apply reads_ret; split; [discriminate|intros (x & [] & _)]|]. rewrite sany_cons.
  apply (reads_bind h _ _ (fun b => b = true <-> Q t)); [apply K; [now left|exact U]|]. intros [|] Hb; [apply reads_ret; split; [intros _; exists t; split; [now left|now apply Hb]|reflexivity]|].
  refine (reads_weaken h _ _ _ (IH (fun i y Hy => K i y (or_intror Hy))) _). intros b ->. split.
  - intros (y & Hy & Qy). exists y. split; [now right|exact Qy].
  - intros (y & [<-|Hy] & Qy); [now apply Hb in Qy|now exists y].
Qed.
Lemma is_directly_under_u : forall f h node p c t tp tc, wf h -> full t -> depth t <= f -> tref h node t -> tref h p tp -> tref h c tc ->
  reads h (is_directly_under f node p c) (fun e => e = true <-> directly_under tp tc t).
Proof.
  induction f as [|f IH]; intros h node p c t tp tc W Fu Hd R Rp Rc; [pose proof (depth_pos t); lia|]. cbn [is_directly_under].
  assert (No : forall (m : SM bool), m h = (Ok false, h) -> ~ directly_under tp tc t -> reads h m (fun e => e = true <-> directly_under tp tc t)) by (intros m Em N; exists false; split; [exact Em|split; [discriminate|now intros D]]).
  destruct t as [ns k|ns [|] ts].
  - apply No; [now rewrite (run_ok _ _ _ _ _ (arity_u _ _ _ R))|]. intros D. inversion D.
  - apply No; [now rewrite (run_ok _ _ _ _ _ (arity_u _ _ _ R))|]. intros D. inversion D.
  - unfold reads. rewrite (run_ok _ _ _ _ _ (arity_u _ _ _ R)).
    destruct (Nat.ltb (List.length ts) 2) eqn:E2.
    { apply (No _ eq_refl). intros D. apply Nat.ltb_lt in E2. inversion D as [? ? args a _ Ha _|? ? args a Ha _]; subst; cbn in E2; (destruct args; [destruct Ha|cbn in E2; lia]). }
    apply Nat.ltb_ge in E2.
    destruct (children_ids_u _ _ _ _ _ R) as (cs & Ec & Us). rewrite (run_ok _ _ _ _ _ Ec). apply full_node in Fu as [_ Fu]. clear No.
    destruct Us as [|i0 t0 cs ts U0 Us]; [cbn in E2; lia|]. cbn [tl]. unfold nth_id. cbn [nth_error]. rewrite (run_ok (sret i0) _ h i0 h eq_refl).
    destruct (tget_u _ _ _ U0) as (r0 & E0 & R0 & _). rewrite (run_ok _ _ _ _ _ E0). apply (reads_bind h _ _ (fun e => e = true <-> share_word t0 tp)); [now apply (is_part_of_rel_u h r0 p t0 tp)|].
    intros part Hp. apply (reads_bind h _ _ (fun e => e = true <-> share_word t0 tp /\ exists a, In a ts /\ equal_trees a tc)).
    + destruct part.
      * assert (K : reads h (sany (fun c0 => run elem <- tget c0; run b <- budget; elem_eq b elem c) cs) (fun b => b = true <-> exists t, In t ts /\ equal_trees t tc)).
        { apply (some_arg h _ _ cs ts Us). intros i t Ht U. destruct (tget_u _ _ _ U) as (r & E & R' & _). unfold reads. rewrite (run_ok _ _ _ _ _ E), (run_ok _ _ _ _ _ (budget_u h)).
          apply (elem_eq_u _ h r c t tc); [|exact R'|exact Rc]. pose proof (tref_depth h r t W R'). lia. }
        refine (reads_weaken h _ _ _ K _). intros e ->. split; [intros X; split; [now apply Hp|exact X]|now intros [_ X]].
      * apply reads_ret. split; [discriminate|]. intros [X _]. now apply Hp.
    + intros [|] Hf.
      * apply reads_ret. split; [intros _|reflexivity]. destruct Hf as [Hf _]. destruct (Hf eq_refl) as (Sh & a & Ha & Ea). now apply (du_here tp tc ns t0 ts a).
      * assert (K : reads h (sany (fun c0 => run elem <- tget c0; is_directly_under f elem p c) cs) (fun b => b = true <-> exists t, In t ts /\ directly_under tp tc t)).
        { apply (some_arg h _ _ cs ts Us). intros i t Ht U. destruct (tget_u _ _ _ U) as (r & E & R' & _). unfold reads. rewrite (run_ok _ _ _ _ _ E). apply (IH h r p c t tp tc); try assumption.
          - inversion Fu as [|? ? _ Fs]; subst. rewrite Forall_forall in Fs. now apply Fs.
          - apply depth_node in Hd. apply (depth_in t (t0 :: ts)); [now right|exact Hd]. }
        refine (reads_weaken h _ _ _ K _). intros e ->. split.
        -- intros (a & Ha & Da). now apply (du_below tp tc ns t0 ts a).
        -- intros D. inversion D as [? ? ? a Sh Ha Ea|? ? ? a Ha Da]; subst; [|now exists a]. exfalso. apply Bool.diff_false_true. apply Hf. split; [exact Sh|now exists a].
Qed.
Lemma full_in t ts : Forall full ts -> In t ts -> full t.
Proof. rewrite Forall_forall. auto. Qed.
Lemma nth_some {A} (l : list A) n : n < List.length l -> exists x, nth_error l n = Some x.
Proof. intros H. destruct (nth_error l n) eqn:E; [eauto|]. apply nth_error_None in E. lia. Qed.
Lemma skipn_head {A} (l : list A) i x r : skipn i l = x :: r -> nth_error l i = Some x /\ skipn (S i) l = r.
Proof. revert i. induction l as [|y l IH]; intros [|i] E; try discriminate; [cbn in E; injection E as -> ->; now split|now apply IH]. Qed.
Lemma points_if {A} (P : A -> Prop) x l n (b : bool) : (b = true <-> P x) -> points P l n -> points P (x :: l) (if b then S n else n).
Proof. intros H. destruct b; intros K; [apply pt_yes|apply pt_no]; try assumption; [now apply H|]. intros X. apply H in X. discriminate. Qed.
Lemma fit0_needs ra n : (if Nat.eqb ra 1 && Nat.eqb (S n) 2 then 1000 else if Z.eqb (Z.of_nat ra) (Z.of_nat (S n) - 2) then 1000 else 0)%Z = (if needs ra n then 1000 else 0)%Z.
Proof.
  unfold needs. replace (Nat.eqb (S n) 2) with (Nat.eqb n 1) by (destruct n as [|[|n]]; reflexivity). destruct (Nat.eqb ra 1 && Nat.eqb n 1); [reflexivity|]. cbn [orb].
  destruct (Nat.eqb_spec (S ra) n) as [E|E]; destruct (Z.eqb_spec (Z.of_nat ra) (Z.of_nat (S n) - 2)) as [E'|E']; try reflexivity; lia.
Qed.
Lemma node_fit_u h node orig t u : wf h -> full t -> full u -> tref h node t -> tref h orig u -> reads h (node_fit node orig) (fits u t).
Proof.
  intros W Ft Fu Rt Ru. unfold node_fit. apply (reads_bind h _ _ (fun n => n = S (n_obj h))); [now exists (S (n_obj h))|]. intros f ->.
  destruct (deref_u _ _ _ Rt) as (o & E & _ & EL & _). unfold reads. rewrite (run_ok _ _ _ _ _ E), EL. destruct t as [ns k|ns c ts]; cbn [leafb]; [exists 0%Z; split; [reflexivity|constructor]|].
  destruct (children_ids_u _ _ _ _ _ Rt) as (cs & Ec & Us). rewrite (run_ok _ _ _ _ _ Ec). pose proof (Forall2_len _ _ _ Us) as Len. pose proof Ft as Ft0. apply full_node in Ft as [N Ft].
  destruct Us as [|i0 t0 cs ts U0 Us]; [easy|]. unfold nth_id. cbn [nth_error]. rewrite (run_ok (sret i0) _ h i0 h eq_refl), (run_ok _ _ _ _ _ (delta_rel_u _ _ _ W U0)).
  destruct (rel_all t0) eqn:Er; [|exists 0%Z; split; [reflexivity|now constructor]]. destruct (tget_u _ _ _ U0) as (r0 & E0 & R0 & _). rewrite (run_ok _ _ _ _ _ E0), (run_ok _ _ _ _ _ (arity_u _ _ _ R0)). cbv zeta.
  change (match t0 with SNode _ false ts1 => List.length ts1 | _ => 1 end) with (parts t0). replace (List.length (i0 :: cs)) with (S (List.length ts)) by (cbn in Len |- *; lia). rewrite (fit0_needs (parts t0) (List.length ts)).
  set (fit0 := (if needs (parts t0) (List.length ts) then 1000 else 0)%Z).
  destruct (deref_u _ _ _ R0) as (o0 & Eo & _ & _ & _ & Et & _). rewrite (run_ok _ _ _ _ _ Eo), Et.
  assert (Zero : forall m : SM Z, m h = (Ok fit0, h) -> (c = false -> part_pairs t0 ts = []) -> exists a, m h = (Ok a, h) /\ fits u (SNode ns c (t0 :: ts)) a).
  { intros m Em Hp. exists fit0. split; [exact Em|]. destruct c; [now apply fits_compound|]. replace fit0 with (fit0 + 100 * Z.of_nat 0)%Z by lia. apply fits_rel; [exact Er|]. rewrite (Hp eq_refl). constructor. }
  destruct (terminal t0) eqn:Ett; [apply Zero; [reflexivity|]; intros _; destruct t0 as [|n0 [|] rts]; [reflexivity|reflexivity|discriminate]|].
  rewrite (run_ok _ _ _ _ _ (arity_u _ _ _ Rt)). destruct t0 as [|n0 [|] rts]; try discriminate Ett. cbn [parts] in *.
  destruct c; [apply Zero; [|discriminate]; replace (Z.to_nat (Z.min (Z.of_nat (List.length rts)) (Z.of_nat 1 - 2))) with 0 by lia; reflexivity|].
  assert (Under : forall x1 t1 x t, tref h x1 t1 -> tref h x t -> reads h (is_directly_under (S (n_obj h)) orig x1 x) (fun e => e = true <-> directly_under t1 t u)).
  { intros x1 t1 x t R1 Rx. apply (is_directly_under_u _ h orig x1 x u t1 t); try assumption. pose proof (tref_depth h orig u W Ru). lia. }
  destruct rts as [|p ps]; [exfalso; inversion Ft as [|? ? F0 _]; subst; now apply full_node in F0 as [F0 _]|]. destruct ts as [|a [|b rest]]; [apply Zero; [|reflexivity]|apply Zero; [|reflexivity]|].
  { replace (Z.to_nat (Z.min (Z.of_nat (List.length (p :: ps))) (Z.of_nat (List.length [SNode n0 false (p :: ps)]) - 2))) with 0 by (cbn; lia). reflexivity. }
  { replace (Z.to_nat (Z.min (Z.of_nat (List.length (p :: ps))) (Z.of_nat (List.length [SNode n0 false (p :: ps); a]) - 2))) with 0 by (cbn; lia). reflexivity. }
  replace (Z.to_nat (Z.min (Z.of_nat (List.length (p :: ps))) (Z.of_nat (List.length (SNode n0 false (p :: ps) :: a :: b :: rest)) - 2))) with (S (Nat.min (List.length ps) (List.length rest))) by (cbn [List.length]; lia).
  set (D := fun q : stree * stree => directly_under (fst q) (snd q) u).
  match goal with |- exists a, ?g fit0 (seq 0 _) h = _ /\ _ => set (loop := g) end.
  assert (G : forall qs rs i fit, qs = skipn (S i) (p :: ps) -> rs = skipn (S (S i)) (a :: b :: rest) ->
    reads h (loop fit (seq (S i) (Nat.min (List.length qs) (List.length rs)))) (fun z => exists m, points D (combine qs rs) m /\ z = (fit + 100 * Z.of_nat m)%Z)).
  { induction qs as [|q qs IH]; intros rs i fit Hq Hr; [apply reads_ret; exists 0; split; [constructor|lia]|].
    destruct rs as [|r rs]; [apply reads_ret; exists 0; split; [constructor|lia]|].
    symmetry in Hq, Hr. destruct (skipn_head _ _ _ _ Hq) as [N1 Hq']. destruct (skipn_head _ _ _ _ Hr) as [N3 Hr']. cbn [List.length Nat.min seq combine].
    assert (N2 : exists t2, nth_error (SNode n0 false (p :: ps) :: a :: b :: rest) (S i + 1) = Some t2).
    { apply nth_some. assert (nth_error (a :: b :: rest) (S (S i)) <> None) as Hl by congruence. apply nth_error_Some in Hl. cbn [List.length] in *. lia. }
    destruct N2 as (t2 & N2).
    assert (N3' : nth_error (SNode n0 false (p :: ps) :: a :: b :: rest) (S i + 2) = Some r) by (replace (S i + 2) with (S (S (S i))) by lia; exact N3).
    destruct (get_child_u _ _ _ _ _ _ _ R0 N1) as (x1 & E1 & R1). destruct (get_child_u _ _ _ _ _ _ _ Rt N2) as (x2 & E2 & R2). destruct (get_child_u _ _ _ _ _ _ _ Rt N3') as (x3 & E3 & R3).
    unfold reads. cbn [loop]. unfold loop at 1. rewrite (run_ok _ _ _ _ _ E1), (run_ok _ _ _ _ _ E2). cbn [Nat.eqb]. rewrite (run_ok (sret fit) _ h fit h eq_refl), (run_ok _ _ _ _ _ E3).
    apply (reads_bind h _ _ (fun e => e = true <-> D (q, r))); [exact (Under x1 q x3 r R1 R3)|]. intros e He.
    refine (reads_weaken h _ _ _ (IH rs (S i) _ (eq_sym Hq') (eq_sym Hr')) _). intros z (m & Pm & ->). exists (if e then S m else m). split; [now apply points_if|]. destruct e; lia. }
  assert (N1 : nth_error (p :: ps) 0 = Some p) by reflexivity. assert (N2 : nth_error (SNode n0 false (p :: ps) :: a :: b :: rest) 1 = Some a) by reflexivity. assert (N3 : nth_error (SNode n0 false (p :: ps) :: a :: b :: rest) 2 = Some b) by reflexivity.
  destruct (get_child_u _ _ _ _ _ _ _ R0 N1) as (x1 & E1 & R1). destruct (get_child_u _ _ _ _ _ _ _ Rt N2) as (x2 & E2 & R2). destruct (get_child_u _ _ _ _ _ _ _ Rt N3) as (x3 & E3 & R3).
  cbn [seq]. unfold loop at 1. rewrite (run_ok _ _ _ _ _ E1). change (0 + 1) with 1. change (0 + 2) with 2. rewrite (run_ok _ _ _ _ _ E2). cbn [Nat.eqb].
  apply (reads_bind h _ _ (fun z => exists e : bool, (e = true <-> D (p, a)) /\ z = if e then (fit0 + 100)%Z else fit0)).
  { apply (reads_bind h _ _ (fun e => e = true <-> D (p, a))); [exact (Under x1 p x2 a R1 R2)|]. intros e He. apply reads_ret. now exists e. }
  intros fit1 (e1 & He1 & ->). unfold reads. rewrite (run_ok _ _ _ _ _ E3). apply (reads_bind h _ _ (fun e => e = true <-> D (p, b))); [exact (Under x1 p x3 b R1 R3)|]. intros e2 He2.
  refine (reads_weaken h _ _ _ (G ps rest 0 _ eq_refl eq_refl) _). intros z (m & Pm & ->).
  replace (_ + 100 * Z.of_nat m)%Z with (fit0 + 100 * Z.of_nat (if e1 then S (if e2 then S m else m) else (if e2 then S m else m)))%Z by (destruct e1, e2; lia).
  apply fits_rel; [exact Er|]. cbn [part_pairs]. apply points_if; [exact He1|]. apply points_if; [exact He2|exact Pm].
Qed.
(** the fit is one number, and not negative *)
Lemma points_fun {A} (P : A -> Prop) l n m : points P l n -> points P l m -> n = m.
Proof. intros H. revert m. induction H; intros m K; inversion K; subst; try easy; f_equal; auto. Qed.
Lemma fits_fun O C z z' : fits O C z -> fits O C z' -> z = z'.
Proof.
  intros H K. inversion H; subst; inversion K; subst; try easy; try congruence.
  match goal with A : points _ ?l ?n, B : points _ ?l ?m |- _ => now rewrite (points_fun _ _ _ _ A B) end.
Qed.
Lemma fits_pos O C z : fits O C z -> (0 <= z)%Z.
Proof. intros H. inversion H; subst; try lia; destruct (needs _ _); lia. Qed.
