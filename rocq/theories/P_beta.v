(** * P_beta.v -- the beta stage *)

From Verif Require Import Py P_py M_token M_tree M_stages S_tree P_tree P_treeops P_alpha.
From Coq Require Import String Permutation.
Open Scope list_scope.

(** ** Changing every child in place *)

Lemma refs_frame h h' cs ts G rs F : wf h -> frame h h' F -> reps h cs ts G -> disj F G -> Forall2 (fun i r => table h i = Some r) cs rs ->
  Forall2 (fun i r => table h' i = Some r) cs rs.
Proof.
  intros W Fr R. revert rs. induction R as [|i is_ t ts F1 G1 R Rs IH D]; intros rs DF H; inversion H as [|i' r' is' rs' T H']; subst; constructor.
  - rewrite <- T. apply (fr_same _ _ _ Fr (CId i)); [now apply (wf_tab h W i r')|]. intros X. apply (DF (CId i)); [exact X|]. apply in_app_iff. left. now apply (rep_id_in h i t).
  - apply IH; [|exact H']. intros x Hx Hg. apply (DF x); [exact Hx|]. apply in_app_iff. now right.
Qed.

Lemma sfor_refs (P : stree -> Prop) (f : nat -> SM unit) (g : stree -> stree) :
  (forall h i t F r, wf h -> P t -> rep h i t F -> table h i = Some r -> exists h', f r h = (Ok tt, h') /\ rep h' i (g t) F /\ frame h h' F /\ root_id h' = root_id h) ->
  forall ts h cs F rs, wf h -> Forall P ts -> reps h cs ts F -> Forall2 (fun i r => table h i = Some r) cs rs ->
  exists h', sfor f rs h = (Ok tt, h') /\ reps h' cs (List.map g ts) F /\ frame h h' F /\ root_id h' = root_id h.
Proof.
  intros K. induction ts as [|t ts IH]; intros h cs F rs W HP R H.
  - inversion R; subst. inversion H; subst. exists h. repeat apply conj; try reflexivity; [constructor|now apply frame_refl].
  - inversion R as [|i is_ t' ts' F1 G Rt Rs D]; subst. inversion H as [|i' r is' rs' T H']; subst. inversion HP; subst.
    destruct (K h i t F1 r W) as (h1 & E1 & R1 & Fr1 & Rt1); try assumption.
    assert (W1 : wf h1) by apply Fr1.
    assert (Rs1 : reps h1 is_ ts G) by now apply (reps_frame h h1 F1).
    destruct (IH h1 is_ G rs' W1) as (h2 & E2 & R2 & Fr2 & Rt2); try assumption; [now apply (refs_frame h h1 is_ ts G rs' F1)|].
    exists h2. repeat apply conj.
    + rewrite sfor_cons, (run_ok _ _ _ _ _ E1). exact E2.
    + cbn. constructor; [|exact R2|exact D]. apply (rep_frame h1 h2 G); try assumption. now apply disj_sym.
    + apply (frame_trans h h1); [apply (frame_weaken h h1 F1 _ Fr1)|apply (frame_weaken h1 h2 G _ Fr2)]; intros x Hx; apply in_app_iff; tauto.
    + congruence.
Qed.
Lemma sfor_ids (P : stree -> Prop) (f : Z -> SM unit) (g : stree -> stree) :
  (forall h i t F, wf h -> P t -> rep h i t F -> exists h', f i h = (Ok tt, h') /\ rep h' i (g t) F /\ frame h h' F /\ root_id h' = root_id h) ->
  forall ts h cs F, wf h -> Forall P ts -> reps h cs ts F ->
  exists h', sfor f cs h = (Ok tt, h') /\ reps h' cs (List.map g ts) F /\ frame h h' F /\ root_id h' = root_id h.
Proof.
  intros K. induction ts as [|t ts IH]; intros h cs F W HP R.
  - inversion R; subst. exists h. repeat apply conj; try reflexivity; [constructor|now apply frame_refl].
  - inversion R as [|i is_ t' ts' F1 G Rt Rs D]; subst. inversion HP; subst.
    destruct (K h i t F1 W) as (h1 & E1 & R1 & Fr1 & Rt1); try assumption.
    assert (W1 : wf h1) by apply Fr1.
    assert (Rs1 : reps h1 is_ ts G) by now apply (reps_frame h h1 F1).
    destruct (IH h1 is_ G W1) as (h2 & E2 & R2 & Fr2 & Rt2); try assumption.
    exists h2. repeat apply conj.
    + rewrite sfor_cons, (run_ok _ _ _ _ _ E1). exact E2.
    + cbn. constructor; [|exact R2|exact D]. apply (rep_frame h1 h2 G); try assumption. now apply disj_sym.
    + apply (frame_trans h h1); [apply (frame_weaken h h1 F1 _ Fr1)|apply (frame_weaken h1 h2 G _ Fr2)]; intros x Hx; apply in_app_iff; tauto.
    + congruence.
Qed.

(** rewriting the fields of a node object *)
Lemma rewrite_node h i r ns c l cs ts F0 ns' c' : wf h -> table h i = Some r -> objs h r = Some (ONode i ns l [] (-1) c) -> lists h l = Some cs -> reps h cs ts F0 ->
  disj [CId i; CObj r; CList l] F0 ->
  rep (wo h r (ONode i ns' l [] (-1) c')) i (SNode ns' c' ts) (CId i :: CObj r :: CList l :: F0) /\ frame h (wo h r (ONode i ns' l [] (-1) c')) [CObj r].
Proof.
  intros W T O L R D. assert (Fr : frame h (wo h r (ONode i ns' l [] (-1) c')) [CObj r]) by (apply frame_wo; [exact W|now apply (wf_obj h W r _ O)]).
  split; [|exact Fr]. apply (rep_node _ i r ns' c' l cs); try assumption.
  - apply updN_same.
  - apply (reps_frame h _ [CObj r]); try assumption. intros x [<-|[]] Hx. apply (D (CObj r)); [right; now left|exact Hx].
Qed.
(** the children of a node changed *)
Lemma change_kids h h' i r ns c l cs ts F0 : wf h -> table h i = Some r -> objs h r = Some (ONode i ns l [] (-1) c) -> lists h l = Some cs ->
  disj [CId i; CObj r; CList l] F0 -> frame h h' F0 -> reps h' cs ts F0 ->
  rep h' i (SNode ns c ts) (CId i :: CObj r :: CList l :: F0) /\ table h' i = Some r /\ objs h' r = Some (ONode i ns l [] (-1) c) /\ lists h' l = Some cs.
Proof.
  intros W T O L D Fr R. destruct (reps_id_fresh _ _ _ _ D) as (Ni & Nr & Nl).
  assert (T' : table h' i = Some r) by (rewrite <- T; apply (fr_same _ _ _ Fr (CId i)); [now apply (wf_tab h W i r)|exact Ni]).
  assert (O' : objs h' r = Some (ONode i ns l [] (-1) c)) by (rewrite <- O; apply (fr_same _ _ _ Fr (CObj r)); [now apply (wf_obj h W r _ O)|exact Nr]).
  assert (L' : lists h' l = Some cs) by (rewrite <- L; apply (fr_same _ _ _ Fr (CList l)); [now apply (wf_lst h W l _ L)|exact Nl]).
  repeat apply conj; try assumption. now apply (rep_node h' i r ns c l cs).
Qed.

(** ** set_compound *)

Definition is_snode (t : stree) : bool := match t with SNode _ _ _ => true | SLeaf _ _ => false end.

Lemma depth_forall ts n : list_max (List.map depth ts) <= n -> Forall (fun t => depth t <= n) ts.
Proof. intros H. apply Forall_forall. intros t Ht. now apply (depth_in t ts). Qed.
Lemma depth_node ns c ts f : depth (SNode ns c ts) <= S f -> list_max (List.map depth ts) <= f.
Proof. change (depth (SNode ns c ts)) with (S (list_max (List.map depth ts))). lia. Qed.

Lemma set_compound_rep b : forall f h i t F r, wf h -> is_snode t = true -> depth t <= f -> rep h i t F -> table h i = Some r ->
  exists h', set_compound f r b h = (Ok tt, h') /\ rep h' i (setc b t) F /\ frame h h' F /\ root_id h' = root_id h.
Proof.
  induction f as [|f IH]; intros h i t F r W Hn Hd R T; [pose proof (depth_pos t); lia|]. destruct t as [|ns c ts]; [discriminate|].
  destruct (rep_inv_node _ _ _ _ _ _ _ R T) as (l & cs & F0 & O & L & Rs & D & ->). cbn [set_compound].
  rewrite (run_ok _ _ _ _ _ (deref_ok _ _ _ O)).
  destruct (rewrite_node h i r ns c l cs ts F0 ns b W T O L Rs D) as [R1 Fr1]. set (h1 := wo h r (ONode i ns l [] (-1) b)) in *.
  rewrite (run_ok (write_obj r (ONode i ns l [] (-1) b)) _ h tt h1 eq_refl).
  assert (W1 : wf h1) by apply Fr1. assert (T1 : table h1 i = Some r) by exact T.
  destruct (rep_inv_node _ _ _ _ _ _ _ R1 T1) as (l' & cs' & F0' & O1 & L1 & Rs1 & D1 & E). injection E as <- <-. assert (cs' = cs) by (cbn in L1; congruence). subst cs'.
  destruct (children_ok _ _ _ _ _ _ _ _ _ _ _ O1 L1 Rs1) as (rs & Ec & Hc). rewrite (run_ok _ _ _ _ _ Ec).
  destruct (sfor_refs (fun t => depth t <= f) (fun c0 => run oc <- deref c0; (if is_node oc then set_compound f c0 b else sret tt)) (setc b)) with (ts := ts) (h := h1) (cs := cs) (F := F0) (rs := rs)
    as (h2 & E2 & R2 & Fr2 & Rt2); try assumption.
  - intros h0 i0 t0 F1 r0 W0 Hd0 R0 T0. destruct t0 as [n0 k0|n0 b0 k0].
    + exists h0. inversion R0; subst. assert (r1 = r0) by congruence. subst r1.
      match goal with X : objs h0 r0 = Some _ |- _ => rewrite (run_ok _ _ _ _ _ (deref_ok _ _ _ X)) end.
      cbn [is_node]. repeat apply conj; try reflexivity; [exact R0|now apply frame_refl].
    + destruct (rep_inv_node _ _ _ _ _ _ _ R0 T0) as (l0 & cs0 & F00 & O0 & _). rewrite (run_ok _ _ _ _ _ (deref_ok _ _ _ O0)). cbn [is_node].
      apply (IH h0 i0 (SNode n0 b0 k0) F1 r0 W0 eq_refl Hd0 R0 T0).
  - apply depth_forall. now apply (depth_node ns c).
  - exists h2. destruct (change_kids h1 h2 i r ns b l cs (List.map (setc b) ts) F0 W1 T1 O1 L1 D Fr2 R2) as (R3 & _). repeat apply conj; try assumption.
    apply (frame_trans h h1); [apply (frame_weaken h h1 _ _ Fr1)|apply (frame_weaken h1 h2 _ _ Fr2)].
    + intros x [<-|[]]. right; now left.
    + intros x Hx. do 3 right. exact Hx.
Qed.

(** ** What beta reads *)

Lemma sall_ok {A} (f : A -> SM bool) h : forall l bs, Forall2 (fun x b => f x h = (Ok b, h)) l bs -> sall f l h = (Ok (forallb (fun b => b) bs), h).
Proof. induction 1 as [|x b l bs H _ IH]; [reflexivity|]. rewrite sall_cons, (run_ok _ _ _ _ _ H). destruct b; [exact IH|reflexivity]. Qed.
Lemma forallb_map {A B} (p : B -> bool) (f : A -> B) l : forallb p (List.map f l) = forallb (fun x => p (f x)) l.
Proof. induction l as [|x l IH]; [reflexivity|]. cbn. now rewrite IH. Qed.
Lemma forallb_flat {A B} (p : B -> bool) (f : A -> list B) l : forallb p (flat_map f l) = forallb (fun x => forallb p (f x)) l.
Proof. induction l as [|x l IH]; [reflexivity|]. cbn. rewrite forallb_app. now rewrite IH. Qed.

Definition by_deps (t : stree) : bool := forallb (fun k => among (t_dep k) compound_deps) (leaves t).
Definition by_entity (ts : list stree) : bool :=
  match ts with
  | SLeaf _ k :: _ => negb (Nat.eqb (List.length (t_ent k)) 0)
      && forallb (fun t => match t with SLeaf _ j => str_eqb (t_ent j) (t_ent k) | SNode _ _ _ => false end) ts
  | _ => false
  end.
Definition compound_kids (ts : list stree) : bool := by_entity ts || forallb by_deps ts.

Lemma by_deps_rep : forall f h i t F r, is_snode t = true -> depth t <= f -> rep h i t F -> table h i = Some r ->
  is_compound_by_deps f r h = (Ok (by_deps t), h).
Proof.
  induction f as [|f IH]; intros h i t F r Hn Hd R T; [pose proof (depth_pos t); lia|]. destruct t as [|ns c ts]; [discriminate|].
  destruct (rep_inv_node _ _ _ _ _ _ _ R T) as (l & cs & F0 & O & L & Rs & D & ->). cbn [is_compound_by_deps].
  destruct (children_ok _ _ _ _ _ _ _ _ _ _ _ O L Rs) as (rs & Ec & Hc). rewrite (run_ok _ _ _ _ _ Ec).
  rewrite (sall_ok _ h rs (List.map by_deps ts)).
  - f_equal. f_equal. rewrite forallb_map. unfold by_deps at 2. cbn [leaves]. now rewrite forallb_flat.
  - apply (reps_forall2 h (fun c0 => run o <- deref c0; match o with OLeaf _ _ t => sret (among (t_dep t) compound_deps) | ONode _ _ _ _ _ _ => is_compound_by_deps f c0 end) by_deps cs ts F0 rs Rs Hc).
    intros i0 t0 F' r0 Hi R0 T0. apply depth_node in Hd. pose proof (depth_in t0 ts f Hi Hd) as Hd0. destruct t0 as [n0 k0|n0 b0 k0].
    + inversion R0; subst. assert (r1 = r0) by congruence. subst r1.
      match goal with X : objs h r0 = Some _ |- _ => rewrite (run_ok _ _ _ _ _ (deref_ok _ _ _ X)) end. unfold by_deps. cbn. now rewrite andb_true_r.
    + destruct (rep_inv_node _ _ _ _ _ _ _ R0 T0) as (l0 & cs0 & F00 & O0 & _). rewrite (run_ok _ _ _ _ _ (deref_ok _ _ _ O0)).
      apply (IH h i0 (SNode n0 b0 k0) F' r0 eq_refl Hd0 R0 T0).
Qed.

Lemma beta_is_compound_rep h i ns c ts F r : wf h -> ts <> [] -> rep h i (SNode ns c ts) F -> table h i = Some r ->
  beta_is_compound r h = (Ok (compound_kids ts), h).
Proof.
  intros W Hne R T. destruct (rep_inv_node _ _ _ _ _ _ _ R T) as (l & cs & F0 & O & L & Rs & D & EF).
  assert (E1 : is_compound_by_entity_type r h = (Ok (by_entity ts), h)).
  { unfold is_compound_by_entity_type. destruct ts as [|t1 ts]; [easy|].
    inversion Rs as [|c1 cs' t1' ts' F1 G R1 Rs' D1]; subst. destruct (rep_get _ _ _ _ R1) as (r1 & T1).
    rewrite (run_ok _ _ _ _ _ (get_child_ok _ _ _ _ _ _ _ _ _ 0 c1 r1 O L eq_refl T1)).
    destruct t1 as [n1 k1|n1 b1 k1].
    - inversion R1; subst. assert (r0 = r1) by congruence. subst r0.
      match goal with X : objs h r1 = Some _ |- _ => rewrite (run_ok _ _ _ _ _ (deref_ok _ _ _ X)) end.
      unfold by_entity. destruct (Nat.eqb (List.length (t_ent k1)) 0); [reflexivity|].
      destruct (children_ok _ _ _ _ _ _ _ _ _ _ _ O L Rs) as (rs & Ec & Hc). rewrite (run_ok _ _ _ _ _ Ec).
      set (g := fun t => match t with SLeaf _ j => str_eqb (t_ent j) (t_ent k1) | SNode _ _ _ => false end).
      rewrite (sall_ok _ h rs (List.map g (SLeaf n1 k1 :: ts))); [now rewrite forallb_map|].
      apply (reps_forall2 h (fun c0 => run o <- deref c0; match o with OLeaf _ _ t => sret (str_eqb (t_ent t) (t_ent k1)) | ONode _ _ _ _ _ _ => sret false end) g _ _ _ rs Rs Hc).
      intros i0 t0 F' r0 Hi R0 T0. destruct t0 as [n0 k0|n0 b0 k0].
      + inversion R0; subst. assert (r2 = r0) by congruence. subst r2.
        match goal with X : objs h r0 = Some _ |- _ => rewrite (run_ok _ _ _ _ _ (deref_ok _ _ _ X)) end. reflexivity.
      + destruct (rep_inv_node _ _ _ _ _ _ _ R0 T0) as (l0 & cs0 & F00 & O0 & _). now rewrite (run_ok _ _ _ _ _ (deref_ok _ _ _ O0)).
    - destruct (rep_inv_node _ _ _ _ _ _ _ R1 T1) as (l0 & cs0 & F00 & O0 & _). now rewrite (run_ok _ _ _ _ _ (deref_ok _ _ _ O0)). }
  unfold beta_is_compound. rewrite (run_ok _ _ _ _ _ E1). unfold compound_kids. destruct (by_entity ts); [reflexivity|].
  rewrite (run_ok budget _ h (S (n_obj h)) h eq_refl). rewrite (by_deps_rep (S (n_obj h)) h i (SNode ns c ts) F r); try assumption; try reflexivity.
  - cbn [orb]. unfold by_deps at 1. cbn [leaves]. now rewrite forallb_flat.
  - pose proof (rep_depth h i _ F W R). lia.
Qed.

(** ** beta *)

Fixpoint beta_t (t : stree) : stree :=
  match t with
  | SLeaf _ k => SLeaf (Some (lit "1")) k
  | SNode _ _ ts => SNode (Some (lit "1")) (compound_kids ts) (List.map beta_t ts)
  end.

(** the marks do not matter to what beta reads, nor do they survive it *)
Lemma setc_leaves b t : leaves (setc b t) = leaves t.
Proof.
  induction t as [ns k|ns c ts IH] using stree_ind'; [reflexivity|]. cbn. induction IH as [|t ts H _ IH]; [reflexivity|]. cbn. now rewrite H, IH.
Qed.
Lemma setc_full b t : full t -> full (setc b t).
Proof.
  induction t as [ns k|ns c ts IH] using stree_ind'; intros F; [exact I|]. apply full_node in F as [N F]. cbn [setc]. apply full_node. split; [now destruct ts|].
  clear N. induction IH as [|t ts H _ IH2]; [constructor|]. inversion F; subst. cbn. constructor; auto.
Qed.
Lemma setc_depth b t : depth (setc b t) = depth t.
Proof.
  induction t as [ns k|ns c ts IH] using stree_ind'; [reflexivity|]. cbn [setc]. change (depth (SNode ns b (List.map (setc b) ts))) with (S (list_max (List.map depth (List.map (setc b) ts)))).
  change (depth (SNode ns c ts)) with (S (list_max (List.map depth ts))). do 2 f_equal. rewrite map_map. apply map_ext_in. now apply Forall_forall.
Qed.
Lemma by_entity_setc b ts : by_entity (List.map (setc b) ts) = by_entity ts.
Proof.
  destruct ts as [|[n k|n c ks] ts]; try reflexivity. cbn [List.map setc by_entity]. f_equal. cbn [forallb]. f_equal. rewrite forallb_map.
  induction ts as [|t ts IH]; [reflexivity|]. cbn. rewrite IH. now destruct t.
Qed.
Lemma compound_kids_setc b ts : compound_kids (List.map (setc b) ts) = compound_kids ts.
Proof.
  unfold compound_kids. rewrite by_entity_setc. f_equal. rewrite forallb_map. induction ts as [|t ts IH]; [reflexivity|]. cbn. rewrite IH. f_equal.
  unfold by_deps. now rewrite setc_leaves.
Qed.
Lemma beta_setc b t : beta_t (setc b t) = beta_t t.
Proof.
  induction t as [ns k|ns c ts IH] using stree_ind'; [reflexivity|]. cbn [setc beta_t]. rewrite compound_kids_setc. f_equal.
  rewrite map_map. apply map_ext_in. now apply Forall_forall.
Qed.

Lemma beta_entity_rep : forall f h i t F, wf h -> full t /\ depth t <= f -> rep h i t F ->
  exists h', beta_entity f i h = (Ok tt, h') /\ rep h' i (beta_t t) F /\ frame h h' F /\ root_id h' = root_id h.
Proof.
  induction f as [|f IH]; intros h i t F W [Fu Hd] R; [pose proof (depth_pos t); lia|]. destruct (rep_get _ _ _ _ R) as (r & T). cbn [beta_entity].
  rewrite (run_ok _ _ _ _ _ (tget_ok _ _ _ T)). destruct t as [ns k|ns c ts].
  - inversion R; subst. assert (r0 = r) by congruence. subst r0.
    match goal with X : objs h r = Some _ |- _ => rename X into O end.
    assert (Es : set_namespace r (lit "1") h = (Ok tt, wo h r (OLeaf i (Some (lit "1")) k))).
    { unfold set_namespace. now rewrite (run_ok _ _ _ _ _ (deref_ok _ _ _ O)). }
    rewrite (run_ok _ _ _ _ _ Es). set (h1 := wo h r (OLeaf i (Some (lit "1")) k)).
    assert (O1 : objs h1 r = Some (OLeaf i (Some (lit "1")) k)) by apply updN_same.
    rewrite (run_ok _ _ _ _ _ (deref_ok _ _ _ O1)). cbn [is_node]. exists h1. repeat apply conj; try reflexivity.
    + now constructor.
    + apply (frame_weaken h h1 [CObj r]); [apply frame_wo; [exact W|now apply (wf_obj h W r _ O)]|]. intros x [<-|[]]. right; now left.
  - destruct (rep_inv_node _ _ _ _ _ _ _ R T) as (l & cs & F0 & O & L & Rs & D & ->). apply full_node in Fu as [Hne Fu].
    assert (Es : set_namespace r (lit "1") h = (Ok tt, wo h r (ONode i (Some (lit "1")) l [] (-1) c))).
    { unfold set_namespace. now rewrite (run_ok _ _ _ _ _ (deref_ok _ _ _ O)). }
    rewrite (run_ok _ _ _ _ _ Es). destruct (rewrite_node h i r ns c l cs ts F0 (Some (lit "1")) c W T O L Rs D) as [R1 Fr1].
    set (h1 := wo h r (ONode i (Some (lit "1")) l [] (-1) c)) in *. assert (W1 : wf h1) by apply Fr1. assert (T1 : table h1 i = Some r) by exact T.
    assert (O1 : objs h1 r = Some (ONode i (Some (lit "1")) l [] (-1) c)) by apply updN_same.
    rewrite (run_ok _ _ _ _ _ (deref_ok _ _ _ O1)). cbn [is_node].
    rewrite (run_ok _ _ _ _ _ (beta_is_compound_rep h1 i _ c ts _ r W1 Hne R1 T1)). rewrite (run_ok budget _ h1 (S (n_obj h1)) h1 eq_refl).
    destruct (set_compound_rep (compound_kids ts) (S (n_obj h1)) h1 i (SNode (Some (lit "1")) c ts) _ r W1 eq_refl (Nat.le_trans _ _ _ (rep_depth h1 i _ _ W1 R1) (Nat.le_succ_diag_r _)) R1 T1) as (h2 & E2 & R2 & Fr2 & Rt2).
    rewrite (run_ok _ _ _ _ _ E2). cbn [setc] in R2. assert (W2 : wf h2) by apply Fr2.
    destruct (rep_get _ _ _ _ R2) as (r2 & T2). inversion R2 as [|i' r' ns' c' l2 cs2 ts2 F2 T2' O2 L2 Rs2 D2]; subst. assert (r2 = r) by congruence. subst r2.
    rewrite (run_ok _ _ _ _ _ (children_ids_ok _ _ _ _ _ _ _ _ _ O2 L2)).
    destruct (sfor_ids (fun t => full t /\ depth t <= f) (beta_entity f) beta_t IH (List.map (setc (compound_kids ts)) ts) h2 cs2 F0 W2) as (h3 & E3 & R3 & Fr3 & Rt3).
    + apply depth_node in Hd. apply depth_forall in Hd. generalize (compound_kids ts) as bb. intros bb. clear - Fu Hd. induction Fu as [|t ts H _ IH]; [constructor|]. inversion Hd; subst.
      cbn. constructor; [|auto]. split; [now apply setc_full|now rewrite setc_depth].
    + exact Rs2.
    + rewrite E3. exists h3. destruct (change_kids h2 h3 i r _ _ l cs2 _ F0 W2 T2' O2 L2 D2 Fr3 R3) as (R4 & _).
      assert (Em : List.map beta_t (List.map (setc (compound_kids ts)) ts) = List.map beta_t ts).
      { rewrite map_map. apply map_ext. intros t. apply beta_setc. }
      rewrite Em in R4. repeat apply conj; try assumption; [reflexivity| |].
      * apply (frame_trans h h1); [apply (frame_weaken h h1 _ _ Fr1); intros x [<-|[]]; right; now left|].
        apply (frame_trans h1 h2); [exact Fr2|]. apply (frame_weaken h2 h3 _ _ Fr3). intros x Hx. do 3 right. exact Hx.
      * change (root_id h1) with (root_id h) in Rt2. congruence.
Qed.

Lemma beta_rep h i t F : wf h -> full t -> root_id h = Some i -> rep h i t F ->
  exists h', beta h = (Ok tt, h') /\ rep h' i (beta_t t) F /\ frame h h' F /\ root_id h' = Some i.
Proof.
  intros W Fu Rt R. unfold beta, get_root_id.
  rewrite (run_ok (fun h => (match root_id h with Some i => Ok i | None => Err AttributeError end, h)) _ h i h) by now rewrite Rt.
  rewrite (run_ok budget _ h (S (n_obj h)) h eq_refl).
  destruct (beta_entity_rep (S (n_obj h)) h i t F W) as (h' & E & R' & Fr & Rt'); [|exact R|].
  { split; [exact Fu|]. pose proof (rep_depth h i t F W R). lia. }
  exists h'. repeat apply conj; try assumption. congruence.
Qed.
