(** * P_gamma.v -- the gamma stage *)

From Verif Require Import Py P_py M_token M_tree M_stages S_tree P_tree P_treeops P_alpha P_beta.
From Coq Require Import String Permutation.
Open Scope list_scope.

(** ** Pure versions *)


Lemma comb_full a : forall s, full a -> full s -> full (comb a s).
Proof.
  intros s Fa. induction s as [ns k|ns c ts IH] using stree_ind'; intros Fs; [exact I|]. destruct ts as [|y ts]; [exact Fs|].
  apply full_node in Fs as [_ Fs]. inversion Fs; subst. inversion IH; subst. cbn [comb]. destruct (terminal y); apply full_node; (split; [discriminate|]).
  - constructor; [|assumption]. apply setc_full, full_node. split; [discriminate|]. repeat constructor; assumption.
  - constructor; [auto|assumption].
Qed.
Lemma pe1_full t : full t -> full (pe1 t).
Proof.
  intros F. destruct t as [ns k|ns c ts]; [exact I|]. unfold pe1. destruct (forallb rel_leaf ts); [now apply setc_full|].
  destruct ts as [|a [|s [|x ts]]]; try exact F. apply full_node in F as [N F0]. assert (Ha : full a) by now inversion F0. assert (Hs : full s) by (inversion F0 as [|? ? ? F1]; now inversion F1).
  destruct (article a); [exact Hs|]. destruct (negb (terminal s) && (rel_all a && first_rel s)); [now apply comb_full|]. apply full_node. now split.
Qed.
Lemma gamma_full t : full t -> full (gamma_t t).
Proof.
  induction t as [ns k|ns c ts IH] using stree_ind'; intros F; [exact I|]. cbn [gamma_t]. apply pe1_full. apply full_node in F as [N F]. apply full_node.
  split; [now destruct ts|]. clear N. induction IH as [|t ts H _ IH2]; [constructor|]. inversion F; subst. cbn. constructor; auto.
Qed.

(** ** is_relationship *)

Lemma sall_ids {A} h (f : Z -> SM bool) (g : stree -> bool) (P : stree -> A -> Prop) : forall cs ts F, reps h cs ts F ->
  (forall i t F', In t ts -> rep h i t F' -> f i h = (Ok (g t), h)) -> sall f cs h = (Ok (forallb g ts), h).
Proof.
  intros cs ts F R K. rewrite (sall_ok f h cs (List.map g ts)); [now rewrite forallb_map|].
  induction R as [|i is_ t ts F G R Rs IH D]; [constructor|]. cbn. constructor; [apply (K i t F); [now left|exact R]|]. apply IH. intros i0 t0 F0 Hi. apply K. now right.
Qed.
Lemma is_rel_rep : forall f h i t F d, depth t <= f -> rep h i t F -> is_relationship f i false d h = (Ok (rel_all t), h).
Proof.
  induction f as [|f IH]; intros h i t F d Hd R; [pose proof (depth_pos t); lia|]. destruct (rep_get _ _ _ _ R) as (r & T). cbn [is_relationship].
  rewrite (run_ok _ _ _ _ _ (tget_ok _ _ _ T)). destruct t as [ns k|ns c ts].
  - inversion R; subst. assert (r0 = r) by congruence. subst r0.
    match goal with X : objs h r = Some _ |- _ => rewrite (run_ok _ _ _ _ _ (deref_ok _ _ _ X)) end. unfold rel_all. cbn. now rewrite andb_true_r.
  - destruct (rep_inv_node _ _ _ _ _ _ _ R T) as (l & cs & F0 & O & L & Rs & D & ->). rewrite (run_ok _ _ _ _ _ (deref_ok _ _ _ O)). cbn [andb].
    rewrite (run_ok _ _ _ _ _ (children_ids_ok _ _ _ _ _ _ _ _ _ O L)).
    rewrite (sall_ids h _ rel_all (fun _ (_ : unit) => True) cs ts F0 Rs).
    + unfold rel_all at 2. cbn [leaves]. now rewrite forallb_flat.
    + intros i0 t0 F' Hi R0. apply (IH h i0 t0 F' (S d)); [|exact R0]. apply (depth_in t0 ts f Hi). now apply (depth_node ns c).
Qed.
Lemma is_rel_shallow f h i ns c ts F : depth (SNode ns c ts) <= f -> rep h i (SNode ns c ts) F -> is_relationship f i true 0 h = (Ok (forallb rel_leaf ts), h).
Proof.
  intros Hd R. destruct f as [|f]; [cbn in Hd; lia|]. destruct (rep_get _ _ _ _ R) as (r & T). cbn [is_relationship].
  rewrite (run_ok _ _ _ _ _ (tget_ok _ _ _ T)). destruct (rep_inv_node _ _ _ _ _ _ _ R T) as (l & cs & F0 & O & L & Rs & D & ->).
  rewrite (run_ok _ _ _ _ _ (deref_ok _ _ _ O)). cbn [andb Nat.ltb Nat.leb]. rewrite (run_ok _ _ _ _ _ (children_ids_ok _ _ _ _ _ _ _ _ _ O L)).
  rewrite (sall_ids h _ rel_leaf (fun _ (_ : unit) => True) cs ts F0 Rs); [reflexivity|]. intros i0 t0 F' Hi R0.
  apply depth_node in Hd. pose proof (depth_in t0 ts f Hi Hd) as Hd0. destruct f as [|f]; [pose proof (depth_pos t0); lia|].
  destruct (rep_get _ _ _ _ R0) as (r0 & T0). cbn [is_relationship]. rewrite (run_ok _ _ _ _ _ (tget_ok _ _ _ T0)). destruct t0 as [n0 k0|n0 b0 k0].
  - inversion R0; subst. assert (r1 = r0) by congruence. subst r1.
    match goal with X : objs h r0 = Some _ |- _ => rewrite (run_ok _ _ _ _ _ (deref_ok _ _ _ X)) end. reflexivity.
  - destruct (rep_inv_node _ _ _ _ _ _ _ R0 T0) as (l0 & cs0 & F00 & O0 & _). now rewrite (run_ok _ _ _ _ _ (deref_ok _ _ _ O0)).
Qed.

(** ** combine_relationships *)

Lemma combine_rep a : forall s f h i Fa j Fs, wf h -> full s -> is_snode s = true -> depth s <= f -> rep h i a Fa -> rep h j s Fs -> disj Fs Fa ->
  exists h' F', combine_relationships f i j h = (Ok j, h') /\ rep h' j (comb a s) F' /\ frame h h' (Fs ++ Fa) /\ within h (Fs ++ Fa) F' /\ root_id h' = root_id h.
Proof.
  induction s as [ns k|ns c ts IH] using stree_ind'; intros f h i Fa j Fs W Fu Hn Hd Ra Rs D; [discriminate|].
  destruct ts as [|y ts]; [apply full_node in Fu as [X _]; easy|]. destruct f as [|f]; [cbn in Hd; lia|].
  destruct (rep_get _ _ _ _ Ra) as (ra & Ta). destruct (rep_get _ _ _ _ Rs) as (rs & Ts).
  destruct (uc_first h j ns c y ts [] Fs W (rep_uc _ _ _ _ Rs)) as (rs' & l & lids & c0 & cs & Fc & Ts' & O & L & Rc & Sub & IO & IL & NI & NO & NL & K).
  assert (rs' = rs) by congruence. subst rs'.
  assert (El : lids = []) by (inversion Rs; subst; congruence). subst lids.
  destruct (rep_get _ _ _ _ Rc) as (rc & Tc). destruct (deref_terminal _ _ _ _ _ Rc Tc) as (oc & Oc & Et & Elf & Ei).
  destruct (deref_terminal _ _ _ _ _ Ra Ta) as (oa & Oa & _ & _ & Eia).
  assert (Dc : disj Fc Fa) by (intros x H1 H2; apply (D x); auto).
  assert (OldF : forall x, In x Fs -> old h x) by now apply (rep_old h j (SNode ns c (y :: ts))).
  assert (OldA : forall x, In x Fa -> old h x) by now apply (rep_old h i a).
  cbn [combine_relationships]. rewrite (run_ok _ _ _ _ _ (tget_ok _ _ _ Ta)), (run_ok _ _ _ _ _ (tget_ok _ _ _ Ts)).
  rewrite (run_ok _ _ _ _ _ (get_child_ok _ _ _ _ _ _ _ _ _ 0 c0 rc O L eq_refl Tc)), (run_ok _ _ _ _ _ (deref_ok _ _ _ Oc)).
  apply full_node in Fu as [_ Fu]. assert (Fy : full y) by now inversion Fu.
  assert (Test : is_node oc && negb (is_compound oc) = negb (terminal y)).
  { rewrite <- Et. unfold is_terminal. destruct oc; reflexivity. }
  rewrite Test. cbn [comb]. destruct (terminal y) eqn:Ty; cbn [negb].
  - rewrite (run_ok _ _ _ _ _ (id_of_ok _ _ _ Oa)), Eia.
    assert (Os : objs h rs = Some (ONode j ns l [] (-1) c)) by exact O.
    destruct (node_add_first_uc LEFT h j [] Fs rs i a Fa ns c y ts W (rep_uc _ _ _ _ Rs)) as (h1 & F1 & E1 & U1 & Fr1 & Wi1 & Rt1 & Ts1); try assumption.
    assert (E1' : add_to_first_child rs i LEFT h = (Ok tt, h1)).
    { unfold add_to_first_child. now rewrite (run_ok _ _ _ _ _ (deref_ok _ _ _ Os)). }
    rewrite (run_ok _ _ _ _ _ E1'). assert (W1 : wf h1) by apply Fr1.
    assert (Ey : into LEFT y a = SNode None false [a; y]) by (destruct y as [?|? b ?]; [reflexivity|cbn in Ty; now subst]).
    rewrite Ey in U1.
    destruct (uc_first h1 j ns c _ ts [] F1 W1 U1) as (rs1 & l1 & lids1 & c1 & cs1 & Fc1 & Ts1' & O1 & L1 & Rc1 & Sub1 & IO1 & IL1 & NI1 & NO1 & NL1 & K1).
    assert (rs1 = rs) by congruence. subst rs1. destruct (rep_get _ _ _ _ Rc1) as (rc1 & Tc1).
    rewrite (run_ok _ _ _ _ _ (get_child_ok _ _ _ _ _ _ _ _ _ 0 c1 rc1 O1 L1 eq_refl Tc1)), (run_ok budget _ h1 (S (n_obj h1)) h1 eq_refl).
    destruct (set_compound_rep true (S (n_obj h1)) h1 c1 (SNode None false [a; y]) Fc1 rc1 W1 eq_refl
      (Nat.le_trans _ _ _ (rep_depth h1 c1 _ _ W1 Rc1) (Nat.le_succ_diag_r _)) Rc1 Tc1) as (h2 & E2 & R2 & Fr2 & Rt2).
    rewrite (run_ok _ _ _ _ _ E2).
    destruct (K1 h2 (setc true (SNode None false [a; y])) Fc1 []) as (F2 & U2 & Wi2).
    + now rewrite app_nil_r.
    + exact R2.
    + intros x Hx. left. now rewrite app_nil_r.
    + apply disj_nil.
    + rewrite app_nil_r in Wi2.
      assert (O2 : objs h2 rs = Some (ONode j ns l1 lids1 (-1) c)).
      { rewrite <- O1. apply (fr_same _ _ _ Fr2 (CObj rs)); [now apply (wf_obj h1 W1 rs _ O1)|exact NO1]. }
      exists h2, F2. repeat apply conj.
      * now rewrite (id_of_ok _ _ _ O2).
      * now apply uc_rep.
      * apply (frame_upd h h1 h2 (Fs ++ Fa) F1).
        -- split; [|exact Wi1]. apply (frame_weaken h h1 _ _ Fr1). intros x Hx. apply in_app_iff. now left.
        -- apply (frame_weaken h1 h2 Fc1 F1 Fr2 Sub1).
      * intros x Hx. destruct (Wi2 x Hx) as [H|H]; [now apply Wi1|]. right. intros Ho. apply H. now apply (frame_old h h1 _ x Fr1).
      * congruence.
  - rewrite (run_ok _ _ _ _ _ (id_of_ok _ _ _ Oa)), Eia, Ei. inversion IH as [|? ? IHy _]; subst.
    assert (Hy : is_snode y = true) by (destruct y; [discriminate|reflexivity]).
    assert (Hdy : depth y <= f) by (apply depth_node in Hd; apply (depth_in y (y :: ts)); [now left|exact Hd]).
    destruct (IHy f h (obj_id oa) Fa (obj_id oc) Fc W Fy Hy Hdy Ra Rc Dc) as (h1 & F1 & E1 & R1 & Fr1 & Wi1 & Rt1).
    rewrite (run_ok _ _ _ _ _ E1).
    destruct (K h1 (comb a y) F1 Fa Fr1 R1 Wi1 D) as (F2 & U2 & Wi2).
    assert (O1 : objs h1 rs = Some (ONode j ns l [] (-1) c)).
    { rewrite <- O. apply (fr_same _ _ _ Fr1 (CObj rs)); [now apply (wf_obj h W rs _ O)|]. intros X. apply in_app_iff in X as [X|X]; [easy|]. now apply (D (CObj rs)). }
    exists h1, F2. repeat apply conj.
    + now rewrite (id_of_ok _ _ _ O1).
    + now apply uc_rep.
    + apply (frame_weaken h h1 _ _ Fr1). intros x Hx. apply in_app_iff in Hx as [Hx|Hx]; apply in_app_iff; auto.
    + exact Wi2.
    + exact Rt1.
Qed.

(** ** process_entity1 *)

Lemma reps_cons_inv h c cs ts F : reps h (c :: cs) ts F -> exists t ts' F1 F2, ts = t :: ts' /\ F = F1 ++ F2 /\ rep h c t F1 /\ reps h cs ts' F2 /\ disj F1 F2.
Proof. intros R. inversion R; subst. eauto 10. Qed.

Lemma rep_article h i t F r o : rep h i t F -> table h i = Some r -> objs h r = Some o ->
  match o with OLeaf _ _ t => str_eqb (t_pos t) (lit "DET") && among (t_lemma t) ["the"; "an"; "a"]%string | ONode _ _ _ _ _ _ => false end = article t.
Proof.
  intros R T O. destruct R as [i r0 ns k T0 O0|i r0 ns c l cs ts F T0 O0 _ _ _]; rewrite T in T0; injection T0 as <-; rewrite O in O0; injection O0 as ->; reflexivity.
Qed.

Lemma process_entity1_rep h i t F : wf h -> full t -> rep h i t F ->
  exists h' j F', process_entity1 i h = (Ok j, h') /\ rep h' j (pe1 t) F' /\ upd h h' F F' /\ root_id h' = root_id h.
Proof.
  intros W Fu R. destruct (rep_get _ _ _ _ R) as (r & T). unfold process_entity1.
  rewrite (run_ok budget _ h (S (n_obj h)) h eq_refl), (run_ok _ _ _ _ _ (tget_ok _ _ _ T)).
  assert (Dep : forall i t F, rep h i t F -> depth t <= S (n_obj h)) by (intros i0 t0 F0 R0; pose proof (rep_depth h i0 t0 F0 W R0); lia).
  assert (Same : exists h' j F', sret i h = (Ok j, h') /\ rep h' j t F' /\ upd h h' F F' /\ root_id h' = root_id h).
  { exists h, i, F. repeat apply conj; try reflexivity; [exact R|now apply frame_refl|intros x Hx; now left]. }
  destruct t as [ns k|ns c ts].
  - inversion R; subst. assert (r0 = r) by congruence. subst r0.
    match goal with X : objs h r = Some _ |- _ => rewrite (run_ok _ _ _ _ _ (deref_ok _ _ _ X)) end. cbn [is_leaf]. exact Same.
  - destruct (rep_inv_node _ _ _ _ _ _ _ R T) as (l & cs & F0 & O & L & Rs & D & EF).
    rewrite (run_ok _ _ _ _ _ (deref_ok _ _ _ O)). cbn [is_leaf obj_id].
    rewrite (run_ok _ _ _ _ _ (is_rel_shallow (S (n_obj h)) h i ns c ts F (Dep _ _ _ R) R)). unfold pe1. destruct (forallb rel_leaf ts).
    + destruct (set_compound_rep true (S (n_obj h)) h i (SNode ns c ts) F r W eq_refl (Dep _ _ _ R) R T) as (h1 & E1 & R1 & Fr1 & Rt1).
      rewrite (run_ok _ _ _ _ _ E1). exists h1, i, F. repeat apply conj; try assumption; [reflexivity|]. intros x Hx. now left.
    + rewrite (run_ok _ _ _ _ _ (children_ids_ok _ _ _ _ _ _ _ _ _ O L)).
      pose proof (reps_length _ _ _ _ Rs) as Len.
      destruct ts as [|a [|s [|z ts]]]; destruct cs as [|ca [|cb [|cz cs]]]; try discriminate Len; cbn [List.length Nat.eqb]; try exact Same.
      apply reps_cons_inv in Rs as (a' & ts' & Fa & F2 & E & -> & Ra & Rs' & Da). injection E as <- <-.
      apply reps_cons_inv in Rs' as (s' & ts' & Fs & F3 & E & -> & Rs & Rn & Ds). injection E as <- <-. inversion Rn; subst. rewrite app_nil_r in *.
      destruct (rep_get _ _ _ _ Ra) as (ra & Ta). destruct (rep_get _ _ _ _ Rs) as (rs & Ts).
      destruct (deref_terminal _ _ _ _ _ Ra Ta) as (oa & Oa & Eta & Ela & Eia). destruct (deref_terminal _ _ _ _ _ Rs Ts) as (os & Os & Ets & Els & Eis).
      rewrite (run_ok _ _ _ _ _ (get_child_ok _ _ _ _ _ _ _ _ _ 0 ca ra O L eq_refl Ta)), (run_ok _ _ _ _ _ (get_child_ok _ _ _ _ _ _ _ _ _ 1 cb rs O L eq_refl Ts)).
      rewrite (run_ok _ _ _ _ _ (deref_ok _ _ _ Oa)), (run_ok _ _ _ _ _ (deref_ok _ _ _ Os)). cbv zeta.
      assert (Ea : match oa with OLeaf _ _ t => str_eqb (t_pos t) (lit "DET") && among (t_lemma t) ["the"; "an"; "a"]%string | ONode _ _ _ _ _ _ => false end = article a).
      { exact (rep_article _ _ _ _ _ _ Ra Ta Oa). }
      rewrite Ea. destruct (article a).
      { exists h, cb, Fs. rewrite Eis. repeat apply conj; try reflexivity; [exact Rs|now apply frame_refl|]. intros x Hx. left. do 3 right. apply in_app_iff. now right. }
      assert (Test : is_node os && negb (is_compound os) = negb (terminal s)) by (rewrite <- Ets; unfold is_terminal; destruct os; reflexivity).
      rewrite Test. destruct (terminal s) eqn:Tms; cbn [negb andb]; [exact Same|].
      rewrite Eia, Eis. rewrite (run_ok _ _ _ _ _ (is_rel_rep (S (n_obj h)) h ca a Fa 0 (Dep _ _ _ Ra) Ra)).
      apply full_node in Fu as [_ Fu]. assert (Ff : full s) by (inversion Fu as [|? ? _ F1]; now inversion F1).
      destruct s as [|ns2 c2 [|y ks]]; [discriminate|apply full_node in Ff as [X _]; easy|].
      destruct (rep_inv_node _ _ _ _ _ _ _ Rs Ts) as (l2 & cs2 & F02 & O2 & L2 & Rs2 & D2 & EF2).
      assert (E2 : (if rel_all a then run scs <- children_ids rs; run s0 <- nth_id scs 0; is_relationship (S (n_obj h)) s0 false 0 else sret false) h
                   = (Ok (rel_all a && first_rel (SNode ns2 c2 (y :: ks))), h)).
      { destruct (rel_all a); [|reflexivity]. rewrite (run_ok _ _ _ _ _ (children_ids_ok _ _ _ _ _ _ _ _ _ O2 L2)).
        destruct cs2 as [|cy cs2]; [inversion Rs2|]. apply reps_cons_inv in Rs2 as (y' & ks' & Fy & F3 & E & -> & Ry & _). injection E as <- <-.
        unfold nth_id. cbn [nth_error]. unfold sbind at 1, sret at 1. cbv beta iota. now rewrite (is_rel_rep (S (n_obj h)) h cy y Fy 0 (Dep _ _ _ Ry) Ry). }
      rewrite (run_ok _ _ _ _ _ E2). destruct (rel_all a && first_rel (SNode ns2 c2 (y :: ks))); [|exact Same].
      destruct (combine_rep a (SNode ns2 c2 (y :: ks)) (S (n_obj h)) h ca Fa cb Fs W Ff eq_refl (Dep _ _ _ Rs) Ra Rs (disj_sym _ _ Da)) as (h1 & F1 & E1 & R1 & Fr1 & Wi1 & Rt1).
      rewrite E1. exists h1, cb, F1. repeat apply conj; try assumption; [reflexivity| |].
      * apply (frame_weaken h h1 _ _ Fr1). intros x Hx. do 3 right. apply in_app_iff in Hx. apply in_app_iff. tauto.
      * intros x Hx. destruct (Wi1 x Hx) as [H|H]; [left|now right]. do 3 right. apply in_app_iff in H. apply in_app_iff. tauto.
Qed.

(** ** gamma *)

Lemma set_nth_mid pre x post y : set_nth_id (pre ++ x :: post) (List.length pre) y = Some (pre ++ y :: post).
Proof. induction pre as [|p pre IH]; [reflexivity|]. cbn. now rewrite IH. Qed.

Lemma gamma_loop (f : Z -> SM Z) (g : stree -> stree) (P : stree -> Prop) :
  (forall h i t F, wf h -> P t -> rep h i t F -> exists h' j F', f i h = (Ok j, h') /\ rep h' j (g t) F' /\ upd h h' F F' /\ root_id h' = root_id h) ->
  forall ts2 h i r ns l c js cs2 ts1 F1 F2, wf h -> Forall P ts2 -> table h i = Some r -> objs h r = Some (ONode i ns l [] (-1) c) -> lists h l = Some (js ++ cs2) ->
    reps h js ts1 F1 -> reps h cs2 ts2 F2 -> disj F1 F2 -> disj [CId i; CObj r; CList l] (F1 ++ F2) ->
    exists h' js2 F2', sfor (fun k => run cs' <- children_ids r; run c <- nth_id cs' k; run x <- f c; set_child r k x) (seq (List.length js) (List.length cs2)) h = (Ok tt, h')
      /\ lists h' l = Some (js ++ js2) /\ reps h' js ts1 F1 /\ reps h' js2 (List.map g ts2) F2' /\ disj F1 F2' /\ frame h h' (CList l :: F2) /\ within h F2 F2' /\ root_id h' = root_id h.
Proof.
  intros K. induction ts2 as [|t ts2 IH]; intros h i r ns l c js cs2 ts1 F1 F2 W HP T O L R1 R2 D12 D.
  - inversion R2; subst. exists h, [], []. repeat apply conj; try assumption; try reflexivity; try (now apply frame_refl); try (intros x Hx; now left).
  - inversion R2 as [|cc cs' t' ts' Fc Fr Rc Rr Dcr]; subst. inversion HP as [|? ? Pt Pts]; subst.
    destruct (K h cc t Fc W Pt Rc) as (h1 & j & Fc' & E1 & Rj & U1 & Rt1). assert (W1 : wf h1) by apply U1.
    apply disj_app in D as [DD1 DD2]. apply disj_app in DD2 as [DDc DDr]. apply disj_app in D12 as [D1c D1r].
    destruct (reps_id_fresh _ _ _ _ DDc) as (Ni & Nr & Nl).
    assert (T1 : table h1 i = Some r) by (rewrite <- T; apply (fr_same _ _ _ (proj1 U1) (CId i)); [now apply (wf_tab h W i r)|exact Ni]).
    assert (O1 : objs h1 r = Some (ONode i ns l [] (-1) c)) by (rewrite <- O; apply (fr_same _ _ _ (proj1 U1) (CObj r)); [now apply (wf_obj h W r _ O)|exact Nr]).
    assert (L1 : lists h1 l = Some (js ++ cc :: cs')) by (rewrite <- L; apply (fr_same _ _ _ (proj1 U1) (CList l)); [now apply (wf_lst h W l _ L)|exact Nl]).
    pose (h2 := wl h1 l (js ++ j :: cs')).
    assert (Fr2 : frame h1 h2 [CList l]) by (apply frame_wl; [exact W1|now apply (wf_lst h1 W1 l _ L1)]).
    assert (Old1 : forall x, In x F1 -> old h x) by now apply (reps_old h js ts1).
    assert (Oldr : forall x, In x Fr -> old h x) by now apply (reps_old h cs' ts2).
    assert (Oldn : forall x, In x [CId i; CObj r; CList l] -> old h x).
    { intros x [<-|[<-|[<-|[]]]]; cbn; [now apply (wf_tab h W i r)|now apply (wf_obj h W r _ O)|now apply (wf_lst h W l _ L)]. }
    assert (Nl1 : ~ In (CList l) F1) by (intros X; apply (DD1 (CList l)); [do 2 right; now left|exact X]).
    assert (Nlr : ~ In (CList l) Fr) by (intros X; apply (DDr (CList l)); [do 2 right; now left|exact X]).
    assert (DDc' : disj [CId i; CObj r; CList l] Fc').
    { apply disj_sym. apply (within_disj h Fc Fc' _ (proj2 U1)); [exact Oldn|now apply disj_sym]. }
    assert (Nlc : ~ In (CList l) Fc') by (intros X; apply (DDc' (CList l)); [do 2 right; now left|exact X]).
    assert (Dc1 : disj Fc' F1) by (apply (within_disj h Fc Fc' _ (proj2 U1)); [exact Old1|now apply disj_sym]).
    assert (Dcr' : disj Fc' Fr) by (apply (within_disj h Fc Fc' _ (proj2 U1)); [exact Oldr|exact Dcr]).
    assert (R1a : reps h1 js ts1 F1) by (apply (reps_frame h h1 Fc); try assumption; [apply U1|now apply disj_sym]).
    assert (Rra : reps h1 cs' ts2 Fr) by (apply (reps_frame h h1 Fc); try assumption; apply U1).
    assert (Sep : forall X, ~ In (CList l) X -> disj [CList l] X) by (intros X H x [<-|[]] Hx; easy).
    assert (Rj2 : rep h2 j (g t) Fc') by (apply (rep_frame h1 h2 [CList l]); try assumption; now apply Sep).
    assert (R12 : reps h2 js ts1 F1) by (apply (reps_frame h1 h2 [CList l]); try assumption; now apply Sep).
    assert (Rr2 : reps h2 cs' ts2 Fr) by (apply (reps_frame h1 h2 [CList l]); try assumption; now apply Sep).
    assert (L2 : lists h2 l = Some ((js ++ [j]) ++ cs')) by (rewrite <- app_assoc; apply updN_same).
    destruct (IH h2 i r ns l c (js ++ [j]) cs' (ts1 ++ [g t]) (F1 ++ Fc') Fr) as (h3 & js2 & F2' & E3 & L3 & R3 & R3' & D3 & Fr3 & Wi3 & Rt3); try assumption.
    + apply Fr2.
    + apply reps_app; [exact R12|now apply reps_one|now apply disj_sym].
    + apply disj_appl. now split.
    + rewrite !disj_app. now repeat split.
    + apply disj_appl in D3 as [D31 D3c].
      assert (Es : set_child r (List.length js) j h1 = (Ok tt, h2)).
      { unfold set_child. rewrite (run_ok _ _ _ _ _ (kids_ref_ok _ _ _ _ _ _ _ _ O1)), (run_ok _ _ _ _ _ (read_list_ok _ _ _ L1)), set_nth_mid. reflexivity. }
      assert (W2 : wf h2) by apply Fr2.
      assert (Fr12 : frame h h2 (CList l :: Fc)).
      { apply (frame_trans h h1); [apply (frame_weaken h h1 _ _ (proj1 U1)); intros x Hx; now right|apply (frame_weaken h1 h2 _ _ Fr2)]. intros x [<-|[]]. now left. }
      assert (Rj3 : rep h3 j (g t) Fc').
      { apply (rep_frame h2 h3 (CList l :: Fr)); try assumption. intros x [<-|Hx] Hc; [easy|now apply (Dcr' x)]. }
      assert (R13 : reps h3 js ts1 F1).
      { apply (reps_frame h2 h3 (CList l :: Fr)); try assumption. intros x [<-|Hx] Hc; [easy|now apply (D1r x)]. }
      exists h3, (j :: js2), (Fc' ++ F2'). repeat apply conj.
      * cbn [List.length seq]. rewrite sfor_cons. rewrite sbind_assoc, (run_ok _ _ _ _ _ (children_ids_ok _ _ _ _ _ _ _ _ _ O L)).
        unfold nth_id at 1. rewrite nth_mid. rewrite sbind_assoc. rewrite (run_ok (sret cc) _ h cc h eq_refl). rewrite sbind_assoc, (run_ok _ _ _ _ _ E1), (run_ok _ _ _ _ _ Es).
        rewrite app_length in E3. cbn [List.length] in E3. now rewrite Nat.add_1_r in E3.
      * now rewrite <- app_assoc in L3.
      * exact R13.
      * cbn. constructor; [exact Rj3|exact R3'|exact D3c].
      * apply disj_app. split; [now apply disj_sym|exact D31].
      * apply (frame_trans h h2); [apply (frame_weaken h h2 _ _ Fr12)|apply (frame_weaken h2 h3 _ _ Fr3)]; (intros x [<-|Hx]; [now left|right; apply in_app_iff; tauto]).
      * intros x Hx. apply in_app_iff in Hx as [Hx|Hx].
        -- destruct (proj2 U1 x Hx); [left; apply in_app_iff; now left|now right].
        -- destruct (Wi3 x Hx) as [H|H]; [left; apply in_app_iff; now right|]. right. intros Ho. apply H. now apply (frame_old h h2 _ x Fr12).
      * change (root_id h2) with (root_id h1) in Rt3. congruence.
Qed.

Lemma gamma_entity_rep : forall f h i t F, wf h -> full t /\ depth t <= f -> rep h i t F ->
  exists h' j F', gamma_entity f i h = (Ok j, h') /\ rep h' j (gamma_t t) F' /\ upd h h' F F' /\ root_id h' = root_id h.
Proof.
  induction f as [|f IH]; intros h i t F W [Fu Hd] R; [pose proof (depth_pos t); lia|]. destruct (rep_get _ _ _ _ R) as (r & T). cbn [gamma_entity].
  rewrite (run_ok _ _ _ _ _ (tget_ok _ _ _ T)). destruct t as [ns k|ns c ts].
  - pose proof R as R'. inversion R; subst. assert (r0 = r) by congruence. subst r0.
    match goal with X : objs h r = Some _ |- _ => rewrite (run_ok _ _ _ _ _ (deref_ok _ _ _ X)) end. cbn [is_node].
    rewrite (run_ok (sret tt) _ h tt h eq_refl). apply (process_entity1_rep h i (SLeaf ns k) _ W I R').
  - destruct (rep_inv_node _ _ _ _ _ _ _ R T) as (l & cs & F0 & O & L & Rs & D & ->). rewrite (run_ok _ _ _ _ _ (deref_ok _ _ _ O)). cbn [is_node].
    rewrite sbind_assoc, (run_ok _ _ _ _ _ (children_ids_ok _ _ _ _ _ _ _ _ _ O L)).
    pose proof (gamma_full (SNode ns c ts) Fu) as _. apply full_node in Fu as [N Fu].
    destruct (gamma_loop (gamma_entity f) gamma_t (fun t => full t /\ depth t <= f) IH ts h i r ns l c [] cs [] [] F0) as (h1 & js & F1 & E1 & L1 & _ & R1 & _ & Fr1 & Wi1 & Rt1); try assumption.
    + apply depth_node in Hd. apply depth_forall in Hd. apply Forall_forall. intros t Ht. rewrite Forall_forall in Fu, Hd. now split; [apply Fu|apply Hd].
    + constructor.
    + apply disj_nill.
    + cbn [List.length app] in E1, L1. rewrite (run_ok _ _ _ _ _ E1). assert (W1 : wf h1) by apply Fr1.
      destruct (reps_id_fresh _ _ _ _ D) as (Ni & Nr & Nl).
      assert (Oldn : forall x, In x [CId i; CObj r; CList l] -> old h x).
      { intros x [<-|[<-|[<-|[]]]]; cbn; [now apply (wf_tab h W i r)|now apply (wf_obj h W r _ O)|now apply (wf_lst h W l _ L)]. }
      assert (R2 : rep h1 i (SNode ns c (List.map gamma_t ts)) (CId i :: CObj r :: CList l :: F1)).
      { apply (rep_node h1 i r ns c l js); try assumption.
        - rewrite <- T. apply (fr_same _ _ _ Fr1 (CId i)); [apply Oldn; now left|]. intros [X|X]; [discriminate|easy].
        - rewrite <- O. apply (fr_same _ _ _ Fr1 (CObj r)); [apply Oldn; right; now left|]. intros [X|X]; [discriminate|easy].
        - apply disj_sym. apply (within_disj h F0 F1 _ Wi1); [exact Oldn|now apply disj_sym]. }
      assert (Fm : full (SNode ns c (List.map gamma_t ts))).
      { apply full_node. split; [now destruct ts|]. clear - Fu. induction Fu; cbn; constructor; [now apply gamma_full|assumption]. }
      destruct (process_entity1_rep h1 i _ _ W1 Fm R2) as (h2 & j & F2 & E2 & R3 & U2 & Rt2).
      exists h2, j, F2. repeat apply conj.
      * exact E2.
      * exact R3.
      * apply (upd_trans h h1 h2 _ (CId i :: CObj r :: CList l :: F1) F2); [|exact U2]. split.
        -- apply (frame_weaken h h1 _ _ Fr1). intros x [<-|Hx]; [do 2 right; now left|do 3 right; exact Hx].
        -- intros x [<-|[<-|[<-|Hx]]]; [left; now left|left; right; now left|left; do 2 right; now left|]. destruct (Wi1 x Hx); [left; do 3 right; assumption|now right].
      * apply (upd_trans h h1 h2 _ (CId i :: CObj r :: CList l :: F1) F2); [|exact U2]. split.
        -- apply (frame_weaken h h1 _ _ Fr1). intros x [<-|Hx]; [do 2 right; now left|do 3 right; exact Hx].
        -- intros x [<-|[<-|[<-|Hx]]]; [left; now left|left; right; now left|left; do 2 right; now left|]. destruct (Wi1 x Hx); [left; do 3 right; assumption|now right].
      * congruence.
Qed.

Lemma gamma_rep h i t F : wf h -> full t -> root_id h = Some i -> rep h i t F ->
  exists h' j F', gamma h = (Ok tt, h') /\ wf h' /\ root_id h' = Some j /\ rep h' j (gamma_t t) F'.
Proof.
  intros W Fu Rt R. unfold gamma, get_root_id.
  rewrite (run_ok (fun h => (match root_id h with Some i => Ok i | None => Err AttributeError end, h)) _ h i h) by now rewrite Rt.
  rewrite (run_ok budget _ h (S (n_obj h)) h eq_refl).
  destruct (gamma_entity_rep (S (n_obj h)) h i t F W) as (h1 & j & F1 & E & R1 & U & Rt1); [|exact R|].
  { split; [exact Fu|]. pose proof (rep_depth h i t F W R). lia. }
  rewrite (run_ok _ _ _ _ _ E).
  pose (h2 := Tr (table h1) (cur_id h1) (Some j) (objs h1) (n_obj h1) (lists h1) (n_list h1)).
  exists h2, j, F1. repeat apply conj; try reflexivity.
  - destruct U as [[[A B C D] _ _ _ _] _]. now constructor.
  - apply (rep_agree h1 h2); [exact R1|]. intros [?|?|?] _; reflexivity.
Qed.
