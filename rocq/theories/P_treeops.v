(** * P_treeops.v -- what the methods of M_tree do to trees in the heap *)

From Verif Require Import Py P_py M_token M_tree S_tree P_tree.
From Coq Require Import String Permutation.
Open Scope list_scope.

(** ** Running *)

Lemma run_ok {A B} (m : SM A) (k : A -> SM B) h a h1 : m h = (Ok a, h1) -> sbind m k h = k a h1.
Proof. intros H. unfold sbind. now rewrite H. Qed.
Lemma run_err {A B} (m : SM A) (k : A -> SM B) h e h1 : m h = (Err e, h1) -> sbind m k h = (Err e, h1).
Proof. intros H. unfold sbind. now rewrite H. Qed.
Lemma sbind_assoc {A B C} (m : SM A) (f : A -> SM B) (g : B -> SM C) h : sbind (sbind m f) g h = sbind m (fun x => sbind (f x) g) h.
Proof. unfold sbind. destruct (m h) as [[a|e] h1]; reflexivity. Qed.
Lemma deref_ok h r o : objs h r = Some o -> deref r h = (Ok o, h).
Proof. intros H. unfold deref. now rewrite H. Qed.
Lemma tget_ok h i r : table h i = Some r -> tget i h = (Ok r, h).
Proof. intros H. unfold tget. now rewrite H. Qed.
Lemma read_list_ok h l x : lists h l = Some x -> read_list l h = (Ok x, h).
Proof. intros H. unfold read_list. now rewrite H. Qed.
Lemma id_of_ok h r o : objs h r = Some o -> id_of r h = (Ok (obj_id o), h).
Proof. intros H. unfold id_of. now rewrite (run_ok _ _ _ _ _ (deref_ok _ _ _ H)). Qed.
Lemma kids_ref_ok h r i n l ls y c : objs h r = Some (ONode i n l ls y c) -> kids_ref r h = (Ok l, h).
Proof. intros H. unfold kids_ref. now rewrite (run_ok _ _ _ _ _ (deref_ok _ _ _ H)). Qed.
Lemma children_ids_ok h r i n l ls y c x : objs h r = Some (ONode i n l ls y c) -> lists h l = Some x -> children_ids r h = (Ok x, h).
Proof. intros H H1. unfold children_ids. rewrite (run_ok _ _ _ _ _ (kids_ref_ok _ _ _ _ _ _ _ _ H)). now apply read_list_ok. Qed.
Lemma get_child_ok h r i n l ls y c x k ck rk : objs h r = Some (ONode i n l ls y c) -> lists h l = Some x ->
  nth_error x k = Some ck -> table h ck = Some rk -> get_child r k h = (Ok rk, h).
Proof.
  intros H H1 H2 H3. unfold get_child. rewrite (run_ok _ _ _ _ _ (children_ids_ok _ _ _ _ _ _ _ _ _ H H1)). unfold nth_id. rewrite H2.
  unfold sbind, sret. now apply tget_ok.
Qed.

(** ** Changed heaps *)

Definition wl (h : tree) (l : nat) (x : list Z) : tree := Tr (table h) (cur_id h) (root_id h) (objs h) (n_obj h) (updN (lists h) l x) (n_list h).
Definition wo (h : tree) (r : nat) (o : obj) : tree := Tr (table h) (cur_id h) (root_id h) (updN (objs h) r o) (n_obj h) (lists h) (n_list h).
Lemma updN_same {A} (f : nat -> option A) k v : updN f k v k = Some v.
Proof. unfold updN. now rewrite Nat.eqb_refl. Qed.
Lemma updN_other {A} (f : nat -> option A) k v x : x <> k -> updN f k v x = f x.
Proof. intros H. unfold updN. apply Nat.eqb_neq in H. now rewrite H. Qed.
Lemma updZ_same {A} (f : Z -> option A) k v : updZ f k v k = Some v.
Proof. unfold updZ. now rewrite Z.eqb_refl. Qed.
Lemma updZ_other {A} (f : Z -> option A) k v x : x <> k -> updZ f k v x = f x.
Proof. intros H. unfold updZ. apply Z.eqb_neq in H. now rewrite H. Qed.

Lemma frame_wl h l x : wf h -> l < n_list h -> frame h (wl h l x) [CList l].
Proof.
  intros W Hl. constructor; cbn; try lia.
  - constructor; cbn; try apply W. intros m y. unfold updN. destruct (Nat.eqb_spec m l); [intros _; lia|apply W].
  - intros c Ho Hn. destruct c; cbn; try reflexivity. unfold updN. destruct (Nat.eqb_spec l0 l); [|reflexivity]. subst. exfalso. apply Hn. now left.
Qed.
Lemma frame_wo h r o : wf h -> r < n_obj h -> frame h (wo h r o) [CObj r].
Proof.
  intros W Hl. constructor; cbn; try lia.
  - constructor; cbn; try apply W. intros m y. unfold updN. destruct (Nat.eqb_spec m r); [intros _; lia|apply W].
  - intros c Ho Hn. destruct c; cbn; try reflexivity. unfold updN. destruct (Nat.eqb_spec r0 r); [|reflexivity]. subst. exfalso. apply Hn. now left.
Qed.

(** A new node. *)
Lemma create_node_ok h l : wf h -> l < n_list h -> exists h',
  create_node l h = (Ok (n_obj h), h') /\ frame h h' [] /\ root_id h' = root_id h
  /\ table h' (cur_id h) = Some (n_obj h) /\ objs h' (n_obj h) = Some (ONode (cur_id h) None l [] (-1) false)
  /\ lists h' = lists h /\ n_list h' = n_list h.
Proof.
  intros W Hl. eexists. repeat apply conj.
  - unfold create_node, new_obj, add_elem, set_elem, deref, write_obj, sret, sbind. cbn. rewrite updN_same. reflexivity.
  - constructor; cbn; try lia.
    + constructor; cbn; try apply W.
      * pose proof (wf_cur h W). lia.
      * intros i r. unfold updZ. destruct (Z.eqb_spec i (cur_id h)); [pose proof (wf_cur h W); intros; lia|]. intros H. apply (wf_tab h W) in H. lia.
      * intros r o. unfold updN. destruct (Nat.eqb_spec r (n_obj h)); [intros; lia|]. intros H. apply (wf_obj h W) in H. lia.
    + intros c Ho _. destruct c; cbn in *; [rewrite updZ_other by lia; reflexivity|rewrite !updN_other by lia; reflexivity|reflexivity].
  - reflexivity.
  - cbn. apply updZ_same.
  - cbn. apply updN_same.
  - reflexivity.
  - reflexivity.
Qed.
Lemma new_list_ok h x : wf h -> exists h',
  new_list x h = (Ok (n_list h), h') /\ frame h h' [] /\ root_id h' = root_id h /\ table h' = table h /\ cur_id h' = cur_id h /\ objs h' = objs h
  /\ n_obj h' = n_obj h /\ lists h' (n_list h) = Some x /\ n_list h' = S (n_list h).
Proof.
  intros W. eexists. repeat apply conj; try reflexivity.
  - constructor; cbn; try lia.
    + constructor; cbn; try apply W. intros l y. unfold updN. destruct (Nat.eqb_spec l (n_list h)); [intros; lia|]. intros H. apply (wf_lst h W) in H. lia.
    + intros c Ho _. destruct c; cbn in *; [reflexivity|reflexivity|rewrite updN_other by lia; reflexivity].
  - cbn. apply updN_same.
Qed.
Lemma create_node_of_ok h x : wf h -> exists h',
  create_node_of x h = (Ok (n_obj h), h') /\ frame h h' [] /\ root_id h' = root_id h
  /\ table h' (cur_id h) = Some (n_obj h) /\ objs h' (n_obj h) = Some (ONode (cur_id h) None (n_list h) [] (-1) false)
  /\ lists h' (n_list h) = Some x.
Proof.
  intros W. destruct (new_list_ok h x W) as (h1 & E1 & F1 & R1 & T1 & C1 & O1 & N1 & L1 & M1).
  destruct (create_node_ok h1 (n_list h) (fr_wf _ _ _ F1)) as (h2 & E2 & F2 & R2 & T2 & O2 & L2 & M2); [lia|].
  exists h2. rewrite C1, N1 in *. repeat apply conj.
  - unfold create_node_of. rewrite (run_ok _ _ _ _ _ E1). exact E2.
  - now apply (frame_trans h h1).
  - congruence.
  - exact T2.
  - exact O2.
  - now rewrite L2.
Qed.
Lemma create_leaf_ok h t : wf h -> exists h',
  create_leaf t h = (Ok (n_obj h), h') /\ frame h h' [] /\ root_id h' = root_id h
  /\ table h' (cur_id h) = Some (n_obj h) /\ objs h' (n_obj h) = Some (OLeaf (cur_id h) None t).
Proof.
  intros W. eexists. repeat apply conj.
  - unfold create_leaf, new_obj, add_elem, set_elem, deref, write_obj, sret, sbind. cbn. rewrite updN_same. reflexivity.
  - constructor; cbn; try lia.
    + constructor; cbn; try apply W.
      * pose proof (wf_cur h W). lia.
      * intros i r. unfold updZ. destruct (Z.eqb_spec i (cur_id h)); [pose proof (wf_cur h W); intros; lia|]. intros H. apply (wf_tab h W) in H. lia.
      * intros r o. unfold updN. destruct (Nat.eqb_spec r (n_obj h)); [intros; lia|]. intros H. apply (wf_obj h W) in H. lia.
    + intros c Ho _. destruct c; cbn in *; [rewrite updZ_other by lia; reflexivity|rewrite !updN_other by lia; reflexivity|reflexivity].
  - reflexivity.
  - cbn. apply updZ_same.
  - cbn. apply updN_same.
Qed.

(** table[i] = r; the object gets the number *)
Lemma set_elem_ok h i r o : wf h -> (0 <= i < cur_id h)%Z -> objs h r = Some o -> exists h',
  set_elem i r h = (Ok tt, h') /\ frame h h' [CId i; CObj r] /\ root_id h' = root_id h
  /\ table h' = updZ (table h) i r /\ objs h' = updN (objs h) r (with_id o i) /\ lists h' = lists h
  /\ cur_id h' = cur_id h /\ n_obj h' = n_obj h /\ n_list h' = n_list h.
Proof.
  intros W Hi Ho. eexists. split; [unfold set_elem, deref, write_obj, sbind; rewrite Ho; reflexivity|]. repeat apply conj; try reflexivity.
  - pose proof (wf_obj h W r o Ho) as Hr. constructor; cbn; try lia.
    + constructor; cbn; try apply W.
      * intros j s. unfold updZ. destruct (Z.eqb_spec j i); [intros; lia|apply W].
      * intros s x. unfold updN. destruct (Nat.eqb_spec s r); [intros; lia|apply W].
    + intros c Hc Hn. destruct c as [j|s|l]; cbn in *.
      * rewrite updZ_other; [reflexivity|]. intros ->. apply Hn. now left.
      * rewrite updN_other; [reflexivity|]. intros ->. apply Hn. right; now left.
      * reflexivity.
Qed.
(** a new number for the object *)
Lemma add_elem_ok h r o : wf h -> objs h r = Some o -> exists h',
  add_elem r h = (Ok tt, h') /\ frame h h' [CObj r] /\ root_id h' = root_id h
  /\ table h' = updZ (table h) (cur_id h) r /\ objs h' = updN (objs h) r (with_id o (cur_id h)) /\ lists h' = lists h
  /\ cur_id h' = (cur_id h + 1)%Z /\ n_obj h' = n_obj h /\ n_list h' = n_list h.
Proof.
  intros W Ho. eexists. split; [unfold add_elem, set_elem, deref, write_obj, sbind; rewrite Ho; reflexivity|]. repeat apply conj; try reflexivity.
  - pose proof (wf_obj h W r o Ho) as Hr. pose proof (wf_cur h W). constructor; cbn; try lia.
    + constructor; cbn; try apply W; try lia.
      * intros j s. unfold updZ. destruct (Z.eqb_spec j (cur_id h)); [intros; lia|]. intros X. apply (wf_tab h W) in X. lia.
      * intros s x. unfold updN. destruct (Nat.eqb_spec s r); [intros; lia|apply W].
    + intros c Hc Hn. destruct c as [j|s|l]; cbn in *.
      * rewrite updZ_other; [reflexivity|lia].
      * rewrite updN_other; [reflexivity|]. intros ->. apply Hn. now left.
      * reflexivity.
Qed.

(** ** Elements under construction: a leaf, or a node with layers waiting *)

Inductive layers_at (h : tree) : list Z -> list (stree * list stree) -> list cell -> Prop :=
| la_nil : layers_at h [] [] []
| la_cons lid r l rel rest tr trest F lids ls G :
    table h lid = Some r -> objs h r = Some (ONode lid None l [] (-1) false) -> lists h l = Some (rel :: (-1)%Z :: rest) ->
    reps h (rel :: rest) (tr :: trest) F -> disj [CId lid; CObj r; CList l] F ->
    layers_at h lids ls G -> disj (CId lid :: CObj r :: CList l :: F) G ->
    layers_at h (lid :: lids) ((tr, trest) :: ls) ((CId lid :: CObj r :: CList l :: F) ++ G).

Inductive uc (h : tree) : Z -> stree -> list (stree * list stree) -> list cell -> Prop :=
| uc_leaf i r ns t : table h i = Some r -> objs h r = Some (OLeaf i ns t) -> uc h i (SLeaf ns t) [] [CId i; CObj r]
| uc_node i r ns c l cs ts F lids ls G :
    table h i = Some r -> objs h r = Some (ONode i ns l lids (-1) c) -> lists h l = Some cs -> reps h cs ts F ->
    layers_at h lids ls G -> disj [CId i; CObj r; CList l] (F ++ G) -> disj F G ->
    uc h i (SNode ns c ts) ls (CId i :: CObj r :: CList l :: F ++ G).

Lemma rep_uc h i t F : rep h i t F -> uc h i t [] F.
Proof.
  intros H. inversion H; subst; [now constructor|]. rewrite <- (app_nil_r F0). econstructor; try eassumption; [constructor| |apply disj_nil].
  now rewrite app_nil_r.
Qed.
Lemma uc_rep h i t F : uc h i t [] F -> rep h i t F.
Proof.
  intros H. inversion H; subst; [now constructor|].
  match goal with L : layers_at _ _ [] _ |- _ => inversion L; subst end. rewrite app_nil_r in *. econstructor; eassumption.
Qed.
Lemma layers_agree h h' lids ls F : layers_at h lids ls F -> (forall c, In c F -> agree h h' c) -> layers_at h' lids ls F.
Proof.
  induction 1 as [|lid r l rel rest tr trest F lids ls G H1 H2 H3 H4 D L IH D2]; intros A; [constructor|].
  econstructor; try eassumption.
  - rewrite <- H1. apply (A (CId lid)). now left.
  - rewrite <- H2. apply (A (CObj r)). right; now left.
  - rewrite <- H3. apply (A (CList l)). right; right; now left.
  - apply (reps_agree h h'); [exact H4|]. intros c Hc. apply A. do 3 right. apply in_app_iff. now left.
  - apply IH. intros c Hc. apply A. do 3 right. apply in_app_iff. now right.
Qed.
Lemma uc_agree h h' i t ls F : uc h i t ls F -> (forall c, In c F -> agree h h' c) -> uc h' i t ls F.
Proof.
  intros H A. destruct H as [i r ns t H1 H2|i r ns c l cs ts F lids ls G H1 H2 H3 H4 L D D2].
  - apply rep_uc. apply (rep_agree h h'); [now constructor|exact A].
  - econstructor; try eassumption.
    + rewrite <- H1. apply (A (CId i)). now left.
    + rewrite <- H2. apply (A (CObj r)). right; now left.
    + rewrite <- H3. apply (A (CList l)). right; right; now left.
    + apply (reps_agree h h'); [exact H4|]. intros x Hx. apply A. do 3 right. apply in_app_iff. now left.
    + apply (layers_agree h h'); [exact L|]. intros x Hx. apply A. do 3 right. apply in_app_iff. now right.
Qed.
Lemma layers_old h lids ls F : wf h -> layers_at h lids ls F -> forall c, In c F -> old h c.
Proof.
  intros W. induction 1 as [|lid r l rel rest tr trest F lids ls G H1 H2 H3 H4 D L IH D2]; intros c Hc; [easy|].
  cbn in Hc. destruct Hc as [<-|[<-|[<-|Hc]]]; cbn.
  - now apply (wf_tab h W lid r).
  - now apply (wf_obj h W r _ H2).
  - now apply (wf_lst h W l _ H3).
  - apply in_app_iff in Hc as [Hc|Hc]; [now apply (reps_old _ _ _ _ W H4)|now apply IH].
Qed.
Lemma uc_old h i t ls F : wf h -> uc h i t ls F -> forall c, In c F -> old h c.
Proof.
  intros W H. destruct H as [i r ns t H1 H2|i r ns c l cs ts F lids ls G H1 H2 H3 H4 L D D2].
  - apply (rep_old h i (SLeaf ns t)); [exact W|now constructor].
  - intros x [<-|[<-|[<-|Hx]]]; cbn.
    + now apply (wf_tab h W i r).
    + now apply (wf_obj h W r _ H2).
    + now apply (wf_lst h W l _ H3).
    + apply in_app_iff in Hx as [Hc|Hc]; [now apply (reps_old _ _ _ _ W H4)|now apply (layers_old _ _ _ _ W L)].
Qed.
Lemma uc_frame h h' F i t ls G : wf h -> frame h h' F -> uc h i t ls G -> disj F G -> uc h' i t ls G.
Proof.
  intros W Fr R D. apply (uc_agree h h'); [exact R|]. intros c Hc. apply Fr; [now apply (uc_old h i t ls G W R)|]. intros X. now apply (D c).
Qed.
Lemma layers_frame h h' F lids ls G : wf h -> frame h h' F -> layers_at h lids ls G -> disj F G -> layers_at h' lids ls G.
Proof.
  intros W Fr R D. apply (layers_agree h h'); [exact R|]. intros c Hc. apply Fr; [now apply (layers_old h lids ls G W R)|]. intros X. now apply (D c).
Qed.
Lemma uc_get h i t ls F : uc h i t ls F -> exists r, table h i = Some r.
Proof. intros H; inversion H; subst; eauto. Qed.

(** ** enclose *)

Lemma rep_parts h i t F : rep h i t F -> exists r o F1, F = CId i :: CObj r :: F1 /\ table h i = Some r /\ objs h r = Some o /\ obj_id o = i
  /\ ~ In (CObj r) F1 /\ ~ In (CId i) F1
  /\ (forall h' c, table h' c = Some r -> objs h' r = Some (with_id o c) -> (forall x, In x F1 -> agree h h' x) -> ~ In (CId c) F1 ->
        rep h' c t (CId c :: CObj r :: F1)).
Proof.
  intros H. destruct H as [i r ns t H1 H2|i r ns c l cs ts F H1 H2 H3 H4 D].
  - exists r, (OLeaf i ns t), []. repeat apply conj; try easy. intros h' c T O _ _. now constructor.
  - exists r, (ONode i ns l [] (-1) c), (CList l :: F). repeat apply conj; try easy.
    + intros [X|X]; [discriminate|]. apply (D (CObj r)); [right; now left|exact X].
    + intros [X|X]; [discriminate|]. apply (D (CId i)); [now left|exact X].
    + intros h' c' T O A N. apply (rep_node h' c' r ns c l cs).
      * exact T.
      * exact O.
      * rewrite <- H3. apply (A (CList l)). now left.
      * apply (reps_agree h h'); [exact H4|]. intros x Hx. apply A. now right.
      * intros x [<-|[<-|[<-|[]]]] Hx; [apply N; now right|apply (D (CObj r)); [right; now left|exact Hx]|apply (D (CList l)); [do 2 right; now left|exact Hx]].
Qed.

Lemma enclose_ok h i r o : wf h -> table h i = Some r -> objs h r = Some o -> obj_id o = i -> exists h' N c l,
  enclose r h = (Ok N, h') /\ frame h h' [CId i; CObj r] /\ root_id h' = root_id h
  /\ table h' i = Some N /\ objs h' N = Some (ONode i None l [] (-1) false) /\ lists h' l = Some [c]
  /\ table h' c = Some r /\ objs h' r = Some (with_id o c)
  /\ ~ old h (CObj N) /\ ~ old h (CList l) /\ ~ old h (CId c).
Proof.
  intros W T O I. destruct (add_elem_ok h r o W O) as (h1 & E1 & F1 & R1 & T1 & O1 & L1 & C1 & N1 & M1).
  assert (W1 : wf h1) by apply F1.
  assert (Or : objs h1 r = Some (with_id o (cur_id h))) by (rewrite O1; apply updN_same).
  destruct (create_node_of_ok h1 [cur_id h] W1) as (h2 & E2 & F2 & R2 & T2 & O2 & L2).
  pose proof (wf_tab h W i r T) as Hi. pose proof (wf_obj h W r o O) as Hr.
  destruct (fun H => set_elem_ok h2 i (n_obj h1) _ (fr_wf _ _ _ F2) H O2) as (h3 & E3 & F3 & R3 & T3 & O3 & L3 & C3 & N3 & M3).
  { pose proof (fr_cur _ _ _ F2). lia. }
  exists h3, (n_obj h1), (cur_id h), (n_list h1). repeat apply conj.
  - unfold enclose. rewrite (run_ok _ _ _ _ _ (id_of_ok h r o O)), I.
    rewrite (run_ok _ _ _ _ _ E1). rewrite (run_ok _ _ _ _ _ (id_of_ok h1 r _ Or)).
    assert (X : obj_id (with_id o (cur_id h)) = cur_id h) by now destruct o. rewrite X.
    rewrite (run_ok _ _ _ _ _ E2). rewrite (run_ok _ _ _ _ _ E3). reflexivity.
  - constructor.
    + apply F3.
    + pose proof (fr_cur _ _ _ F1). pose proof (fr_cur _ _ _ F2). lia.
    + pose proof (fr_obj _ _ _ F1). pose proof (fr_obj _ _ _ F2). lia.
    + pose proof (fr_lst _ _ _ F1). pose proof (fr_lst _ _ _ F2). lia.
    + intros c Hc Hn. apply (agree_trans h h1); [apply F1; [exact Hc|]|].
      { intros [<-|[]]. apply Hn. right; now left. }
      apply (agree_trans h1 h2); [apply F2; [now apply (frame_old h h1 _ c F1)|easy]|].
      apply F3; [apply (frame_old h1 h2 _ c F2), (frame_old h h1 _ c F1), Hc|].
      intros [<-|[<-|[]]]; [apply Hn; now left|]. cbn in Hc. lia.
  - congruence.
  - rewrite T3. apply updZ_same.
  - rewrite O3. apply updN_same.
  - now rewrite L3.
  - rewrite T3, updZ_other by lia. assert (A : agree h1 h2 (CId (cur_id h))) by (apply F2; [cbn; pose proof (wf_cur h W); lia|easy]).
    cbn in A. rewrite A, T1. apply updZ_same.
  - rewrite O3, updN_other by lia. assert (A : agree h1 h2 (CObj r)) by (apply F2; [cbn; lia|easy]). cbn in A. now rewrite A.
  - cbn. lia.
  - cbn. lia.
  - cbn. lia.
Qed.

Lemma enclose_rep h i t F r : wf h -> rep h i t F -> table h i = Some r -> exists h' N F' c,
  enclose r h = (Ok N, h') /\ rep h' i (SNode None false [t]) F' /\ upd h h' F F' /\ root_id h' = root_id h
  /\ table h' i = Some N /\ (exists l, objs h' N = Some (ONode i None l [] (-1) false) /\ lists h' l = Some [c]).
Proof.
  intros W R T. destruct (rep_parts h i t F R) as (r' & o & F1 & -> & T' & O & I & ND & NI & K).
  assert (r' = r) by congruence. subst r'.
  destruct (enclose_ok h i r o W T O I) as (h' & N & c & l & E & Fr & Rt & TN & ON & LN & Tc & Or & X1 & X2 & X3).
  assert (OldF : forall x, In x F1 -> old h x) by (intros x Hx; apply (rep_old h i t _ W R); do 2 right; exact Hx).
  assert (Rc : rep h' c t (CId c :: CObj r :: F1)).
  { apply K; try assumption.
    - intros x Hx. apply Fr; [now apply OldF|]. intros [<-|[<-|[]]]; easy.
    - intros Hx. now apply X3, OldF. }
  exists h', N, (CId i :: CObj N :: CList l :: (CId c :: CObj r :: F1)), c. repeat apply conj; try assumption.
  - apply (rep_node h' i N None false l [c]); try assumption; [now apply reps_one|].
    pose proof (wf_tab h W i r T) as Hi. pose proof (wf_obj h W r o O) as Hr.
    intros x [<-|[<-|[<-|[]]]] [H|[H|H]]; try discriminate.
    + injection H as ->. now apply X3.
    + easy.
    + injection H as <-. now apply X1.
    + now apply X1, OldF.
    + now apply X2, OldF.
  - apply (frame_weaken h h' _ _ Fr). intros x [<-|[<-|[]]]; [now left|right; now left].
  - intros x [<-|[<-|[<-|[<-|[<-|Hx]]]]]; [now left; left|now right|now right|now right|left; right; now left|left; do 2 right; exact Hx].
  - exists l. now split.
Qed.

Lemma disj_refl_nil c F : ~ In c F -> disj [c] F.
Proof. intros H x [<-|[]] Hx. easy. Qed.

(** ** add_child *)


(** appending to the list of a node *)
Lemma node_add_child_uc h i t ls F r j tj G ns c ts : wf h -> t = SNode ns c ts -> uc h i t ls F -> table h i = Some r -> rep h j tj G -> disj F G ->
  exists h' F', node_add_child r j h = (Ok tt, h') /\ uc h' i (SNode ns c (ts ++ [tj])) ls F' /\ frame h h' F
    /\ (forall x, In x F' -> In x (F ++ G)) /\ root_id h' = root_id h.
Proof.
  intros W -> U T R D. inversion U as [|i' r' ns' c' l cs ts' F0 lids ls' F1 H1 H2 H3 H4 L D1 D2]; subst.
  assert (r' = r) by congruence. subst r'.
  pose (h' := wl h l (cs ++ [j])). exists h', (CId i :: CObj r :: CList l :: (F0 ++ G) ++ F1).
  assert (Hl : l < n_list h) by apply (wf_lst h W l _ H3).
  assert (Fr : frame h h' [CList l]) by now apply frame_wl.
  assert (DG : disj [CId i; CObj r; CList l] G).
  { intros x Hx Hg. apply (D x); [|exact Hg]. destruct Hx as [<-|[<-|[<-|[]]]]; [now left|right; now left|do 2 right; now left]. }
  assert (DF : disj (F0 ++ F1) G) by (intros x Hx Hg; apply (D x); [do 3 right; exact Hx|exact Hg]).
  apply disj_appl in DF as [DF0 DF1]. apply disj_app in D1 as [D10 D11].
  repeat apply conj.
  - unfold node_add_child. rewrite (run_ok _ _ _ _ _ (kids_ref_ok _ _ _ _ _ _ _ _ H2)), (run_ok _ _ _ _ _ (read_list_ok _ _ _ H3)). reflexivity.
  - apply (uc_node h' i r ns c l (cs ++ [j]) (ts ++ [tj]) (F0 ++ G) lids ls F1); try assumption.
    + cbn. apply updN_same.
    + apply reps_app; [|apply reps_one|exact DF0].
      * apply (reps_frame h h' [CList l]); try assumption. intros x [<-|[]] Hx. apply (D10 (CList l)); [do 2 right; now left|exact Hx].
      * apply (rep_frame h h' [CList l]); try assumption. intros x [<-|[]] Hx. apply (DG (CList l)); [do 2 right; now left|exact Hx].
    + apply (layers_frame h h' [CList l]); try assumption. intros x [<-|[]] Hx. apply (D11 (CList l)); [do 2 right; now left|exact Hx].
    + apply disj_app. split; [apply disj_app; now split|exact D11].
    + apply disj_appl. split; [exact D2|now apply disj_sym].
  - apply (frame_weaken h h' _ _ Fr). intros x [<-|[]]. do 2 right; now left.
  - intros x [<-|[<-|[<-|Hx]]]; [now left|right; now left|do 2 right; now left|]. rewrite !in_app_iff in Hx. cbn. rewrite !in_app_iff. tauto.
  - reflexivity.
Qed.

Lemma frame_upd h h1 h2 F F1 : upd h h1 F F1 -> frame h1 h2 F1 -> frame h h2 F.
Proof.
  intros [A W] B. constructor.
  - apply B.
  - destruct A, B; lia.
  - destruct A, B; lia.
  - destruct A, B; lia.
  - intros c Ho Hn. apply (agree_trans h h1 h2); [now apply A|]. apply B; [now apply (frame_old h h1 F)|].
    intros H. destruct (W c H); easy.
Qed.

Lemma add_child_uc h i t ls F r j tj G : wf h -> uc h i t ls F -> table h i = Some r -> rep h j tj G -> disj F G ->
  exists h' F', add_child r j h = (Ok tt, h') /\ uc h' i (add_last t tj) ls F' /\ frame h h' F /\ within h (F ++ G) F' /\ root_id h' = root_id h.
Proof.
  intros W U T R D. destruct t as [ns t|ns c ts].
  - inversion U; subst. assert (r0 = r) by congruence. subst r0. apply uc_rep in U.
    destruct (enclose_rep h i (SLeaf ns t) _ r W U T) as (h1 & N & F' & c & E & R1 & U1 & Rt & TN & _).
    assert (OG : forall x, In x G -> old h x) by now apply (rep_old h j tj).
    assert (D1 : disj F' G) by (apply (within_disj h _ F' G (proj2 U1)); assumption).
    destruct (node_add_child_uc h1 i _ [] F' N j tj G None false [SLeaf ns t] (fr_wf _ _ _ (proj1 U1)) eq_refl (rep_uc _ _ _ _ R1) TN) as (h2 & F2 & E2 & U2 & Fr2 & In2 & Rt2).
    + apply (rep_frame h h1 [CId i; CObj r]); try assumption. apply U1.
    + exact D1.
    + exists h2, F2. repeat apply conj.
      * unfold add_child. match goal with O : objs h r = Some _ |- _ => rewrite (run_ok _ _ _ _ _ (deref_ok _ _ _ O)) end. cbn [is_leaf]. rewrite (run_ok _ _ _ _ _ E). exact E2.
      * exact U2.
      * apply (frame_upd h h1 h2 _ F' U1 Fr2).
      * intros x Hx. apply In2, in_app_iff in Hx as [Hx|Hx]; [|left; apply in_app_iff; now right].
        destruct (proj2 U1 x Hx) as [H|H]; [left; apply in_app_iff; now left|now right].
      * congruence.
  - destruct (node_add_child_uc h i _ ls F r j tj G ns c ts W eq_refl U T R D) as (h' & F' & E & U' & Fr & In' & Rt).
    exists h', F'. inversion U; subst. assert (r0 = r) by congruence. subst r0. repeat apply conj; try assumption.
    + unfold add_child. match goal with O : objs h r = Some _ |- _ => rewrite (run_ok _ _ _ _ _ (deref_ok _ _ _ O)) end. exact E.
    + intros x Hx. left. now apply In'.
Qed.

(** ** add_to_first_child *)


Lemma frame_wl_same h l x : wf h -> lists h l = Some x -> frame h (wl h l x) [].
Proof.
  intros W H. pose proof (wf_lst h W l x H) as Hl. destruct (frame_wl h l x W Hl) as [A B C D E]. constructor; try assumption.
  intros c Ho _. destruct c as [i|r|m]; cbn; try reflexivity. unfold updN. destruct (Nat.eqb_spec m l); [now subst|reflexivity].
Qed.

Lemma uc_first h i ns c y ts ls F : wf h -> uc h i (SNode ns c (y :: ts)) ls F -> exists r l lids c0 cs Fc,
  table h i = Some r /\ objs h r = Some (ONode i ns l lids (-1) c) /\ lists h l = Some (c0 :: cs) /\ rep h c0 y Fc
  /\ (forall x, In x Fc -> In x F) /\ In (CObj r) F /\ In (CList l) F /\ ~ In (CId i) Fc /\ ~ In (CObj r) Fc /\ ~ In (CList l) Fc
  /\ (forall h' y' Fc' G, frame h h' (Fc ++ G) -> rep h' c0 y' Fc' -> within h (Fc ++ G) Fc' -> disj F G ->
        exists F', uc h' i (SNode ns c (y' :: ts)) ls F' /\ within h (F ++ G) F').
Proof.
  intros W U. inversion U as [|i' r ns' c' l cs0 ts' F0 lids ls' F1 H1 H2 H3 H4 L D1 D2]; subst.
  inversion H4 as [|c0 cs t' ts' Fc Fr R0 Rs D3]; subst.
  apply disj_app in D1 as [D10 D11]. apply disj_app in D10 as [D1c D1r]. apply disj_appl in D2 as [D2c D2r].
  exists r, l, lids, c0, cs, Fc. repeat apply conj; try assumption.
  - intros x Hx. do 3 right. rewrite !in_app_iff. tauto.
  - right; now left.
  - do 2 right; now left.
  - intros Hx. apply (D1c (CId i)); [now left|exact Hx].
  - intros Hx. apply (D1c (CObj r)); [right; now left|exact Hx].
  - intros Hx. apply (D1c (CList l)); [do 2 right; now left|exact Hx].
  - intros h' y' Fc' G Fm R' Wi DG. exists (CId i :: CObj r :: CList l :: (Fc' ++ Fr) ++ F1).
    assert (Hd : disj [CId i; CObj r; CList l] Fc').
    { intros x Hx Hc. assert (Hd : In x [CId i; CObj r; CList l] -> In x (CId i :: CObj r :: CList l :: (Fc ++ Fr) ++ F1)).
      { intros [<-|[<-|[<-|[]]]]; [now left|right; now left|do 2 right; now left]. }
      destruct (Wi x Hc) as [Hf|Hf].
      - apply in_app_iff in Hf as [Hf|Hf]; [now apply (D1c x)|]. apply (DG x); [now apply Hd|exact Hf].
      - apply Hf. apply (uc_old h i _ _ _ W U). now apply Hd. }
    assert (NG : forall c1, In c1 (CId i :: CObj r :: CList l :: (Fc ++ Fr) ++ F1) -> ~ In c1 Fc -> ~ In c1 (Fc ++ G)).
    { intros c1 H5 H6 H7. apply in_app_iff in H7 as [H7|H7]; [easy|]. now apply (DG c1). }
    assert (DR : forall X, (forall x, In x X -> In x (CId i :: CObj r :: CList l :: (Fc ++ Fr) ++ F1)) -> disj Fc X -> disj Fc' X).
    { intros X HX DX x Hc Hx. destruct (Wi x Hc) as [Hf|Hf].
      - apply in_app_iff in Hf as [Hf|Hf]; [now apply (DX x)|]. apply (DG x); [now apply HX|exact Hf].
      - apply Hf. apply (uc_old h i _ _ _ W U). now apply HX. }
    split.
    + apply (uc_node h' i r ns c l (c0 :: cs) (y' :: ts) (Fc' ++ Fr) lids ls F1).
      * rewrite <- H1. apply (fr_same _ _ _ Fm (CId i)); [now apply (wf_tab h W i r)|]. apply NG; [now left|]. intros Hx. apply (D1c (CId i)); [now left|exact Hx].
      * rewrite <- H2. apply (fr_same _ _ _ Fm (CObj r)); [now apply (wf_obj h W r _ H2)|]. apply NG; [right; now left|]. intros Hx. apply (D1c (CObj r)); [right; now left|exact Hx].
      * rewrite <- H3. apply (fr_same _ _ _ Fm (CList l)); [now apply (wf_lst h W l _ H3)|]. apply NG; [do 2 right; now left|]. intros Hx. apply (D1c (CList l)); [do 2 right; now left|exact Hx].
      * constructor; [exact R'| |].
        -- apply (reps_frame h h' (Fc ++ G)); try assumption. apply disj_appl. split; [exact D3|]. intros x Hx Hg. apply (DG x); [|exact Hx]. do 3 right. rewrite !in_app_iff. tauto.
        -- apply DR; [|exact D3]. intros x Hx. do 3 right. rewrite !in_app_iff. tauto.
      * apply (layers_frame h h' (Fc ++ G)); try assumption. apply disj_appl. split; [exact D2c|]. intros x Hx Hg. apply (DG x); [|exact Hx]. do 3 right. rewrite !in_app_iff. tauto.
      * rewrite !disj_app. now repeat split.
      * rewrite disj_appl. split; [|exact D2r]. apply DR; [|exact D2c]. intros x Hx. do 3 right. rewrite !in_app_iff. tauto.
    + intros x [<-|[<-|[<-|Hx]]]; [now left; left|left; right; now left|left; do 2 right; now left|].
      rewrite !in_app_iff in Hx. destruct Hx as [[Hx|Hx]|Hx].
      * destruct (Wi x Hx) as [Hf|Hf]; [left|now right]. apply in_app_iff in Hf. cbn. rewrite !in_app_iff. tauto.
      * left. cbn. rewrite !in_app_iff. tauto.
      * left. cbn. rewrite !in_app_iff. tauto.
Qed.

Lemma rep_inv_node h i ns c ts F r : rep h i (SNode ns c ts) F -> table h i = Some r -> exists l cs F0,
  objs h r = Some (ONode i ns l [] (-1) c) /\ lists h l = Some cs /\ reps h cs ts F0 /\ disj [CId i; CObj r; CList l] F0
  /\ F = CId i :: CObj r :: CList l :: F0.
Proof. intros R T. inversion R; subst. assert (r0 = r) by congruence. subst. eauto 10. Qed.

(** changing the list of a node: [ids] stand for the trees [ts'] *)
Lemma write_kids_rep h i ns c ts F r l cs G F0 ids ts' F0' : wf h -> table h i = Some r -> objs h r = Some (ONode i ns l [] (-1) c) ->
  lists h l = Some cs -> F = CId i :: CObj r :: CList l :: F0 -> rep h i (SNode ns c ts) F ->
  reps h ids ts' F0' -> (forall x, In x F0' -> In x (F0 ++ G)) -> disj F G ->
  rep (wl h l ids) i (SNode ns c ts') (CId i :: CObj r :: CList l :: F0').
Proof.
  intros W T O L -> R Rs Sub D. destruct (rep_inv_node h i ns c ts _ r R T) as (l' & cs' & F1 & O' & L' & _ & D' & E).
  injection E as -> <-. assert (Dk : disj [CId i; CObj r; CList l'] F0').
  { intros x Hx Hf. apply Sub, in_app_iff in Hf as [Hf|Hf]; [now apply (D' x)|]. apply (D x); [|exact Hf].
    destruct Hx as [<-|[<-|[<-|[]]]]; [now left|right; now left|do 2 right; now left]. }
  apply (rep_node _ i r ns c l' ids); try assumption.
  - cbn. apply updN_same.
  - apply (reps_frame h _ [CList l']); [exact W|apply frame_wl; [exact W|now apply (wf_lst h W l' _ L)]|exact Rs|].
    intros x [<-|[]] Hx. apply (Dk (CList l')); [do 2 right; now left|exact Hx].
Qed.

Lemma place_ids h pos cs ts F j tj G : reps h cs ts F -> rep h j tj G -> disj F G -> exists F',
  reps h (match pos with RIGHT => cs ++ [j] | LEFT => j :: cs end) (place pos ts tj) F' /\ (forall x, In x F' <-> In x (F ++ G)).
Proof.
  intros R Rj D. destruct pos; cbn.
  - exists (G ++ F). split; [constructor; [exact Rj|exact R|now apply disj_sym]|]. intros x. rewrite !in_app_iff. tauto.
  - exists (F ++ G). split; [apply reps_app; [exact R|now apply reps_one|exact D]|]. easy.
Qed.

Lemma deref_terminal h i t F r : rep h i t F -> table h i = Some r -> exists o, objs h r = Some o /\ is_terminal o = terminal t /\ is_leaf o = (match t with SLeaf _ _ => true | _ => false end) /\ obj_id o = i.
Proof. intros R T. inversion R; subst; assert (r0 = r) by congruence; subst; eexists; (split; [eassumption|]); cbn; auto. Qed.

Lemma node_add_first_uc pos h i ls F r j tj G ns c y ts : wf h -> uc h i (SNode ns c (y :: ts)) ls F -> table h i = Some r -> rep h j tj G -> disj F G ->
  exists h' F', node_add_to_first_child r j pos h = (Ok tt, h') /\ uc h' i (SNode ns c (into pos y tj :: ts)) ls F' /\ frame h h' F
    /\ within h (F ++ G) F' /\ root_id h' = root_id h /\ table h' i = Some r.
Proof.
  intros W U T R D. destruct (uc_first h i ns c y ts ls F W U) as (r' & l & lids & c0 & cs & Fc & T' & O & L & Rc & Sub & IO & IL & NI & NO & NL & K).
  assert (r' = r) by congruence. subst r'. clear T'.
  destruct (rep_get _ _ _ _ Rc) as (rc & Tc). destruct (deref_terminal _ _ _ _ _ Rc Tc) as (oc & Oc & Et & El & Ei).
  assert (DcG : disj Fc G) by (intros x H1 H2; apply (D x); auto).
  assert (OG : forall x, In x G -> old h x) by now apply (rep_old h j tj).
  assert (OF : forall x, In x F -> old h x) by (intros x Hx; apply (uc_old h i (SNode ns c (y :: ts)) ls F W U x Hx)).
  unfold node_add_to_first_child. rewrite (run_ok _ _ _ _ _ (children_ids_ok _ _ _ _ _ _ _ _ _ O L)).
  rewrite (run_ok _ _ _ _ _ (get_child_ok _ _ _ _ _ _ _ _ _ 0 c0 rc O L eq_refl Tc)), (run_ok _ _ _ _ _ (deref_ok _ _ _ Oc)).
  destruct (terminal y) eqn:Ty.
  - (* the first child is a terminal: it is enclosed *)
    rewrite Et. destruct (enclose_rep h c0 y Fc rc W Rc Tc) as (h1 & N & F1 & c1 & E1 & R1 & U1 & Rt1 & TN & l1 & ON & LN).
    assert (W1 : wf h1) by apply U1.
    assert (O1 : objs h1 r = Some (ONode i ns l lids (-1) c)) by (rewrite <- O; apply (fr_same _ _ _ (proj1 U1) (CObj r)); [now apply OF|exact NO]).
    assert (L1 : lists h1 l = Some (c0 :: cs)) by (rewrite <- L; apply (fr_same _ _ _ (proj1 U1) (CList l)); [now apply OF|exact NL]).
    pose (h2 := wl h1 l (c0 :: cs)).
    assert (Fr2 : frame h1 h2 []) by now apply frame_wl_same.
    assert (R2 : rep h2 c0 (SNode None false [y]) F1) by (apply (rep_frame h1 h2 [] _ _ _ W1 Fr2 R1); apply disj_nill).
    assert (TN2 : table h2 c0 = Some N) by exact TN.
    destruct (rep_inv_node h2 c0 _ _ _ F1 N R2 TN2) as (l2 & cs2 & F10 & ON2 & LN2 & Rs2 & D2 & EF1).
    assert (W2 : wf h2) by apply Fr2.
    assert (D1G : disj F1 G) by (apply (within_disj h Fc F1 G (proj2 U1) OG DcG)).
    assert (RG2 : rep h2 j tj G).
    { apply (rep_frame h1 h2 [] _ _ _ W1 Fr2); [|apply disj_nill]. apply (rep_frame h h1 Fc _ _ _ W (proj1 U1) R DcG). }
    destruct (place_ids h2 pos cs2 [y] F10 j tj G Rs2 RG2) as (F10' & Rp & Sp).
    { intros x H1 H2. apply (D1G x); [|exact H2]. rewrite EF1. do 3 right. exact H1. }
    pose (ids := match pos with RIGHT => cs2 ++ [j] | LEFT => j :: cs2 end).
    pose (h3 := wl h2 l2 ids).
    assert (R3 : rep h3 c0 (SNode None false (place pos [y] tj)) (CId c0 :: CObj N :: CList l2 :: F10')).
    { apply (write_kids_rep h2 c0 None false [y] F1 N l2 cs2 G F10 ids _ F10'); try assumption. intros x Hx. now apply Sp. }
    assert (Fr3 : frame h2 h3 F1).
    { apply (frame_weaken h2 h3 [CList l2]); [apply frame_wl; [exact W2|now apply (wf_lst h2 W2 l2 _ LN2)]|]. intros x [<-|[]]. rewrite EF1. do 2 right; now left. }
    assert (Fr13 : frame h1 h3 F1) by (apply (frame_trans h1 h2); [apply (frame_weaken h1 h2 [] F1 Fr2); easy|exact Fr3]).
    destruct (K h3 (SNode None false (place pos [y] tj)) (CId c0 :: CObj N :: CList l2 :: F10') G) as (F' & U' & Wi'); try assumption.
    + apply (frame_weaken h h3 Fc); [apply (frame_upd h h1 h3 Fc F1 U1 Fr13)|]. intros x Hx. apply in_app_iff. now left.
    + intros x Hx. assert (Hx' : In x (F1 ++ G)).
      { rewrite EF1. destruct Hx as [<-|[<-|[<-|Hx]]]; [now left|right; now left|do 2 right; now left|]. do 3 right. now apply Sp. }
      apply in_app_iff in Hx' as [H|H]; [|left; apply in_app_iff; now right]. destruct (proj2 U1 x H); [left; apply in_app_iff; now left|now right].
    + exists h3, F'. repeat apply conj.
      * rewrite sbind_assoc, (run_ok _ _ _ _ _ (get_child_ok _ _ _ _ _ _ _ _ _ 0 c0 rc O L eq_refl Tc)).
        rewrite sbind_assoc, (run_ok _ _ _ _ _ E1). rewrite sbind_assoc, (run_ok _ _ _ _ _ (id_of_ok _ _ _ ON)). cbn [obj_id].
        assert (Es : set_child r 0 c0 h1 = (Ok tt, h2)).
        { unfold set_child. rewrite (run_ok _ _ _ _ _ (kids_ref_ok _ _ _ _ _ _ _ _ O1)), (run_ok _ _ _ _ _ (read_list_ok _ _ _ L1)). reflexivity. }
        rewrite (run_ok _ _ _ _ _ Es).
        assert (L2' : lists h2 l = Some (c0 :: cs)) by apply updN_same.
        rewrite (run_ok _ _ _ _ _ (get_child_ok h2 r i ns l lids (-1)%Z c (c0 :: cs) 0 c0 N O1 L2' eq_refl TN2)).
        rewrite (run_ok _ _ _ _ _ (kids_ref_ok _ _ _ _ _ _ _ _ ON2)), (run_ok _ _ _ _ _ (read_list_ok _ _ _ LN2)). reflexivity.
      * assert (Ey : into pos y tj = SNode None false (place pos [y] tj)).
        { destruct y as [?|? b ?]; [reflexivity|]. cbn in Ty. now subst. }
        now rewrite Ey.
      * apply (frame_weaken h h3 Fc); [apply (frame_upd h h1 h3 Fc F1 U1 Fr13)|exact Sub].
      * exact Wi'.
      * cbn. exact Rt1.
      * rewrite <- T. apply (fr_same _ _ _ (frame_upd h h1 h3 Fc F1 U1 Fr13) (CId i)); [now apply (wf_tab h W i r)|exact NI].
  - rewrite Et. destruct y as [?|ns0 b ks]; [discriminate|]. cbn in Ty. subst b.
    destruct (rep_inv_node h c0 _ _ _ Fc rc Rc Tc) as (l2 & cs2 & F10 & ON2 & LN2 & Rs2 & D2 & EF1).
    destruct (place_ids h pos cs2 ks F10 j tj G Rs2 R) as (F10' & Rp & Sp).
    { intros x H1 H2. apply (DcG x); [|exact H2]. rewrite EF1. do 3 right. exact H1. }
    pose (ids := match pos with RIGHT => cs2 ++ [j] | LEFT => j :: cs2 end).
    pose (h3 := wl h l2 ids).
    assert (R3 : rep h3 c0 (SNode ns0 false (place pos ks tj)) (CId c0 :: CObj rc :: CList l2 :: F10')).
    { apply (write_kids_rep h c0 ns0 false ks Fc rc l2 cs2 G F10 ids _ F10'); try assumption. intros x Hx. now apply Sp. }
    assert (Fr3 : frame h h3 Fc).
    { apply (frame_weaken h h3 [CList l2]); [apply frame_wl; [exact W|now apply (wf_lst h W l2 _ LN2)]|]. intros x [<-|[]]. rewrite EF1. do 2 right; now left. }
    destruct (K h3 (SNode ns0 false (place pos ks tj)) (CId c0 :: CObj rc :: CList l2 :: F10') G) as (F' & U' & Wi'); try assumption.
    + apply (frame_weaken h h3 Fc _ Fr3). intros x Hx. apply in_app_iff. now left.
    + intros x Hx. left. rewrite EF1. destruct Hx as [<-|[<-|[<-|Hx]]]; [now left|right; now left|do 2 right; now left|]. do 3 right. now apply Sp.
    + exists h3, F'. repeat apply conj; try assumption; try reflexivity.
      * unfold sbind at 1. cbn [sret].
        rewrite (run_ok _ _ _ _ _ (get_child_ok _ _ _ _ _ _ _ _ _ 0 c0 rc O L eq_refl Tc)).
        rewrite (run_ok _ _ _ _ _ (kids_ref_ok _ _ _ _ _ _ _ _ ON2)), (run_ok _ _ _ _ _ (read_list_ok _ _ _ LN2)). reflexivity.
      * apply (frame_weaken h h3 Fc); [exact Fr3|exact Sub].
Qed.

Lemma add_first_uc pos h i t ls F r j tj G : wf h -> uc h i t ls F -> full t -> table h i = Some r -> rep h j tj G -> disj F G ->
  exists h' F', add_to_first_child r j pos h = (Ok tt, h') /\ uc h' i (add_first pos t tj) ls F' /\ frame h h' F /\ within h (F ++ G) F' /\ root_id h' = root_id h.
Proof.
  intros W U Fu T R D. destruct t as [ns t|ns c ts].
  - inversion U; subst. assert (r0 = r) by congruence. subst r0. apply uc_rep in U.
    destruct (enclose_rep h i (SLeaf ns t) _ r W U T) as (h1 & N & F' & c & E & R1 & U1 & Rt & TN & _).
    assert (OG : forall x, In x G -> old h x) by now apply (rep_old h j tj).
    assert (D1 : disj F' G) by (apply (within_disj h _ F' G (proj2 U1)); assumption).
    destruct (node_add_first_uc pos h1 i [] F' N j tj G None false (SLeaf ns t) [] (fr_wf _ _ _ (proj1 U1)) (rep_uc _ _ _ _ R1) TN) as (h2 & F2 & E2 & U2 & Fr2 & In2 & Rt2 & _).
    + apply (rep_frame h h1 [CId i; CObj r]); try assumption. apply U1.
    + exact D1.
    + exists h2, F2. repeat apply conj.
      * unfold add_to_first_child. match goal with O : objs h r = Some _ |- _ => rewrite (run_ok _ _ _ _ _ (deref_ok _ _ _ O)) end.
        cbn [is_leaf]. rewrite (run_ok _ _ _ _ _ E). exact E2.
      * exact U2.
      * apply (frame_upd h h1 h2 _ F' U1 Fr2).
      * intros x Hx. destruct (In2 x Hx) as [H|H].
        -- apply in_app_iff in H as [H|H]; [|left; apply in_app_iff; now right].
           destruct (proj2 U1 x H) as [H'|H']; [left; apply in_app_iff; now left|now right].
        -- right. intros Ho. apply H. apply (frame_old h h1 _ x (proj1 U1) Ho).
      * congruence.
  - apply full_node in Fu as [Hne _]. destruct ts as [|y ts]; [easy|].
    destruct (node_add_first_uc pos h i ls F r j tj G ns c y ts W U T R D) as (h' & F' & E & U' & Fr & Wi & Rt & _).
    exists h', F'. inversion U; subst. assert (r0 = r) by congruence. subst r0. repeat apply conj; try assumption.
    unfold add_to_first_child. match goal with O : objs h r = Some _ |- _ => rewrite (run_ok _ _ _ _ _ (deref_ok _ _ _ O)) end. exact E.
Qed.

(** ** nest, then new_layer *)


Lemma layers_snoc h lids ls F lid r l rel rest tr trest G : layers_at h lids ls F ->
  table h lid = Some r -> objs h r = Some (ONode lid None l [] (-1) false) -> lists h l = Some (rel :: (-1)%Z :: rest) ->
  reps h (rel :: rest) (tr :: trest) G -> disj [CId lid; CObj r; CList l] G -> disj F (CId lid :: CObj r :: CList l :: G) ->
  layers_at h (lids ++ [lid]) (ls ++ [(tr, trest)]) (F ++ CId lid :: CObj r :: CList l :: G).
Proof.
  intros La T O L R D. induction La as [|lid' r' l' rel' rest' tr' trest' F' lids ls G' H1 H2 H3 H4 D' L' IH D2]; intros DF.
  - cbn [app]. rewrite <- (app_nil_r (CId lid :: CObj r :: CList l :: G)). econstructor; try eassumption; [constructor|apply disj_nil].
  - apply disj_appl in DF as [DF1 DF2]. cbn [app]. change (CId lid' :: CObj r' :: CList l' :: (F' ++ G') ++ CId lid :: CObj r :: CList l :: G)
      with (((CId lid' :: CObj r' :: CList l' :: F') ++ G') ++ CId lid :: CObj r :: CList l :: G).
    rewrite <- app_assoc. econstructor; try eassumption; [now apply IH|]. apply disj_app. now split.
Qed.

Lemma node_nest_uc h i ls F r j tj G ns c ts : wf h -> uc h i (SNode ns c ts) ls F -> table h i = Some r -> rep h j tj G -> full tj -> disj F G ->
  exists h' F', (node_nest r j ;;; run r <- tget i; new_layer r) h = (Ok tt, h') /\ uc h' i (SNode ns c ts) (ls ++ [layer_of tj]) F' /\ frame h h' F
    /\ within h (F ++ G) F' /\ root_id h' = root_id h.
Proof.
  intros W U T R Fu D. inversion U as [|i' r' ns' c' l cs ts' F0 lids ls' F1 H1 H2 H3 H4 L D1 D2]; subst.
  assert (r' = r) by congruence. subst r'. clear H1.
  destruct (rep_get _ _ _ _ R) as (rj & Tj).
  assert (P : exists rel rest G0, (forall B (k : Z * list Z -> SM B), (run e <- tget j; run eo <- deref e;
      run rr <- (if is_leaf eo then sret (j, []) else run cs <- children_ids e; match cs with [] => sraise IndexError | c :: rest => sret (c, rest) end); k rr) h
      = k (rel, rest) h) /\ reps h (rel :: rest) (fst (layer_of tj) :: snd (layer_of tj)) G0 /\ (forall x, In x G0 -> In x G)).
  { destruct tj as [nj tk|nj cj [|k ks]].
    - inversion R; subst. assert (r0 = rj) by congruence. subst r0. exists j, [], [CId j; CObj rj]. repeat apply conj; [|now apply reps_one|easy].
      intros B k. rewrite (run_ok _ _ _ _ _ (tget_ok _ _ _ Tj)).
      match goal with O : objs h rj = Some _ |- _ => rewrite (run_ok _ _ _ _ _ (deref_ok _ _ _ O)) end. reflexivity.
    - apply full_node in Fu as [X _]. easy.
    - destruct (rep_inv_node _ _ _ _ _ _ _ R Tj) as (lj & cj' & G0 & Oj & Lj & Rj & Dj & ->).
      pose proof (reps_length _ _ _ _ Rj) as Len. destruct cj' as [|rel rest]; [discriminate|].
      exists rel, rest, G0. repeat apply conj; [|exact Rj|].
      + intros B k0. rewrite (run_ok _ _ _ _ _ (tget_ok _ _ _ Tj)), (run_ok _ _ _ _ _ (deref_ok _ _ _ Oj)). cbn [is_leaf].
        rewrite sbind_assoc, (run_ok _ _ _ _ _ (children_ids_ok _ _ _ _ _ _ _ _ _ Oj Lj)). reflexivity.
      + intros x Hx. do 3 right. exact Hx. }
  destruct P as (rel & rest & G0 & E0 & R0 & S0).
  destruct (create_node_of_ok h (rel :: (-1)%Z :: rest) W) as (h1 & E1 & Fr1 & Rt1 & T1 & O1 & L1).
  assert (W1 : wf h1) by apply Fr1.
  pose proof (wf_tab h W i r T) as Hi. pose proof (wf_obj h W r _ H2) as Hr. pose proof (wf_lst h W l _ H3) as Hl. pose proof (wf_cur h W) as Hc.
  assert (Or1 : objs h1 r = Some (ONode i ns l lids (-1) c)) by (rewrite <- H2; apply (fr_same _ _ _ Fr1 (CObj r)); [exact Hr|easy]).
  assert (Ti1 : table h1 i = Some r) by (rewrite <- T; apply (fr_same _ _ _ Fr1 (CId i)); [exact Hi|easy]).
  assert (Ll1 : lists h1 l = Some cs) by (rewrite <- H3; apply (fr_same _ _ _ Fr1 (CList l)); [exact Hl|easy]).
  pose (h2 := wo h1 r (ONode i ns l lids (cur_id h) c)).
  pose (h3 := wo h2 r (ONode i ns l (lids ++ [cur_id h]) (-1) c)).
  assert (Fr3 : frame h1 h3 [CObj r]).
  { apply (frame_trans h1 h2); [apply frame_wo; [exact W1|]; pose proof (fr_obj _ _ _ Fr1); lia|]. apply frame_wo.
    - apply (frame_wo h1 r); [exact W1|]. pose proof (fr_obj _ _ _ Fr1); lia.
    - cbn. pose proof (fr_obj _ _ _ Fr1); lia. }
  assert (Fr : frame h h3 [CObj r]) by (apply (frame_trans h h1); [apply (frame_weaken h h1 [] _ Fr1); easy|exact Fr3]).
  set (A := CId (cur_id h) :: CObj (n_obj h) :: CList (n_list h) :: G0).
  assert (OldF : forall x, In x (CId i :: CObj r :: CList l :: F0 ++ F1) -> old h x) by (intros x Hx; apply (uc_old h i _ _ _ W U x Hx)).
  assert (OldG : forall x, In x G0 -> old h x) by (intros x Hx; now apply (rep_old h j tj G W R), S0).
  assert (DA : forall X, (forall x, In x X -> In x (CId i :: CObj r :: CList l :: F0 ++ F1)) -> disj X A).
  { intros X HX x Hx Ha. assert (Ho : old h x) by now apply OldF, HX. destruct Ha as [<-|[<-|[<-|Ha]]]; cbn in Ho; try lia.
    apply (D x); [now apply HX|now apply S0]. }
  assert (Dr : forall X, disj [CId i; CObj r; CList l] X -> disj [CObj r] X).
  { intros X HX x [<-|[]] Hx. apply (HX (CObj r)); [right; now left|exact Hx]. }
  pose proof D1 as D1'. apply disj_app in D1' as [D10 D11].
  exists h3, (CId i :: CObj r :: CList l :: F0 ++ (F1 ++ A)). repeat apply conj.
  - unfold node_nest. unfold sbind at 1. rewrite (E0 unit). fold (@sbind unit unit).
    match goal with |- match ?m h with _ => _ end = _ => change (sbind m (fun _ => run r <- tget i; new_layer r) h = (Ok tt, h3)) end.
    cbn [fst snd app]. rewrite sbind_assoc, (run_ok _ _ _ _ _ E1).
    rewrite sbind_assoc, (run_ok _ _ _ _ _ (id_of_ok _ _ _ O1)). cbn [obj_id].
    rewrite sbind_assoc, (run_ok _ _ _ _ _ (deref_ok _ _ _ Or1)).
    rewrite (run_ok (write_obj r (ONode i ns l lids (cur_id h) c)) _ h1 tt h2 eq_refl). rewrite (run_ok _ _ h2 r h2 (tget_ok h2 i r Ti1)).
    unfold new_layer. assert (Or2 : objs h2 r = Some (ONode i ns l lids (cur_id h) c)) by apply updN_same.
    rewrite (run_ok _ _ _ _ _ (deref_ok _ _ _ Or2)). destruct (Z.leb_spec 0 (cur_id h)); [reflexivity|lia].
  - apply (uc_node h3 i r ns c l cs ts F0 (lids ++ [cur_id h]) (ls ++ [layer_of tj]) (F1 ++ A)).
    + exact Ti1.
    + apply updN_same.
    + exact Ll1.
    + apply (reps_frame h h3 [CObj r]); try assumption. now apply Dr.
    + destruct (layer_of tj) as [tr trest]. unfold A. apply (layers_snoc h3 lids ls F1 (cur_id h) (n_obj h) (n_list h) rel rest tr trest G0).
      * apply (layers_frame h h3 [CObj r]); try assumption. now apply Dr.
      * exact T1.
      * cbn. rewrite !updN_other by lia. exact O1.
      * exact L1.
      * apply (reps_frame h h3 [CObj r]); try assumption. intros x [<-|[]] Hx. apply (D (CObj r)); [right; now left|now apply S0].
      * intros x Hx Hg. pose proof (OldG x Hg) as Ho. destruct Hx as [<-|[<-|[<-|[]]]]; cbn in Ho; lia.
      * apply DA. intros x Hx. do 3 right. apply in_app_iff. now right.
    + rewrite !disj_app. repeat split; [exact D10|exact D11|]. apply DA. intros x [<-|[<-|[<-|[]]]]; [now left|right; now left|do 2 right; now left].
    + rewrite disj_app. split; [exact D2|]. apply DA. intros x Hx. do 3 right. apply in_app_iff. now left.
  - apply (frame_weaken h h3 [CObj r]); [exact Fr|]. intros x [<-|[]]. right; now left.
  - intros x [<-|[<-|[<-|Hx]]]; [now left; left|left; right; now left|left; do 2 right; now left|].
    rewrite !in_app_iff in Hx. destruct Hx as [Hx|[Hx|Hx]]; [left; cbn; rewrite !in_app_iff; tauto|left; cbn; rewrite !in_app_iff; tauto|].
    destruct Hx as [<-|[<-|[<-|Hx]]]; [right; cbn; lia|right; cbn; lia|right; cbn; lia|]. left. apply S0 in Hx. cbn. rewrite !in_app_iff. tauto.
  - exact Rt1.
Qed.

Lemma nest_uc h i t ls F r j tj G : wf h -> uc h i t ls F -> table h i = Some r -> rep h j tj G -> full tj -> disj F G ->
  exists h' F', (nest r j ;;; run r <- tget i; new_layer r) h = (Ok tt, h') /\ uc h' i (wrap_leaf t) (ls ++ [layer_of tj]) F' /\ frame h h' F
    /\ within h (F ++ G) F' /\ root_id h' = root_id h.
Proof.
  intros W U T R Fu D. destruct t as [ns t|ns c ts].
  - inversion U; subst. assert (r0 = r) by congruence. subst r0. apply uc_rep in U.
    destruct (enclose_rep h i (SLeaf ns t) _ r W U T) as (h1 & N & F' & c & E & R1 & U1 & Rt & TN & _).
    assert (OG : forall x, In x G -> old h x) by now apply (rep_old h j tj).
    assert (D1 : disj F' G) by (apply (within_disj h _ F' G (proj2 U1)); assumption).
    destruct (node_nest_uc h1 i [] F' N j tj G None false [SLeaf ns t] (fr_wf _ _ _ (proj1 U1)) (rep_uc _ _ _ _ R1) TN) as (h2 & F2 & E2 & U2 & Fr2 & In2 & Rt2); try assumption.
    + apply (rep_frame h h1 [CId i; CObj r]); try assumption. apply U1.
    + exists h2, F2. repeat apply conj.
      * unfold nest. rewrite sbind_assoc. match goal with O : objs h r = Some _ |- _ => rewrite (run_ok _ _ _ _ _ (deref_ok _ _ _ O)) end.
        cbn [is_leaf]. rewrite sbind_assoc, (run_ok _ _ _ _ _ E). exact E2.
      * exact U2.
      * apply (frame_upd h h1 h2 _ F' U1 Fr2).
      * intros x Hx. destruct (In2 x Hx) as [H|H].
        -- apply in_app_iff in H as [H|H]; [|left; apply in_app_iff; now right].
           destruct (proj2 U1 x H) as [H'|H']; [left; apply in_app_iff; now left|now right].
        -- right. intros Ho. apply H. apply (frame_old h h1 _ x (proj1 U1) Ho).
      * congruence.
  - destruct (node_nest_uc h i ls F r j tj G ns c ts W U T R Fu D) as (h' & F' & E & U' & Fr & Wi & Rt).
    exists h', F'. inversion U; subst. assert (r0 = r) by congruence. subst r0. repeat apply conj; try assumption.
    unfold nest. rewrite sbind_assoc. match goal with O : objs h r = Some _ |- _ => rewrite (run_ok _ _ _ _ _ (deref_ok _ _ _ O)) end. exact E.
Qed.

(** ** apply_layers *)

(** several elements become one *)

Lemma reps_nonneg h is_ ts F : wf h -> reps h is_ ts F -> Forall (fun i => (0 <= i)%Z) is_.
Proof. intros W. induction 1; constructor; [now apply (rep_nonneg h i t F)|exact IHreps]. Qed.
Lemma nth_mid {A} (pre : list A) x post : nth_error (pre ++ x :: post) (List.length pre) = Some x.
Proof. induction pre; [reflexivity|exact IHpre]. Qed.

(** a finished tree has no place to fill *)
Lemma apply_layer_rep e : forall fuel h i t F r, wf h -> rep h i t F -> table h i = Some r -> depth t <= fuel -> apply_layer fuel e r h = (Ok false, h).
Proof.
  induction fuel as [|f IH]; intros h i t F r W R T Hd; [pose proof (depth_pos t); lia|].
  destruct t as [ns k|ns c ts].
  - inversion R; subst. assert (r0 = r) by congruence. subst r0. cbn [apply_layer].
    match goal with O : objs h r = Some _ |- _ => rewrite (run_ok _ _ _ _ _ (deref_ok _ _ _ O)) end. reflexivity.
  - destruct (rep_inv_node _ _ _ _ _ _ _ R T) as (l & cs & F0 & O & L & Rs & D & ->). cbn [apply_layer].
    rewrite (run_ok _ _ _ _ _ (deref_ok _ _ _ O)). cbn [is_node]. rewrite (run_ok _ _ _ _ _ (children_ids_ok _ _ _ _ _ _ _ _ _ O L)).
    assert (Hd' : list_max (List.map depth ts) <= f).
    { change (depth (SNode ns c ts)) with (S (list_max (List.map depth ts))) in Hd. lia. }
    assert (Loop : forall cs' pre ts' F', cs = pre ++ cs' -> reps h cs' ts' F' -> list_max (List.map depth ts') <= f ->
      (fix go (i0 : nat) (cs0 : list Z) {struct cs0} : SM bool :=
         match cs0 with
         | [] => sret false
         | c0 :: rest =>
             if (c0 <? 0)%Z
             then
              run l0 <- kids_ref e; run child <- create_node l0; run child_id <- id_of child; run ccs <- children_ids child;
              run child_id0 <- (if Nat.eqb (List.length ccs) 1 then nth_id ccs 0 else sret child_id); set_child r i0 child_id0;;; sret true
             else run r0 <- get_child r i0; run b <- apply_layer f e r0; if b then sret true else go (S i0) rest
         end) (List.length pre) cs' h = (Ok false, h)).
    { induction cs' as [|x cs' IHc]; intros pre ts' F' Ec Rc Hm; [reflexivity|].
      inversion Rc as [|x' is_ t' ts'' Fx Fr Rx Rr Dx]; subst. pose proof (rep_nonneg _ _ _ _ W Rx) as Hx.
      destruct (Z.ltb_spec x 0); [lia|]. destruct (rep_get _ _ _ _ Rx) as (rx & Tx).
      rewrite (run_ok _ _ _ _ _ (get_child_ok _ _ _ _ _ _ _ _ _ (List.length pre) x rx O L (nth_mid pre x cs') Tx)).
      cbn [List.map] in Hm. apply list_max_cons in Hm as [Hm1 Hm2].
      rewrite (run_ok _ _ _ _ _ (IH h x t' Fx rx W Rx Tx Hm1)).
      assert (El : S (List.length pre) = List.length (pre ++ [x])) by (rewrite app_length; cbn; lia). rewrite El.
      apply (IHc (pre ++ [x]) ts'' Fr); [now rewrite <- app_assoc|exact Rr|exact Hm2]. }
    apply (Loop cs [] ts F0); [reflexivity|exact Rs|exact Hd'].
Qed.

(** filling one layer *)
Lemma apply_layer_ok h prev pi pn lp pls py pc P TS F lid r l rel rest tr trest G : wf h ->
  objs h prev = Some (ONode pi pn lp pls py pc) -> lists h lp = Some P -> reps h P TS F ->
  table h lid = Some r -> objs h r = Some (ONode lid None l [] (-1) false) -> lists h l = Some (rel :: (-1)%Z :: rest) ->
  reps h (rel :: rest) (tr :: trest) G -> disj (CList lp :: F) (CId lid :: CObj r :: CList l :: G) -> ~ In (CList lp) F -> disj [CId lid; CObj r; CList l] G ->
  exists h' x G', apply_layer (S (n_obj h)) prev r h = (Ok true, h') /\ frame h h' [CList l] /\ root_id h' = root_id h
    /\ lists h' l = Some (rel :: x :: rest) /\ reps h' (rel :: x :: rest) (tr :: one TS :: trest) G'
    /\ within h (CList lp :: F ++ G) G' /\ ~ In (CList l) G'.
Proof.
  intros W Op Lp Rp Tl Ol Ll Rl D NL Dl.
  inversion Rl as [|rel' rest' tr' trest' Gr Gs Rrel Rrest Drr]; subst.
  destruct (rep_get _ _ _ _ Rrel) as (rr & Tr'). pose proof (rep_nonneg _ _ _ _ W Rrel) as Hrel.
  assert (Hlp : lp < n_list h) by now apply (wf_lst h W lp P). assert (Hll : l < n_list h) by now apply (wf_lst h W l _ Ll).
  assert (lp <> l). { intros ->. apply (D (CList l)); [now left|do 2 right; now left]. }
  destruct (create_node_ok h lp W Hlp) as (h1 & E1 & Fr1 & Rt1 & T1 & O1 & L1 & M1).
  assert (W1 : wf h1) by apply Fr1.
  pose (x := match P with [y] => y | _ => cur_id h end).
  pose (h2 := wl h1 l (rel :: x :: rest)).
  assert (Fr2 : frame h1 h2 [CList l]) by (apply frame_wl; [exact W1|lia]).
  assert (Fr : frame h h2 [CList l]) by (apply (frame_trans h h1); [apply (frame_weaken h h1 [] _ Fr1); easy|exact Fr2]).
  assert (Or1 : objs h1 r = Some (ONode lid None l [] (-1) false)) by (rewrite <- Ol; apply (fr_same _ _ _ Fr1 (CObj r)); [now apply (wf_obj h W r _ Ol)|easy]).
  assert (Ll1 : lists h1 l = Some (rel :: (-1)%Z :: rest)) by now rewrite L1.
  assert (NlF : ~ In (CList l) F) by (intros H1; apply (D (CList l)); [now right|do 2 right; now left]).
  assert (NlG : ~ In (CList l) (Gr ++ Gs)) by (intros H1; apply (Dl (CList l)); [do 2 right; now left|exact H1]).
  assert (Rp2 : reps h2 P TS F) by (apply (reps_frame h h2 [CList l] P TS F W Fr Rp); intros y [<-|[]] Hy; easy).
  assert (Rr2 : reps h2 rest trest Gs).
  { apply (reps_frame h h2 [CList l] _ _ _ W Fr Rrest); intros y [<-|[]] Hy. apply NlG, in_app_iff. now right. }
  assert (Rrel2 : rep h2 rel tr Gr).
  { apply (rep_frame h h2 [CList l] _ _ _ W Fr Rrel); intros y [<-|[]] Hy. apply NlG, in_app_iff. now left. }
  assert (OldF : forall c, In c F -> old h c) by now apply (reps_old h P TS).
  assert (OldG : forall c, In c (Gr ++ Gs) -> old h c) by now apply (reps_old h (rel :: rest) (tr :: trest)).
  assert (DFG : disj F (Gr ++ Gs)) by (intros y H1 H2; apply (D y); [now right|do 3 right; exact H2]).
  assert (NlpG : ~ In (CList lp) (Gr ++ Gs)) by (intros H1; apply (D (CList lp)); [now left|do 3 right; exact H1]).
  assert (Mid : exists Fm, rep h2 x (one TS) Fm /\ within h (CList lp :: F) Fm /\ ~ In (CList l) Fm).
  { assert (Big : P <> [] -> x = cur_id h -> rep h2 x (SNode None false TS) (CId (cur_id h) :: CObj (n_obj h) :: CList lp :: F)
                  /\ within h (CList lp :: F) (CId (cur_id h) :: CObj (n_obj h) :: CList lp :: F) /\ ~ In (CList l) (CId (cur_id h) :: CObj (n_obj h) :: CList lp :: F)).
    { intros _ ->. repeat apply conj.
      - apply (rep_node h2 (cur_id h) (n_obj h) None false lp P TS F).
        + exact T1.
        + exact O1.
        + cbn. rewrite updN_other by assumption. now rewrite L1.
        + exact Rp2.
        + intros y [<-|[<-|[<-|[]]]] Hy; [apply OldF in Hy; cbn in Hy; lia|apply OldF in Hy; cbn in Hy; lia|easy].
      - intros y [<-|[<-|Hy]]; [right; cbn; lia|right; cbn; lia|now left].
      - intros [X|[X|[X|X]]]; try discriminate; [injection X as X; congruence|easy]. }
    destruct TS as [|y [|z TS]].
    - assert (P = []) by (inversion Rp; now subst). subst P. exists (CId (cur_id h) :: CObj (n_obj h) :: CList lp :: F).
      inversion Rp; subst. cbn [one]. repeat apply conj.
      + apply (rep_node h2 (cur_id h) (n_obj h) None false lp [] [] []).
        * exact T1.
        * exact O1.
        * cbn. rewrite updN_other by assumption. now rewrite L1.
        * constructor.
        * apply disj_nil.
      + intros y [<-|[<-|Hy]]; [right; cbn; lia|right; cbn; lia|now left].
      + intros [X|[X|[X|X]]]; try discriminate; [injection X as X; congruence|easy].
    - pose proof (reps_length _ _ _ _ Rp) as Len. destruct P as [|p [|q P]]; try discriminate. exists F. cbn [one].
      inversion Rp2 as [|p' ps' y' ys' Fy Fz Ry Rz Dy]; subst. inversion Rz; subst. rewrite app_nil_r in *. repeat apply conj; [exact Ry| |exact NlF].
      intros c Hc. left. now right.
    - pose proof (reps_length _ _ _ _ Rp) as Len. destruct P as [|p [|q P]]; try discriminate.
      exists (CId (cur_id h) :: CObj (n_obj h) :: CList lp :: F). cbn [one]. apply Big; [discriminate|reflexivity]. }
  destruct Mid as (Fm & Rm & Wm & Nm).
  assert (DmG : disj Fm (Gr ++ Gs)).
  { intros y H1 H2. destruct (Wm y H1) as [[<-|H3]|H3]; [easy|now apply (DFG y)|now apply H3, OldG]. }
  exists h2, x, (Gr ++ Fm ++ Gs). repeat apply conj.
  - cbn [apply_layer]. rewrite (run_ok _ _ _ _ _ (deref_ok _ _ _ Ol)). cbn [is_node].
    rewrite (run_ok _ _ _ _ _ (children_ids_ok _ _ _ _ _ _ _ _ _ Ol Ll)).
    destruct (Z.ltb_spec rel 0); [lia|].
    rewrite (run_ok _ _ _ _ _ (get_child_ok _ _ _ _ _ _ _ _ _ 0 rel rr Ol Ll eq_refl Tr')).
    rewrite (run_ok _ _ _ _ _ (apply_layer_rep prev (n_obj h) h rel tr Gr rr W Rrel Tr' (rep_depth h rel tr Gr W Rrel))).
    change ((-1 <? 0)%Z) with true. cbv iota. rewrite (run_ok _ _ _ _ _ (kids_ref_ok _ _ _ _ _ _ _ _ Op)), (run_ok _ _ _ _ _ E1).
    rewrite (run_ok _ _ _ _ _ (id_of_ok _ _ _ O1)). cbn [obj_id].
    assert (Lp1 : lists h1 lp = Some P) by now rewrite L1.
    rewrite (run_ok _ _ _ _ _ (children_ids_ok _ _ _ _ _ _ _ _ _ O1 Lp1)).
    assert (Ex : (if Nat.eqb (List.length P) 1 then nth_id P 0 else sret (cur_id h)) h1 = (Ok x, h1)).
    { unfold x. destruct P as [|p [|q P]]; reflexivity. }
    rewrite (run_ok _ _ _ _ _ Ex).
    assert (Es : set_child r 1 x h1 = (Ok tt, h2)).
    { unfold set_child. rewrite (run_ok _ _ _ _ _ (kids_ref_ok _ _ _ _ _ _ _ _ Or1)), (run_ok _ _ _ _ _ (read_list_ok _ _ _ Ll1)). reflexivity. }
    rewrite (run_ok _ _ _ _ _ Es). reflexivity.
  - exact Fr.
  - exact Rt1.
  - cbn. apply updN_same.
  - apply (reps_cons h2 rel (x :: rest) tr (one TS :: trest) Gr (Fm ++ Gs)); [exact Rrel2| |].
    + apply reps_cons; [exact Rm|exact Rr2|]. apply disj_app in DmG. apply DmG.
    + apply disj_app. split; [|exact Drr]. apply disj_sym. apply disj_app in DmG. apply DmG.
  - intros y Hy. rewrite !in_app_iff in Hy. destruct Hy as [Hy|[Hy|Hy]].
    + left. cbn. rewrite !in_app_iff. tauto.
    + destruct (Wm y Hy) as [[H1|H1]|H1]; [left; now left|left; cbn; rewrite !in_app_iff; tauto|now right].
    + left. cbn. rewrite !in_app_iff. tauto.
  - rewrite !in_app_iff. intros [H1|[H1|H1]]; [apply NlG, in_app_iff; now left|easy|apply NlG, in_app_iff; now right].
Qed.

Definition layers_loop : nat -> list Z -> SM nat :=
  fix go (prev : nat) (ids : list Z) {struct ids} : SM nat :=
    match ids with
    | [] => sret prev
    | id :: rest => run layer <- tget id; run fuel <- budget; apply_layer fuel prev layer;;; go layer rest
    end.

Lemma layers_loop_ok : forall ls ids h prev pi pn lp pls py pc P TS F G, wf h ->
  objs h prev = Some (ONode pi pn lp pls py pc) -> lists h lp = Some P -> reps h P TS F -> ~ In (CList lp) F ->
  layers_at h ids ls G -> disj (CList lp :: F) G ->
  exists h' last li ln lp' lls ly lc P' F', layers_loop prev ids h = (Ok last, h') /\ frame h h' G /\ root_id h' = root_id h
    /\ objs h' last = Some (ONode li ln lp' lls ly lc) /\ lists h' lp' = Some P' /\ reps h' P' (fold_left under_layer ls TS) F' /\ ~ In (CList lp') F'
    /\ within h (CList lp :: F ++ G) (CList lp' :: F').
Proof.
  induction ls as [|[tr trest] ls IH]; intros ids h prev pi pn lp pls py pc P TS F G W Op Lp Rp NL La D.
  - inversion La; subst. exists h, prev, pi, pn, lp, pls, py, pc, P, F. cbn. repeat apply conj; try assumption; try reflexivity.
    + now apply frame_refl.
    + rewrite app_nil_r. intros c Hc. now left.
  - inversion La as [|lid r l rel rest tr' trest' G0 lids ls' G1 T O L R Dk La' D2]; subst.
    pose proof (disj_app (CList lp :: F) (CId lid :: CObj r :: CList l :: G0) G1) as [DD _].
    specialize (DD D). destruct DD as [Da Db].
    destruct (apply_layer_ok h prev pi pn lp pls py pc P TS F lid r l rel rest tr trest G0 W Op Lp Rp T O L R Da NL Dk)
      as (h1 & x & G' & E1 & Fr1 & Rt1 & L1 & R1 & W1 & N1).
    assert (Wf1 : wf h1) by apply Fr1.
    assert (O1 : objs h1 r = Some (ONode lid None l [] (-1) false)).
    { rewrite <- O. apply (fr_same _ _ _ Fr1 (CObj r)); [now apply (wf_obj h W r _ O)|]. intros [X|[]]. discriminate. }
    assert (OldG1 : forall c, In c G1 -> old h c) by now apply (layers_old h lids ls).
    destruct (IH lids h1 r lid None l [] (-1)%Z false (rel :: x :: rest) (tr :: one TS :: trest) G' G1) as (h2 & last & li & ln & lp' & lls & ly & lc & P' & F' & E2 & Fr2 & Rt2 & O2 & L2 & R2 & N2 & W2); try assumption.
    + apply (layers_frame h h1 [CList l]); try assumption. intros c [<-|[]] Hc. apply (D2 (CList l)); [do 2 right; now left|exact Hc].
    + intros c [<-|Hc] Hg; [apply (D2 (CList l)); [do 2 right; now left|exact Hg]|].
      destruct (W1 c Hc) as [[<-|H]|H].
      * apply (Db (CList lp)); [now left|exact Hg].
      * apply in_app_iff in H as [H|H]; [apply (Db c); [now right|exact Hg]|]. apply (D2 c); [do 3 right; exact H|exact Hg].
      * now apply H, OldG1.
    + exists h2, last, li, ln, lp', lls, ly, lc, P', F'. repeat apply conj; try assumption.
      * cbn [layers_loop]. rewrite (run_ok _ _ _ _ _ (tget_ok _ _ _ T)). rewrite (run_ok budget _ h (S (n_obj h)) h eq_refl), (run_ok _ _ _ _ _ E1). exact E2.
      * apply (frame_trans h h1).
        -- apply (frame_weaken h h1 _ _ Fr1). intros c [<-|[]]. do 2 right; now left.
        -- apply (frame_weaken h1 h2 _ _ Fr2). intros c Hc. do 3 right. apply in_app_iff. now right.
      * congruence.
      * intros c Hc. destruct (W2 c Hc) as [[H|H]|H].
        -- subst c. left. right. apply in_app_iff. right. do 2 right; now left.
        -- apply in_app_iff in H as [H|H].
           ++ destruct (W1 c H) as [[H'|H']|H']; [left; now left|left; right|now right].
              apply in_app_iff in H' as [H'|H']; apply in_app_iff; [now left|]. right. do 3 right. apply in_app_iff. now left.
           ++ left. right. apply in_app_iff. right. do 3 right. apply in_app_iff. now right.
        -- right. intros Ho. apply H. now apply (frame_old h h1 _ c Fr1).
Qed.

Lemma layers_rev h lids ls F : layers_at h lids ls F -> exists F', layers_at h (rev lids) (rev ls) F' /\ (forall x, In x F' <-> In x F).
Proof.
  induction 1 as [|lid r l rel rest tr trest F lids ls G H1 H2 H3 H4 D L IH D2].
  - exists []. split; [constructor|easy].
  - destruct IH as (F' & L' & S'). exists (F' ++ CId lid :: CObj r :: CList l :: F). split.
    + cbn [rev]. apply (layers_snoc h (rev lids) (rev ls) F' lid r l rel rest tr trest F); try assumption.
      intros x Hx Hy. apply (D2 x); [exact Hy|now apply S'].
    + intros x. rewrite in_app_iff. cbn. rewrite !in_app_iff. rewrite S'. tauto.
Qed.

Lemma apply_layers_uc h i t ls F r : wf h -> uc h i t ls F -> table h i = Some r -> exists h' F',
  apply_layers r h = (Ok tt, h') /\ rep h' i (applied t ls) F' /\ upd h h' F F' /\ root_id h' = root_id h.
Proof.
  intros W U T. destruct U as [i r' ns t H1 H2|i r' ns c l cs ts F0 lids ls F1 H1 H2 H3 H4 L D1 D2]; assert (r' = r) by congruence; subst r'.
  - exists h, [CId i; CObj r]. repeat apply conj.
    + unfold apply_layers. rewrite (run_ok _ _ _ _ _ (deref_ok _ _ _ H2)). reflexivity.
    + now constructor.
    + now apply frame_refl.
    + intros x Hx. now left.
    + reflexivity.
  - apply disj_app in D1 as [D10 D11].
    pose (h1 := wo h r (ONode i ns l (rev lids) (-1) c)).
    pose proof (wf_obj h W r _ H2) as Hr. pose proof (wf_tab h W i r H1) as Hi. pose proof (wf_lst h W l _ H3) as Hl.
    assert (Fr1 : frame h h1 [CObj r]) by now apply frame_wo. assert (W1 : wf h1) by apply Fr1.
    destruct (layers_rev h lids ls F1 L) as (F1' & L' & S').
    assert (ND10 : ~ In (CObj r) F0) by (intros X; apply (D10 (CObj r)); [right; now left|exact X]).
    assert (ND11 : ~ In (CObj r) F1) by (intros X; apply (D11 (CObj r)); [right; now left|exact X]).
    assert (OldF : forall x, In x (F0 ++ F1) -> old h x).
    { intros x Hx. apply in_app_iff in Hx as [Hx|Hx]; [now apply (reps_old h cs ts F0)|now apply (layers_old h lids ls F1)]. }
    destruct (layers_loop_ok (rev ls) (rev lids) h1 r i ns l (rev lids) (-1)%Z c cs ts F0 F1' W1) as (h2 & last & li & ln & lp' & lls & ly & lc & P' & F' & E2 & Fr2 & Rt2 & O2 & L2 & R2 & N2 & Wi2).
    + apply updN_same.
    + exact H3.
    + apply (reps_frame h h1 [CObj r]); try assumption. intros x [<-|[]] Hx. easy.
    + intros X. apply (D10 (CList l)); [do 2 right; now left|exact X].
    + apply (layers_frame h h1 [CObj r]); try assumption. intros x [<-|[]] Hx. now apply ND11, S'.
    + intros x [<-|Hx] Hf; [apply S' in Hf; apply (D11 (CList l)); [do 2 right; now left|exact Hf]|]. apply S' in Hf. now apply (D2 x).
    + assert (Old1 : forall x, old h1 x <-> old h x) by (intros [?|?|?]; reflexivity).
      assert (NrF1 : ~ In (CObj r) F1') by (intros X; now apply ND11, S').
      assert (Or2 : objs h2 r = Some (ONode i ns l (rev lids) (-1) c)).
      { transitivity (objs h1 r); [|apply updN_same]. apply (fr_same _ _ _ Fr2 (CObj r)); [exact Hr|exact NrF1]. }
      pose (h3 := wo h2 r (ONode i ns lp' [] (-1) c)).
      assert (Fr3 : frame h2 h3 [CObj r]) by (apply frame_wo; [apply Fr2|]; pose proof (fr_obj _ _ _ Fr2); change (n_obj h1) with (n_obj h) in *; lia).
      assert (In2 : forall x, In x (CList lp' :: F') -> In x (CList l :: F0 ++ F1) \/ ~ old h x).
      { intros x Hx. destruct (Wi2 x Hx) as [[H|H]|H]; [left; now left| |right; intros X; now apply H, Old1].
        apply in_app_iff in H as [H|H]; left; right; apply in_app_iff; [now left|right; now apply S']. }
      assert (Nr' : ~ In (CObj r) F').
      { intros X. destruct (In2 (CObj r)) as [[H|H]|H]; [now right|discriminate| |now apply H]. apply in_app_iff in H as [H|H]; easy. }
      assert (Ni' : ~ In (CId i) F').
      { intros X. destruct (In2 (CId i)) as [[H|H]|H]; [now right|discriminate| |now apply H].
        apply in_app_iff in H as [H|H]; [apply (D10 (CId i))|apply (D11 (CId i))]; try (now left); exact H. }
      exists h3, (CId i :: CObj r :: CList lp' :: F'). repeat apply conj.
      * unfold apply_layers. rewrite (run_ok _ _ _ _ _ (deref_ok _ _ _ H2)).
        rewrite (run_ok (write_obj r (ONode i ns l (rev lids) (-1) c)) _ h tt h1 eq_refl).
        change (sbind (layers_loop r (rev lids)) (fun last => run k' <- kids_ref last; run o' <- deref r;
          match o' with OLeaf _ _ _ => sraise AttributeError | ONode i0 n _ _ l0 c0 => write_obj r (ONode i0 n k' [] l0 c0) end) h1 = (Ok tt, h3)).
        rewrite (run_ok _ _ _ _ _ E2), (run_ok _ _ _ _ _ (kids_ref_ok _ _ _ _ _ _ _ _ O2)), (run_ok _ _ _ _ _ (deref_ok _ _ _ Or2)). reflexivity.
      * apply (rep_node h3 i r ns c lp' P').
        -- cbn. transitivity (table h1 i); [|exact H1]. apply (fr_same _ _ _ Fr2 (CId i)); [exact Hi|].
           intros X. apply S' in X. apply (D11 (CId i)); [now left|exact X].
        -- apply updN_same.
        -- exact L2.
        -- apply (reps_frame h2 h3 [CObj r]); [apply Fr2|exact Fr3|exact R2|]. intros x [<-|[]] Hx. easy.
        -- intros x [<-|[<-|[<-|[]]]] Hx; easy.
      * apply (frame_trans h h1).
        -- apply (frame_weaken h h1 _ _ Fr1). intros x [<-|[]]. right; now left.
        -- apply (frame_trans h1 h2).
           ++ apply (frame_weaken h1 h2 _ _ Fr2). intros x Hx. do 3 right. apply in_app_iff. right. now apply S'.
           ++ apply (frame_weaken h2 h3 _ _ Fr3). intros x [<-|[]]. right; now left.
      * intros x [<-|[<-|Hx]]; [left; now left|left; right; now left|]. destruct (In2 x Hx) as [H|H]; [left; do 2 right; exact H|now right].
      * cbn. exact Rt2.
Qed.
