(** * P_delta.v -- the delta stage: trees that share objects, and what stays the same *)

From Verif Require Import Py P_py M_symbol M_token M_tree M_stages S_tree S_delta P_tree P_treeops P_alpha P_beta P_gamma C_alpha P_stages P_dag.
From Coq Require Import String Permutation.
Open Scope list_scope.

Lemma among_in x l : among x l = true <-> In x (List.map lit l).
Proof.
  unfold among. rewrite existsb_exists. split.
  - intros (s & Hs & E). apply str_eqb_eq in E. subst x. now apply in_map.
  - intros H. apply in_map_iff in H as (s & E & Hs). exists s. split; [exact Hs|]. now apply str_eqb_eq.
Qed.
Lemma rel_all_iff t : rel_all t = true <-> Forall relation_word (leaves t).
Proof.
  unfold rel_all. rewrite forallb_forall, Forall_forall. split; intros H k Hk; apply H in Hk; [exact (proj1 (among_in _ _) Hk)|exact (proj2 (among_in _ ["VERB"; "ADV"; "ADP"; "PART"]%string) Hk)].
Qed.

(** ** What an element is, seen through the table *)

Inductive elem := ELeaf (ns : option str) (k : token) | ENode (ns : option str) (c : bool) (cs : list Z).
Definition shape (h : tree) (i : Z) : option elem :=
  match table h i with
  | Some r =>
      match objs h r with
      | Some (OLeaf j ns k) => if Z.eqb j i then Some (ELeaf ns k) else None
      | Some (ONode j ns l _ _ c) => if Z.eqb j i then match lists h l with Some cs => Some (ENode ns c cs) | None => None end else None
      | None => None
      end
  | None => None
  end.
Lemma shape_leaf h i ns k : shape h i = Some (ELeaf ns k) <-> exists r, table h i = Some r /\ objs h r = Some (OLeaf i ns k).
Proof.
  unfold shape. split.
  - destruct (table h i) as [r|]; [|discriminate]. destruct (objs h r) as [[j n t|j n l ls y c]|] eqn:O; [| |discriminate].
    + destruct (Z.eqb_spec j i); [|discriminate]. intros E. injection E as -> ->. subst. eauto.
    + destruct (Z.eqb j i); [|discriminate]. destruct (lists h l); discriminate.
  - intros (r & -> & ->). now rewrite Z.eqb_refl.
Qed.
Lemma shape_node h i ns c cs : shape h i = Some (ENode ns c cs) <-> exists r l ls y, table h i = Some r /\ objs h r = Some (ONode i ns l ls y c) /\ lists h l = Some cs.
Proof.
  unfold shape. split.
  - destruct (table h i) as [r|]; [|discriminate]. destruct (objs h r) as [[j n t|j n l ls y b]|] eqn:O; [| |discriminate].
    + destruct (Z.eqb j i); discriminate.
    + destruct (Z.eqb_spec j i); [|discriminate]. destruct (lists h l) eqn:L; [|discriminate]. intros E. injection E as -> -> ->. subst. eauto 10.
  - intros (r & l & ls & y & -> & -> & ->). now rewrite Z.eqb_refl.
Qed.
Lemma unf_shape h i t : unfolds h i t <->
  match t with SLeaf ns k => shape h i = Some (ELeaf ns k) | SNode ns c ts => exists cs, shape h i = Some (ENode ns c cs) /\ Forall2 (unfolds h) cs ts end.
Proof.
  split.
  - intros U. inversion U; subst; [apply shape_leaf; eauto|]. exists cs. split; [apply shape_node; eauto 10|assumption].
  - destruct t as [ns k|ns c ts].
    + intros H. apply shape_leaf in H as (r & T & O). econstructor; eassumption.
    + intros (cs & H & Us). apply shape_node in H as (r & l & ls & y & T & O & L). econstructor; eassumption.
Qed.
(** the same shapes along the tree: the same tree *)
Lemma unf_same h h' : forall t i, unfolds h i t -> (forall j, shape h j <> None -> shape h' j = shape h j) -> unfolds h' i t.
Proof.
  induction t as [ns k|ns c ts IH] using stree_ind'; intros i U K; apply unf_shape in U; apply unf_shape.
  - rewrite K; congruence.
  - destruct U as (cs & E & Us). exists cs. split; [rewrite K; congruence|]. clear E. induction Us as [|j t cs ts U _ IHs]; [constructor|].
    inversion IH; subst. constructor; [auto|now apply IHs].
Qed.
Definition kid (h : tree) (i j : Z) : Prop := exists ns c cs, shape h i = Some (ENode ns c cs) /\ In j cs.

Lemma wf_shape h i e : wf h -> shape h i = Some e -> (0 <= i < cur_id h)%Z.
Proof. intros W E. unfold shape in E. destruct (table h i) as [r|] eqn:T; [|discriminate]. now apply (wf_tab h W i r). Qed.
Lemma frame_shape h h' i e : wf h -> frame h h' [] -> shape h i = Some e -> shape h' i = Some e.
Proof.
  intros W Fr E. destruct e as [ns k|ns c cs].
  - apply shape_leaf in E as (r & T & O). apply shape_leaf. exists r. split.
    + rewrite <- T. apply (fr_same _ _ _ Fr (CId i)); [now apply (wf_tab h W i r)|intros []].
    + rewrite <- O. apply (fr_same _ _ _ Fr (CObj r)); [now apply (wf_obj h W r _ O)|intros []].
  - apply shape_node in E as (r & l & ls & y & T & O & L). apply shape_node. exists r, l, ls, y. repeat apply conj.
    + rewrite <- T. apply (fr_same _ _ _ Fr (CId i)); [now apply (wf_tab h W i r)|intros []].
    + rewrite <- O. apply (fr_same _ _ _ Fr (CObj r)); [now apply (wf_obj h W r _ O)|intros []].
    + rewrite <- L. apply (fr_same _ _ _ Fr (CList l)); [now apply (wf_lst h W l _ L)|intros []].
Qed.
Lemma frame_unf h h' i t : wf h -> frame h h' [] -> unfolds h i t -> unfolds h' i t.
Proof. intros W Fr U. apply (unf_same h h' t i U). intros j Hj. destruct (shape h j) as [e|] eqn:E; [|easy]. now apply (frame_shape h h'). Qed.
Lemma unf_in_table h i t : unfolds h i t -> exists r, table h i = Some r.
Proof. intros U. inversion U; subst; eauto. Qed.
Lemma kid_unf h i j t : unfolds h i t -> kid h i j -> exists ns c ts u, t = SNode ns c ts /\ In u ts /\ unfolds h j u.
Proof.
  intros U (ns & c & cs & E & Hj). apply unf_shape in U. destruct t as [n k|n b ts]; [congruence|]. destruct U as (cs' & E' & Us). assert (cs' = cs) by congruence. subst cs'.
  destruct (Forall2_in_l _ _ _ _ Us Hj) as (u & Hu & Uu). exists n, b, ts, u. now repeat apply conj.
Qed.

Definition same (t t' : stree) : Prop := labelled t' = labelled t /\ full t' /\ leafb t' = leafb t.
Lemma same_refl t : full t -> same t t.
Proof. now repeat apply conj. Qed.
Lemma same_trans t u v : same t u -> same u v -> same t v.
Proof. intros (A & B & C) (A' & B' & C'). repeat apply conj; congruence. Qed.

Section delta.

(** The heap delta starts from: its trees are good, and so is everything made since. *)
Variable h0 : tree.
Definition good (h : tree) (i : Z) : Prop := (exists t, unfolds h0 i t /\ full t) \/ (cur_id h0 <= i < cur_id h)%Z.
(** [Arg]: elements that must not be touched; an element is clear if no node of [Arg] is below it *)
Variable Arg : Z -> Prop.
Hypothesis HA : forall i, Arg i -> exists t, unfolds h0 i t /\ full t.
Inductive clear (h : tree) : Z -> Prop :=
| clear_leaf i ns k : shape h i = Some (ELeaf ns k) -> clear h i
| clear_node i ns c cs : shape h i = Some (ENode ns c cs) -> ~ Arg i -> (forall j, In j cs -> clear h j) -> clear h i.
Lemma clear_ind' h (P : Z -> Prop) : (forall i ns k, shape h i = Some (ELeaf ns k) -> P i) ->
  (forall i ns c cs, shape h i = Some (ENode ns c cs) -> ~ Arg i -> (forall j, In j cs -> clear h j /\ P j) -> P i) -> forall i, clear h i -> P i.
Proof. intros H1 H2. induction 1 as [i ns k E|i ns c cs E N K IH]; [now apply (H1 i ns k)|]. apply (H2 i ns c cs E N). auto. Qed.
Lemma clear_kid h i ns c cs j : clear h i -> shape h i = Some (ENode ns c cs) -> In j cs -> clear h j.
Proof. intros C E Hj. inversion C as [? ? ? E'|? n b ks E' N K]; subst; [congruence|]. apply K. congruence. Qed.
Lemma clear_not h i ns c cs : clear h i -> shape h i = Some (ENode ns c cs) -> ~ Arg i.
Proof. intros C E. inversion C; subst; [congruence|assumption]. Qed.
Lemma frame_clear h h' i : wf h -> frame h h' [] -> clear h i -> clear h' i.
Proof.
  intros W Fr C. induction C as [i ns k E|i ns c cs E N K] using clear_ind'; [apply (clear_leaf h' i ns k)|apply (clear_node h' i ns c cs)]; try assumption; try now apply (frame_shape h h').
  intros j Hj. now apply K.
Qed.
Lemma clear_none h : (forall i, ~ Arg i) -> forall t i, unfolds h i t -> clear h i.
Proof.
  intros N. induction t as [ns k|ns c ts IH] using stree_ind'; intros i U; apply unf_shape in U; [now apply (clear_leaf h i ns k)|]. destruct U as (cs & E & Us). apply (clear_node h i ns c cs E (N i)).
  clear E. induction Us as [|j t cs ts U _ IHs]; [intros j []|]. inversion IH; subst. intros z [<-|Hz]; [auto|now apply IHs].
Qed.
Record Inv (h : tree) : Prop := {
  inv_wf : wf h;
  inv_cur : (cur_id h0 <= cur_id h)%Z;
  inv_tree : forall i, good h i -> exists t, unfolds h i t /\ full t;
  inv_kids : forall i j, good h i -> kid h i j -> good h j }.
Definition unref (h : tree) (i : Z) : Prop := forall j, good h j -> kid h j i -> False.

Lemma good_bound h i : wf h0 -> Inv h -> good h i -> (0 <= i < cur_id h)%Z.
Proof.
  intros W0 I G. destruct (inv_tree h I i G) as (t & U & _). destruct (unf_in_table _ _ _ U) as (r & T). now apply (wf_tab h (inv_wf h I) i r).
Qed.
Lemma good_mono h h' i : (cur_id h <= cur_id h')%Z -> good h i -> good h' i.
Proof. intros H [G|G]; [now left|right; lia]. Qed.
Lemma not_good h i : wf h0 -> Inv h -> (cur_id h <= i)%Z -> ~ good h i.
Proof. intros W0 I H G. apply (good_bound h i W0 I) in G. lia. Qed.

(** [h'] comes from [h]: every good tree keeps its words, and every good element
    without parent, but for those in [X], keeps its children and gets no parent. *)
Record le (X : list Z) (h h' : tree) : Prop := {
  le_inv : Inv h';
  le_cur : (cur_id h <= cur_id h')%Z;
  le_root : root_id h' = root_id h;
  le_tab : forall i r, good h i -> table h i = Some r -> table h' i = Some r;
  le_words : forall i t, good h i -> unfolds h i t -> full t -> exists t', unfolds h' i t' /\ same t t';
  le_keep : forall i, good h i -> unref h i -> ~ In i X -> unref h' i /\ forall ns c cs, shape h i = Some (ENode ns c cs) -> exists ns' c', shape h' i = Some (ENode ns' c' cs);
  le_A : forall i, Arg i -> shape h' i = shape h i;
  le_clear : forall i, good h i -> clear h i -> clear h' i }.
Lemma le_refl h : Inv h -> le [] h h.
Proof.
  intros I. constructor; try assumption; try reflexivity; try lia; try easy.
  - intros i t G U F. exists t. split; [exact U|now apply same_refl].
  - intros i G U _. split; [exact U|]. eauto.
Qed.
Lemma le_trans X h h1 h2 : wf h0 -> Inv h -> le [] h h1 -> le X h1 h2 -> (forall x, In x X -> (cur_id h <= x)%Z) -> le [] h h2.
Proof.
  intros W0 I [A1 B1 C1 D1 E1 F1 P1 Q1] [A2 B2 C2 D2 E2 F2 P2 Q2] HX. constructor; try assumption; try congruence; try lia.
  - intros i r G T. apply D2; [now apply (good_mono h h1)|now apply D1].
  - intros i t G U F. destruct (E1 i t G U F) as (t1 & U1 & S1). destruct (E2 i t1 (good_mono h h1 i B1 G) U1) as (t2 & U2 & S2); [apply S1|].
    exists t2. split; [exact U2|now apply (same_trans t t1)].
  - intros i G U _. destruct (F1 i G U (fun H => H)) as [U1 K1]. destruct (F2 i (good_mono h h1 i B1 G) U1) as [U2 K2].
    + intros Hi. apply HX in Hi. apply (good_bound h i W0 I) in G. lia.
    + split; [exact U2|]. intros ns c cs E. destruct (K1 ns c cs E) as (n1 & c1 & E'). exact (K2 _ _ _ E').
  - intros i Ai. now rewrite (P2 i Ai), (P1 i Ai).
  - intros i G C. apply Q2; [now apply (good_mono h h1)|now apply Q1].
Qed.

(** ** Blocks that only allocate, and write what they allocated *)

Record grow (X : list Z) (h h' : tree) : Prop := {
  gr_frame : frame h h' [];
  gr_root : root_id h' = root_id h;
  gr_tree : forall i, (cur_id h <= i < cur_id h')%Z -> exists t, unfolds h' i t /\ full t;
  gr_kids : forall i j, (cur_id h <= i < cur_id h')%Z -> kid h' i j ->
    (cur_id h <= j < cur_id h')%Z \/ (good h j /\ ((exists k, good h k /\ kid h k j) \/ In j X)) }.
Lemma grow_refl X h : Inv h -> grow X h h.
Proof. intros I. constructor; try reflexivity; [apply frame_refl, I|intros; lia|intros; lia]. Qed.
Lemma good_cases h h' i : Inv h -> good h' i -> good h i \/ (cur_id h <= i < cur_id h')%Z.
Proof. intros I [G|G]; [left; now left|]. destruct (Z.lt_ge_cases i (cur_id h)); [left; right; lia|right; lia]. Qed.
Lemma grow_shape X h h' i e : Inv h -> grow X h h' -> shape h i = Some e -> shape h' i = Some e.
Proof. intros I G. apply frame_shape; [apply I|apply G]. Qed.
Lemma good_shape h i : Inv h -> good h i -> exists e, shape h i = Some e.
Proof. intros I G. destruct (inv_tree h I i G) as (t & U & _). apply unf_shape in U. destruct t; [eauto|]. destruct U as (cs & E & _). eauto. Qed.
Lemma grow_kid_old X h h' i j : Inv h -> grow X h h' -> good h i -> kid h' i j -> kid h i j.
Proof.
  intros I G Gi (ns & c & cs & E & Hj). destruct (good_shape h i I Gi) as (e & E0). pose proof (grow_shape X h h' i e I G E0) as E1.
  assert (e = ENode ns c cs) by congruence. subst e. now exists ns, c, cs.
Qed.
Lemma grow_inv X h h' : Inv h -> grow X h h' -> Inv h'.
Proof.
  intros I G. pose proof (gr_frame _ _ _ G) as Fr. constructor.
  - apply Fr.
  - pose proof (fr_cur _ _ _ Fr). pose proof (inv_cur h I). lia.
  - intros i Gi. destruct (good_cases h h' i I Gi) as [G0|G1]; [|now apply G]. destruct (inv_tree h I i G0) as (t & U & F). exists t. split; [|exact F].
    now apply (frame_unf h h' i t (inv_wf h I) Fr).
  - intros i j Gi K. pose proof (fr_cur _ _ _ Fr) as HC. pose proof (inv_cur h I) as HC0. destruct (good_cases h h' i I Gi) as [G0|G1].
    + apply (good_mono h h' j HC). apply (inv_kids h I i j G0). now apply (grow_kid_old X h h').
    + destruct (gr_kids _ _ _ G i j G1 K) as [H|[H _]]; [right; lia|now apply (good_mono h h')].
Qed.
Lemma grow_le X h h' : Inv h -> grow X h h' -> le X h h'.
Proof.
  intros I G. pose proof (gr_frame _ _ _ G) as Fr. constructor.
  - now apply (grow_inv X h h').
  - apply Fr.
  - apply G.
  - intros i r _ T. rewrite <- T. apply (fr_same _ _ _ Fr (CId i)); [now apply (wf_tab h (inv_wf h I) i r)|intros []].
  - intros i t _ U F. exists t. split; [now apply (frame_unf h h' i t (inv_wf h I) Fr)|now apply same_refl].
  - intros i Gi U HX. split.
    + intros j Gj K. destruct (good_cases h h' j I Gj) as [G0|G1].
      * apply (U j G0). now apply (grow_kid_old X h h').
      * destruct (gr_kids _ _ _ G j i G1 K) as [H|[_ [(k & Gk & Kk)|H]]]; [|now apply (U k)|easy].
        destruct (good_shape h i I Gi) as (e & E). apply (wf_shape h i e (inv_wf h I)) in E. lia.
    + intros ns c cs E. exists ns, c. now apply (grow_shape X h h').
  - intros i Ai. destruct (good_shape h i I (or_introl (HA i Ai))) as (e & E). rewrite E. now apply (grow_shape X h h').
  - intros i _ C. apply (frame_clear h h'); [apply I|exact Fr|exact C].
Qed.

Definition allowed (X : list Z) (ha h : tree) (j : Z) : Prop :=
  (cur_id ha <= j < cur_id h)%Z \/ (good ha j /\ ((exists k, good ha k /\ kid ha k j) \/ In j X)).
Lemma allowed_good X ha h j : wf h0 -> Inv ha -> grow X ha h -> allowed X ha h j -> good h j.
Proof.
  intros W0 I G [H|[H _]].
  - right. pose proof (inv_cur ha I). lia.
  - apply (good_mono ha h); [|exact H]. apply (gr_frame _ _ _ G).
Qed.
Lemma allowed_mono X ha h h' j : (cur_id h <= cur_id h')%Z -> allowed X ha h j -> allowed X ha h' j.
Proof. intros H [A|A]; [left; lia|now right]. Qed.
Lemma grow_kid X ha h i j : Inv ha -> grow X ha h -> good h i -> kid h i j -> allowed X ha h j.
Proof.
  intros I G Gi K. destruct (good_cases ha h i I Gi) as [G0|G1].
  - right. apply (grow_kid_old X ha h i j I G G0) in K. split; [now apply (inv_kids ha I i j)|left; now exists i].
  - now apply (gr_kids _ _ _ G i j).
Qed.
Lemma good_tree h i t : Inv h -> good h i -> unfolds h i t -> full t.
Proof. intros I G U. destruct (inv_tree h I i G) as (t' & U' & F). now rewrite (unfolds_fun h i t U t' U'). Qed.

(** new objects have new lists *)
Definition al (h h' : tree) : Prop := frame h h' [] /\ root_id h' = root_id h
  /\ forall j r ns l ls y c, (cur_id h <= j)%Z -> table h' j = Some r -> objs h' r = Some (ONode j ns l ls y c) -> n_list h <= l.
Definition owned (h : tree) (i : Z) (l : nat) : Prop :=
  forall j r ns l' ls y c, good h j -> j <> i -> table h j = Some r -> objs h r = Some (ONode j ns l' ls y c) -> l' <> l.
Lemma frame_obj h h' i r o : wf h -> frame h h' [] -> table h i = Some r -> objs h r = Some o -> table h' i = Some r /\ objs h' r = Some o.
Proof.
  intros W Fr T O. split.
  - rewrite <- T. apply (fr_same _ _ _ Fr (CId i)); [now apply (wf_tab h W i r)|intros []].
  - rewrite <- O. apply (fr_same _ _ _ Fr (CObj r)); [now apply (wf_obj h W r _ O)|intros []].
Qed.
Lemma frame_lst h h' l x : wf h -> frame h h' [] -> lists h l = Some x -> lists h' l = Some x.
Proof. intros W Fr L. rewrite <- L. apply (fr_same _ _ _ Fr (CList l)); [now apply (wf_lst h W l _ L)|intros []]. Qed.
Lemma al_refl h : wf h -> al h h.
Proof.
  intros W. split; [now apply frame_refl|]. split; [reflexivity|]. intros j r ns l ls y c H T. apply (wf_tab h W) in T. lia.
Qed.
Lemma good_obj h j r o : Inv h -> good h j -> table h j = Some r -> objs h r = Some o -> exists e, shape h j = Some e /\
  match o with OLeaf i ns k => i = j /\ e = ELeaf ns k | ONode i ns l ls y c => i = j /\ exists cs, lists h l = Some cs /\ e = ENode ns c cs end.
Proof.
  intros I G T O. destruct (good_shape h j I G) as (e & E). exists e. split; [exact E|]. destruct e as [ns k|ns c cs].
  - apply shape_leaf in E as (r' & T' & O'). assert (r' = r) by congruence. subst. assert (o = OLeaf j ns k) by congruence. now subst.
  - apply shape_node in E as (r' & l & ls & y & T' & O' & L). assert (r' = r) by congruence. subst. assert (o = ONode j ns l ls y c) by congruence. subst. split; [reflexivity|]. eauto.
Qed.
Lemma al_trans h h1 h2 : Inv h1 -> (cur_id h0 <= cur_id h)%Z -> al h h1 -> al h1 h2 -> al h h2.
Proof.
  intros I1 HC (A1 & B1 & C1) (A2 & B2 & C2). split; [now apply (frame_trans h h1)|]. split; [congruence|]. intros j r ns l ls y c Hj T O.
  destruct (Z.lt_ge_cases j (cur_id h1)) as [H|H].
  - assert (Gj : good h1 j) by (right; lia). destruct (good_shape h1 j I1 Gj) as (e & E). destruct e as [n k|n b cs].
    + apply shape_leaf in E as (r' & T' & O'). destruct (frame_obj h1 h2 j r' _ (inv_wf h1 I1) A2 T' O') as [T2 O2]. congruence.
    + apply shape_node in E as (r' & l' & ls' & y' & T' & O' & L). destruct (frame_obj h1 h2 j r' _ (inv_wf h1 I1) A2 T' O') as [T2 O2].
      assert (r' = r) by congruence. subst. assert (l' = l) by congruence. subst. now apply (C1 j r _ _ _ _ _ Hj T' O').
  - pose proof (C2 j r ns l ls y c ltac:(lia) T O). pose proof (fr_lst _ _ _ A1). lia.
Qed.
Lemma al_owned h h' i l : Inv h -> al h h' -> l < n_list h -> owned h i l -> owned h' i l.
Proof.
  intros I (Fr & _ & C) Hl Ow j r ns l' ls y c Gj Hne T O. destruct (good_cases h h' j I Gj) as [G0|G1].
  - destruct (good_shape h j I G0) as (e & E). destruct e as [n k|n b cs].
    + apply shape_leaf in E as (r' & T' & O'). destruct (frame_obj h h' j r' _ (inv_wf h I) Fr T' O') as [T2 O2]. congruence.
    + apply shape_node in E as (r' & l2 & ls' & y' & T' & O' & L). destruct (frame_obj h h' j r' _ (inv_wf h I) Fr T' O') as [T2 O2].
      assert (r' = r) by congruence. subst. assert (l2 = l') by congruence. subst. now apply (Ow j r _ l' _ _ _ G0 Hne T' O').
  - pose proof (C j r ns l' ls y c ltac:(lia) T O). lia.
Qed.

(** a new node *)
Lemma create_exact h x : wf h -> exists h', create_node_of x h = (Ok (n_obj h), h') /\ frame h h' [] /\ root_id h' = root_id h /\ cur_id h' = (cur_id h + 1)%Z
  /\ table h' (cur_id h) = Some (n_obj h) /\ objs h' (n_obj h) = Some (ONode (cur_id h) None (n_list h) [] (-1) false) /\ lists h' (n_list h) = Some x.
Proof.
  intros W. destruct (create_node_of_ok h x W) as (h' & E & Fr & Rt & T & O & L). exists h'. repeat apply conj; try assumption.
  unfold create_node_of, new_list, create_node, new_obj, add_elem, set_elem, deref, write_obj, sret, sbind in E. cbn in E. rewrite updN_same in E. injection E as <-. reflexivity.
Qed.
Lemma grow_create X ha h ids ts : wf h0 -> Inv ha -> grow X ha h -> ids <> [] -> Forall (allowed X ha h) ids -> Forall2 (unfolds h) ids ts ->
  exists h', create_node_of ids h = (Ok (n_obj h), h') /\ grow X ha h' /\ al h h' /\ cur_id h' = (cur_id h + 1)%Z
    /\ table h' (cur_id h) = Some (n_obj h) /\ objs h' (n_obj h) = Some (ONode (cur_id h) None (n_list h) [] (-1) false) /\ lists h' (n_list h) = Some ids
    /\ unref h' (cur_id h) /\ owned h' (cur_id h) (n_list h) /\ (forall i, good h i -> unref h i -> ~ In i ids -> unref h' i).
Proof.
  intros W0 I G Hne Al Us. pose proof (grow_inv X ha h I G) as Ih. pose proof (inv_wf h Ih) as W.
  destruct (create_exact h ids W) as (h' & E & Fr & Rt & Cu & T & O & L). exists h'.
  assert (Sh : shape h' (cur_id h) = Some (ENode None false ids)) by (apply shape_node; eauto 10).
  assert (Gi : forall j, In j ids -> good h j) by (intros j Hj; rewrite Forall_forall in Al; now apply (allowed_good X ha h j W0 I G), Al).
  assert (Fu : Forall full ts).
  { clear - HA Us Gi Ih. induction Us as [|i t ids ts U _ IH]; [constructor|]. constructor; [apply (good_tree h i t Ih); [apply Gi; now left|exact U]|]. apply IH. intros j Hj. apply Gi. now right. }
  assert (New : forall j, good h' j -> good h j \/ j = cur_id h) by (intros j Gj; destruct (good_cases h h' j Ih Gj); [now left|right; lia]).
  assert (Kid : forall j k, good h j -> kid h' j k -> kid h j k).
  { intros j k Gj (ns & c & cs & E' & Hk). destruct (good_shape h j Ih Gj) as (e & E0). pose proof (frame_shape h h' j e W Fr E0). assert (e = ENode ns c cs) by congruence. subst e. now exists ns, c, cs. }
  assert (KidN : forall k, kid h' (cur_id h) k -> In k ids) by (intros k (ns & c & cs & E' & Hk); congruence).
  repeat apply conj; try assumption.
  - pose proof (gr_frame _ _ _ G) as FrA. pose proof (fr_cur _ _ _ FrA) as HC. constructor.
    + now apply (frame_trans ha h).
    + rewrite Rt. apply G.
    + intros i Hi. destruct (Z.eq_dec i (cur_id h)) as [->|Hni].
      * exists (SNode None false ts). split; [|apply full_node; split; [intros ->; inversion Us; subst; easy|exact Fu]].
        apply unf_shape. exists ids. split; [exact Sh|]. clear - HA Us W Fr. induction Us; constructor; [now apply (frame_unf h h')|assumption].
      * destruct (gr_tree _ _ _ G i ltac:(lia)) as (t & U & F). exists t. split; [now apply (frame_unf h h')|exact F].
    + intros i j Hi K. destruct (Z.eq_dec i (cur_id h)) as [->|Hni].
      * apply KidN in K. rewrite Forall_forall in Al. apply (allowed_mono X ha h h'); [lia|now apply Al].
      * apply (allowed_mono X ha h h'); [lia|]. apply (gr_kids _ _ _ G i j); [lia|]. apply Kid; [|exact K]. right. pose proof (inv_cur ha I). lia.
  - intros j r ns l ls y c Hj Tj Oj.
    assert (j = cur_id h) by (apply (wf_tab h' (fr_wf _ _ _ Fr)) in Tj; lia). subst j. assert (r = n_obj h) by congruence. subst r. rewrite O in Oj. injection Oj as _ <- _ _ _. lia.
  - intros j Gj K. destruct (New j Gj) as [G0| ->].
    + apply (Kid j _ G0) in K. apply (inv_kids h Ih j _ G0) in K. apply (good_bound h _ W0 Ih) in K. lia.
    + apply KidN, Gi, (good_bound h _ W0 Ih) in K. lia.
  - intros j r ns l' ls y c Gj Hnj Tj Oj. destruct (New j Gj) as [G0| ->]; [|easy]. destruct (good_shape h j Ih G0) as (e & E0). destruct e as [n k|n b cs].
    + apply shape_leaf in E0 as (r' & T' & O'). destruct (frame_obj h h' j r' _ W Fr T' O') as [T2 O2]. congruence.
    + apply shape_node in E0 as (r' & l2 & ls' & y' & T' & O' & L'). destruct (frame_obj h h' j r' _ W Fr T' O') as [T2 O2].
      assert (r' = r) by congruence. subst. assert (l2 = l') by congruence. subst. apply (wf_lst h W) in L'. lia.
  - intros i Hi U Hn j Gj K. destruct (New j Gj) as [G0| ->]; [now apply (U j G0), Kid|]. now apply KidN in K.
Qed.

(** writing what was allocated in the block *)
Lemma grow_write X ha h h' i ns c cs' ts' : wf h0 -> Inv ha -> grow X ha h -> (cur_id ha <= i < cur_id h)%Z -> frame ha h' [] -> root_id h' = root_id h -> cur_id h' = cur_id h ->
  (forall j, good h j -> j <> i -> shape h' j = shape h j) -> shape h' i = Some (ENode ns c cs') -> cs' <> [] -> Forall (allowed X ha h) cs' ->
  Forall2 (unfolds h') cs' ts' -> Forall full ts' -> grow X ha h'.
Proof.
  intros W0 I G Hi Fr Rt Cu Oth Sh Hne Al Us Fu. pose proof (grow_inv X ha h I G) as Ih.
  assert (Ui : unfolds h' i (SNode ns c ts')) by (apply unf_shape; eauto).
  assert (Fi : full (SNode ns c ts')) by (apply full_node; split; [intros ->; inversion Us; subst; easy|exact Fu]).
  constructor; [exact Fr|rewrite Rt; apply G| |].
  - intros j Hj. destruct (gr_tree _ _ _ G j ltac:(lia)) as (u & U & F). assert (Gj : good h j) by (right; pose proof (inv_cur ha I); lia).
    clear Hj. revert j U F Gj. induction u as [n k|n b us IH] using stree_ind'; intros j U F Gj.
    + destruct (Z.eq_dec j i) as [->|Hn]; [eauto|]. exists (SLeaf n k). split; [|exact F]. apply unf_shape. rewrite (Oth j Gj Hn). now apply unf_shape in U.
    + destruct (Z.eq_dec j i) as [->|Hn]; [eauto|]. apply unf_shape in U as (cs & E & Uk). apply full_node in F as [N F].
      assert (X1 : exists us', Forall2 (unfolds h') cs us' /\ Forall full us').
      { assert (Gk : forall k, In k cs -> good h k) by (intros k Hk; apply (inv_kids h Ih j k Gj); exists n, b, cs; now split).
        clear - HA IH Uk F Gk. revert Gk. induction Uk as [|k u cs us U _ IHs]; intros Gk; [exists []; split; constructor|]. inversion IH as [|? ? H1 H2]; subst. inversion F as [|? ? F1 F2]; subst.
        destruct (H1 k U F1 (Gk k (or_introl eq_refl))) as (u' & U' & F'). destruct (IHs H2 F2) as (us' & Us' & Fs'); [intros x Hx; apply Gk; now right|].
        exists (u' :: us'). split; now constructor. }
      destruct X1 as (us' & Us' & Fs'). exists (SNode n b us'). split.
      * apply unf_shape. exists cs. split; [now rewrite (Oth j Gj Hn)|exact Us'].
      * apply full_node. split; [|exact Fs']. intros ->. inversion Us'; subst. inversion Uk; subst. easy.
  - intros j k Hj K. rewrite Cu in Hj. assert (Gj : good h j) by (right; pose proof (inv_cur ha I); lia). rewrite Cu.
    destruct (Z.eq_dec j i) as [->|Hn].
    + destruct K as (n & b & cs & E & Hk). assert (cs = cs') by congruence. subst. rewrite Forall_forall in Al. now apply Al.
    + apply (gr_kids _ _ _ G j k Hj). destruct K as (n & b & cs & E & Hk). rewrite (Oth j Gj Hn) in E. now exists n, b, cs.
Qed.
Lemma frame_skip_list ha h l x : frame ha h [] -> wf (wl h l x) -> n_list ha <= l -> frame ha (wl h l x) [].
Proof.
  intros [A B C D E] W Hl. constructor; try assumption. intros c Ho Hn. specialize (E c Ho Hn). destruct c as [j|r|m]; cbn in *; try assumption.
  rewrite updN_other by lia. exact E.
Qed.
Lemma frame_skip_obj ha h r o : frame ha h [] -> wf (wo h r o) -> n_obj ha <= r -> frame ha (wo h r o) [].
Proof.
  intros [A B C D E] W Hl. constructor; try assumption. intros c Ho Hn. specialize (E c Ho Hn). destruct c as [j|m|m]; cbn in *; try assumption.
  rewrite updN_other by lia. exact E.
Qed.
Lemma wl_shapes h i r ns l ls y c cs' : Inv h -> table h i = Some r -> objs h r = Some (ONode i ns l ls y c) -> owned h i l ->
  (forall j, good h j -> j <> i -> shape (wl h l cs') j = shape h j) /\ shape (wl h l cs') i = Some (ENode ns c cs').
Proof.
  intros I T O Ow. split.
  - intros j Gj Hn. destruct (good_shape h j I Gj) as (e & E). rewrite E. destruct e as [n k|n b cs].
    + apply shape_leaf in E as (r' & T' & O'). apply shape_leaf. exists r'. now split.
    + apply shape_node in E as (r' & l' & ls' & y' & T' & O' & L'). apply shape_node. exists r', l', ls', y'. repeat apply conj; try assumption.
      cbn. rewrite updN_other; [exact L'|]. now apply (Ow j r' n l' ls' y' b).
  - apply shape_node. exists r, l, ls, y. repeat apply conj; try assumption. apply updN_same.
Qed.

(** ** clone *)

Lemma Forall2_unf_frame h h' cs ts : wf h -> frame h h' [] -> Forall2 (unfolds h) cs ts -> Forall2 (unfolds h') cs ts.
Proof. intros W Fr. induction 1; constructor; [now apply (frame_unf h h')|assumption]. Qed.
Lemma same_node ns c ts ns' c' ts' : ts <> [] -> Forall2 same ts ts' -> same (SNode ns c ts) (SNode ns' c' ts').
Proof.
  intros N H. assert (E : flat_map labelled ts' = flat_map labelled ts) by (clear N; induction H as [|t t' ts ts' S _ IH]; [reflexivity|]; cbn; rewrite IH; f_equal; apply S).
  split; [exact E|]. split; [|reflexivity]. apply full_node. split; [intros ->; inversion H; subst; easy|]. clear N E. induction H as [|t t' ts ts' S _ IH]; constructor; [apply S|assumption].
Qed.

Lemma new_not_arg i : wf h0 -> (cur_id h0 <= i)%Z -> ~ Arg i.
Proof. intros W0 H Ai. destruct (HA i Ai) as (t & U & _). destruct (unf_in_table _ _ _ U) as (r & T). apply (wf_tab h0 W0) in T. lia. Qed.
Lemma clone_ok X ha : wf h0 -> Inv ha -> forall f h r i t, grow X ha h -> good h i -> table h i = Some r -> unfolds h i t -> depth t <= f ->
  exists h' y i', clone f r h = (Ok y, h') /\ grow X ha h' /\ al h h' /\ table h' i' = Some y /\ clear h' i' /\
    match t with
    | SLeaf _ _ => h' = h /\ y = r /\ i' = i
    | SNode ns c ts => (cur_id h <= i' < cur_id h')%Z /\ unref h' i' /\ (forall k, good h k -> unref h k -> unref h' k) /\
        exists l cs' ts', objs h' y = Some (ONode i' None l [] (-1) c) /\ n_list h <= l < n_list h' /\ lists h' l = Some cs' /\ Forall2 (unfolds h') cs' ts' /\ Forall2 same ts ts' /\ owned h' i' l
    end.
Proof.
  intros W0 Ia. induction f as [|f IH]; intros h r i t G Gi T U Hd; [pose proof (depth_pos t); lia|].
  pose proof (grow_inv X ha h Ia G) as Ih. pose proof (inv_wf h Ih) as W. cbn [clone]. pose proof (unf_tref h i r t T U) as R.
  destruct (deref_u _ _ _ R) as (o & E & Ob & EL & _ & _ & EC & _). rewrite (run_ok _ _ _ _ _ E), EL.
  pose proof (good_tree h i t Ih Gi U) as Fu. destruct t as [ns k|ns c ts]; cbn [leafb].
  - exists h, r, i. split; [reflexivity|]. split; [exact G|]. split; [now apply al_refl|]. split; [exact T|]. split; [apply (clear_leaf h i ns k); now apply unf_shape in U|]. now repeat apply conj.
  - apply unf_shape in U as (cs & Sh & Us). apply shape_node in Sh as (r' & l & ls & y & T' & O & L). assert (r' = r) by congruence. subst r'.
    rewrite (run_ok _ _ _ _ _ (children_ids_ok _ _ _ _ _ _ _ _ _ O L)). apply full_node in Fu as [N Fu]. apply depth_node in Hd. apply depth_forall in Hd.
    assert (Kc : forall c0, In c0 cs -> kid h i c0) by (intros c0 Hc; exists ns, c, cs; split; [apply shape_node; eauto 10|exact Hc]).
    assert (Loop : forall cs ts h, grow X ha h -> Forall2 (unfolds h) cs ts -> Forall (fun t => depth t <= f) ts -> Forall (allowed X ha h) cs ->
      exists h' ids ts', smap (fun c => run x <- tget c; run y <- clone f x; id_of y) cs h = (Ok ids, h') /\ grow X ha h' /\ al h h' /\ Forall2 (unfolds h') ids ts'
        /\ Forall2 same ts ts' /\ Forall (allowed X ha h') ids /\ (forall k, good h k -> unref h k -> (forall c, In c cs -> exists j, good h j /\ kid h j c) -> unref h' k /\ ~ In k ids) /\ Forall (clear h') ids).
    { clear - HA W0 Ia IH. induction cs as [|c cs IHs]; intros ts h G Us Hd Al; inversion Us as [|c' t cs' ts' U Us']; subst.
      - pose proof (grow_inv X ha h Ia G) as Ih. exists h, [], []. split; [reflexivity|]. split; [exact G|]. split; [apply al_refl, Ih|]. split; [constructor|]. split; [constructor|]. split; [constructor|]. split; [|constructor]. intros k _ Uk _. split; [exact Uk|easy].
      - pose proof (grow_inv X ha h Ia G) as Ih. pose proof (inv_wf h Ih) as W. inversion Hd; subst. inversion Al as [|? ? Ac Al']; subst.
        pose proof (allowed_good X ha h c W0 Ia G Ac) as Gc. destruct (tget_u _ _ _ U) as (x & Ex & Rx & Tx). pose proof (good_tree h c t Ih Gc U) as Ft.
        destruct (IH h x c t G Gc Tx U) as (h1 & y & i1 & E1 & G1 & A1 & T1 & C1 & M1); [assumption|]. pose proof (grow_inv X ha h1 Ia G1) as I1. pose proof (inv_wf h1 I1) as W1.
        assert (X1 : exists t', unfolds h1 i1 t' /\ same t t' /\ allowed X ha h1 i1 /\ (forall k, good h k -> unref h k -> (exists j, good h j /\ kid h j c) -> unref h1 k /\ i1 <> k)).
        { destruct t as [ns k|ns b ks].
          - destruct M1 as (-> & -> & ->). exists (SLeaf ns k). split; [exact U|]. split; [now apply same_refl|]. split; [exact Ac|]. intros k0 _ Uk (j & Gj & Kj). split; [exact Uk|]. intros ->. now apply (Uk j).
          - destruct M1 as (B1 & U1 & K1 & l & cs1 & ts1 & O1 & _ & L1 & Uk & Sk & _). exists (SNode None b ts1). split; [|split; [|split]].
            + apply unf_shape. exists cs1. split; [apply shape_node; eauto 10|exact Uk].
            + apply same_node; [|exact Sk]. now apply full_node in Ft as [N _].
            + left. pose proof (fr_cur _ _ _ (gr_frame _ _ _ G)). lia.
            + intros k0 Gk0 Uk0 _. split; [now apply K1|]. intros ->. apply (good_bound h k0 W0 Ih) in Gk0. lia. }
        destruct X1 as (t' & U1 & S1 & Al1 & K1).
        assert (Ei : id_of y h1 = (Ok i1, h1)) by (destruct (id_of_u h1 y t' (unf_tref _ _ _ _ T1 U1)) as (j & Ej & Tj & Uj); rewrite Ej; do 2 f_equal; apply unf_shape in U1, Uj; destruct t';
          [apply shape_leaf in U1 as (r1 & ? & ?), Uj as (r2 & ? & ?); congruence|destruct U1 as (? & U1 & _), Uj as (? & Uj & _); apply shape_node in U1 as (r1 & ? & ? & ? & ? & ? & ?), Uj as (r2 & ? & ? & ? & ? & ? & ?); congruence]).
        destruct (IHs ts' h1 G1) as (h2 & ids & ts2 & E2 & G2 & A2 & U2 & S2 & Al2 & K2 & C2); try assumption.
        + apply (Forall2_unf_frame h h1 _ _ W (proj1 A1) Us').
        + apply Forall_forall. intros z Hz. rewrite Forall_forall in Al'. apply (allowed_mono X ha h h1); [apply A1|now apply Al'].
        + exists h2, (i1 :: ids), (t' :: ts2). pose proof (fr_cur _ _ _ (proj1 A1)) as HC1. pose proof (fr_cur _ _ _ (proj1 A2)) as HC2.
          split. { rewrite smap_cons. rewrite sbind_assoc, (run_ok _ _ _ _ _ Ex), sbind_assoc, (run_ok _ _ _ _ _ E1), (run_ok _ _ _ _ _ Ei), (run_ok _ _ _ _ _ E2). reflexivity. }
          split; [exact G2|]. split. { apply (al_trans h h1 h2 I1); [|exact A1|exact A2]. pose proof (inv_cur h Ih). lia. }
          split. { constructor; [now apply (frame_unf h1 h2 i1 t' W1 (proj1 A2))|exact U2]. }
          split; [now constructor|]. split. { constructor; [now apply (allowed_mono X ha h1 h2)|exact Al2]. }
          split; [|constructor; [exact (frame_clear h1 h2 i1 W1 (proj1 A2) C1)|exact C2]].
          intros k Gk Uk Hk. destruct (K1 k Gk Uk (Hk c (or_introl eq_refl))) as [Uk1 Hk1].
          destruct (K2 k (good_mono h h1 k HC1 Gk) Uk1) as [Uk2 Hk2].
          * intros c0 Hc0. destruct (Hk c0 (or_intror Hc0)) as (j & Gj & (n & b & ks & Ej & Hj)). exists j. split; [now apply (good_mono h h1)|]. exists n, b, ks. split; [now apply (frame_shape h h1 j _ W (proj1 A1))|exact Hj].
          * split; [exact Uk2|]. intros [H|H]; [now apply Hk1|now apply Hk2]. }
    destruct (Loop cs ts h G Us Hd) as (h1 & ids & ts' & E1 & G1 & A1 & U1 & S1 & Al1 & K1 & C1).
    { apply Forall_forall. intros c0 Hc. apply (grow_kid X ha h i c0 Ia G Gi). now apply Kc. }
    rewrite (run_ok _ _ _ _ _ E1). pose proof (grow_inv X ha h1 Ia G1) as I1. pose proof (inv_wf h1 I1) as W1.
    assert (N1 : ids <> []) by (intros ->; inversion U1; subst; inversion S1; subst; easy).
    destruct (grow_create X ha h1 ids ts' W0 Ia G1 N1 Al1 U1) as (h2 & E2 & G2 & A2 & Cu2 & T2 & O2 & L2 & Un2 & Ow2 & K2).
    rewrite (run_ok _ _ _ _ _ E2), (run_ok _ _ _ _ _ (deref_ok _ _ _ O2)). pose proof (grow_inv X ha h2 Ia G2) as I2. pose proof (inv_wf h2 I2) as W2.
    assert (Eo : is_compound o = c) by (assert (o = ONode i ns l ls y c) by congruence; now subst). rewrite Eo.
    set (h3 := wo h2 (n_obj h1) (ONode (cur_id h1) None (n_list h1) [] (-1) c)).
    assert (W3 : wf h3) by (apply (frame_wo h2); [exact W2|now apply (wf_obj h2 W2 _ _ O2)]).
    assert (Sh3 : shape h3 (cur_id h1) = Some (ENode None c ids)) by (apply shape_node; exists (n_obj h1), (n_list h1), [], (-1)%Z; repeat apply conj; [exact T2|apply updN_same|exact L2]).
    assert (Oth : forall j, good h2 j -> j <> cur_id h1 -> shape h3 j = shape h2 j).
    { intros j Gj Hn. destruct (good_shape h2 j I2 Gj) as (e & Ee). rewrite Ee. destruct e as [n k|n b ks].
      - apply shape_leaf in Ee as (rj & Tj & Oj). apply shape_leaf. exists rj. split; [exact Tj|]. cbn. rewrite updN_other; [exact Oj|]. intros ->. congruence.
      - apply shape_node in Ee as (rj & lj & lsj & yj & Tj & Oj & Lj). apply shape_node. exists rj, lj, lsj, yj. repeat apply conj; try assumption. cbn. rewrite updN_other; [exact Oj|]. intros ->. congruence. }
    assert (U3 : Forall2 (unfolds h3) ids ts').
    { assert (Y : forall t j, good h2 j -> j <> cur_id h1 -> unfolds h2 j t -> unfolds h3 j t).
      { induction t as [n k|n b us IHu] using stree_ind'; intros j Gj Hn Uj; apply unf_shape in Uj; apply unf_shape; rewrite (Oth j Gj Hn); [exact Uj|]. destruct Uj as (ks & Ej & Uk). exists ks. split; [exact Ej|].
        assert (Gk : forall k, In k ks -> good h2 k /\ k <> cur_id h1).
        { intros k Hk. assert (Kk : kid h2 j k) by now exists n, b, ks. split; [now apply (inv_kids h2 I2 j k)|]. intros ->. now apply (Un2 j). }
        clear Ej. induction Uk as [|k u ks us Uu _ IHk]; [constructor|]. inversion IHu; subst. constructor; [|apply IHk; [assumption|intros z Hz; apply Gk; now right]]. destruct (Gk k (or_introl eq_refl)). auto. }
      assert (Gids : forall j, In j ids -> good h2 j /\ j <> cur_id h1).
      { intros j Hj. rewrite Forall_forall in Al1. pose proof (allowed_good X ha h1 j W0 Ia G1 (Al1 j Hj)) as Gj. split; [apply (good_mono h1 h2); [lia|exact Gj]|]. apply (good_bound h1 j W0 I1) in Gj. lia. }
      pose proof (Forall2_unf_frame h1 h2 _ _ W1 (proj1 A2) U1) as U2. clear - HA Y U2 Gids. induction U2 as [|j t js ts U _ IHu]; [constructor|]. destruct (Gids j (or_introl eq_refl)). constructor; [now apply Y|]. apply IHu. intros z Hz. apply Gids. now right. }
    assert (F3 : Forall full ts') by (clear - HA S1; induction S1 as [|t t' ts ts' S _ IHs]; constructor; [apply S|assumption]).
    assert (HCa : (cur_id ha <= cur_id h1)%Z) by apply (gr_frame _ _ _ G1). assert (HCo : n_obj ha <= n_obj h1) by apply (gr_frame _ _ _ G1).
    assert (G3 : grow X ha h3).
    { apply (grow_write X ha h2 h3 (cur_id h1) None c ids ts'); try assumption; try reflexivity; [lia|apply frame_skip_obj; [apply G2|exact W3|exact HCo]|].
      apply Forall_forall. intros z Hz. rewrite Forall_forall in Al1. apply (allowed_mono X ha h1 h2); [lia|now apply Al1]. }
    assert (Unr : forall k, unref h2 k -> unref h3 k).
    { intros k Uk j Gj (n & b & ks & Ej & Hk). assert (Gj2 : good h2 j) by exact Gj. destruct (Z.eq_dec j (cur_id h1)) as [->|Hn].
      - assert (ks = ids) by congruence. subst. apply (Uk (cur_id h1)); [exact Gj2|]. exists None, false, ids. split; [apply shape_node; eauto 10|exact Hk].
      - rewrite (Oth j Gj2 Hn) in Ej. apply (Uk j Gj2). now exists n, b, ks. }
    assert (Fr13 : frame h1 h3 []) by (apply frame_skip_obj; [apply A2|exact W3|lia]).
    assert (A3 : al h1 h3).
    { split; [exact Fr13|]. split; [apply A2|]. intros j rj n lj lsj yj b Hj Tj Oj. cbn in Tj, Oj. unfold updN in Oj. destruct (Nat.eqb_spec rj (n_obj h1)).
      - injection Oj as <- <- <- <- <- <-. lia.
      - apply (proj2 (proj2 A2) j rj n lj lsj yj b Hj Tj Oj). }
    exists h3, (n_obj h1), (cur_id h1). pose proof (fr_cur _ _ _ (proj1 A1)) as HC1. pose proof (fr_lst _ _ _ (proj1 A1)) as HL1.
    assert (Ll : n_list h1 < n_list h3) by (change (n_list h3) with (n_list h2); now apply (wf_lst h2 W2 _ _ L2)).
    split; [reflexivity|]. split; [exact G3|]. split. { apply (al_trans h h1 h3 I1); [|exact A1|exact A3]. pose proof (inv_cur h Ih). lia. }
    split; [exact T2|]. split. { apply (clear_node h3 (cur_id h1) None c ids Sh3); [apply new_not_arg; [exact W0|pose proof (inv_cur h1 I1); lia]|]. intros j Hj. apply (frame_clear h1 h3 j W1 Fr13). rewrite Forall_forall in C1. now apply C1. }
    split. { change (cur_id h3) with (cur_id h2). lia. }
    split; [now apply Unr|]. split.
    + intros k Gk Uk. destruct (K1 k Gk Uk) as [Uk1 Hk1]; [intros c0 Hc0; exists i; split; [exact Gi|now apply Kc]|]. apply Unr, K2; [now apply (good_mono h h1)|exact Uk1|exact Hk1].
    + exists (n_list h1), ids, ts'. split; [apply updN_same|]. split; [lia|]. split; [exact L2|]. split; [exact U3|]. split; [exact S1|].
      intros j rj n lj lsj yj b Gj Hn Tj Oj. cbn in Tj, Oj. unfold updN in Oj. destruct (Nat.eqb_spec rj (n_obj h1)).
      * injection Oj as <- <- <- <- <- <-. easy.
      * apply (Ow2 j rj n lj lsj yj b Gj Hn Tj Oj).
Qed.

(** ** More on the order *)

Lemma le_trans2 X Y h h1 h2 : le X h h1 -> le Y h1 h2 -> le (X ++ Y) h h2.
Proof.
  intros [A1 B1 C1 D1 E1 F1 P1 Q1] [A2 B2 C2 D2 E2 F2 P2 Q2]. constructor; try assumption; try congruence; try lia.
  - intros i r G T. apply D2; [now apply (good_mono h h1)|now apply D1].
  - intros i t G U F. destruct (E1 i t G U F) as (t1 & U1 & S1). destruct (E2 i t1 (good_mono h h1 i B1 G) U1) as (t2 & U2 & S2); [apply S1|].
    exists t2. split; [exact U2|now apply (same_trans t t1)].
  - intros i G U Hn. destruct (F1 i G U) as [U1 K1]; [intros H; apply Hn, in_app_iff; now left|].
    destruct (F2 i (good_mono h h1 i B1 G) U1) as [U2 K2]; [intros H; apply Hn, in_app_iff; now right|].
    split; [exact U2|]. intros ns c cs E. destruct (K1 ns c cs E) as (n1 & c1 & E'). exact (K2 _ _ _ E').
  - intros i Ai. now rewrite (P2 i Ai), (P1 i Ai).
  - intros i G C. apply Q2; [now apply (good_mono h h1)|now apply Q1].
Qed.
Lemma le_weaken X Y h h' : le X h h' -> (forall x, In x X -> good h x -> unref h x -> In x Y) -> le Y h h'.
Proof. intros [A1 B C D E F P Q] H. constructor; try assumption. intros i G U Hn. apply F; [exact G|exact U|]. intros Hi. apply Hn. now apply H. Qed.
Lemma le_good X h h' i : le X h h' -> good h i -> good h' i.
Proof. intros L. apply good_mono. apply L. Qed.
Lemma le_forall2 X h h' cs ts : le X h h' -> Forall (good h) cs -> Inv h -> Forall2 (unfolds h) cs ts -> exists ts', Forall2 (unfolds h') cs ts' /\ Forall2 same ts ts'.
Proof.
  intros L G I Us. induction Us as [|i t cs ts U _ IH]; [exists []; split; constructor|]. inversion G; subst. destruct IH as (ts' & A & B); [assumption|].
  destruct (le_words _ _ _ L i t) as (t' & U' & S'); try assumption; [now apply (good_tree h i)|]. exists (t' :: ts'). split; now constructor.
Qed.
Lemma same_flat ts ts' : Forall2 same ts ts' -> flat_map labelled ts' = flat_map labelled ts.
Proof. induction 1 as [|t t' ts ts' S _ IH]; [reflexivity|]. cbn. rewrite IH. f_equal. apply S. Qed.

(** ** Marks *)

Record marks (h h' : tree) : Prop := {
  mk_wf : wf h'; mk_cur : cur_id h' = cur_id h; mk_root : root_id h' = root_id h; mk_tab : table h' = table h; mk_lists : lists h' = lists h; mk_nobj : n_obj h' = n_obj h;
  mk_shape : forall j e, shape h j = Some e -> match e with ELeaf _ _ => shape h' j = Some e | ENode ns c cs => exists c', shape h' j = Some (ENode ns c' cs) end;
  mk_A : forall j e, Arg j ->  shape h j = Some e -> shape h' j = Some e }.
Lemma marks_refl h : wf h -> marks h h.
Proof. intros W. constructor; try assumption; try reflexivity; [|now auto]. intros j [ns k|ns c cs] E; eauto. Qed.
Lemma marks_trans h h1 h2 : marks h h1 -> marks h1 h2 -> marks h h2.
Proof.
  intros [A1 B C D E F G P] [A' B' C' D' E' F' G' P']. constructor; try assumption; try congruence.
  - intros j e H. specialize (G j e H). destruct e as [ns k|ns c cs].
    + apply (G' j _ G).
    + destruct G as (c1 & G). exact (G' j _ G).
  - intros j e Aj H. exact (P' j e Aj (P j e Aj H)).
Qed.
Lemma marks_clear h h' i : marks h h' -> clear h i -> clear h' i.
Proof.
  intros M C. induction C as [i ns k E|i ns c cs E N K] using clear_ind'; pose proof (mk_shape _ _ M i _ E) as E'; cbn in E'.
  - now apply (clear_leaf h' i ns k).
  - destruct E' as (c' & E'). apply (clear_node h' i ns c' cs E' N). intros j Hj. now apply K.
Qed.
Lemma marks_unf h h' : marks h h' -> forall t i, unfolds h i t -> exists t', unfolds h' i t' /\ labelled t' = labelled t /\ leafb t' = leafb t /\ depth t' = depth t /\ (full t -> full t').
Proof.
  intros M. induction t as [ns k|ns c ts IH] using stree_ind'; intros i U; apply unf_shape in U.
  - exists (SLeaf ns k). split; [apply unf_shape; apply (mk_shape _ _ M i _ U)|]. now repeat split.
  - destruct U as (cs & E & Us). destruct (mk_shape _ _ M i _ E) as (c' & E').
    assert (X : exists ts', Forall2 (unfolds h') cs ts' /\ flat_map labelled ts' = flat_map labelled ts /\ List.map depth ts' = List.map depth ts /\ (Forall full ts -> Forall full ts')).
    { clear E E'. induction Us as [|j t cs ts U _ IHs]; [exists []; repeat split; constructor|]. inversion IH as [|? ? H1 H2]; subst. destruct (IHs H2) as (ts' & A & B & C & D).
      destruct (H1 j U) as (t' & U' & L' & _ & D' & F'). exists (t' :: ts'). split; [now constructor|]. split; [cbn; now rewrite L', B|]. split; [cbn; now rewrite D', C|].
      intros HF. inversion HF; subst. constructor; auto. }
    destruct X as (ts' & A & B & C & D). exists (SNode ns c' ts'). split; [apply unf_shape; eauto|]. split; [exact B|]. split; [reflexivity|].
    split; [change (S (list_max (List.map depth ts')) = S (list_max (List.map depth ts))); now rewrite C|]. intros HF. apply full_node in HF as [N HF]. apply full_node. split; [|auto].
    intros ->. destruct ts; [easy|discriminate].
Qed.
Lemma clear_id h j r o : table h j = Some r -> clear h j -> objs h r = Some o -> obj_id o = j.
Proof.
  intros T C O. inversion C as [? ns k E|? ns c cs E]; subst; [apply shape_leaf in E as (r' & T' & O')|apply shape_node in E as (r' & l & ls & y & T' & O' & _)]; assert (r' = r) by congruence; subst r'; assert (X : Some o = objs h r) by now symmetry.
  all: rewrite O' in X; injection X as ->; reflexivity.
Qed.
Lemma smap_tab h cs ts : Forall2 (unfolds h) cs ts -> exists rs, smap tget cs h = (Ok rs, h) /\ Forall2 (fun c r => table h c = Some r) cs rs.
Proof.
  induction 1 as [|c t cs ts U _ (rs & E & F)]; [exists []; split; [reflexivity|constructor]|]. destruct (tget_u _ _ _ U) as (r & Er & _ & Tr). exists (r :: rs). split; [|now constructor].
  rewrite smap_cons, (run_ok _ _ _ _ _ Er), (run_ok _ _ _ _ _ E). reflexivity.
Qed.
Lemma set_compound_u b : forall f h r i t, wf h -> table h i = Some r -> unfolds h i t -> depth t <= f -> leafb t = false -> clear h i ->
  exists h', set_compound f r b h = (Ok tt, h') /\ marks h h'.
Proof.
  induction f as [|f IH]; intros h r i t W T U Hd Hn Cl; [pose proof (depth_pos t); lia|]. destruct t as [|ns c ts]; [discriminate|]. cbn [set_compound].
  apply unf_shape in U as (cs & Sh & Us). pose proof Sh as Sh0. apply shape_node in Sh as (r' & l & ls & y & T' & O & L). assert (r' = r) by congruence. subst r'.
  rewrite (run_ok _ _ _ _ _ (deref_ok _ _ _ O)).
  set (h1 := wo h r (ONode i ns l ls y b)). rewrite (run_ok (write_obj r _) _ h tt h1 eq_refl).
  assert (M1 : marks h h1).
  { assert (W1 : wf h1) by (apply (frame_wo h); [exact W|now apply (wf_obj h W r _ O)]). assert (Oth : forall j e, shape h j = Some e -> j <> i -> shape h1 j = Some e).
    { intros j e E Hj. destruct e as [n k|n c0 ks].
      - apply shape_leaf in E as (rj & Tj & Oj). apply shape_leaf. exists rj. split; [exact Tj|]. cbn. rewrite updN_other; [exact Oj|]. congruence.
      - apply shape_node in E as (rj & lj & lsj & yj & Tj & Oj & Lj). apply shape_node. exists rj, lj, lsj, yj. repeat apply conj; try assumption. cbn. rewrite updN_other; [exact Oj|]. congruence. }
    constructor; try assumption; try reflexivity; [|intros j e Aj E; apply Oth; [exact E|]; intros ->; exact (clear_not h i _ _ _ Cl Sh0 Aj)].
    intros j e E. destruct e as [n k|n c0 ks].
    - apply shape_leaf in E as (rj & Tj & Oj). apply shape_leaf. exists rj. split; [exact Tj|]. cbn. rewrite updN_other; [exact Oj|]. congruence.
    - apply shape_node in E as (rj & lj & lsj & yj & Tj & Oj & Lj). destruct (Nat.eq_dec rj r) as [->|Hr].
      + rewrite O in Oj. injection Oj as <- <- <- <- <- <-. exists b. apply shape_node. exists r, l, ls, y. repeat apply conj; try assumption. apply updN_same.
      + exists c0. apply shape_node. exists rj, lj, lsj, yj. repeat apply conj; try assumption. cbn. now rewrite updN_other. }
  pose proof (mk_wf _ _ M1) as W1.
  assert (X : exists ts1, Forall2 (unfolds h1) cs ts1 /\ Forall (fun t => depth t <= f) ts1).
  { apply depth_node in Hd. apply depth_forall in Hd. clear - HA Us Hd M1. induction Us as [|j t cs ts U _ IHs]; [exists []; split; constructor|]. inversion Hd as [|? ? Ha Hb]; subst.
    destruct (IHs Hb) as (ts1 & A & B). destruct (marks_unf _ _ M1 t j U) as (t' & U' & _ & _ & D' & _). exists (t' :: ts1). split; constructor; try assumption. lia. }
  destruct X as (ts1 & Us1 & Hd1).
  assert (R1 : tref h1 r (SNode ns b ts1)).
  { exists i. split; [exact T|]. apply unf_shape. exists cs. split; [|exact Us1]. apply shape_node. exists r, l, ls, y. repeat apply conj; try assumption. apply updN_same. }
  destruct (children_u _ _ _ _ _ R1) as (rs & Ec & Rs). rewrite (run_ok _ _ _ _ _ Ec).
  assert (Loop : forall rs ts h, wf h -> Forall2 (tref h) rs ts -> Forall (fun t => depth t <= f) ts -> Forall (fun r => exists j, table h j = Some r /\ clear h j) rs ->
    exists h', sfor (fun c => run oc <- deref c; if is_node oc then set_compound f c b else sret tt) rs h = (Ok tt, h') /\ marks h h').
  { clear - HA IH. induction rs as [|r rs IHr]; intros ts h W Rs Hd Hc; inversion Rs as [|r' t rs' ts' R Rs']; subst; [exists h; split; [reflexivity|now apply marks_refl]|]. inversion Hc as [|? ? Hc1 Hc2]; subst.
    inversion Hd as [|? ? Ha Hb]; subst. rewrite sfor_cons. destruct (deref_u _ _ _ R) as (o & E & Oo & _ & EN & _ & _ & Ti & Ui).
    assert (X : exists h1, (run oc <- deref r; if is_node oc then set_compound f r b else sret tt) h = (Ok tt, h1) /\ marks h h1).
    { rewrite (run_ok _ _ _ _ _ E), EN. destruct (leafb t) eqn:El; cbn [negb]; [exists h; split; [reflexivity|now apply marks_refl]|]. destruct Hc1 as (j & Tj & Cj). rewrite (clear_id h j r o Tj Cj Oo) in *. now apply (IH h r j t). }
    destruct X as (h1 & E1 & M1). rewrite (run_ok _ _ _ _ _ E1).
    assert (Y : exists ts1, Forall2 (tref h1) rs ts1 /\ Forall (fun t => depth t <= f) ts1).
    { clear - HA Rs' Hb M1. induction Rs' as [|r t rs ts (i & T & U) _ IHs]; [exists []; split; constructor|]. inversion Hb as [|? ? Ha Hc]; subst. destruct (IHs Hc) as (ts1 & A & B).
      destruct (marks_unf _ _ M1 t i U) as (t' & U' & _ & _ & D' & _). exists (t' :: ts1). split; constructor; try assumption; [|lia]. exists i. split; [now rewrite (mk_tab _ _ M1)|exact U']. }
    destruct Y as (ts1 & Rs1 & Hd1). destruct (IHr ts1 h1 (mk_wf _ _ M1) Rs1 Hd1) as (h2 & E2 & M2); [refine (Forall_impl _ _ Hc2); intros x (j & Tj & Cj); exists j; split; [now rewrite (mk_tab _ _ M1)|exact (marks_clear h h1 j M1 Cj)]|]. exists h2. split; [exact E2|now apply (marks_trans h h1)]. }
  assert (Hcl : Forall (fun r => exists j, table h1 j = Some r /\ clear h1 j) rs).
  { destruct (children_ids_u _ _ _ _ _ R1) as (cs' & E1 & Us1'). destruct (smap_tab _ _ _ Us1') as (rs' & E2 & F2). unfold children in Ec. rewrite (run_ok _ _ _ _ _ E1), E2 in Ec. injection Ec as ->.
    assert (cs' = cs). { assert (E1' : children_ids r h1 = (Ok cs, h1)) by (apply (children_ids_ok h1 r i ns l ls y b cs); [apply updN_same|exact L]). congruence. } subst cs'.
    assert (Cc : forall c0, In c0 cs -> clear h1 c0) by (intros c0 Hc; apply (marks_clear h h1 c0 M1); exact (clear_kid h i _ _ _ c0 Cl Sh0 Hc)).
    clear - HA F2 Cc. induction F2 as [|c0 x cs rs Hx _ IHx]; constructor; [exists c0; split; [exact Hx|apply Cc; now left]|]. apply IHx. intros z Hz. apply Cc. now right. }
  destruct (Loop rs ts1 h1 W1 Rs Hd1 Hcl) as (h2 & E2 & M2). exists h2. split; [exact E2|now apply (marks_trans h h1)].
Qed.
Lemma marks_kid h h' i j : Inv h -> marks h h' -> good h i -> kid h' i j -> kid h i j.
Proof.
  intros I M G (ns & c & cs & E & Hj). destruct (good_shape h i I G) as (e & E0). pose proof (mk_shape _ _ M i e E0) as E1. destruct e as [n k|n b ks]; [congruence|].
  destruct E1 as (c' & E1). assert (ks = cs) by congruence. subst. now exists n, b, cs.
Qed.
Lemma marks_le h h' : Inv h -> marks h h' -> le [] h h'.
Proof.
  intros I M. assert (Gd : forall i, good h' i -> good h i) by (intros i; unfold good; now rewrite (mk_cur _ _ M)). constructor.
  - constructor.
    + apply M.
    + rewrite (mk_cur _ _ M). apply I.
    + intros i G. destruct (inv_tree h I i (Gd i G)) as (t & U & F). destruct (marks_unf h h' M t i U) as (t' & U' & _ & _ & _ & F'). exists t'. auto.
    + intros i j G K. apply (good_mono h h'); [rewrite (mk_cur _ _ M); lia|]. apply (inv_kids h I i j (Gd i G)). exact (marks_kid h h' i j I M (Gd i G) K).
  - rewrite (mk_cur _ _ M). lia.
  - apply M.
  - intros i r _ T. now rewrite (mk_tab _ _ M).
  - intros i t G U F. destruct (marks_unf h h' M t i U) as (t' & U' & L' & B' & _ & F'). exists t'. split; [exact U'|]. split; [exact L'|]. split; [auto|exact B'].
  - intros i G U _. split.
    + intros j Gj K. apply (U j (Gd j Gj)). exact (marks_kid h h' j i I M (Gd j Gj) K).
    + intros ns c cs E. destruct (mk_shape _ _ M i _ E) as (c' & E'). eauto.
  - intros i Ai. destruct (good_shape h i I (or_introl (HA i Ai))) as (e & E). rewrite E. exact (mk_A _ _ M i e Ai E).
  - intros i _ C. exact (marks_clear h h' i M C).
Qed.

(** ** flatten *)

Definition ranked (rho : Z -> nat) (h : tree) : Prop := forall i j, good h i -> kid h i j -> rho j < rho i.
Lemma relink rho h h' i ns c c' cs cs' us : Inv h -> ranked rho h -> wf h' -> cur_id h' = cur_id h -> root_id h' = root_id h -> table h' = table h ->
  good h i -> shape h i = Some (ENode ns c cs) -> shape h' i = Some (ENode ns c' cs') -> (forall j, good h j -> j <> i -> shape h' j = shape h j) ->
  cs' <> [] -> Forall (good h) cs' -> (forall p, In p cs' -> rho p < rho i) -> Forall2 (unfolds h) cs' us -> (forall t, unfolds h i t -> labelled t = flat_map labelled us) -> clear h i -> Forall (clear h) cs' ->
  le (i :: cs') h h' /\ ranked rho h'.
Proof.
  intros I Rk W' Cu Rt Tb Gi Sh Sh' Oth Hne Gc Rc Us Lb Cli Clc. assert (Gd : forall j, good h' j -> good h j) by (intros j; unfold good; now rewrite Cu).
  assert (Kid : forall j k, good h j -> kid h' j k -> (j = i /\ In k cs') \/ (j <> i /\ kid h j k)).
  { intros j k Gj (n & b & ks & E & Hk). destruct (Z.eq_dec j i) as [->|Hn]; [left; split; [reflexivity|congruence]|]. right. split; [exact Hn|]. rewrite (Oth j Gj Hn) in E. now exists n, b, ks. }
  assert (Words : forall n k u, rho k < n -> good h k -> unfolds h k u -> exists u', unfolds h' k u' /\ same u u').
  { induction n as [|n IH]; intros k u Hr Gk U; [lia|]. pose proof (good_tree h k u I Gk U) as Fu.
    assert (Many : forall ks vs, (forall p, In p ks -> good h p /\ rho p < rho k) -> Forall2 (unfolds h) ks vs -> exists vs', Forall2 (unfolds h') ks vs' /\ Forall2 same vs vs').
    { intros ks vs Hks Hv. induction Hv as [|p v ks vs Hp _ IHv]; [exists []; split; constructor|]. destruct (Hks p (or_introl eq_refl)) as [Gp Rp].
      destruct (IH p v ltac:(lia) Gp Hp) as (v' & V' & S'). destruct IHv as (vs' & A & B); [intros q Hq; apply Hks; now right|]. exists (v' :: vs'). split; now constructor. }
    destruct (Z.eq_dec k i) as [->|Hn].
    - destruct (Many cs' us) as (us' & Us' & Ss'); [intros p Hp; rewrite Forall_forall in Gc; split; [now apply Gc|now apply Rc]|exact Us|].
      exists (SNode ns c' us'). split; [apply unf_shape; eauto|]. split; [cbn [labelled]; rewrite (same_flat _ _ Ss'); now rewrite (Lb u U)|]. split.
      + apply full_node. split; [intros ->; inversion Us'; subst; easy|]. clear - HA Ss'. induction Ss' as [|t t' ts ts' S _ IHs]; constructor; [apply S|assumption].
      + apply unf_shape in U. destruct u; [congruence|reflexivity].
    - destruct u as [n0 k0|n0 b0 vs].
      + exists (SLeaf n0 k0). split; [apply unf_shape; rewrite (Oth k Gk Hn); now apply unf_shape in U|now apply same_refl].
      + apply unf_shape in U as (ks & Ek & Uk). destruct (Many ks vs) as (vs' & Uv & Sv); [|exact Uk|].
        * intros p Hp. assert (Kp : kid h k p) by now exists n0, b0, ks. split; [now apply (inv_kids h I k p)|now apply Rk].
        * exists (SNode n0 b0 vs'). split; [apply unf_shape; exists ks; split; [now rewrite (Oth k Gk Hn)|exact Uv]|]. apply same_node; [now apply full_node in Fu as [N _]|exact Sv]. }
  split.
  - constructor.
    + constructor.
      * exact W'.
      * rewrite Cu. apply I.
      * intros k Gk. apply Gd in Gk. destruct (inv_tree h I k Gk) as (u & U & _). destruct (Words (S (rho k)) k u ltac:(lia) Gk U) as (u' & U' & S'). exists u'. split; [exact U'|apply S'].
      * intros j k Gj K. apply (good_mono h h'); [lia|]. apply Gd in Gj. destruct (Kid j k Gj K) as [[_ H]|[_ H]]; [rewrite Forall_forall in Gc; now apply Gc|now apply (inv_kids h I j k)].
    + lia.
    + exact Rt.
    + intros k r _ T. now rewrite Tb.
    + intros k t Gk U _. exact (Words (S (rho k)) k t (Nat.lt_succ_diag_r _) Gk U).
    + intros k Gk Uk Hn. split.
      * intros j Gj K. apply Gd in Gj. destruct (Kid j k Gj K) as [[_ H]|[_ H]]; [apply Hn; now right|now apply (Uk j)].
      * intros n b ks E. exists n, b. rewrite (Oth k Gk); [exact E|]. intros ->. apply Hn. now left.
    + intros k Ak. apply Oth; [exact (or_introl (HA k Ak))|]. intros ->. exact (clear_not h i _ _ _ Cli Sh Ak).
    + assert (Z : forall n k, rho k < n -> good h k -> clear h k -> clear h' k).
      { induction n as [|n IHn]; intros k Hr Gk Ck; [lia|]. destruct (Z.eq_dec k i) as [->|Hn].
        - apply (clear_node h' i ns c' cs' Sh' (clear_not h i _ _ _ Cli Sh)). intros j Hj. rewrite Forall_forall in Gc, Clc. apply IHn; [pose proof (Rc j Hj); lia|now apply Gc|now apply Clc].
        - inversion Ck as [? n0 k0 E|? n0 b ks E Na Kc]; subst; [apply (clear_leaf h' k n0 k0); now rewrite (Oth k Gk Hn)|]. apply (clear_node h' k n0 b ks); [now rewrite (Oth k Gk Hn)|exact Na|].
          intros j Hj. assert (Kj : kid h k j) by now exists n0, b, ks. apply IHn; [pose proof (Rk k j Gk Kj); lia|now apply (inv_kids h I k j)|now apply Kc]. }
      intros k Gk. exact (Z (S (rho k)) k (Nat.lt_succ_diag_r _) Gk).
  - intros j k Gj K. apply Gd in Gj. destruct (Kid j k Gj K) as [[-> H]|[_ H]]; [now apply Rc|now apply Rk].
Qed.

Lemma flatten_u rho : forall f h r i, Inv h -> ranked rho h -> good h i -> table h i = Some r -> rho i < f -> clear h i ->
  exists h', flatten f r h = (Ok tt, h') /\ le [i] h h' /\ ranked rho h'.
Proof.
  induction f as [|f IH]; intros h r i I Rk Gi T Hf Cli; [lia|]. pose proof (inv_wf h I) as W. cbn [flatten]. destruct (inv_tree h I i Gi) as (t & U & Fu).
  pose proof (unf_tref h i r t T U) as R. destruct (deref_u _ _ _ R) as (o & E & Ob & EL & _). rewrite (run_ok _ _ _ _ _ E), EL. destruct t as [ns k|ns c ts]; cbn [leafb].
  { exists h. split; [reflexivity|]. split; [|exact Rk]. apply (le_weaken [] [i]); [now apply le_refl|easy]. }
  apply unf_shape in U as (cs & Sh & Us). pose proof Sh as Sh0. apply shape_node in Sh as (r' & l & ls & y & T' & O & L). assert (r' = r) by congruence. subst r'.
  rewrite (run_ok _ _ _ _ _ (children_ids_ok _ _ _ _ _ _ _ _ _ O L)). apply full_node in Fu as [N Fu].
  assert (Kc : forall c0, In c0 cs -> kid h i c0) by (intros c0 Hc; exists ns, c, cs; now split).
  assert (Loop : forall cs ts h, Inv h -> ranked rho h -> Forall (fun c => (good h c /\ rho c < f) /\ clear h c) cs -> Forall2 (unfolds h) cs ts ->
    exists h' parts us, smap (fun c => run x <- tget c; flatten f x;;; run ox <- deref x; if is_terminal ox then sret [obj_id ox] else children_ids x) cs h = (Ok parts, h')
      /\ le cs h h' /\ ranked rho h' /\ Forall2 (unfolds h') (List.concat parts) us /\ flat_map labelled us = flat_map labelled ts
      /\ Forall (good h') (List.concat parts) /\ (forall p, In p (List.concat parts) -> exists c, In c cs /\ rho p <= rho c)
      /\ (forall k, good h k -> unref h k -> ~ In k cs -> ~ In k (List.concat parts)) /\ (cs <> [] -> List.concat parts <> []) /\ Forall (clear h') (List.concat parts)).
  { clear - HA IH. induction cs as [|c cs IHs]; intros ts h I Rk Hc Us; inversion Us as [|c' t cs' ts' U Us']; subst.
    - exists h, [], []. split; [reflexivity|]. split; [now apply le_refl|]. split; [exact Rk|]. split; [constructor|]. split; [reflexivity|]. split; [constructor|]. split; [intros p []|]. split; [easy|]. split; [easy|constructor].
    - inversion Hc as [|? ? [[Gc Rc] Clc] Hc']; subst. destruct (tget_u _ _ _ U) as (x & Ex & Rx & Tx). pose proof (good_tree h c t I Gc U) as Ft.
      destruct (IH h x c I Rk Gc Tx Rc Clc) as (h1 & E1 & L1 & Rk1). pose proof (le_clear _ _ _ L1 c Gc Clc) as Clc1. pose proof (le_inv _ _ _ L1) as I1. pose proof (le_tab _ _ _ L1 c x Gc Tx) as T1.
      destruct (le_words _ _ _ L1 c t Gc U Ft) as (t1 & U1 & S1). pose proof (le_good _ _ _ c L1 Gc) as Gc1. pose proof (unf_tref h1 c x t1 T1 U1) as R1.
      assert (X : exists part us1, (run ox <- deref x; if is_terminal ox then sret [obj_id ox] else children_ids x) h1 = (Ok part, h1) /\ Forall2 (unfolds h1) part us1
        /\ flat_map labelled us1 = labelled t /\ Forall (good h1) part /\ (forall p, In p part -> rho p <= rho c) /\ part <> [] /\ (forall k, unref h1 k -> k <> c -> ~ In k part) /\ Forall (clear h1) part).
      { destruct (deref_u _ _ _ R1) as (o & Eo & Oo & _ & _ & Et & _). rewrite (run_ok _ _ _ _ _ Eo), Et.
        assert (Eid : obj_id o = c). { destruct (good_obj h1 c x o I1 Gc1 T1 Oo) as (e & _ & Y). destruct o; destruct Y as [Y _]; exact Y. }
        destruct (terminal t1) eqn:Et1.
        - exists [obj_id o], [t1]. rewrite Eid. split; [reflexivity|]. split; [constructor; [exact U1|constructor]|]. split; [cbn; rewrite app_nil_r; apply S1|]. split; [constructor; [exact Gc1|constructor]|].
          split; [intros p [<-|[]]; lia|]. split; [discriminate|]. split; [intros k _ Hk [Hp|[]]; congruence|constructor; [exact Clc1|constructor]].
        - destruct t1 as [|n1 [|] us1]; try discriminate Et1. apply unf_shape in U1 as (ks & Ek & Uk). pose proof Ek as Ek0. apply shape_node in Ek as (r' & l & ls & y & T' & O' & L').
          assert (r' = x) by congruence. subst r'. exists ks, us1. split; [exact (children_ids_ok _ _ _ _ _ _ _ _ _ O' L')|]. split; [exact Uk|]. split; [apply S1|].
          assert (Kk : forall p, In p ks -> kid h1 c p) by (intros p Hp; exists n1, false, ks; now split).
          split; [apply Forall_forall; intros p Hp; apply (inv_kids h1 I1 c p Gc1); now apply Kk|]. split; [intros p Hp; pose proof (Rk1 c p Gc1 (Kk p Hp)); lia|].
          split. { destruct S1 as (_ & F1 & _). apply full_node in F1 as [N1 _]. intros ->. inversion Uk; subst; easy. }
          split; [intros k Uk1 _ Hp; now apply (Uk1 c Gc1), Kk|]. apply Forall_forall. intros p Hp. exact (clear_kid h1 c _ _ _ p Clc1 Ek0 Hp). }
      destruct X as (part & us1 & Ep & Up & Lp & Gp & Rp & Np & Kp & Cp).
      assert (Gcs : Forall (good h) cs) by (apply Forall_forall; intros z Hz; rewrite Forall_forall in Hc'; now apply (Hc' z)).
      destruct (le_forall2 _ _ _ _ _ L1 Gcs I Us') as (ts1 & Us1 & Ss1).
      destruct (IHs ts1 h1 I1 Rk1) as (h2 & parts & us2 & E2 & L2 & Rk2 & U2 & Lb2 & G2 & R2 & K2 & N2 & Cl2); [|exact Us1|].
      { apply Forall_forall. intros z Hz. rewrite Forall_forall in Hc'. destruct (Hc' z Hz) as [[? ?] ?]. split; [split; [now apply (le_good _ _ _ z L1)|assumption]|now apply (le_clear _ _ _ L1)]. }
      destruct (le_forall2 _ _ _ _ _ L2 Gp I1 Up) as (us1' & Up' & Sp').
      exists h2, (part :: parts), (us1' ++ us2). split.
      { rewrite smap_cons. rewrite sbind_assoc, (run_ok _ _ _ _ _ Ex), sbind_assoc, (run_ok _ _ _ _ _ E1), (run_ok _ _ _ _ _ Ep), (run_ok _ _ _ _ _ E2). reflexivity. }
      split; [change (c :: cs) with ([c] ++ cs); now apply (le_trans2 _ _ h h1)|]. split; [exact Rk2|]. cbn [List.concat]. split; [now apply Forall2_app|].
      split. { rewrite flat_map_app. cbn. rewrite Lb2, (same_flat _ _ Ss1), (same_flat _ _ Sp'), Lp. reflexivity. }
      split. { apply Forall_app. split; [|exact G2]. apply Forall_forall. intros p Hp. rewrite Forall_forall in Gp. apply (le_good _ _ _ p L2). now apply Gp. }
      split. { intros p Hp. apply in_app_iff in Hp as [Hp|Hp]; [exists c; split; [now left|now apply Rp]|]. destruct (R2 p Hp) as (c0 & Hc0 & Hr). exists c0. split; [now right|exact Hr]. }
      split.
      + intros k Gk Uk Hn Hp. assert (Hkc : k <> c) by (intros ->; apply Hn; now left). destruct (le_keep _ _ _ L1 k Gk Uk) as [Uk1 _]; [intros [H|[]]; congruence|].
        apply in_app_iff in Hp as [Hp|Hp]; [now apply (Kp k Uk1 Hkc)|]. apply (K2 k); [now apply (le_good _ _ _ k L1)|exact Uk1| |exact Hp]. intros H. apply Hn. now right.
      + split; [intros _ H; apply app_eq_nil in H as [H _]; easy|]. apply Forall_app. split; [|exact Cl2]. apply Forall_forall. intros p Hp. rewrite Forall_forall in Gp, Cp. apply (le_clear _ _ _ L2); auto. }
  destruct (Loop cs ts h I Rk) as (h1 & parts & us & E1 & L1 & Rk1 & U1 & Lb1 & G1 & R1 & K1 & N1 & Cl1); [|exact Us|].
  { apply Forall_forall. intros c0 Hc. split; [|exact (clear_kid h i _ _ _ c0 Cli Sh0 Hc)]. split; [now apply (inv_kids h I i c0 Gi), Kc|]. pose proof (Rk i c0 Gi (Kc c0 Hc)). lia. }
  rewrite (run_ok _ _ _ _ _ E1). pose proof (le_inv _ _ _ L1) as I1. pose proof (inv_wf h1 I1) as W1. pose proof (le_good _ _ _ i L1 Gi) as Gi1. pose proof (le_tab _ _ _ L1 i r Gi T) as T1.
  destruct (new_list_ok h1 (List.concat parts) W1) as (h2 & E2 & Fr2 & Rt2 & Tb2 & Cu2 & Ob2 & _ & L2 & Nl2). rewrite (run_ok _ _ _ _ _ E2).
  assert (Ut : unfolds h i (SNode ns c ts)) by (apply unf_shape; eauto). assert (Ft : full (SNode ns c ts)) by (apply full_node; now split).
  destruct (le_words _ _ _ L1 i _ Gi Ut Ft) as (t1 & Ut1 & S1). destruct t1 as [n1 k1|n1 c1 ts1]; [destruct S1 as (_ & _ & X); discriminate|].
  pose proof Ut1 as Ut1'. apply unf_shape in Ut1 as (cs1 & Sh1 & _). pose proof Sh1 as Sh1'. apply shape_node in Sh1 as (r' & l1 & ls1 & y1 & T1' & O1 & L1'). assert (r' = r) by congruence. subst r'.
  assert (O2 : objs h2 r = Some (ONode i n1 l1 ls1 y1 c1)) by now rewrite Ob2. rewrite (run_ok _ _ _ _ _ (deref_ok _ _ _ O2)).
  set (h3 := wo h2 r (ONode i n1 (n_list h1) ls1 y1 c1)).
  assert (W2 : wf h2) by apply Fr2. assert (W3 : wf h3) by (apply (frame_wo h2); [exact W2|now apply (wf_obj h2 W2 r _ O2)]).
  destruct (relink rho h1 h3 i n1 c1 c1 cs1 (List.concat parts) us) as [L3 Rk3]; try assumption.
  - apply shape_node. exists r, (n_list h1), ls1, y1. repeat apply conj; [cbn; now rewrite Tb2|apply updN_same|exact L2].
  - intros j Gj Hn. destruct (good_shape h1 j I1 Gj) as (e & Ee). pose proof (frame_shape h1 h2 j e W1 Fr2 Ee) as Ee2. rewrite Ee. destruct e as [n k|n b ks].
    + apply shape_leaf in Ee2 as (rj & Tj & Oj). apply shape_leaf. exists rj. split; [exact Tj|]. cbn. rewrite updN_other; [exact Oj|]. congruence.
    + apply shape_node in Ee2 as (rj & lj & lsj & yj & Tj & Oj & Lj). apply shape_node. exists rj, lj, lsj, yj. repeat apply conj; try assumption. cbn. rewrite updN_other; [exact Oj|]. congruence.
  - apply N1. intros ->. inversion Us; subst; easy.
  - intros p Hp. destruct (R1 p Hp) as (c0 & Hc0 & Hr). pose proof (Rk i c0 Gi (Kc c0 Hc0)). lia.
  - intros t Ut'. rewrite (unfolds_fun h1 i t Ut' _ Ut1'). destruct S1 as (S1 & _). rewrite S1. cbn [labelled]. now rewrite Lb1.
  - exact (le_clear _ _ _ L1 i Gi Cli).
  - exists h3. split; [reflexivity|]. split; [|exact Rk3]. apply (le_weaken (cs ++ i :: List.concat parts)); [now apply (le_trans2 _ _ h h1)|].
    intros x Hx Gx Ux. assert (Hxc : ~ In x cs) by (intros H; now apply (Ux i Gi), Kc).
    apply in_app_iff in Hx as [Hx|[Hx|Hx]]; [easy|now left|]. exfalso. now apply (K1 x Gx Ux Hxc).
Qed.

(** the depth is a rank *)
Fixpoint rk (f : nat) (h : tree) (i : Z) : nat :=
  match f with
  | O => 0
  | S f => match shape h i with Some (ENode _ _ cs) => S (list_max (List.map (rk f h) cs)) | _ => 1 end
  end.
Lemma rk_depth h : forall f t i, unfolds h i t -> depth t <= f -> rk f h i = depth t.
Proof.
  induction f as [|f IH]; intros t i U Hd; [pose proof (depth_pos t); lia|]. cbn [rk]. destruct t as [ns k|ns c ts]; apply unf_shape in U.
  - now rewrite U.
  - destruct U as (cs & -> & Us). change (depth (SNode ns c ts)) with (S (list_max (List.map depth ts))). f_equal. f_equal. apply depth_node in Hd. apply depth_forall in Hd.
    clear - HA IH Us Hd. induction Us as [|i t cs ts U _ IHs]; [reflexivity|]. inversion Hd; subst. cbn. f_equal; auto.
Qed.
Lemma rk_ranked h : Inv h -> ranked (rk (n_obj h) h) h.
Proof.
  intros I i j G K. destruct (inv_tree h I i G) as (t & U & _). destruct (kid_unf h i j t U K) as (ns & c & ts & u & -> & Hu & Uj). pose proof (inv_wf h I) as W.
  pose proof (unf_depth h i _ W U) as D. rewrite (rk_depth h _ _ i U D), (rk_depth h _ u j Uj); [|exact (unf_depth h j u W Uj)].
  change (depth (SNode ns c ts)) with (S (list_max (List.map depth ts))).
  pose proof (depth_in u ts (list_max (List.map depth ts)) Hu (Nat.le_refl _)). lia.
Qed.

(** ** Words of an element *)

Hypothesis W0 : wf h0.

Definition W (h : tree) (i : Z) (l : list (option str * token)) : Prop := good h i /\ exists t, unfolds h i t /\ labelled t = l.
Lemma W_good h i l : W h i l -> good h i.
Proof. now intros [G _]. Qed.
Lemma W_le X h h' i l : Inv h -> le X h h' -> W h i l -> W h' i l.
Proof.
  intros I L [G (t & U & E)]. split; [now apply (le_good X h h')|]. destruct (le_words _ _ _ L i t G U (good_tree h i t I G U)) as (t' & U' & S'). exists t'. split; [exact U'|].
  rewrite <- E. apply S'.
Qed.
Lemma W_le2 X h h' cs ls : Inv h -> le X h h' -> Forall2 (W h) cs ls -> Forall2 (W h') cs ls.
Proof. intros I L. induction 1; constructor; [now apply (W_le X h h')|assumption]. Qed.
Lemma W_fun h i l l' : W h i l -> W h i l' -> l = l'.
Proof. intros [_ (t & U & E)] [_ (t' & U' & E')]. rewrite <- E, <- E'. f_equal. now apply (unfolds_fun h i). Qed.
Lemma W_trees h cs ls : Forall2 (W h) cs ls -> exists ts, Forall2 (unfolds h) cs ts /\ List.map labelled ts = ls.
Proof. induction 1 as [|i l cs ls [_ (t & U & E)] _ (ts & A & B)]; [exists []; split; [constructor|reflexivity]|]. exists (t :: ts). split; [now constructor|]. cbn. now rewrite E, B. Qed.
Lemma trees_W h cs ts : Forall (good h) cs -> Forall2 (unfolds h) cs ts -> Forall2 (W h) cs (List.map labelled ts).
Proof. intros G H. induction H as [|i t cs ts U _ IH]; [constructor|]. inversion G; subst. cbn. constructor; [split; [assumption|now exists t]|auto]. Qed.
Lemma W_goods h cs ls : Forall2 (W h) cs ls -> Forall (good h) cs.
Proof. induction 1 as [|i l cs ls [G _] _ IH]; now constructor. Qed.
Lemma labelled_concat ns c ts : labelled (SNode ns c ts) = List.concat (List.map labelled ts).
Proof. cbn. now rewrite flat_map_concat_map. Qed.
Lemma full_words t : full t -> labelled t <> [].
Proof.
  induction t as [ns k|ns c ts IH] using stree_ind'; [discriminate|]. intros F. apply full_node in F as [N F]. destruct ts as [|t ts]; [easy|].
  inversion IH as [|? ? H _]; subst. inversion F as [|? ? Ft _]; subst. cbn. intros E. apply app_eq_nil in E as [E _]. now apply H.
Qed.
Lemma W_words h i l : Inv h -> W h i l -> 1 <= List.length l.
Proof.
  intros I [G (t & U & E)]. pose proof (full_words t (good_tree h i t I G U)) as N. rewrite E in N. destruct l; [easy|cbn; lia].
Qed.
Lemma W_frame h h' i l : wf h -> frame h h' [] -> W h i l -> W h' i l.
Proof. intros Wf Fr [G (t & U & E)]. split; [apply (good_mono h h'); [apply Fr|exact G]|]. exists t. split; [now apply (frame_unf h h')|exact E]. Qed.
Lemma W_frame2 h h' cs ls : wf h -> frame h h' [] -> Forall2 (W h) cs ls -> Forall2 (W h') cs ls.
Proof. intros Wf Fr. induction 1; constructor; [now apply (W_frame h h')|assumption]. Qed.

(** an element with children [cs], of words [ls], that is nobody's child *)
Record free (h : tree) (i : Z) (r : nat) (cs : list Z) (ls : list (list (option str * token))) : Prop := {
  fe_tab : table h i = Some r;
  fe_good : good h i;
  fe_unref : unref h i;
  fe_shape : exists ns c, shape h i = Some (ENode ns c cs);
  fe_words : Forall2 (W h) cs ls }.
Lemma free_le X h h' i r cs ls : Inv h -> le X h h' -> ~ In i X -> free h i r cs ls -> free h' i r cs ls.
Proof.
  intros I L Hn [T G U (ns & c & S) Ws]. destruct (le_keep _ _ _ L i G U Hn) as [U' K]. constructor.
  - exact (le_tab _ _ _ L i r G T).
  - exact (le_good _ _ _ i L G).
  - exact U'.
  - destruct (K ns c cs S) as (n' & c' & S'). eauto.
  - now apply (W_le2 X h h').
Qed.
Lemma free_kids h i r cs ls : free h i r cs ls -> children_ids r h = (Ok cs, h).
Proof. intros [T G U (ns & c & S) Ws]. apply shape_node in S as (r' & l & lsy & y & T' & O & L). assert (r' = r) by congruence. subst. exact (children_ids_ok _ _ _ _ _ _ _ _ _ O L). Qed.
Lemma free_node h i r cs ls : free h i r cs ls -> exists o, deref r h = (Ok o, h) /\ is_node o = true /\ is_leaf o = false.
Proof. intros [T G U (ns & c & S) Ws]. apply shape_node in S as (r' & l & lsy & y & T' & O & L). assert (r' = r) by congruence. subst. eexists. split; [exact (deref_ok _ _ _ O)|]. now split. Qed.
Lemma free_kid h i r cs ls j : free h i r cs ls -> In j cs -> kid h i j.
Proof. intros [T G U (ns & c & S) Ws] H. now exists ns, c, cs. Qed.
Lemma free_tree h i r cs ls : Inv h -> free h i r cs ls -> exists ns c ts, unfolds h i (SNode ns c ts) /\ full (SNode ns c ts) /\ Forall2 (unfolds h) cs ts /\ List.map labelled ts = ls.
Proof.
  intros I [T G U (ns & c & S) Ws]. destruct (W_trees _ _ _ Ws) as (ts & A & B). exists ns, c, ts. assert (U' : unfolds h i (SNode ns c ts)) by (apply unf_shape; eauto).
  split; [exact U'|]. split; [now apply (good_tree h i)|]. now split.
Qed.
Lemma free_nonempty h i r cs ls : Inv h -> free h i r cs ls -> cs <> [].
Proof. intros I Fe. destruct (free_tree _ _ _ _ _ I Fe) as (ns & c & ts & _ & F & A & _). apply full_node in F as [N _]. intros ->. inversion A; subst. easy. Qed.
Lemma W_tget h i l : W h i l -> exists r, tget i h = (Ok r, h) /\ table h i = Some r.
Proof. intros [_ (t & U & _)]. destruct (tget_u _ _ _ U) as (r & E & _ & T). eauto. Qed.

(** ** New nodes, and writing their lists *)

Lemma keep_unref h h' i : Inv h -> (forall j, good h j -> j <> i -> shape h' j = shape h j) -> unref h i -> forall t k, good h k -> k <> i -> unfolds h k t -> unfolds h' k t.
Proof.
  intros I Oth Un. induction t as [n k|n b us IH] using stree_ind'; intros j Gj Hn Uj; apply unf_shape in Uj; apply unf_shape; rewrite (Oth j Gj Hn); [exact Uj|].
  destruct Uj as (ks & Ej & Uk). exists ks. split; [exact Ej|].
  assert (Gk : forall k, In k ks -> good h k /\ k <> i). { intros k Hk. assert (Kk : kid h j k) by now exists n, b, ks. split; [now apply (inv_kids h I j k)|]. intros ->. now apply (Un j). }
  clear Ej. induction Uk as [|k u ks us Uu _ IHk]; [constructor|]. inversion IH; subst. constructor; [|apply IHk; [assumption|intros z Hz; apply Gk; now right]].
  destruct (Gk k (or_introl eq_refl)). auto.
Qed.
Lemma keep_small h h' i Ti : Inv h -> (forall j, good h j -> j <> i -> shape h' j = shape h j) -> unfolds h i Ti -> forall t k, good h k -> depth t < depth Ti -> unfolds h k t -> unfolds h' k t.
Proof.
  intros I Oth Ui. induction t as [n k|n b us IH] using stree_ind'; intros j Gj Hd Uj.
  - assert (Hn : j <> i) by (intros ->; rewrite (unfolds_fun h i _ Uj _ Ui) in Hd; lia). apply unf_shape in Uj. apply unf_shape. now rewrite (Oth j Gj Hn).
  - assert (Hn : j <> i) by (intros ->; rewrite (unfolds_fun h i _ Uj _ Ui) in Hd; lia). apply unf_shape in Uj. apply unf_shape. rewrite (Oth j Gj Hn). destruct Uj as (ks & Ej & Uk). exists ks. split; [exact Ej|].
    assert (Gk : forall k, In k ks -> good h k) by (intros k Hk; apply (inv_kids h I j k Gj); now exists n, b, ks).
    assert (Hdu : forall u, In u us -> depth u < depth Ti). { intros u Hu. change (depth (SNode n b us)) with (S (list_max (List.map depth us))) in Hd. pose proof (depth_in u us (list_max (List.map depth us)) Hu (Nat.le_refl _)). lia. }
    clear Ej Hd Hn. induction Uk as [|k u ks us Uu _ IHk]; [constructor|]. inversion IH; subst. constructor.
    + apply H1; [apply Gk; now left|apply Hdu; now left|exact Uu].
    + apply IHk; [assumption|intros z Hz; apply Gk; now right|intros z Hz; apply Hdu; now right].
Qed.

Record fresh (X : list Z) (ha h : tree) (i : Z) (r l : nat) (c : bool) (cs : list Z) (ls : list (list (option str * token))) : Prop := {
  fs_grow : grow X ha h;
  fs_new : (cur_id ha <= i < cur_id h)%Z;
  fs_tab : table h i = Some r;
  fs_obj : exists ns lsy y, objs h r = Some (ONode i ns l lsy y c);
  fs_list : lists h l = Some cs;
  fs_lnew : n_list ha <= l;
  fs_owned : owned h i l;
  fs_unref : unref h i;
  fs_al : Forall (allowed X ha h) cs;
  fs_words : Forall2 (W h) cs ls }.
Lemma fresh_good X ha h i r l c cs ls : Inv ha -> fresh X ha h i r l c cs ls -> good h i.
Proof. intros I [G N T O L Ln Ow Un Al Ws]. right. pose proof (inv_cur ha I). lia. Qed.
Lemma fresh_free X ha h i r l c cs ls : Inv ha -> fresh X ha h i r l c cs ls -> free h i r cs ls.
Proof.
  intros I Fs. pose proof (fresh_good _ _ _ _ _ _ _ _ _ I Fs) as Gi. destruct Fs as [G N T (ns & lsy & y & O) L Ln Ow Un Al Ws]. constructor; try assumption. exists ns, c. apply shape_node. eauto 10.
Qed.
Lemma fresh_write X ha h i r l c cs ls cs' ls' : Inv ha -> fresh X ha h i r l c cs ls -> cs' <> [] -> Forall (allowed X ha h) cs' -> Forall2 (W h) cs' ls' -> ~ In i cs' ->
  fresh X ha (wl h l cs') i r l c cs' ls' /\ (forall k, good h k -> unref h k -> ~ In k cs' -> unref (wl h l cs') k) /\ (forall k m, W h k m -> k <> i -> W (wl h l cs') k m).
Proof.
  intros Ia [G N T (ns & lsy & y & O) L Ln Ow Un Al Ws] Hne Al' Ws' Hi. pose proof (grow_inv X ha h Ia G) as Ih. pose proof (inv_wf h Ih) as Wf.
  destruct (wl_shapes h i r ns l lsy y c cs' Ih T O Ow) as [Oth Sh]. set (h' := wl h l cs') in *.
  assert (Wf' : wf h') by (apply (frame_wl h); [exact Wf|now apply (wf_lst h Wf l _ L)]).
  assert (Kw : forall k m, W h k m -> k <> i -> W h' k m).
  { intros k m [Gk (t & U & E)] Hk. split; [exact Gk|]. exists t. split; [|exact E]. now apply (keep_unref h h' i Ih Oth Un). }
  assert (Ws2 : Forall2 (W h') cs' ls').
  { clear - HA Ws' Kw Hi. clearbody h'. induction Ws' as [|k m cs' ls' Hk _ IH]; [constructor|]. constructor; [apply Kw; [exact Hk|]; intros ->; apply Hi; now left|]. apply IH. intros H. apply Hi. now right. }
  destruct (W_trees _ _ _ Ws2) as (ts & Us & _).
  assert (Gd : forall j, good h' j -> good h j) by (intros j; exact (fun H => H)).
  assert (Fu : Forall full ts).
  { destruct (W_trees _ _ _ Ws') as (ts0 & Us0 & _). clear - HA Ih Ws' Us Us0 Kw Hi Oth Un W0.
    assert (X0 : forall k t, In k cs' -> good h k -> unfolds h' k t -> full t).
    { intros k t Hk Gk U. destruct (inv_tree h Ih k Gk) as (t0 & U0 & F0). assert (k <> i) by (intros ->; easy). pose proof (keep_unref h h' i Ih Oth Un t0 k Gk H U0) as U1. now rewrite (unfolds_fun h' k _ U _ U1). }
    pose proof (W_goods _ _ _ Ws') as Gs. clear Ws' Us0 Hi Kw Oth. clearbody h'. induction Us as [|k t cs' ts U _ IH]; [constructor|]. inversion Gs; subst. constructor; [apply (X0 k); [now left|assumption|exact U]|]. apply IH; [intros z u Hz; apply X0; now right|assumption]. }
  assert (G' : grow X ha h').
  { apply (grow_write X ha h h' i ns c cs' ts); try assumption; try reflexivity. apply frame_skip_list; [apply G|exact Wf'|exact Ln]. }
  split; [|split].
  - constructor; try assumption; [eauto|apply updN_same|].
    intros j Gj K. destruct (Z.eq_dec j i) as [->|Hn].
    + destruct K as (n & b & ks & E & Hk). assert (ks = cs') by congruence. now subst.
    + apply (Un j (Gd j Gj)). destruct K as (n & b & ks & E & Hk). rewrite (Oth j (Gd j Gj) Hn) in E. now exists n, b, ks.
  - intros k Gk Uk Hk j Gj K. destruct (Z.eq_dec j i) as [->|Hn].
    + destruct K as (n & b & ks & E & Hk'). assert (ks = cs') by congruence. now subst.
    + apply (Uk j (Gd j Gj)). destruct K as (n & b & ks & E & Hk'). rewrite (Oth j (Gd j Gj) Hn) in E. now exists n, b, ks.
  - exact Kw.
Qed.
Lemma write_clear X ha h i r l c cs ls cs' k : Inv ha -> fresh X ha h i r l c cs ls -> good h k -> k <> i -> clear h k -> clear (wl h l cs') k.
Proof.
  intros Ia [G N T (ns & lsy & y & O) L Ln Ow Un Al Ws] Gk Hk C. pose proof (grow_inv X ha h Ia G) as Ih. destruct (wl_shapes h i r ns l lsy y c cs' Ih T O Ow) as [Oth _].
  induction C as [k n k0 E|k n b ks E Na K] using clear_ind'; [apply (clear_leaf _ k n k0); now rewrite (Oth k Gk Hk)|]. apply (clear_node _ k n b ks); [now rewrite (Oth k Gk Hk)|exact Na|].
  intros j Hj. assert (Kj : kid h k j) by now exists n, b, ks. apply K; [exact Hj|now apply (inv_kids h Ih k j)|]. intros ->. now apply (Un k).
Qed.
Lemma clear_small h h' i Ti : Inv h -> (forall j, good h j -> j <> i -> shape h' j = shape h j) -> unfolds h i Ti -> forall t k, good h k -> depth t < depth Ti -> unfolds h k t -> clear h k -> clear h' k.
Proof.
  intros I Oth Ui. induction t as [n k|n b us IH] using stree_ind'; intros j Gj Hd Uj Cj; assert (Hn : j <> i) by (intros ->; rewrite (unfolds_fun h i _ Uj _ Ui) in Hd; lia); apply unf_shape in Uj.
  - apply (clear_leaf h' j n k). now rewrite (Oth j Gj Hn).
  - destruct Uj as (ks & Ej & Uk). apply (clear_node h' j n b ks); [now rewrite (Oth j Gj Hn)|exact (clear_not h j _ _ _ Cj Ej)|].
    assert (Gk : forall k, In k ks -> good h k) by (intros k Hk; apply (inv_kids h I j k Gj); now exists n, b, ks).
    assert (Ck : forall k, In k ks -> clear h k) by (intros k Hk; exact (clear_kid h j _ _ _ k Cj Ej Hk)).
    assert (Hdu : forall u, In u us -> depth u < depth Ti). { intros u Hu. change (depth (SNode n b us)) with (S (list_max (List.map depth us))) in Hd. pose proof (depth_in u us (list_max (List.map depth us)) Hu (Nat.le_refl _)). lia. }
    clear Ej Hd Hn. induction Uk as [|k u ks us Uu _ IHk]; [intros z []|]. inversion IH; subst. intros z [<-|Hz].
    + apply (H1 k); [apply Gk; now left|apply Hdu; now left|exact Uu|apply Ck; now left].
    + apply IHk; [assumption| | | |exact Hz]; intros z0 Hz0; [apply Gk|apply Ck|apply Hdu]; now right.
Qed.
Lemma fresh_create X ha h ids ls : Inv ha -> grow X ha h -> ids <> [] -> Forall (allowed X ha h) ids -> Forall2 (W h) ids ls ->
  exists h', create_node_of ids h = (Ok (n_obj h), h') /\ fresh X ha h' (cur_id h) (n_obj h) (n_list h) false ids ls /\ al h h' /\ (forall k, good h k -> unref h k -> ~ In k ids -> unref h' k).
Proof.
  intros Ia G Hne Al Ws. destruct (W_trees _ _ _ Ws) as (ts & Us & Es). pose proof (grow_inv X ha h Ia G) as Ih. pose proof (inv_wf h Ih) as Wf.
  destruct (grow_create X ha h ids ts W0 Ia G Hne Al Us) as (h' & E & G' & A & Cu & T & O & L & Un & Ow & K). exists h'. split; [exact E|]. split; [|now split].
  constructor; try assumption.
  - pose proof (fr_cur _ _ _ (gr_frame _ _ _ G)). lia.
  - eauto.
  - apply (gr_frame _ _ _ G).
  - apply Forall_forall. intros z Hz. rewrite Forall_forall in Al. apply (allowed_mono X ha h h'); [lia|now apply Al].
  - apply (W_frame2 h h' _ _ Wf (proj1 A) Ws).
Qed.
Lemma fresh_clone_f f X ha h i r cs ls : Inv ha -> grow X ha h -> good h i -> table h i = Some r -> (exists ns c, shape h i = Some (ENode ns c cs)) -> Forall2 (W h) cs ls -> (forall t, unfolds h i t -> depth t <= f) ->
  exists h' y i' l c cs', clone f r h = (Ok y, h') /\ fresh X ha h' i' y l c cs' ls /\ al h h' /\ (cur_id h <= i')%Z /\ n_list h <= l /\ (forall k, good h k -> unref h k -> unref h' k)
    /\ (exists ns, shape h i = Some (ENode ns c cs)) /\ cs' <> [] /\ clear h' i'.
Proof.
  intros Ia G Gi T (ns & c & Sh) Ws Hf. pose proof (grow_inv X ha h Ia G) as Ih. pose proof (inv_wf h Ih) as Wf. destruct (W_trees _ _ _ Ws) as (ts & Us & Es).
  assert (U : unfolds h i (SNode ns c ts)) by (apply unf_shape; eauto).
  destruct (clone_ok X ha W0 Ia f h r i (SNode ns c ts) G Gi T U) as (h' & y & i' & E & G' & A & T' & Cl' & N & Un & K & l & cs' & ts' & O & Hl & L & Us' & Ss & Ow); [now apply Hf|].
  assert (HC : (cur_id ha <= cur_id h)%Z) by apply (gr_frame _ _ _ G). assert (HL : n_list ha <= n_list h) by apply (gr_frame _ _ _ G).
  assert (I' : Inv h') by exact (grow_inv X ha h' Ia G').
  assert (Gi' : good h' i') by (right; pose proof (inv_cur h Ih); lia).
  assert (Sh' : shape h' i' = Some (ENode None c cs')) by (apply shape_node; eauto 10).
  assert (Kc : forall k, In k cs' -> kid h' i' k) by (intros k Hk; now exists None, c, cs').
  exists h', y, i', l, c, cs'. split; [exact E|]. split; [|split; [exact A|split; [lia|split; [lia|split; [exact K|split; [eauto|split; [|exact Cl']]]]]]].
  - constructor; try assumption; [lia|eauto|lia| |].
    + apply Forall_forall. intros k Hk. apply (gr_kids _ _ _ G' i' k); [lia|now apply Kc].
    + rewrite <- Es. assert (Em : List.map labelled ts' = List.map labelled ts) by (clear - HA Ss; induction Ss as [|t t' ts ts' S _ IH]; [reflexivity|]; cbn; f_equal; [apply S|exact IH]). rewrite <- Em.
      apply trees_W; [|exact Us']. apply Forall_forall. intros k Hk. now apply (inv_kids h' I' i' k Gi'), Kc.
  - intros ->. inversion Us'; subst. inversion Ss; subst. pose proof (good_tree h i _ Ih Gi U) as F. apply full_node in F as [N0 _]. easy.
Qed.
Lemma fresh_clone X ha h i r cs ls : Inv ha -> grow X ha h -> good h i -> table h i = Some r -> (exists ns c, shape h i = Some (ENode ns c cs)) -> Forall2 (W h) cs ls ->
  exists h' y i' l c cs', clone (S (n_obj h)) r h = (Ok y, h') /\ fresh X ha h' i' y l c cs' ls /\ al h h' /\ (cur_id h <= i')%Z /\ n_list h <= l /\ (forall k, good h k -> unref h k -> unref h' k)
    /\ (exists ns, shape h i = Some (ENode ns c cs)) /\ cs' <> [] /\ clear h' i'.
Proof.
  intros Ia G Gi T Sh Ws. apply (fresh_clone_f (S (n_obj h))); try assumption. intros t U. pose proof (unf_depth h i t (inv_wf h (grow_inv X ha h Ia G)) U). lia.
Qed.

Lemma le_comp X Y Z h h1 h2 : le X h h1 -> le Y h1 h2 -> (forall x, In x (X ++ Y) -> good h x -> unref h x -> In x Z) -> le Z h h2.
Proof. intros L1 L2 H. apply (le_weaken (X ++ Y)); [now apply (le_trans2 X Y h h1)|exact H]. Qed.
Lemma allowed_kid X h i j : Inv h -> good h i -> kid h i j -> allowed X h h j.
Proof. intros I G K. right. split; [now apply (inv_kids h I i j)|left; now exists i]. Qed.
Lemma allowed_grow X h h' j : grow X h h' -> allowed X h h j -> allowed X h h' j.
Proof. intros G. apply allowed_mono. apply (gr_frame _ _ _ G). Qed.

(** the ids of a node read through kids_ref *)
Lemma fresh_ref X ha h i r l c cs ls : fresh X ha h i r l c cs ls -> kids_ref r h = (Ok l, h) /\ read_list l h = (Ok cs, h) /\ children_ids r h = (Ok cs, h).
Proof.
  intros [G N T (ns & lsy & y & O) L Ln Ow Un Al Ws]. assert (K : kids_ref r h = (Ok l, h)) by (unfold kids_ref; now rewrite (run_ok _ _ _ _ _ (deref_ok _ _ _ O))).
  assert (R : read_list l h = (Ok cs, h)) by (unfold read_list; now rewrite L). split; [exact K|]. split; [exact R|]. unfold children_ids. now rewrite (run_ok _ _ _ _ _ K).
Qed.
Lemma fresh_fuel X ha h i r l c cs ls : Inv ha -> fresh X ha h i r l c cs ls -> le X ha h.
Proof. intros I Fs. apply grow_le; [exact I|apply Fs]. Qed.
Lemma not_new h i j : Inv h -> good h i -> (cur_id h <= j)%Z -> i <> j.
Proof. intros I G H ->. apply (good_bound h j W0 I) in G. lia. Qed.

(** build_candidate, up to the search that follows *)
Lemma build_block rec h iw wn w0 wcs l0 wls rel_id lr ic child c0 ccs lc0 lcs tp cands :
  Inv h -> free h iw wn (w0 :: wcs) (l0 :: wls) -> W h rel_id lr -> free h ic child (c0 :: ccs) (lc0 :: lcs) ->
  exists h1 n1 i1 wcs1, build_candidate rec wn rel_id child tp cands h = rec n1 (tl tp) cands h1 /\ le [rel_id] h h1 /\ (cur_id h <= i1)%Z
    /\ free h1 i1 n1 (rel_id :: wcs1 ++ ccs) (lr :: wls ++ lcs).
Proof.
  intros I Fw Wr Fc. pose proof (grow_refl [rel_id] h I) as G0. pose proof (inv_wf h I) as Wf.
  destruct (fresh_clone [rel_id] h h iw wn (w0 :: wcs) (l0 :: wls) I G0 (fe_good _ _ _ _ _ Fw) (fe_tab _ _ _ _ _ Fw) (fe_shape _ _ _ _ _ Fw) (fe_words _ _ _ _ _ Fw))
    as (h1 & n1 & i1 & l1 & c1 & cs1 & E1 & Fs1 & A1 & Hi1 & Hl1 & K1 & _ & N1 & _).
  destruct cs1 as [|x1 wcs1]; [easy|]. pose proof (fs_words _ _ _ _ _ _ _ _ _ Fs1) as Ws1. inversion Ws1 as [|? ? ? ? Wx1 Wr1]; subst. pose proof (fs_al _ _ _ _ _ _ _ _ _ Fs1) as Al1. inversion Al1 as [|? ? Ax1 Ar1]; subst.
  destruct (fresh_ref _ _ _ _ _ _ _ _ _ Fs1) as (Kr1 & Rl1 & Ci1). pose proof (grow_inv _ _ _ I (fs_grow _ _ _ _ _ _ _ _ _ Fs1)) as I1. pose proof (fs_grow _ _ _ _ _ _ _ _ _ Fs1) as G1.
  assert (Wr' : W h1 rel_id lr) by exact (W_frame h h1 _ _ Wf (proj1 A1) Wr).
  assert (Hr : rel_id <> i1) by (apply (not_new h); [exact I|apply Wr|exact Hi1]).
  assert (Hkids : forall k, In k wcs1 -> k <> i1). { intros k Hk ->. apply (fs_unref _ _ _ _ _ _ _ _ _ Fs1 i1); [exact (fresh_good _ _ _ _ _ _ _ _ _ I Fs1)|]. apply (free_kid h1 i1 n1 (x1 :: wcs1) (l0 :: wls)); [exact (fresh_free _ _ _ _ _ _ _ _ _ I Fs1)|now right]. }
  assert (Ar : allowed [rel_id] h h1 rel_id) by (right; split; [apply Wr|right; now left]).
  destruct (fresh_write _ _ _ _ _ _ _ _ _ (rel_id :: wcs1) (lr :: wls) I Fs1) as (Fs2 & K2 & Kw2); [discriminate|now constructor|now constructor|intros [H|H]; [now apply Hr|now apply (Hkids i1)]|].
  set (h2 := wl h1 l1 (rel_id :: wcs1)) in *. destruct (fresh_ref _ _ _ _ _ _ _ _ _ Fs2) as (Kr2 & Rl2 & Ci2).
  assert (Ec2 : children_ids child h2 = (Ok (c0 :: ccs), h2)).
  { destruct (fe_shape _ _ _ _ _ Fc) as (ns & c & Sh). pose proof (fe_tab _ _ _ _ _ Fc) as Tc. pose proof (fs_grow _ _ _ _ _ _ _ _ _ Fs2) as G2.
    pose proof (grow_shape _ h h2 ic _ I G2 Sh) as Sh2. apply shape_node in Sh2 as (r & l & ls & y & T & O & L).
    assert (table h2 ic = Some child) by (change (table h1 ic = Some child); apply (frame_obj h h1 ic child (ONode ic ns l ls y c) Wf (proj1 A1) Tc); apply shape_node in Sh as (r' & l' & ls' & y' & T' & O' & L'); assert (r' = child) by congruence; subst r';
      destruct (frame_obj h h1 ic child _ Wf (proj1 A1) T' O') as [T2 O2]; assert (r = child) by (change (table h1 ic = Some r) in T; congruence); subst r; change (objs h1 child = Some (ONode ic ns l ls y c)) in O; congruence).
    assert (r = child) by congruence. subst r. exact (children_ids_ok _ _ _ _ _ _ _ _ _ O L). }
  assert (Ac : Forall (allowed [rel_id] h h2) ccs).
  { apply Forall_forall. intros k Hk. apply (allowed_grow _ h h2); [apply Fs2|]. apply (allowed_kid _ h ic); [exact I|apply Fc|]. apply (free_kid h ic child (c0 :: ccs) (lc0 :: lcs) k Fc). now right. }
  assert (Wc : Forall2 (W h2) ccs lcs).
  { pose proof (fe_words _ _ _ _ _ Fc) as Wsc. inversion Wsc; subst. apply (W_frame2 h h2); [exact Wf|apply Fs2|assumption]. }
  destruct (fresh_write _ _ _ _ _ _ _ _ _ (rel_id :: wcs1 ++ ccs) (lr :: wls ++ lcs) I Fs2) as (Fs3 & K3 & Kw3).
  { discriminate. }
  { pose proof (fs_al _ _ _ _ _ _ _ _ _ Fs2) as Al2. inversion Al2; subst. constructor; [assumption|]. apply Forall_app. now split. }
  { pose proof (fs_words _ _ _ _ _ _ _ _ _ Fs2) as Ws2. inversion Ws2; subst. constructor; [assumption|]. now apply Forall2_app. }
  { intros [H|H]; [now apply Hr|]. apply in_app_iff in H as [H|H]; [now apply (Hkids i1)|].
    assert (Gk : good h i1) by (pose proof (fe_words _ _ _ _ _ Fc) as Wsc; inversion Wsc; subst; match goal with X : Forall2 (W h) ccs lcs |- _ => pose proof (W_goods _ _ _ X) as Gs end; rewrite Forall_forall in Gs; now apply Gs).
    now apply (not_new h i1 i1 I Gk Hi1). }
  exists (wl h2 l1 (rel_id :: wcs1 ++ ccs)), n1, i1, wcs1. split; [|split; [exact (fresh_fuel _ _ _ _ _ _ _ _ _ I Fs3)|split; [exact Hi1|exact (fresh_free _ _ _ _ _ _ _ _ _ I Fs3)]]].
  unfold build_candidate. rewrite (run_ok _ _ _ _ _ (budget_u h)), (run_ok _ _ _ _ _ E1).
  assert (Es : set_child n1 0 rel_id h1 = (Ok tt, h2)) by (unfold set_child; rewrite (run_ok _ _ _ _ _ Kr1), (run_ok _ _ _ _ _ Rl1); reflexivity).
  rewrite (run_ok _ _ _ _ _ Es), (run_ok _ _ _ _ _ Ec2), (run_ok _ _ _ _ _ Kr2), (run_ok _ _ _ _ _ Rl2). reflexivity.
Qed.

Lemma append_block (k : nat -> SM (list nat)) h iw wn wcs wls child_id lc :
  Inv h -> free h iw wn wcs wls -> W h child_id lc ->
  exists h1 n1 i1 wcs1, (run b <- budget; run new_node <- clone b wn; run l <- kids_ref new_node; run cs <- read_list l; write_list l (cs ++ [child_id]);;; k new_node) h = k n1 h1
    /\ le [child_id] h h1 /\ (cur_id h <= i1)%Z /\ free h1 i1 n1 (wcs1 ++ [child_id]) (wls ++ [lc]) /\ wcs1 <> [] /\ Forall (clear h1) wcs1.
Proof.
  intros I Fw Wr. pose proof (grow_refl [child_id] h I) as G0. pose proof (inv_wf h I) as Wf.
  destruct (fresh_clone [child_id] h h iw wn wcs wls I G0 (fe_good _ _ _ _ _ Fw) (fe_tab _ _ _ _ _ Fw) (fe_shape _ _ _ _ _ Fw) (fe_words _ _ _ _ _ Fw))
    as (h1 & n1 & i1 & l1 & c1 & cs1 & E1 & Fs1 & A1 & Hi1 & Hl1 & K1 & _ & N1 & Cl1).
  destruct (fresh_ref _ _ _ _ _ _ _ _ _ Fs1) as (Kr1 & Rl1 & Ci1).
  assert (Hr : child_id <> i1) by (apply (not_new h); [exact I|apply Wr|exact Hi1]).
  assert (Hkids : forall k, In k cs1 -> k <> i1). { intros z Hk ->. apply (fs_unref _ _ _ _ _ _ _ _ _ Fs1 i1); [exact (fresh_good _ _ _ _ _ _ _ _ _ I Fs1)|]. apply (free_kid h1 i1 n1 cs1 wls); [exact (fresh_free _ _ _ _ _ _ _ _ _ I Fs1)|exact Hk]. }
  destruct (fresh_write _ _ _ _ _ _ _ _ _ (cs1 ++ [child_id]) (wls ++ [lc]) I Fs1) as (Fs2 & K2 & Kw2).
  { intros H. apply app_eq_nil in H as [_ H]. discriminate. }
  { apply Forall_app. split; [apply Fs1|]. constructor; [|constructor]. right. split; [apply Wr|right; now left]. }
  { apply Forall2_app; [apply Fs1|]. constructor; [|constructor]. exact (W_frame h h1 _ _ Wf (proj1 A1) Wr). }
  { intros H. apply in_app_iff in H as [H|[H|[]]]; [now apply (Hkids i1)|now apply Hr]. }
  exists (wl h1 l1 (cs1 ++ [child_id])), n1, i1, cs1. split; [|split; [exact (fresh_fuel _ _ _ _ _ _ _ _ _ I Fs2)|split; [exact Hi1|split; [exact (fresh_free _ _ _ _ _ _ _ _ _ I Fs2)|split; [exact N1|]]]]].
  2: { apply Forall_forall. intros z Hz. pose proof (fresh_free _ _ _ _ _ _ _ _ _ I Fs1) as Fe1. pose proof (W_goods _ _ _ (fs_words _ _ _ _ _ _ _ _ _ Fs1)) as Gz. rewrite Forall_forall in Gz.
    apply (write_clear _ _ _ _ _ _ _ _ _ _ z I Fs1 (Gz z Hz) (Hkids z Hz)). destruct (fe_shape _ _ _ _ _ Fe1) as (n' & c' & Sh'). exact (clear_kid _ _ _ _ _ _ Cl1 Sh' Hz). }
  rewrite (run_ok _ _ _ _ _ (budget_u h)), (run_ok _ _ _ _ _ E1), (run_ok _ _ _ _ _ Kr1), (run_ok _ _ _ _ _ Rl1). reflexivity.
Qed.

(** insert before *)
Lemma before_block h a b la lb ia ib : Inv h -> W h a la -> W h b lb -> good h ia -> kid h ia a -> good h ib -> kid h ib b -> clear h a -> clear h b ->
  exists h1 rel, create_node_of [a; b] h = (Ok rel, h1) /\ le [] h h1 /\ id_of rel h1 = (Ok (cur_id h), h1) /\ W h1 (cur_id h) (la ++ lb) /\ clear h1 (cur_id h).
Proof.
  intros I Wa Wb Ga Ka Gb Kb Ca Cb. pose proof (grow_refl [] h I) as G0.
  destruct (fresh_create [] h h [a; b] [la; lb] I G0) as (h1 & E1 & Fs1 & _ & _); [discriminate| |now constructor; [|constructor]|].
  { constructor; [now apply (allowed_kid _ h ia)|]. constructor; [now apply (allowed_kid _ h ib)|constructor]. }
  exists h1, (n_obj h). split; [exact E1|]. split; [exact (fresh_fuel _ _ _ _ _ _ _ _ _ I Fs1)|]. destruct (fs_obj _ _ _ _ _ _ _ _ _ Fs1) as (ns & lsy & y & O).
  split; [unfold id_of; now rewrite (run_ok _ _ _ _ _ (deref_ok _ _ _ O))|]. pose proof (fresh_free _ _ _ _ _ _ _ _ _ I Fs1) as Fe.
  pose proof (grow_inv _ _ _ I (fs_grow _ _ _ _ _ _ _ _ _ Fs1)) as I1. destruct (free_tree _ _ _ _ _ I1 Fe) as (n & c & ts & U & F & Us & Es). split.
  { split; [apply Fe|]. exists (SNode n c ts). split; [exact U|]. rewrite labelled_concat, Es. cbn. now rewrite app_nil_r. }
  destruct (fe_shape _ _ _ _ _ Fe) as (n' & c' & Sh). apply (clear_node h1 (cur_id h) n' c' [a; b] Sh); [apply new_not_arg; [exact W0|apply (inv_cur h I)]|].
  pose proof (inv_wf h I) as Wf. intros j [<-|[<-|[]]]; apply (frame_clear h h1); try assumption; apply (gr_frame _ _ _ (fs_grow _ _ _ _ _ _ _ _ _ Fs1)).
Qed.

Lemma free_grow X h h' i r cs ls : Inv h -> grow X h h' -> ~ In i X -> free h i r cs ls -> free h' i r cs ls.
Proof. intros I G Hn. apply (free_le X h h'); [exact I|now apply grow_le|exact Hn]. Qed.
Lemma free_W h i r cs ls : Inv h -> free h i r cs ls -> W h i (List.concat ls).
Proof. intros I Fe. destruct (free_tree _ _ _ _ _ I Fe) as (n & c & ts & U & F & Us & Es). split; [apply Fe|]. exists (SNode n c ts). split; [exact U|]. now rewrite labelled_concat, Es. Qed.

(** make compound *)
Lemma compound_block {B} (K : Z -> SM B) h iw w0 l0 rel_left t ic child c0 ccs lc0 lcs :
  Inv h -> good h iw -> kid h iw w0 -> table h w0 = Some rel_left -> unfolds h w0 t -> labelled t = l0 -> terminal t = true ->
  free h ic child (c0 :: ccs) (lc0 :: lcs) -> clear h c0 ->
  exists h1 rel_id, (run b <- budget; run rel <- clone b rel_left; run relo <- deref rel;
      run rel <- (if is_terminal relo then run i <- id_of rel; create_node_of [i] else sret rel);
      run ccs <- children_ids child; run c0 <- nth_id ccs 0; add_child rel c0;;; run b <- budget; set_compound b rel true;;; run rel_id <- id_of rel; K rel_id) h = K rel_id h1
    /\ le [] h h1 /\ (cur_id h <= rel_id)%Z /\ W h1 rel_id (l0 ++ lc0) /\ clear h1 rel_id.
Proof.
  intros I Gw Kw T U El Et Fc Cc0. pose proof (grow_refl [] h I) as G0. pose proof (inv_wf h I) as Wf. pose proof (inv_kids h I iw w0 Gw Kw) as G0w.
  (* the clone *)
  assert (X : exists ha y i', clone (S (n_obj h)) rel_left h = (Ok y, ha) /\ grow [] h ha /\ allowed [] h ha i' /\ W ha i' l0 /\ table ha i' = Some y /\ (exists t', unfolds ha i' t' /\ terminal t' = true) /\ clear ha i').
  { destruct (clone_ok [] h W0 I (S (n_obj h)) h rel_left w0 t G0 G0w T U) as (ha & y & i' & E & G' & A & T' & Cl' & M); [pose proof (unf_depth h w0 _ Wf U); lia|].
    destruct t as [ns k|ns c ts].
    - destruct M as (-> & -> & ->). exists h, rel_left, w0. split; [exact E|]. split; [exact G'|]. split; [now apply (allowed_kid _ h iw)|]. split; [split; [exact G0w|now exists (SLeaf ns k)]|]. split; [exact T|]. split; [now exists (SLeaf ns k)|exact Cl'].
    - destruct M as (N & Un & Kp & l & cs' & ts' & O & Hl & L & Us' & Ss & Ow). exists ha, y, i'. split; [exact E|]. split; [exact G'|]. split; [left; lia|].
      assert (U' : unfolds ha i' (SNode None c ts')) by (apply unf_shape; exists cs'; split; [apply shape_node; eauto 10|exact Us']).
      split; [|split; [exact T'|split; [exists (SNode None c ts'); split; [exact U'|]; now destruct c|exact Cl']]].
      split; [right; pose proof (inv_cur h I); lia|]. exists (SNode None c ts'). split; [exact U'|]. rewrite <- El. cbn [labelled]. now apply same_flat. }
  destruct X as (ha & y & i' & E1 & Ga & Al & Wa & Ta & (t' & Ut & Tt) & Cla). pose proof (grow_inv _ _ _ I Ga) as Ia. pose proof (inv_wf ha Ia) as Wfa.
  destruct (deref_u ha y t' (unf_tref _ _ _ _ Ta Ut)) as (o & Eo & Oo & _ & _ & Eto & _).
  destruct (good_obj ha i' y o Ia (W_good _ _ _ Wa) Ta Oo) as (e & _ & Ho). assert (Eid : id_of y ha = (Ok i', ha)) by (unfold id_of; rewrite (run_ok _ _ _ _ _ Eo); destruct o; destruct Ho as [<- _]; reflexivity).
  destruct (fresh_create [] h ha [i'] [l0] I Ga) as (hb & E2 & Fs & Ab & _); [discriminate|now constructor|now constructor|].
  pose proof (grow_inv _ _ _ I (fs_grow _ _ _ _ _ _ _ _ _ Fs)) as Ib. destruct (fs_obj _ _ _ _ _ _ _ _ _ Fs) as (ns & lsy & yy & Ob). destruct (fresh_ref _ _ _ _ _ _ _ _ _ Fs) as (Kr & Rl & Ci).
  assert (Fcb : free hb ic child (c0 :: ccs) (lc0 :: lcs)) by (apply (free_grow [] h hb); [exact I|apply Fs|easy|exact Fc]).
  assert (Kc : kid h ic c0) by (apply (free_kid _ _ _ _ _ _ Fc); now left). pose proof (inv_kids h I ic c0 (fe_good _ _ _ _ _ Fc) Kc) as Gc0.
  assert (HCa : (cur_id h <= cur_id ha)%Z) by apply (gr_frame _ _ _ Ga).
  destruct (fresh_write _ _ _ _ _ _ _ _ _ ([i'] ++ [c0]) [l0; lc0] I Fs) as (Fs2 & _ & _).
  { discriminate. }
  { constructor; [pose proof (fs_al _ _ _ _ _ _ _ _ _ Fs) as Z; now inversion Z|]. constructor; [|constructor]. apply (allowed_grow _ h hb); [apply Fs|]. now apply (allowed_kid _ h ic); [|apply Fc|]. }
  { constructor; [pose proof (fs_words _ _ _ _ _ _ _ _ _ Fs) as Z; now inversion Z|]. constructor; [|constructor]. pose proof (fe_words _ _ _ _ _ Fcb) as Z. now inversion Z. }
  { intros [H|[H|[]]]; [exact (not_new ha i' (cur_id ha) Ia (W_good _ _ _ Wa) ltac:(lia) H)|]. exact (not_new h c0 (cur_id ha) I Gc0 HCa H). }
  set (hc := wl hb (n_list ha) ([i'] ++ [c0])) in *. pose proof (grow_inv _ _ _ I (fs_grow _ _ _ _ _ _ _ _ _ Fs2)) as Ic. pose proof (inv_wf hc Ic) as Wfc.
  pose proof (fresh_free _ _ _ _ _ _ _ _ _ I Fs2) as Fe2. destruct (free_tree _ _ _ _ _ Ic Fe2) as (n2 & b2 & ts2 & U2 & F2 & _ & Es2).
  assert (Clc : clear hc (cur_id ha)).
  { destruct (fe_shape _ _ _ _ _ Fe2) as (n' & c' & Sh). apply (clear_node hc (cur_id ha) n' c' ([i'] ++ [c0]) Sh); [apply new_not_arg; [exact W0|apply (inv_cur ha Ia)]|].
    intros j [<-|[<-|[]]].
    - apply (write_clear _ _ _ _ _ _ _ _ _ _ i' I Fs); [apply (good_mono ha hb); [apply Ab|exact (W_good _ _ _ Wa)]|exact (not_new ha i' (cur_id ha) Ia (W_good _ _ _ Wa) ltac:(lia))|exact (frame_clear ha hb i' Wfa (proj1 Ab) Cla)].
    - apply (frame_clear h hc c0 Wf); [apply (fs_grow _ _ _ _ _ _ _ _ _ Fs2)|exact Cc0]. }
  destruct (set_compound_u true (S (n_obj hc)) hc (n_obj ha) (cur_id ha) _ Wfc (fs_tab _ _ _ _ _ _ _ _ _ Fs2) U2) as (hd & E3 & M); [pose proof (unf_depth hc _ _ Wfc U2); lia|reflexivity|exact Clc|].
  pose proof (marks_le hc hd Ic M) as Ld. pose proof (le_inv _ _ _ Ld) as Id.
  assert (Wd : W hd (cur_id ha) (l0 ++ lc0)). { apply (W_le [] hc hd); [exact Ic|exact Ld|]. pose proof (free_W _ _ _ _ _ Ic Fe2) as Z. cbn in Z. now rewrite app_nil_r in Z. }
  exists hd, (cur_id ha). split; [|split; [|split; [exact HCa|split; [exact Wd|exact (marks_clear hc hd _ M Clc)]]]].
  - rewrite (run_ok _ _ _ _ _ (budget_u h)), (run_ok _ _ _ _ _ E1), (run_ok _ _ _ _ _ Eo), Eto, Tt.
    assert (E12 : (run i <- id_of y; create_node_of [i]) ha = (Ok (n_obj ha), hb)) by (rewrite (run_ok _ _ _ _ _ Eid); exact E2).
    rewrite (run_ok _ _ _ _ _ E12), (run_ok _ _ _ _ _ (free_kids _ _ _ _ _ Fcb)), (run_ok (nth_id (c0 :: ccs) 0) _ hb c0 hb eq_refl).
    assert (Ea : add_child (n_obj ha) c0 hb = (Ok tt, hc)).
    { unfold add_child. rewrite (run_ok _ _ _ _ _ (deref_ok _ _ _ Ob)). cbn [is_leaf]. unfold node_add_child. rewrite (run_ok _ _ _ _ _ Kr), (run_ok _ _ _ _ _ Rl). reflexivity. }
    rewrite (run_ok _ _ _ _ _ Ea), (run_ok _ _ _ _ _ (budget_u hc)), (run_ok _ _ _ _ _ E3).
    assert (Ei : id_of (n_obj ha) hd = (Ok (cur_id ha), hd)).
    { destruct Wd as [Gd (td & Ud & _)]. assert (Td : table hd (cur_id ha) = Some (n_obj ha)) by (rewrite (mk_tab _ _ M); apply Fs2).
      destruct (deref_u hd (n_obj ha) td (unf_tref _ _ _ _ Td Ud)) as (od & Eod & Ood & _). destruct (good_obj hd _ _ _ Id Gd Td Ood) as (ed & _ & Hd). unfold id_of. rewrite (run_ok _ _ _ _ _ Eod). destruct od; destruct Hd as [<- _]; reflexivity. }
    now rewrite (run_ok _ _ _ _ _ Ei).
  - apply (le_comp [] [] [] h hc); [exact (fresh_fuel _ _ _ _ _ _ _ _ _ I Fs2)|exact Ld|easy].
Qed.

(** merge at the center *)
Definition refd (h : tree) (j : Z) : Prop := exists k, good h k /\ kid h k j.
Lemma refd_allowed X h j : Inv h -> refd h j -> allowed X h h j.
Proof. intros I (k & G & K). now apply (allowed_kid X h k). Qed.
Lemma obj_of h w r t : Inv h -> good h w -> table h w = Some r -> unfolds h w t -> exists o, deref r h = (Ok o, h) /\ obj_id o = w /\ is_terminal o = terminal t /\ is_node o = negb (leafb t) /\ is_leaf o = leafb t.
Proof.
  intros I G T U. destruct (deref_u h r t (unf_tref _ _ _ _ T U)) as (o & Eo & Oo & El & En & Et & _). exists o. split; [exact Eo|]. split; [|now split].
  destruct (good_obj h w r o I G T Oo) as (e & _ & Ho). destruct o; destruct Ho as [<- _]; reflexivity.
Qed.
Lemma kids_of h w r ns c ts : Inv h -> good h w -> table h w = Some r -> unfolds h w (SNode ns c ts) ->
  exists cs, children_ids r h = (Ok cs, h) /\ Forall (refd h) cs /\ Forall2 (W h) cs (List.map labelled ts) /\ cs <> [] /\ (clear h w -> Forall (clear h) cs).
Proof.
  intros I G T U. pose proof (good_tree h w _ I G U) as F. apply full_node in F as [N _]. pose proof U as U0. apply unf_shape in U as (cs & Sh & Us). pose proof Sh as Sh0. apply shape_node in Sh as (r' & l & ls & y & T' & O & L). assert (r' = r) by congruence. subst r'.
  exists cs. split; [exact (children_ids_ok _ _ _ _ _ _ _ _ _ O L)|].
  assert (R : Forall (refd h) cs) by (apply Forall_forall; intros j Hj; exists w; split; [exact G|now exists ns, c, cs]). split; [exact R|]. split.
  - apply trees_W; [|exact Us]. apply Forall_forall. intros j Hj. rewrite Forall_forall in R. destruct (R j Hj) as (k & Gk & Kk). now apply (inv_kids h I k j).
  - split; [intros ->; inversion Us; subst; easy|]. intros C. apply Forall_forall. intros j Hj. exact (clear_kid h w _ _ _ j C Sh0 Hj).
Qed.
Lemma left_split h w r t o : Inv h -> good h w -> refd h w -> table h w = Some r -> unfolds h w t -> deref r h = (Ok o, h) ->
  exists la lb lsa llb, (if is_terminal o then sret ([], obj_id o) else run cs <- children_ids r; match rev cs with [] => sraise IndexError | x :: q => sret (rev q, x) end) h = (Ok (la, lb), h)
    /\ Forall (refd h) la /\ refd h lb /\ Forall2 (W h) la lsa /\ W h lb llb /\ List.concat lsa ++ llb = labelled t /\ (clear h w -> Forall (clear h) la /\ clear h lb).
Proof.
  intros I G Rf T U E. destruct (obj_of h w r t I G T U) as (o' & E' & Eid & Et & _). assert (o' = o) by congruence. subst o'. rewrite Et, Eid.
  destruct (terminal t) eqn:Tm.
  - exists [], w, [], (labelled t). split; [reflexivity|]. split; [constructor|]. split; [exact Rf|]. split; [constructor|]. split; [split; [exact G|now exists t]|]. split; [reflexivity|]. intros C. split; [constructor|exact C].
  - destruct t as [|ns c ts]; [discriminate|]. destruct (kids_of h w r ns c ts I G T U) as (cs & Ec & Rc & Wc & Nc & Ck). rewrite (run_ok _ _ _ _ _ Ec), labelled_concat.
    destruct (exists_last Nc) as (la & lb & ->). rewrite rev_app_distr. cbn [rev app]. rewrite rev_involutive. apply Forall_app in Rc as [Ra Rb]. inversion Rb; subst.
    apply Forall2_app_inv_l in Wc as (lsa & lsb & Wa & Wb & ->). inversion Wb as [|? llb ? ? Wb1 Wb2]; subst. inversion Wb2; subst.
    exists la, lb, lsa, llb. split; [reflexivity|]. split; [exact Ra|]. split; [assumption|]. split; [exact Wa|]. split; [exact Wb1|]. split; [rewrite concat_app; cbn; now rewrite app_nil_r|]. intros C. apply Ck, Forall_app in C as [C1 C2]. split; [exact C1|now inversion C2].
Qed.
Lemma right_split h w r t o : Inv h -> good h w -> refd h w -> table h w = Some r -> unfolds h w t -> deref r h = (Ok o, h) ->
  exists ra rb lra lsb, (if is_terminal o then sret (obj_id o, []) else run cs <- children_ids r; match cs with [] => sraise IndexError | x :: q => sret (x, q) end) h = (Ok (ra, rb), h)
    /\ Forall (refd h) rb /\ refd h ra /\ Forall2 (W h) rb lsb /\ W h ra lra /\ lra ++ List.concat lsb = labelled t /\ (clear h w -> Forall (clear h) rb /\ clear h ra).
Proof.
  intros I G Rf T U E. destruct (obj_of h w r t I G T U) as (o' & E' & Eid & Et & _). assert (o' = o) by congruence. subst o'. rewrite Et, Eid.
  destruct (terminal t) eqn:Tm.
  - exists w, [], (labelled t), []. split; [reflexivity|]. split; [constructor|]. split; [exact Rf|]. split; [constructor|]. split; [split; [exact G|now exists t]|]. split; [apply app_nil_r|]. intros C. split; [constructor|exact C].
  - destruct t as [|ns c ts]; [discriminate|]. destruct (kids_of h w r ns c ts I G T U) as (cs & Ec & Rc & Wc & Nc & Ck). rewrite (run_ok _ _ _ _ _ Ec), labelled_concat.
    destruct cs as [|ra rb]; [easy|]. inversion Rc; subst. inversion Wc as [|? lra ? lsb Wa Wb]; subst. exists ra, rb, lra, lsb. split; [reflexivity|]. split; [assumption|]. split; [assumption|]. split; [exact Wb|]. split; [exact Wa|]. split; [reflexivity|]. intros C. apply Ck in C. inversion C. now split.
Qed.
Lemma center_block {B} (K : Z -> SM B) h lo ro w0 l0 rel_left t c0 lc0 rel_right u :
  Inv h -> refd h w0 -> table h w0 = Some rel_left -> unfolds h w0 t -> labelled t = l0 -> deref rel_left h = (Ok lo, h) ->
  refd h c0 -> table h c0 = Some rel_right -> unfolds h c0 u -> labelled u = lc0 -> deref rel_right h = (Ok ro, h) -> clear h w0 -> clear h c0 ->
  exists h1 rel_id, (run lab <- (if is_terminal lo then sret ([], obj_id lo)
                                  else run cs <- children_ids rel_left; match rev cs with [] => sraise IndexError | x :: r => sret (rev r, x) end);
       run rab <- (if is_terminal ro then sret (obj_id ro, [])
                   else run cs <- children_ids rel_right; match cs with [] => sraise IndexError | x :: r => sret (x, r) end);
       run center <- create_node_of [snd lab; fst rab];
       run b <- budget;
       set_compound b center true;;;
       run center_id <- id_of center;
       run rel <- create_node_of (fst lab ++ [center_id] ++ snd rab);
       run rel_id <- id_of rel; K rel_id) h = K rel_id h1
    /\ le [] h h1 /\ (cur_id h <= rel_id)%Z /\ W h1 rel_id (l0 ++ lc0) /\ clear h1 rel_id.
Proof.
  intros I Rw Tw Uw Ew Elo Rc Tc Uc Ec Ero Clw Clc.
  assert (Gw : good h w0) by (destruct Rw as (k & Gk & Kk); now apply (inv_kids h I k w0)). assert (Gc : good h c0) by (destruct Rc as (k & Gk & Kk); now apply (inv_kids h I k c0)).
  destruct (left_split h w0 rel_left t lo I Gw Rw Tw Uw Elo) as (la & lb & lsa & llb & E1 & Rla & Rlb & Wla & Wlb & Cl & Kl). destruct (Kl Clw) as [Kla Klb].
  destruct (right_split h c0 rel_right u ro I Gc Rc Tc Uc Ero) as (ra & rb & lra & lsb & E2 & Rrb & Rra & Wrb & Wra & Cr & Kr). destruct (Kr Clc) as [Krb Kra].
  pose proof (grow_refl [] h I) as G0. destruct (fresh_create [] h h [lb; ra] [llb; lra] I G0) as (ha & E3 & Fs & Ab & _).
  { discriminate. } { constructor; [now apply refd_allowed|]. constructor; [now apply refd_allowed|constructor]. } { constructor; [exact Wlb|]. constructor; [exact Wra|constructor]. }
  pose proof (grow_inv _ _ _ I (fs_grow _ _ _ _ _ _ _ _ _ Fs)) as Ia. pose proof (inv_wf ha Ia) as Wfa. pose proof (fresh_free _ _ _ _ _ _ _ _ _ I Fs) as Fe. pose proof (fresh_fuel _ _ _ _ _ _ _ _ _ I Fs) as La.
  destruct (free_tree _ _ _ _ _ Ia Fe) as (n2 & b2 & ts2 & U2 & F2 & _ & Es2).
  assert (Cla : clear ha (cur_id h)).
  { destruct (fe_shape _ _ _ _ _ Fe) as (n' & c' & Sh). apply (clear_node ha (cur_id h) n' c' [lb; ra] Sh); [apply new_not_arg; [exact W0|apply (inv_cur h I)]|].
    intros j [<-|[<-|[]]]; apply (frame_clear h ha _ (inv_wf h I) (proj1 Ab)); assumption. }
  destruct (set_compound_u true (S (n_obj ha)) ha (n_obj h) (cur_id h) _ Wfa (fs_tab _ _ _ _ _ _ _ _ _ Fs) U2) as (hb & E4 & M); [pose proof (unf_depth ha _ _ Wfa U2); lia|reflexivity|exact Cla|].
  pose proof (marks_le ha hb Ia M) as Lb. pose proof (le_inv _ _ _ Lb) as Ib. pose proof (free_le [] ha hb _ _ _ _ Ia Lb (fun H => H) Fe) as Feb.
  pose proof (le_comp [] [] [] h ha hb La Lb ltac:(easy)) as Lhb.
  assert (Wb : W hb (cur_id h) (llb ++ lra)). { pose proof (free_W _ _ _ _ _ Ib Feb) as Z. cbn in Z. now rewrite app_nil_r in Z. }
  pose proof (grow_refl [cur_id h] hb Ib) as Gb. 
  assert (Rf : forall j, In j la \/ In j rb -> allowed [cur_id h] hb hb j).
  { intros j Hj. assert (Rj : refd h j) by (rewrite Forall_forall in Rla, Rrb; destruct Hj; auto). destruct Rj as (k & Gk & Kk). apply (allowed_kid _ hb k); [exact Ib|exact (le_good _ _ _ k Lhb Gk)|].
    destruct Kk as (n & b & ks & Ek & Hk). pose proof (grow_shape [] h ha k _ I (fs_grow _ _ _ _ _ _ _ _ _ Fs) Ek) as Ek2. destruct (mk_shape _ _ M k _ Ek2) as (c' & Ek3). now exists n, c', ks. }
  destruct (fresh_create [cur_id h] hb hb (la ++ [cur_id h] ++ rb) (lsa ++ [llb ++ lra] ++ lsb) Ib Gb) as (hc & E5 & Fs2 & Ac & _).
  { intros H. apply app_eq_nil in H as [_ H]. discriminate. }
  { apply Forall_app. split; [apply Forall_forall; intros j Hj; apply Rf; now left|]. constructor; [right; split; [apply Wb|right; now left]|]. apply Forall_forall; intros j Hj; apply Rf; now right. }
  { apply Forall2_app; [exact (W_le2 _ _ _ _ _ I Lhb Wla)|]. constructor; [exact Wb|exact (W_le2 _ _ _ _ _ I Lhb Wrb)]. }
  pose proof (grow_inv _ _ _ Ib (fs_grow _ _ _ _ _ _ _ _ _ Fs2)) as Ic. pose proof (fresh_free _ _ _ _ _ _ _ _ _ Ib Fs2) as Fec.
  exists hc, (cur_id hb). split; [|split; [|split; [|split]]].
  - rewrite (run_ok _ _ _ _ _ E1), (run_ok _ _ _ _ _ E2). cbn [fst snd]. rewrite (run_ok _ _ _ _ _ E3), (run_ok _ _ _ _ _ (budget_u ha)), (run_ok _ _ _ _ _ E4).
    assert (Ei : id_of (n_obj h) hb = (Ok (cur_id h), hb)).
    { destruct (free_tree _ _ _ _ _ Ib Feb) as (n3 & b3 & ts3 & U3 & _). destruct (obj_of hb (cur_id h) (n_obj h) _ Ib (fe_good _ _ _ _ _ Feb) (fe_tab _ _ _ _ _ Feb) U3) as (o & Eo & Eid & _). unfold id_of. rewrite (run_ok _ _ _ _ _ Eo). unfold sret. now rewrite Eid. }
    rewrite (run_ok _ _ _ _ _ Ei), (run_ok _ _ _ _ _ E5).
    assert (Ej : id_of (n_obj hb) hc = (Ok (cur_id hb), hc)) by (destruct (fs_obj _ _ _ _ _ _ _ _ _ Fs2) as (ns & lsy & y & O); unfold id_of; now rewrite (run_ok _ _ _ _ _ (deref_ok _ _ _ O))).
    now rewrite (run_ok _ _ _ _ _ Ej).
  - apply (le_comp [] [cur_id h] [] h hb hc Lhb (fresh_fuel _ _ _ _ _ _ _ _ _ Ib Fs2)). intros x [Hx|[]] Gx _. subst x. exfalso. exact (not_new h (cur_id h) (cur_id h) I Gx ltac:(lia) eq_refl).
  - apply Lhb.
  - pose proof (free_W _ _ _ _ _ Ic Fec) as Z. rewrite concat_app in Z. cbn in Z. rewrite <- Ew, <- Ec, <- Cl, <- Cr. now rewrite !app_assoc in *.
  - destruct (fe_shape _ _ _ _ _ Fec) as (n' & c' & Sh). apply (clear_node hc (cur_id hb) n' c' _ Sh); [apply new_not_arg; [exact W0|apply (inv_cur hb Ib)]|].
    assert (Old : forall z, good h z -> clear h z -> clear hc z) by (intros z Gz Cz; apply (frame_clear hb hc z (inv_wf hb Ib) (proj1 Ac)); exact (le_clear _ _ _ Lhb z Gz Cz)).
    pose proof (W_goods _ _ _ Wla) as Gla. pose proof (W_goods _ _ _ Wrb) as Grb. rewrite Forall_forall in Kla, Krb, Gla, Grb.
    intros j Hj. apply in_app_iff in Hj as [Hj|[Hj|Hj]]; [apply Old; auto| |apply Old; auto]. subst j. apply (frame_clear hb hc _ (inv_wf hb Ib) (proj1 Ac)). exact (marks_clear ha hb _ M Cla).
Qed.

(** add to first child *)
Lemma F2_cons {A B} (P : A -> B -> Prop) x y l m : Forall2 P (x :: l) (y :: m) -> P x y /\ Forall2 P l m.
Proof. intros H. inversion H. now split. Qed.
Lemma F_cons {A} (P : A -> Prop) x l : Forall P (x :: l) -> P x /\ Forall P l.
Proof. intros H. inversion H. now split. Qed.
Lemma first_block {B} (K : Z -> SM B) h iw wn w0 wcs l0 wls ic child c0 ccs lc0 lcs :
  Inv h -> free h iw wn (w0 :: wcs) (l0 :: wls) -> free h ic child (c0 :: ccs) (lc0 :: lcs) -> clear h w0 -> clear h c0 ->
  exists h1 rel_id, (run b <- budget;
      run new_node <- clone b wn;
      run wcs <- children_ids wn;
      run w0 <- nth_id wcs 0;
      run rel <- tget w0;
      run relo <- deref rel;
      run rel <- (if is_terminal relo then run i <- id_of rel; create_node_of [i] else clone b rel);
      run rel_id <- id_of rel;
      set_child new_node 0 rel_id;;;
      run ccs <- children_ids child;
      run c0 <- nth_id ccs 0;
      add_to_first_child new_node c0 RIGHT;;;
      run ncs <- children_ids new_node;
      run rel_id <- nth_id ncs 0;
      K rel_id) h = K rel_id h1 /\ le [] h h1 /\ (cur_id h <= rel_id)%Z /\ W h1 rel_id (l0 ++ lc0) /\ clear h1 rel_id.
Proof.
  intros I Fw Fc Clw Clc0. pose proof (grow_refl [] h I) as G0. pose proof (inv_wf h I) as Wf.
  destruct (fresh_clone [] h h iw wn (w0 :: wcs) (l0 :: wls) I G0 (fe_good _ _ _ _ _ Fw) (fe_tab _ _ _ _ _ Fw) (fe_shape _ _ _ _ _ Fw) (fe_words _ _ _ _ _ Fw))
    as (h1 & n1 & i1 & l1 & c1 & cs1 & E1 & Fs1 & A1 & Hi1 & Hl1 & K1 & _ & N1 & _).
  pose proof (fs_grow _ _ _ _ _ _ _ _ _ Fs1) as G1. pose proof (grow_inv _ _ _ I G1) as I1. pose proof (inv_wf h1 I1) as Wf1.
  pose proof (free_grow [] h h1 _ _ _ _ I G1 (fun H => H) Fw) as Fw1. pose proof (fe_words _ _ _ _ _ Fw1) as Ww1. apply F2_cons in Ww1 as [Ww0 Wwr].
  pose proof (fe_words _ _ _ _ _ Fw) as Ww. apply F2_cons in Ww as [Ww00 _]. destruct Ww00 as [Gw0 (t & Ut & Et)]. destruct (W_tget _ _ _ Ww0) as (rel0 & Er0 & Tr0).
  pose proof (frame_unf h h1 w0 t Wf (proj1 A1) Ut) as Ut1. destruct (obj_of h1 w0 rel0 t I1 (W_good _ _ _ Ww0) Tr0 Ut1) as (o0 & Eo0 & Eid0 & Etm0 & _).
  (* the new relation *)
  assert (X : exists h2 rel ir lr ks lks, (if is_terminal o0 then run i <- id_of rel0; create_node_of [i] else clone (S (n_obj h)) rel0) h1 = (Ok rel, h2)
    /\ fresh [] h h2 ir rel lr false ks lks /\ al h1 h2 /\ (cur_id h1 <= ir)%Z /\ n_list h1 <= lr /\ (forall k, good h1 k -> unref h1 k -> unref h2 k) /\ List.concat lks = l0 /\ ks <> [] /\ Forall (clear h2) ks).
  { rewrite Etm0. destruct (terminal t) eqn:Tm.
    - assert (Ei : id_of rel0 h1 = (Ok w0, h1)) by (unfold id_of; rewrite (run_ok _ _ _ _ _ Eo0); unfold sret; now rewrite Eid0). rewrite (run_ok _ _ _ _ _ Ei).
      destruct (fresh_create [] h h1 [w0] [l0] I G1) as (h2 & E2 & Fs2 & A2 & K2).
      { discriminate. } { constructor; [|constructor]. apply (allowed_grow _ h h1); [exact G1|]. apply (allowed_kid _ h iw); [exact I|apply Fw|]. apply (free_kid _ _ _ _ _ _ Fw). now left. } { constructor; [exact Ww0|constructor]. }
      exists h2, (n_obj h1), (cur_id h1), (n_list h1), [w0], [l0]. split; [exact E2|]. split; [exact Fs2|]. split; [exact A2|]. split; [lia|]. split; [lia|]. split; [|split; [cbn; apply app_nil_r|split; [discriminate|constructor; [exact (frame_clear h1 h2 w0 Wf1 (proj1 A2) (frame_clear h h1 w0 Wf (proj1 A1) Clw))|constructor]]]].
      intros k Gk Uk. apply K2; [exact Gk|exact Uk|]. intros [Hk|[]]. subst k. apply (Uk iw (fe_good _ _ _ _ _ Fw1)). apply (free_kid _ _ _ _ _ _ Fw1). now left.
    - destruct t as [|ns c ts]; [discriminate|]. destruct (kids_of h1 w0 rel0 ns c ts I1 (W_good _ _ _ Ww0) Tr0 Ut1) as (ks0 & _ & _ & Wk0 & _). pose proof Ut1 as Ut1'. apply unf_shape in Ut1' as (ks & Shk & Uk).
      assert (Wk : Forall2 (W h1) ks (List.map labelled ts)) by (apply trees_W; [|exact Uk]; apply Forall_forall; intros j Hj; apply (inv_kids h1 I1 w0 j (W_good _ _ _ Ww0)); now exists ns, c, ks).
      destruct (fresh_clone_f (S (n_obj h)) [] h h1 w0 rel0 ks (List.map labelled ts) I G1 (W_good _ _ _ Ww0) Tr0 ltac:(eauto) Wk) as (h2 & y & i' & l & c' & cs' & E2 & Fs2 & A2 & Hi2 & Hl2 & K2 & (ns' & Sh') & N2 & Cl2).
      { intros t' U'. rewrite (unfolds_fun h1 w0 _ U' _ Ut1). pose proof (unf_depth h w0 _ Wf Ut). lia. }
      assert (c' = false) by (assert (c' = c) by congruence; subst; now destruct c). subst c'.
      exists h2, y, i', l, cs', (List.map labelled ts). split; [exact E2|]. split; [exact Fs2|]. split; [exact A2|]. split; [exact Hi2|]. split; [exact Hl2|]. split; [exact K2|]. split; [now rewrite <- labelled_concat with (ns := ns) (c := c)|]. split; [exact N2|].
      destruct (fe_shape _ _ _ _ _ (fresh_free _ _ _ _ _ _ _ _ _ I Fs2)) as (n' & c' & Sh2). apply Forall_forall. intros j Hj. exact (clear_kid h2 i' _ _ _ j Cl2 Sh2 Hj). }
  destruct X as (h2 & rel & ir & lr & ks & lks & E2 & Fs2 & A2 & Hir & Hlr & K2 & Cl & Nk & Ckk).
  pose proof (fs_grow _ _ _ _ _ _ _ _ _ Fs2) as G2. pose proof (grow_inv _ _ _ I G2) as I2. pose proof (inv_wf h2 I2) as Wf2.
  (* the copy of the working node, seen in h2 *)
  assert (Ll1 : l1 < n_list h1) by exact (wf_lst h1 Wf1 l1 _ (fs_list _ _ _ _ _ _ _ _ _ Fs1)).
  assert (Fs12 : fresh [] h h2 i1 n1 l1 c1 cs1 (l0 :: wls)).
  { destruct (fs_obj _ _ _ _ _ _ _ _ _ Fs1) as (ns & lsy & y & O). destruct (frame_obj h1 h2 i1 n1 _ Wf1 (proj1 A2) (fs_tab _ _ _ _ _ _ _ _ _ Fs1) O) as [T2 O2]. pose proof (fr_cur _ _ _ (proj1 A2)) as HC. pose proof (fs_new _ _ _ _ _ _ _ _ _ Fs1) as Hn.
    constructor; try assumption.
    - lia.
    - eauto.
    - exact (frame_lst h1 h2 l1 _ Wf1 (proj1 A2) (fs_list _ _ _ _ _ _ _ _ _ Fs1)).
    - exact (al_owned h1 h2 i1 l1 I1 A2 Ll1 (fs_owned _ _ _ _ _ _ _ _ _ Fs1)).
    - apply K2; [exact (fresh_good _ _ _ _ _ _ _ _ _ I Fs1)|apply Fs1].
    - apply Forall_forall. intros z Hz. pose proof (fs_al _ _ _ _ _ _ _ _ _ Fs1) as Z. rewrite Forall_forall in Z. apply (allowed_mono [] h h1 h2 z HC). now apply Z.
    - exact (W_frame2 h1 h2 _ _ Wf1 (proj1 A2) (fs_words _ _ _ _ _ _ _ _ _ Fs1)). }
  destruct cs1 as [|x1 wcs1]; [easy|]. pose proof (fs_words _ _ _ _ _ _ _ _ _ Fs12) as Ws12. apply F2_cons in Ws12 as [Wx Wr]. pose proof (fs_al _ _ _ _ _ _ _ _ _ Fs12) as Al12. apply F_cons in Al12 as [Ax Ar].
  assert (Hne : ir <> i1) by (pose proof (fs_new _ _ _ _ _ _ _ _ _ Fs1); lia).
  assert (Hkids : forall k, In k wcs1 -> k <> i1). { intros z Hk ->. apply (fs_unref _ _ _ _ _ _ _ _ _ Fs12 i1); [exact (fresh_good _ _ _ _ _ _ _ _ _ I Fs12)|]. apply (free_kid h2 i1 n1 (x1 :: wcs1) (l0 :: wls)); [exact (fresh_free _ _ _ _ _ _ _ _ _ I Fs12)|now right]. }
  pose proof (fresh_free _ _ _ _ _ _ _ _ _ I Fs2) as Fe2. pose proof (free_W _ _ _ _ _ I2 Fe2) as Wir.
  destruct (fresh_write _ _ _ _ _ _ _ _ _ (ir :: wcs1) (List.concat lks :: wls) I Fs12) as (Fs3 & K3 & Kw3).
  { discriminate. } { constructor; [left; apply Fs2|exact Ar]. } { constructor; [exact Wir|exact Wr]. } { intros [H|H]; [now apply Hne|now apply (Hkids i1)]. }
  set (h3 := wl h2 l1 (ir :: wcs1)) in *. pose proof (fs_grow _ _ _ _ _ _ _ _ _ Fs3) as G3. pose proof (grow_inv _ _ _ I G3) as I3. pose proof (inv_wf h3 I3) as Wf3.
  (* the relation, seen in h3 *)
  destruct (fs_obj _ _ _ _ _ _ _ _ _ Fs2) as (nsr & lsr & yr & Or). destruct (fs_obj _ _ _ _ _ _ _ _ _ Fs12) as (nsw & lsw & yw & Ow).
  assert (Lr3 : lists h3 lr = Some ks) by (cbn; rewrite updN_other; [apply Fs2|lia]).
  assert (Tr3 : table h3 ir = Some rel) by apply Fs2. assert (Or3 : objs h3 rel = Some (ONode ir nsr lr lsr yr false)) by exact Or.
  assert (Ow3 : owned h3 ir lr) by exact (fs_owned _ _ _ _ _ _ _ _ _ Fs2).
  assert (Gir : good h3 ir) by (right; pose proof (inv_cur h I); pose proof (fs_new _ _ _ _ _ _ _ _ _ Fs2); change (cur_id h3) with (cur_id h2); lia).
  assert (Hkr : forall k, In k ks -> k <> i1).
  { intros k Hk ->. apply (fs_unref _ _ _ _ _ _ _ _ _ Fs12 ir); [exact (fresh_good _ _ _ _ _ _ _ _ _ I Fs2)|]. exact (free_kid _ _ _ _ _ _ Fe2 Hk). }
  assert (Wk3 : Forall2 (W h3) ks lks).
  { pose proof (fs_words _ _ _ _ _ _ _ _ _ Fs2) as Z. clear - HA Z Kw3 Hkr. clearbody h3. induction Z as [|k m ks lks Hk _ IH]; [constructor|]. constructor; [apply Kw3; [exact Hk|apply Hkr; now left]|]. apply IH. intros z Hz. apply Hkr. now right. }
  destruct (W_trees _ _ _ Wk3) as (tsr & Usr & Esr).
  assert (Ur3 : unfolds h3 ir (SNode nsr false tsr)) by (apply unf_shape; exists ks; split; [apply shape_node; eauto 10|exact Usr]).
  destruct (wl_shapes h3 ir rel nsr lr lsr yr false (ks ++ [c0]) I3 Tr3 Or3 Ow3) as [Oth4 Sh4]. set (h4 := wl h3 lr (ks ++ [c0])) in *.
  assert (Wf4 : wf h4) by (apply (frame_wl h3); [exact Wf3|exact (wf_lst h3 Wf3 lr _ Lr3)]).
  assert (Fr4 : frame h h4 []) by (apply frame_skip_list; [apply G3|exact Wf4|exact (fs_lnew _ _ _ _ _ _ _ _ _ Fs2)]).
  assert (Kc : kid h ic c0) by (apply (free_kid _ _ _ _ _ _ Fc); now left). pose proof (fe_words _ _ _ _ _ Fc) as Wc. apply F2_cons in Wc as [Wc0 _]. destruct Wc0 as [Gc0 (tc & Utc & Etc)].
  assert (Us4 : Forall2 (unfolds h4) (ks ++ [c0]) (tsr ++ [tc])).
  { apply Forall2_app.
    - assert (Hd : forall u, In u tsr -> depth u < depth (SNode nsr false tsr)) by (intros u Hu; change (depth (SNode nsr false tsr)) with (S (list_max (List.map depth tsr))); pose proof (depth_in u tsr (list_max (List.map depth tsr)) Hu (Nat.le_refl _)); lia).
      assert (Gk : forall k, In k ks -> good h3 k) by (intros k Hk; pose proof (W_goods _ _ _ Wk3) as Z; rewrite Forall_forall in Z; now apply Z).
      pose proof (keep_small h3 h4 ir _ I3 Oth4 Ur3) as Ks. clear - HA Usr Hd Gk Ks. revert Ks Hd. generalize (depth (SNode nsr false tsr)) as D. intros D Ks Hd. clearbody h4. induction Usr as [|k u ks tsr U _ IH]; [constructor|].
      constructor; [apply Ks; [apply Gk; now left|apply Hd; now left|exact U]|]. apply IH; [intros z Hz; apply Gk; now right|intros z Hz; apply Hd; now right].
    - constructor; [|constructor]. exact (frame_unf h h4 c0 tc Wf Fr4 Utc). }
  assert (Fu4 : Forall full (tsr ++ [tc])).
  { apply Forall_app. split; [|constructor; [exact (good_tree h c0 tc I Gc0 Utc)|constructor]]. pose proof (good_tree h3 ir _ I3 Gir Ur3) as F. now apply full_node in F as [_ F]. }
  assert (G4 : grow [] h h4).
  { apply (grow_write [] h h3 h4 ir nsr false (ks ++ [c0]) (tsr ++ [tc])); try assumption; try reflexivity.
    - pose proof (fs_new _ _ _ _ _ _ _ _ _ Fs2). exact H.
    - intros H. apply app_eq_nil in H as [_ H]. discriminate.
    - apply Forall_app. split; [exact (fs_al _ _ _ _ _ _ _ _ _ Fs2)|]. constructor; [|constructor]. apply (allowed_grow _ h h3); [exact G3|]. now apply (allowed_kid _ h ic); [|apply Fc|]. }
  exists h4, ir. split; [|split; [now apply grow_le|split; [pose proof (fs_new _ _ _ _ _ _ _ _ _ Fs2); lia|split]]].
  - rewrite (run_ok _ _ _ _ _ (budget_u h)), (run_ok _ _ _ _ _ E1), (run_ok _ _ _ _ _ (free_kids _ _ _ _ _ Fw1)), (run_ok (nth_id (w0 :: wcs) 0) _ h1 w0 h1 eq_refl), (run_ok _ _ _ _ _ Er0), (run_ok _ _ _ _ _ Eo0), (run_ok _ _ _ _ _ E2).
    assert (Ei : id_of rel h2 = (Ok ir, h2)) by (unfold id_of; now rewrite (run_ok _ _ _ _ _ (deref_ok _ _ _ Or))). rewrite (run_ok _ _ _ _ _ Ei).
    destruct (fresh_ref _ _ _ _ _ _ _ _ _ Fs12) as (Kr & Rl & _). destruct (fresh_ref _ _ _ _ _ _ _ _ _ Fs3) as (Kr3 & Rl3 & Ci3).
    assert (Es : set_child n1 0 ir h2 = (Ok tt, h3)) by (unfold set_child; rewrite (run_ok _ _ _ _ _ Kr), (run_ok _ _ _ _ _ Rl); reflexivity). rewrite (run_ok _ _ _ _ _ Es).
    pose proof (free_grow [] h h3 _ _ _ _ I G3 (fun H => H) Fc) as Fc3. rewrite (run_ok _ _ _ _ _ (free_kids _ _ _ _ _ Fc3)), (run_ok (nth_id (c0 :: ccs) 0) _ h3 c0 h3 eq_refl).
    assert (Ow3' : objs h3 n1 = Some (ONode i1 nsw l1 lsw yw c1)) by exact Ow.
    assert (Eg : get_child n1 0 h3 = (Ok rel, h3)) by (unfold get_child; rewrite (run_ok _ _ _ _ _ Ci3), (run_ok (nth_id (ir :: wcs1) 0) _ h3 ir h3 eq_refl); now apply tget_ok).
    assert (Ea : add_to_first_child n1 c0 RIGHT h3 = (Ok tt, h4)).
    { unfold add_to_first_child. rewrite (run_ok _ _ _ _ _ (deref_ok _ _ _ Ow3')). cbn [is_leaf]. unfold node_add_to_first_child. rewrite (run_ok _ _ _ _ _ Ci3), (run_ok _ _ _ _ _ Eg), (run_ok _ _ _ _ _ (deref_ok _ _ _ Or3)).
      cbn [is_terminal is_leaf is_compound orb]. rewrite (run_ok (sret tt) _ h3 tt h3 eq_refl), (run_ok _ _ _ _ _ Eg).
      assert (Kr4 : kids_ref rel h3 = (Ok lr, h3)) by (unfold kids_ref; now rewrite (run_ok _ _ _ _ _ (deref_ok _ _ _ Or3))). rewrite (run_ok _ _ _ _ _ Kr4).
      assert (Rl4 : read_list lr h3 = (Ok ks, h3)) by (unfold read_list; now rewrite Lr3). rewrite (run_ok _ _ _ _ _ Rl4). reflexivity. }
    rewrite (run_ok _ _ _ _ _ Ea).
    assert (Ow4 : objs h4 n1 = Some (ONode i1 nsw l1 lsw yw c1)) by exact Ow.
    assert (Ll4 : lists h4 l1 = Some (ir :: wcs1)) by (cbn; rewrite updN_other by lia; apply updN_same).
    rewrite (run_ok _ _ _ _ _ (children_ids_ok _ _ _ _ _ _ _ _ _ Ow4 Ll4)). now rewrite (run_ok (nth_id (ir :: wcs1) 0) _ h4 ir h4 eq_refl).
  - split; [exact Gir|]. exists (SNode nsr false (tsr ++ [tc])). split; [apply unf_shape; exists (ks ++ [c0]); now split|]. rewrite labelled_concat, map_app, concat_app, Esr, Cl. cbn. now rewrite app_nil_r, Etc.
  - apply (clear_node h4 ir nsr false (ks ++ [c0]) Sh4); [apply new_not_arg; [exact W0|pose proof (inv_cur h I); pose proof (fs_new _ _ _ _ _ _ _ _ _ Fs2); lia]|].
    intros j Hj. apply in_app_iff in Hj as [Hj|[<-|[]]]; [|exact (frame_clear h h4 c0 Wf Fr4 Clc0)].
    assert (Gj : good h3 j) by (pose proof (W_goods _ _ _ Wk3) as Z; rewrite Forall_forall in Z; now apply Z).
    destruct (Forall2_in_l _ _ _ _ Usr Hj) as (u & Hu & Uu). apply (clear_small h3 h4 ir _ I3 Oth4 Ur3 u j Gj); [|exact Uu|].
    + change (depth (SNode nsr false tsr)) with (S (list_max (List.map depth tsr))). pose proof (depth_in u tsr (list_max (List.map depth tsr)) Hu (Nat.le_refl _)). lia.
    + apply (write_clear _ _ _ _ _ _ _ _ _ _ j I Fs12); [exact Gj|now apply Hkr|]. rewrite Forall_forall in Ckk. now apply Ckk.
Qed.

(** ** The search *)

Definition cand (h : tree) (bnd : Z) (w : list (option str * token)) (r : nat) : Prop :=
  exists i cs ls, free h i r cs ls /\ Permutation (List.concat ls) w /\ (bnd <= i)%Z.
Lemma cand_le X h h' bnd w r : Inv h -> le X h h' -> (forall x, In x X -> (x < bnd)%Z) -> cand h bnd w r -> cand h' bnd w r.
Proof.
  intros I L HX (i & cs & ls & Fe & P & Hb). exists i, cs, ls. split; [|now split]. apply (free_le X h h'); [exact I|exact L| |exact Fe]. intros Hi. apply HX in Hi. lia.
Qed.
Lemma cands_le X h h' bnd w rs : Inv h -> le X h h' -> (forall x, In x X -> (x < bnd)%Z) -> Forall (cand h bnd w) rs -> Forall (cand h' bnd w) rs.
Proof. intros I L HX. induction 1; constructor; [now apply (cand_le X h h')|assumption]. Qed.

Lemma W_clear h i l : (forall j, ~ Arg j) -> W h i l -> clear h i.
Proof. intros N [_ (t & U & _)]. exact (clear_none h N t i U). Qed.
Definition recspec (f : nat) : Prop := forall h iw wn w0 wcs l0 wls tp lts cands bnd,
  Inv h -> free h iw wn (w0 :: wcs) (l0 :: wls) -> Forall2 (W h) tp lts -> (bnd <= iw)%Z -> (bnd <= cur_id h)%Z -> (forall x, In x tp -> (x < bnd)%Z) ->
  S (List.length (List.concat lts)) <= f ->
  exists h' new, find_candidates_r f wn tp cands h = (Ok (cands ++ new), h') /\ le tp h h' /\ new <> [] /\ Forall (cand h' bnd (l0 ++ List.concat wls ++ List.concat lts)) new.

Section step.
  Variable f : nat.
  Hypothesis NA : forall j, ~ Arg j.
  Hypothesis HR : recspec f.
  Variables (bnd iw ic : Z) (wn child : nat) (w0 c0 x : Z) (wcs ccs tp : list Z) (l0 lc0 : list (option str * token)) (wls lcs lts : list (list (option str * token))).
  Hypothesis Hiw : (bnd <= iw)%Z.
  Hypothesis Hic : (bnd <= ic)%Z.
  Hypothesis Htp : forall z, In z tp -> (z < bnd)%Z.
  Hypothesis Hf : S (List.length (List.concat lts)) <= f.
  Definition target : list (option str * token) := l0 ++ List.concat wls ++ (lc0 ++ List.concat lcs) ++ List.concat lts.
  Record st (h : tree) : Prop := {
    st_inv : Inv h; st_w : free h iw wn (w0 :: wcs) (l0 :: wls); st_c : free h ic child (c0 :: ccs) (lc0 :: lcs);
    st_tp : Forall2 (W h) tp lts; st_b : (bnd <= cur_id h)%Z }.
  Lemma st_le X h h' : (forall z, In z X -> (z < bnd)%Z) -> st h -> le X h h' -> st h'.
  Proof.
    intros HX [A B C D E] L. constructor.
    - apply L.
    - apply (free_le X h h'); [exact A|exact L| |exact B]. intros H. apply HX in H. lia.
    - apply (free_le X h h'); [exact A|exact L| |exact C]. intros H. apply HX in H. lia.
    - now apply (W_le2 X h h').
    - pose proof (le_cur _ _ _ L). lia.
  Qed.
  Lemma finish h h1 rel_id lr cands : st h -> le [] h h1 -> (cur_id h <= rel_id)%Z -> W h1 rel_id lr -> Permutation lr (l0 ++ lc0) ->
    exists h' new, build_candidate (find_candidates_r f) wn rel_id child (x :: tp) cands h1 = (Ok (cands ++ new), h') /\ le tp h h' /\ Forall (cand h' bnd target) new.
  Proof.
    intros S0 L Hr Wr P. pose proof (st_le [] h h1 ltac:(easy) S0 L) as [A B C D E].
    destruct (build_block (find_candidates_r f) h1 iw wn w0 wcs l0 wls rel_id lr ic child c0 ccs lc0 lcs (x :: tp) cands A B Wr C) as (h2 & n1 & i1 & wcs1 & E1 & L1 & Hi1 & Fe1).
    pose proof (le_inv _ _ _ L1) as I2. assert (HC : (cur_id h1 <= cur_id h2)%Z) by apply L1.
    destruct (HR h2 i1 n1 rel_id (wcs1 ++ ccs) lr (wls ++ lcs) tp lts cands bnd I2 Fe1 (W_le2 _ _ _ _ _ A L1 D) ltac:(lia) ltac:(lia) Htp Hf) as (h3 & new & E3 & L3 & _ & Cs).
    exists h3, new. split; [rewrite E1; exact E3|]. split.
    - apply (le_comp [] ([rel_id] ++ tp) tp h h1 h3 L); [now apply (le_trans2 _ _ h1 h2)|]. intros z Hz Gz _. apply in_app_iff in Hz as [[]|Hz]. apply in_app_iff in Hz as [[Hz|[]]|Hz]; [|exact Hz].
      subst z. exfalso. exact (not_new h rel_id rel_id (st_inv _ S0) Gz Hr eq_refl).
    - refine (Forall_impl _ _ Cs). intros r (i & cs & ls & Fe & Pm & Hb). exists i, cs, ls. split; [exact Fe|]. split; [|exact Hb]. rewrite Pm. unfold target. rewrite P, concat_app, <- !app_assoc.
      apply Permutation_app_head. rewrite !app_assoc. do 2 apply Permutation_app_tail. apply Permutation_app_comm.
  Qed.
  Lemma step_le h h1 h2 : le tp h h1 -> le tp h1 h2 -> le tp h h2.
  Proof. intros L1 L2. apply (le_comp tp tp tp h h1 h2 L1 L2). intros z Hz _ _. now apply in_app_iff in Hz as [H|H]. Qed.
  Lemma relationship_ok h cands : st h ->
    exists h' new, relationship_candidates (find_candidates_r f) wn child (x :: tp) cands h = (Ok (cands ++ new), h') /\ le tp h h' /\ Forall (cand h' bnd target) new.
  Proof.
    intros S0. unfold relationship_candidates. pose proof (st_inv _ S0) as I. rewrite (run_ok _ _ _ _ _ (free_kids _ _ _ _ _ (st_w _ S0))), (run_ok (nth_id (w0 :: wcs) 0) _ h w0 h eq_refl).
    pose proof (fe_words _ _ _ _ _ (st_w _ S0)) as Ww. apply F2_cons in Ww as [Ww _]. destruct (W_tget _ _ _ Ww) as (rl & Erl & Trl). rewrite (run_ok _ _ _ _ _ Erl).
    rewrite (run_ok _ _ _ _ _ (free_kids _ _ _ _ _ (st_c _ S0))), (run_ok (nth_id (c0 :: ccs) 0) _ h c0 h eq_refl).
    pose proof (fe_words _ _ _ _ _ (st_c _ S0)) as Wc. apply F2_cons in Wc as [Wc _]. destruct (W_tget _ _ _ Wc) as (rr & Err & Trr). rewrite (run_ok _ _ _ _ _ Err).
    (* what stays true of both relations *)
    assert (Facts : forall h', st h' -> table h' w0 = Some rl -> table h' c0 = Some rr ->
      refd h' w0 /\ refd h' c0 /\ (exists t lo, unfolds h' w0 t /\ labelled t = l0 /\ deref rl h' = (Ok lo, h') /\ is_terminal lo = terminal t)
      /\ exists u ro, unfolds h' c0 u /\ labelled u = lc0 /\ deref rr h' = (Ok ro, h') /\ is_terminal ro = terminal u).
    { intros h' S' T1 T2. pose proof (st_inv _ S') as I'. split; [exists iw; split; [apply (st_w _ S')|apply (free_kid _ _ _ _ _ _ (st_w _ S')); now left]|]. split; [exists ic; split; [apply (st_c _ S')|apply (free_kid _ _ _ _ _ _ (st_c _ S')); now left]|].
      pose proof (fe_words _ _ _ _ _ (st_w _ S')) as V. apply F2_cons in V as [[G1 (t & U1 & L1)] _]. pose proof (fe_words _ _ _ _ _ (st_c _ S')) as V. apply F2_cons in V as [[G2 (u & U2 & L2)] _].
      destruct (obj_of h' w0 rl t I' G1 T1 U1) as (lo & E1 & _ & M1 & _). destruct (obj_of h' c0 rr u I' G2 T2 U2) as (ro & E2 & _ & M2 & _).
      split; [exists t, lo; now repeat (split; [assumption|])|exists u, ro; now repeat (split; [assumption|])]. }
    assert (Next : forall h h', st h -> le tp h h' -> table h w0 = Some rl -> table h c0 = Some rr -> st h' /\ table h' w0 = Some rl /\ table h' c0 = Some rr).
    { intros ha hb Sa L T1 T2. split; [now apply (st_le tp ha hb)|]. split.
      - apply (le_tab _ _ _ L); [|exact T1]. pose proof (fe_words _ _ _ _ _ (st_w _ Sa)) as V. now apply F2_cons in V as [[G1 _] _].
      - apply (le_tab _ _ _ L); [|exact T2]. pose proof (fe_words _ _ _ _ _ (st_c _ Sa)) as V. now apply F2_cons in V as [[G1 _] _]. }
    assert (None_ : forall h cands, st h -> exists h' new, sret cands h = (Ok (cands ++ new), h') /\ le tp h h' /\ Forall (cand h' bnd target) new).
    { intros ha cs Sa. exists ha, []. split; [now rewrite app_nil_r|]. split; [|constructor]. apply (le_weaken []); [apply le_refl, Sa|easy]. }
    (* insert before *)
    assert (B1 : exists h' new, (if Nat.eqb (List.length (w0 :: wcs)) 1 then run rel <- create_node_of [c0; w0]; run rel_id <- id_of rel; build_candidate (find_candidates_r f) wn rel_id child (x :: tp) cands else sret cands) h = (Ok (cands ++ new), h')
      /\ le tp h h' /\ Forall (cand h' bnd target) new).
    { destruct (Nat.eqb (List.length (w0 :: wcs)) 1); [|now apply None_]. destruct (Facts h S0 Trl Trr) as ((k1 & Gk1 & Kk1) & (k2 & Gk2 & Kk2) & _).
      destruct (before_block h c0 w0 lc0 l0 k2 k1 I Wc Ww Gk2 Kk2 Gk1 Kk1 (W_clear _ _ _ NA Wc) (W_clear _ _ _ NA Ww)) as (h1 & rel & E1 & L1 & Ei & Wr & _). rewrite (run_ok _ _ _ _ _ E1), (run_ok _ _ _ _ _ Ei).
      apply (finish h h1 (cur_id h) (lc0 ++ l0)); try assumption; [lia|apply Permutation_app_comm]. }
    destruct B1 as (h1 & new1 & E1 & L1 & C1). rewrite (run_ok _ _ _ _ _ E1). destruct (Next h h1 S0 L1 Trl Trr) as (S1 & Tl1 & Tr1).
    destruct (Facts h1 S1 Tl1 Tr1) as (Rl1 & Rr1 & (t1 & lo1 & Ut1 & Lt1 & Elo1 & Mlo1) & (u1 & ro1 & Uu1 & Lu1 & Ero1 & Mro1)). rewrite (run_ok _ _ _ _ _ Elo1), (run_ok _ _ _ _ _ Ero1).
    (* make compound *)
    match goal with |- context [sbind (if is_terminal lo1 && is_terminal ro1 then ?A else ?B) _] => assert (B2 : exists h' new, (if is_terminal lo1 && is_terminal ro1 then A else B) h1 = (Ok ((cands ++ new1) ++ new), h') /\ le tp h1 h' /\ Forall (cand h' bnd target) new) end.
    { destruct (is_terminal lo1 && is_terminal ro1) eqn:Tm; [|now apply None_]. apply andb_true_iff in Tm as [Tm _]. rewrite Mlo1 in Tm.
      destruct Rl1 as (k1 & Gk1 & Kk1).
      destruct (compound_block (fun rel_id => build_candidate (find_candidates_r f) wn rel_id child (x :: tp) (cands ++ new1)) h1 k1 w0 l0 rl t1 ic child c0 ccs lc0 lcs (st_inv _ S1) Gk1 Kk1 Tl1 Ut1 Lt1 Tm (st_c _ S1) (clear_none _ NA _ _ Uu1)) as (h1' & rel_id & Eb & Lb & Hb & Wb & _).
      rewrite Eb. now apply (finish h1 h1' rel_id (l0 ++ lc0)). }
    destruct B2 as (h2 & new2 & E2 & L2 & C2). rewrite (run_ok _ _ _ _ _ E2). destruct (Next h1 h2 S1 L2 Tl1 Tr1) as (S2 & Tl2 & Tr2).
    destruct (Facts h2 S2 Tl2 Tr2) as (Rl2 & Rr2 & (t2 & lo2 & Ut2 & Lt2 & Elo2 & Mlo2) & (u2 & ro2 & Uu2 & Lu2 & Ero2 & Mro2)). rewrite (run_ok _ _ _ _ _ Elo2), (run_ok _ _ _ _ _ Ero2).
    (* merge at the center *)
    match goal with |- context [sbind (if negb (is_terminal lo2) || negb (is_terminal ro2) then ?A else ?B) _] => assert (B3 : exists h' new, (if negb (is_terminal lo2) || negb (is_terminal ro2) then A else B) h2 = (Ok (((cands ++ new1) ++ new2) ++ new), h') /\ le tp h2 h' /\ Forall (cand h' bnd target) new) end.
    { destruct (negb (is_terminal lo2) || negb (is_terminal ro2)); [|now apply None_].
      destruct (center_block (fun rel_id => build_candidate (find_candidates_r f) wn rel_id child (x :: tp) ((cands ++ new1) ++ new2)) h2 lo2 ro2 w0 l0 rl t2 c0 lc0 rr u2 (st_inv _ S2) Rl2 Tl2 Ut2 Lt2 Elo2 Rr2 Tr2 Uu2 Lu2 Ero2 (clear_none _ NA _ _ Ut2) (clear_none _ NA _ _ Uu2)) as (h2' & rel_id & Eb & Lb & Hb & Wb & _).
      rewrite Eb. now apply (finish h2 h2' rel_id (l0 ++ lc0)). }
    destruct B3 as (h3 & new3 & E3 & L3 & C3). rewrite (run_ok _ _ _ _ _ E3). destruct (Next h2 h3 S2 L3 Tl2 Tr2) as (S3 & Tl3 & Tr3).
    destruct (Facts h3 S3 Tl3 Tr3) as (_ & _ & (t3 & lo3 & Ut3 & _) & (u3 & ro3 & Uu3 & Lu3 & Ero3 & Mro3)). rewrite (run_ok _ _ _ _ _ Ero3).
    (* add to first child *)
    match goal with |- context [(if is_terminal ro3 then ?A else ?B) h3] => assert (B4 : exists h' new, (if is_terminal ro3 then A else B) h3 = (Ok ((((cands ++ new1) ++ new2) ++ new3) ++ new), h') /\ le tp h3 h' /\ Forall (cand h' bnd target) new) end.
    { destruct (is_terminal ro3); [|now apply None_].
      destruct (first_block (fun rel_id => build_candidate (find_candidates_r f) wn rel_id child (x :: tp) (((cands ++ new1) ++ new2) ++ new3)) h3 iw wn w0 wcs l0 wls ic child c0 ccs lc0 lcs (st_inv _ S3) (st_w _ S3) (st_c _ S3) (clear_none _ NA _ _ Ut3) (clear_none _ NA _ _ Uu3)) as (h3' & rel_id & Eb & Lb & Hb & Wb & _).
      rewrite Eb. now apply (finish h3 h3' rel_id (l0 ++ lc0)). }
    destruct B4 as (h4 & new4 & E4 & L4 & C4). exists h4, (new1 ++ new2 ++ new3 ++ new4). rewrite E4. split; [now rewrite <- !app_assoc|]. split.
    - apply (step_le h h1 h4 L1), (step_le h1 h2 h4 L2), (step_le h2 h3 h4 L3 L4).
    - apply Forall_app. split; [|apply Forall_app; split; [|apply Forall_app; split; [|exact C4]]].
      + apply (cands_le tp h1 h4); [apply S1| |exact Htp|exact C1]. apply (step_le h1 h2 h4 L2), (step_le h2 h3 h4 L3 L4).
      + apply (cands_le tp h2 h4); [apply S2| |exact Htp|exact C2]. apply (step_le h2 h3 h4 L3 L4).
      + apply (cands_le tp h3 h4); [apply S3|exact L4|exact Htp|exact C3].
  Qed.
End step.

Definition child_cand (h : tree) (bnd : Z) (lc : list (option str * token)) (r : nat) : Prop :=
  (exists i, table h i = Some r /\ good h i /\ exists ns k, unfolds h i (SLeaf ns k)) \/ cand h bnd lc r.
Lemma child_cands_le X h h' bnd w rs : Inv h -> le X h h' -> (forall x, In x X -> (x < bnd)%Z) -> Forall (child_cand h bnd w) rs -> Forall (child_cand h' bnd w) rs.
Proof.
  intros I L HX. induction 1 as [|r rs H _ IH]; constructor; [|exact IH]. destruct H as [(i & T & G & ns & k & U)|C]; [left|right; now apply (cand_le X h h')].
  exists i. split; [exact (le_tab _ _ _ L i r G T)|]. split; [exact (le_good _ _ _ i L G)|]. destruct (le_words _ _ _ L i _ G U (good_tree h i _ I G U)) as (t' & U' & _ & _ & El). destruct t' as [n' k'|]; [eauto|discriminate].
Qed.
Lemma cand_split h bnd w r : Inv h -> cand h bnd w r -> exists i c0 ccs lc0 lcs, free h i r (c0 :: ccs) (lc0 :: lcs) /\ Permutation (lc0 ++ List.concat lcs) w /\ (bnd <= i)%Z.
Proof.
  intros I (i & cs & ls & Fe & P & Hb). pose proof (free_nonempty _ _ _ _ _ I Fe) as N. destruct cs as [|c0 ccs]; [easy|]. pose proof (fe_words _ _ _ _ _ Fe) as V. inversion V as [|? lc0 ? lcs]; subst.
  exists i, c0, ccs, lc0, lcs. split; [exact Fe|]. now split.
Qed.
Lemma each_ok f (NA : forall j, ~ Arg j) (HR : recspec f) bnd iw wn w0 wcs l0 wls x lc tp lts :
  (bnd <= iw)%Z -> (forall z, In z (x :: tp) -> (z < bnd)%Z) -> S (List.length (List.concat lts)) <= f -> forall l cands h,
  Inv h -> free h iw wn (w0 :: wcs) (l0 :: wls) -> W h x lc -> Forall2 (W h) tp lts -> (bnd <= cur_id h)%Z -> Forall (child_cand h bnd lc) l ->
  exists h' new, each_candidate (find_candidates_r f) wn x (x :: tp) l cands h = (Ok (cands ++ new), h') /\ le (x :: tp) h h' /\ (l <> [] -> new <> [])
    /\ Forall (cand h' bnd (l0 ++ List.concat wls ++ lc ++ List.concat lts)) new.
Proof.
  intros Hiw Hx Hf. assert (Htp : forall z, In z tp -> (z < bnd)%Z) by (intros z Hz; apply Hx; now right).
  induction l as [|child l IH]; intros cands h I Fw Wx Wt Hb Cl.
  - exists h, []. cbn [each_candidate]. split; [now rewrite app_nil_r|]. split; [apply (le_weaken []); [now apply le_refl|easy]|]. split; [easy|constructor].
  - apply F_cons in Cl as [Cc Cl]. cbn [each_candidate].
    assert (X1 : exists o b h1 new1, deref child h = (Ok o, h) /\ (if is_node o then run cc <- children_ids child; run c0 <- nth_id cc 0; delta_rel c0 else sret false) h = (Ok b, h)
      /\ (if b then relationship_candidates (find_candidates_r f) wn child (x :: tp) cands else sret cands) h = (Ok (cands ++ new1), h1)
      /\ le tp h h1 /\ Forall (cand h1 bnd (l0 ++ List.concat wls ++ lc ++ List.concat lts)) new1).
    { assert (None_ : exists h1 new1, sret cands h = (Ok (cands ++ new1), h1) /\ le tp h h1 /\ Forall (cand h1 bnd (l0 ++ List.concat wls ++ lc ++ List.concat lts)) new1).
      { exists h, []. split; [now rewrite app_nil_r|]. split; [apply (le_weaken []); [now apply le_refl|easy]|constructor]. }
      destruct Cc as [(i & T & G & ns & k & U)|C].
      - destruct (obj_of h i child _ I G T U) as (o & Eo & _ & _ & En & _). exists o, false. destruct None_ as (h1 & new1 & Nn). exists h1, new1. split; [exact Eo|]. rewrite En. split; [reflexivity|exact Nn].
      - destruct (cand_split h bnd lc child I C) as (ic & c0 & ccs & lc0 & lcs & Fc & P & Hc). destruct (free_node _ _ _ _ _ Fc) as (o & Eo & En & _).
        pose proof (fe_words _ _ _ _ _ Fc) as V. apply F2_cons in V as [[G0 (t & U & _)] _].
        assert (Er : (run cc <- children_ids child; run c1 <- nth_id cc 0; delta_rel c1) h = (Ok (rel_all t), h)).
        { rewrite (run_ok _ _ _ _ _ (free_kids _ _ _ _ _ Fc)), (run_ok (nth_id (c0 :: ccs) 0) _ h c0 h eq_refl). apply delta_rel_u; [apply I|exact U]. }
        exists o, (rel_all t). rewrite En. destruct (rel_all t); [|destruct None_ as (h1 & new1 & Nn); exists h1, new1; split; [exact Eo|]; split; [exact Er|exact Nn]].
        destruct (relationship_ok f NA HR bnd iw ic wn child w0 c0 x wcs ccs tp l0 lc0 wls lcs lts Hiw Hc Htp Hf h cands) as (h1 & new1 & E1 & L1 & C1); [constructor; assumption|].
        exists h1, new1. split; [exact Eo|]. split; [exact Er|]. split; [exact E1|]. split; [exact L1|]. refine (Forall_impl _ _ C1). intros r (i & cs & ls & Fe & Pm & Hi). exists i, cs, ls. split; [exact Fe|]. split; [|exact Hi]. rewrite Pm. unfold target. do 2 apply Permutation_app_head. now apply Permutation_app_tail. }
    destruct X1 as (co & b & h1 & new1 & Eo & Eb & E1 & L1 & C1). pose proof (le_inv _ _ _ L1) as I1. assert (HC1 : (cur_id h <= cur_id h1)%Z) by apply L1.
    assert (Fw1 : free h1 iw wn (w0 :: wcs) (l0 :: wls)) by (apply (free_le tp h h1); [exact I|exact L1| |exact Fw]; intros H; apply Htp in H; lia).
    pose proof (W_le tp h h1 x lc I L1 Wx) as Wx1. pose proof (W_le2 tp h h1 _ _ I L1 Wt) as Wt1.
    destruct (append_block (fun n => find_candidates_r f n tp (cands ++ new1)) h1 iw wn (w0 :: wcs) (l0 :: wls) x lc I1 Fw1 Wx1) as (h2 & n1 & i1 & wcs1 & E2 & L2 & Hi1 & Fe2 & _).
    pose proof (le_inv _ _ _ L2) as I2. assert (HC2 : (cur_id h1 <= cur_id h2)%Z) by apply L2. pose proof (W_le2 _ h1 h2 _ _ I1 L2 Wt1) as Wt2.
    assert (Nw : exists y ys, wcs1 ++ [x] = y :: ys) by (destruct wcs1; cbn; eauto). destruct Nw as (y & ys & Ey). rewrite Ey in Fe2. cbn [app] in Fe2.
    destruct (HR h2 i1 n1 y ys l0 (wls ++ [lc]) tp lts (cands ++ new1) bnd I2 Fe2 Wt2 ltac:(lia) ltac:(lia) Htp Hf) as (h3 & new2 & E3 & L3 & N3 & C3).
    assert (C3' : Forall (cand h3 bnd (l0 ++ List.concat wls ++ lc ++ List.concat lts)) new2).
    { rewrite concat_app in C3. cbn in C3. rewrite app_nil_r, <- app_assoc in C3. exact C3. }
    assert (L23 : le (x :: tp) h1 h3) by exact (le_trans2 [x] tp h1 h2 h3 L2 L3).
    assert (L13 : le (x :: tp) h h3). { apply (le_comp tp (x :: tp) (x :: tp) h h1 h3 L1 L23). intros z Hz _ _. apply in_app_iff in Hz as [Hz|Hz]; [now right|exact Hz]. }
    pose proof (le_inv _ _ _ L3) as I3. assert (HC3 : (cur_id h <= cur_id h3)%Z) by apply L13.
    destruct (IH ((cands ++ new1) ++ new2) h3) as (h4 & new3 & E4 & L4 & _ & C4).
    { exact I3. } { apply (free_le (x :: tp) h h3); [exact I|exact L13| |exact Fw]. intros H. apply Hx in H. lia. } { exact (W_le _ h h3 _ _ I L13 Wx). } { exact (W_le2 _ h h3 _ _ I L13 Wt). } { lia. } { exact (child_cands_le (x :: tp) h h3 bnd lc l I L13 Hx Cl). }
    exists h4, (new1 ++ new2 ++ new3). split; [|split; [|split]].
    + rewrite (run_ok _ _ _ _ _ Eo), (run_ok _ _ _ _ _ Eb), (run_ok _ _ _ _ _ E1). cbn [tl].
      rewrite (run_ok _ _ h1 ((cands ++ new1) ++ new2) h3 (eq_trans E2 E3)), E4. now rewrite <- !app_assoc.
    + apply (le_comp (x :: tp) (x :: tp) (x :: tp) h h3 h4 L13 L4). intros z Hz _ _. now apply in_app_iff in Hz as [H|H].
    + intros _ Hn. apply N3. apply app_eq_nil in Hn as [_ Hn]. now apply app_eq_nil in Hn.
    + assert (L14 : le (x :: tp) h1 h4) by (apply (le_comp (x :: tp) (x :: tp) (x :: tp) h1 h3 h4 L23 L4); intros z Hz _ _; now apply in_app_iff in Hz as [H|H]).
      apply Forall_app. split; [|apply Forall_app; split; [|exact C4]].
      * exact (cands_le (x :: tp) h1 h4 bnd _ _ I1 L14 Hx C1).
      * exact (cands_le (x :: tp) h3 h4 bnd _ _ I3 L4 Hx C3').
Qed.

Lemma le_drop X h h' : le X h h' -> (forall z, In z X -> good h z -> refd h z) -> le [] h h'.
Proof. intros L H. apply (le_weaken X); [exact L|]. intros z Hz Gz Uz. destruct (H z Hz Gz) as (k & Gk & Kk). exfalso. now apply (Uz k). Qed.

Lemma find_candidates_r_ok : (forall j, ~ Arg j) -> forall f, recspec f.
Proof.
  intros NA. induction f as [|f IH]; intros h iw wn w0 wcs l0 wls tp lts cands bnd I Fw Wt Hiw Hb Htp Hf; [lia|]. cbn [find_candidates_r].
  pose proof (inv_wf h I) as Wf. destruct tp as [|x tp].
  - inversion Wt; subst lts. pose proof (fe_words _ _ _ _ _ Fw) as V. apply F2_cons in V as [Ww _]. destruct (W_tget _ _ _ Ww) as (r0 & E0 & T0).
    assert (Eg : get_child wn 0 h = (Ok r0, h)).
    { unfold get_child. rewrite (run_ok _ _ _ _ _ (free_kids _ _ _ _ _ Fw)), (run_ok (nth_id (w0 :: wcs) 0) _ h w0 h eq_refl). exact E0. }
    rewrite (run_ok _ _ _ _ _ Eg), (run_ok _ _ _ _ _ (budget_u h)).
    destruct (inv_tree h I w0 (W_good _ _ _ Ww)) as (t & U & _).
    destruct (flatten_u (rk (n_obj h) h) (S (n_obj h)) h r0 w0 I (rk_ranked h I) (W_good _ _ _ Ww) T0) as (h' & E & L & _); [|exact (W_clear _ _ _ NA Ww)|].
    { rewrite (rk_depth h _ t w0 U (unf_depth h w0 t Wf U)). pose proof (unf_depth h w0 t Wf U). lia. }
    rewrite (run_ok _ _ _ _ _ E). exists h', [wn]. split; [reflexivity|].
    assert (L0 : le [] h h').
    { apply (le_drop [w0]); [exact L|]. intros z [<-|[]] _. exists iw. split; [apply Fw|apply (free_kid _ _ _ _ _ _ Fw); now left]. }
    split; [exact L0|]. split; [discriminate|]. constructor; [|constructor]. exists iw, (w0 :: wcs), (l0 :: wls). split; [now apply (free_le [] h h' iw wn)|]. split; [|exact Hiw].
    cbn. now rewrite app_nil_r.
  - destruct lts as [|lc lts]; [inversion Wt|]. apply F2_cons in Wt as [Wx Wt']. destruct (W_tget _ _ _ Wx) as (rx & Ex & Tx). rewrite (run_ok _ _ _ _ _ Ex).
    pose proof Wx as Wx'. destruct Wx as [Gx (t & Ux & Lx)].
    destruct (obj_of h x rx t I Gx Tx Ux) as (o & Eo & _ & _ & _ & El). rewrite (run_ok _ _ _ _ _ Eo).
    pose proof (W_words h x lc I Wx') as Nc. cbn [List.concat] in Hf. rewrite app_length in Hf.
    match goal with |- context [sbind ?P _] => assert (CC : exists h1 ccs, P h = (Ok ccs, h1) /\ le [] h h1 /\ ccs <> [] /\ Forall (child_cand h1 bnd lc) ccs) end.
    { rewrite El. destruct t as [ns k|ns c ts]; cbn [leafb].
      - exists h, [rx]. split; [reflexivity|]. split; [now apply le_refl|]. split; [discriminate|]. constructor; [|constructor]. left. exists x. split; [exact Tx|]. split; [exact Gx|]. now exists ns, k.
      - destruct (kids_of h x rx ns c ts I Gx Tx Ux) as (ccs & Ec & Rc & Wc & Nn). rewrite (run_ok _ _ _ _ _ Ec). destruct ccs as [|c0 ccs]; [easy|]. cbn [firstn skipn].
        rewrite labelled_concat in Lx. destruct (List.map labelled ts) as [|lc0 lcs] eqn:Em; [inversion Wc|]. cbn [List.concat] in Lx. apply F2_cons in Wc as [Wc0 Wc]. apply F_cons in Rc as [Rc0 Rc].
        destruct (fresh_create [] h h [c0] [lc0] I (grow_refl [] h I)) as (h1 & E1 & Fs & _ & _); [discriminate|constructor; [now apply refd_allowed|constructor]|now constructor|].
        rewrite (run_ok _ _ _ _ _ E1). pose proof (fresh_fuel _ _ _ _ _ _ _ _ _ I Fs) as L1. pose proof (fresh_free _ _ _ _ _ _ _ _ _ I Fs) as F1.
        assert (HC1 : (cur_id h <= cur_id h1)%Z) by apply L1.
        pose proof (W_words h c0 lc0 I Wc0) as Nc0.
        destruct (IH h1 (cur_id h) (n_obj h) c0 [] lc0 [] ccs lcs [] (cur_id h) (le_inv _ _ _ L1) F1 (W_le2 _ h h1 _ _ I L1 Wc) ltac:(lia) HC1) as (h2 & new & E2 & L2 & N2 & C2).
        { intros z Hz. pose proof (W_goods _ _ _ Wc) as Gc. rewrite Forall_forall in Gc. apply (good_bound h z W0 I). now apply Gc. }
        { rewrite <- Lx, app_length in Hf. lia. }
        exists h2, new. split; [exact E2|]. split; [|split; [exact N2|]].
        + apply (le_drop ([] ++ ccs)); [exact (le_trans2 [] ccs h h1 h2 L1 L2)|]. intros z Hz _. rewrite Forall_forall in Rc. now apply Rc.
        + refine (Forall_impl _ _ C2). intros r (i & cs & ls & Fe & P & Hi). right. exists i, cs, ls. split; [exact Fe|]. split; [|lia]. rewrite P, <- Lx. cbn. reflexivity. }
    destruct CC as (h1 & ccs & E1 & L1 & N1 & C1). rewrite (run_ok _ _ _ _ _ E1). assert (HC1 : (cur_id h <= cur_id h1)%Z) by apply L1.
    destruct (each_ok f NA IH bnd iw wn w0 wcs l0 wls x lc tp lts Hiw Htp ltac:(lia) ccs cands h1 (le_inv _ _ _ L1)) as (h2 & new & E2 & L2 & N2 & C2).
    { apply (free_le [] h h1); [exact I|exact L1|easy|exact Fw]. } { exact (W_le [] h h1 x lc I L1 Wx'). } { exact (W_le2 [] h h1 _ _ I L1 Wt'). } { lia. } { exact C1. }
    exists h2, new. split; [exact E2|]. split; [apply (le_comp [] (x :: tp) (x :: tp) h h1 h2 L1 L2); intros z Hz _ _; exact Hz|]. split; [now apply N2|]. exact C2.
Qed.
(** ** The search, exactly: trees whose arguments are not shared *)

Inductive argside : stree -> Z -> Prop :=
| as_leaf ns k x : argside (SLeaf ns k) x
| as_node ns c t0 ts x r cs : shape h0 x = Some (ENode ns c (r :: cs)) -> Arg x -> unfolds h0 r t0 -> clear h0 r -> Forall2 argside ts cs -> argside (SNode ns c (t0 :: ts)) x.
Definition arg1 (x : Z) (t : stree) : Prop := unfolds h0 x t /\ full t /\ argside t x.
Definition since (h : tree) : Prop := exists X, le X h0 h.
Lemma since_inv h : since h -> Inv h.
Proof. intros (X & L). apply L. Qed.
Lemma since_le X h h' : since h -> le X h h' -> since h'.
Proof. intros (Y & L) L'. exists (Y ++ X). exact (le_trans2 Y X h0 h h' L L'). Qed.
Lemma arg1_good x t : arg1 x t -> good h0 x.
Proof. intros (U & F & _). left. eauto. Qed.
Lemma arg1_W h x t : since h -> arg1 x t -> W h x (labelled t).
Proof.
  intros (X & L) A. pose proof (arg1_good x t A) as G. destruct A as (U & F & _). destruct (le_words _ _ _ L x t G U F) as (t' & U' & S'). split; [exact (le_good _ _ _ x L G)|]. exists t'. split; [exact U'|apply S'].
Qed.
Lemma args_W h xs ts : since h -> Forall2 arg1 xs ts -> Forall2 (W h) xs (List.map labelled ts).
Proof. intros Si. induction 1; constructor; [now apply arg1_W|assumption]. Qed.

Definition cand2 (h : tree) (bnd : Z) (m0 : words) (ms : list words) (r : nat) : Prop :=
  exists i c0 cs, free h i r (c0 :: cs) (m0 :: ms) /\ clear h c0 /\ (bnd <= i)%Z.
Lemma cand2_le X h h' bnd m0 ms r : Inv h -> le X h h' -> (forall x, In x X -> (x < bnd)%Z) -> cand2 h bnd m0 ms r -> cand2 h' bnd m0 ms r.
Proof.
  intros I L HX (i & c0 & cs & Fe & Cl & Hb). exists i, c0, cs. split; [|split; [|exact Hb]].
  - apply (free_le X h h'); [exact I|exact L| |exact Fe]. intros Hi. apply HX in Hi. lia.
  - apply (le_clear _ _ _ L); [|exact Cl]. pose proof (fe_words _ _ _ _ _ Fe) as V. apply F2_cons in V as [V _]. apply V.
Qed.
Lemma cand2_weak h bnd bnd' m0 ms r : (bnd' <= bnd)%Z -> cand2 h bnd m0 ms r -> cand2 h bnd' m0 ms r.
Proof. intros H (i & c0 & cs & Fe & Cl & Hb). exists i, c0, cs. split; [exact Fe|]. split; [exact Cl|lia]. Qed.
Lemma W_fun2 h cs ls ls' : Forall2 (W h) cs ls -> Forall2 (W h) cs ls' -> ls = ls'.
Proof.
  intros F. revert ls'. induction F as [|i l cs ls H _ IH]; intros ls' F'; inversion F'; subst; [reflexivity|]. f_equal; [|now apply IH].
  eapply W_fun; eassumption.
Qed.
Lemma cand2_fun h bnd bnd' m0 ms m0' ms' r : cand2 h bnd m0 ms r -> cand2 h bnd' m0' ms' r -> m0 = m0' /\ ms = ms'.
Proof.
  intros (i & c0 & cs & Fe & _) (i' & c0' & cs' & Fe' & _). pose proof (free_kids _ _ _ _ _ Fe) as K. pose proof (free_kids _ _ _ _ _ Fe') as K'. rewrite K in K'. injection K' as <- <-.
  pose proof (W_fun2 _ _ _ _ (fe_words _ _ _ _ _ Fe) (fe_words _ _ _ _ _ Fe')) as E. now injection E.
Qed.
Definition outs (h : tree) (bnd : Z) (P : words -> list words -> Prop) (new : list nat) : Prop :=
  Forall (fun r => exists m0 ms, P m0 ms /\ cand2 h bnd m0 ms r) new /\ (forall m0 ms, P m0 ms -> exists r, In r new /\ cand2 h bnd m0 ms r).
Lemma outs_le X h h' bnd P new : Inv h -> le X h h' -> (forall x, In x X -> (x < bnd)%Z) -> outs h bnd P new -> outs h' bnd P new.
Proof.
  intros I L HX [A B]. split.
  - refine (Forall_impl _ _ A). intros r (m0 & ms & H & C). exists m0, ms. split; [exact H|now apply (cand2_le X h h')].
  - intros m0 ms H. destruct (B m0 ms H) as (r & Hr & C). exists r. split; [exact Hr|now apply (cand2_le X h h')].
Qed.
Lemma outs_weak h bnd bnd' P new : (bnd' <= bnd)%Z -> outs h bnd P new -> outs h bnd' P new.
Proof.
  intros Hb [A B]. split.
  - refine (Forall_impl _ _ A). intros r (m0 & ms & H & C). exists m0, ms. split; [exact H|now apply (cand2_weak h bnd)].
  - intros m0 ms H. destruct (B m0 ms H) as (r & Hr & C). exists r. split; [exact Hr|now apply (cand2_weak h bnd)].
Qed.
Lemma outs_app h bnd P Q l m : outs h bnd P l -> outs h bnd Q m -> outs h bnd (fun a b => P a b \/ Q a b) (l ++ m).
Proof.
  intros [A B] [A' B']. split.
  - apply Forall_app. split; [refine (Forall_impl _ _ A)|refine (Forall_impl _ _ A')]; intros r (m0 & ms & H & C); exists m0, ms; (split; [|exact C]); [now left|now right].
  - intros m0 ms [H|H]; [destruct (B m0 ms H) as (r & Hr & C)|destruct (B' m0 ms H) as (r & Hr & C)]; exists r; (split; [|exact C]); apply in_app_iff; [now left|now right].
Qed.
Lemma outs_iff h bnd (P Q : words -> list words -> Prop) l : (forall a b, P a b <-> Q a b) -> outs h bnd P l -> outs h bnd Q l.
Proof.
  intros E [A B]. split.
  - refine (Forall_impl _ _ A). intros r (m0 & ms & H & C). exists m0, ms. split; [now apply E|exact C].
  - intros m0 ms H. apply B. now apply E.
Qed.
Lemma outs_nil h bnd : outs h bnd (fun _ _ => False) [].
Proof. split; [constructor|easy]. Qed.

Definition recspec2 (f : nat) : Prop := forall h iw wn w0 wcs l0 wls tp ts cands bnd,
  since h -> free h iw wn (w0 :: wcs) (l0 :: wls) -> clear h w0 -> Forall2 arg1 tp ts -> (bnd <= iw)%Z -> (bnd <= cur_id h)%Z -> (forall x, In x tp -> (x < bnd)%Z) ->
  S (List.length (List.concat (List.map labelled ts))) <= f ->
  exists h' new, find_candidates_r f wn tp cands h = (Ok (cands ++ new), h') /\ le tp h h' /\ outs h' bnd (adding l0 wls ts) new.

Section step2.
  Variable f : nat.
  Hypothesis HR : recspec2 f.
  Variables (bnd iw ic : Z) (wn child : nat) (w0 c0 x : Z) (wcs ccs tp : list Z) (l0 lc0 : words) (wls lcs : list words) (ts : list stree).
  Hypothesis Hiw : (bnd <= iw)%Z.
  Hypothesis Hic : (bnd <= ic)%Z.
  Hypothesis Htp : forall z, In z tp -> (z < bnd)%Z.
  Hypothesis Htt : Forall2 arg1 tp ts.
  Hypothesis Hf : S (List.length (List.concat (List.map labelled ts))) <= f.
  Record st2 (h : tree) : Prop := {
    s2_since : since h; s2_w : free h iw wn (w0 :: wcs) (l0 :: wls); s2_c : free h ic child (c0 :: ccs) (lc0 :: lcs);
    s2_cw : clear h w0; s2_cc : clear h c0; s2_b : (bnd <= cur_id h)%Z }.
  Lemma s2_inv h : st2 h -> Inv h.
  Proof. intros S. apply since_inv, S. Qed.
  Lemma s2_Ww h : st2 h -> W h w0 l0.
  Proof. intros S. pose proof (fe_words _ _ _ _ _ (s2_w _ S)) as V. now apply F2_cons in V as [V _]. Qed.
  Lemma s2_Wc h : st2 h -> W h c0 lc0.
  Proof. intros S. pose proof (fe_words _ _ _ _ _ (s2_c _ S)) as V. now apply F2_cons in V as [V _]. Qed.
  Lemma st2_le X h h' : (forall z, In z X -> (z < bnd)%Z) -> st2 h -> le X h h' -> st2 h'.
  Proof.
    intros HX S L. pose proof (s2_inv h S) as A. constructor.
    - exact (since_le X h h' (s2_since _ S) L).
    - apply (free_le X h h'); [exact A|exact L| |apply S]. intros H. apply HX in H. lia.
    - apply (free_le X h h'); [exact A|exact L| |apply S]. intros H. apply HX in H. lia.
    - apply (le_clear _ _ _ L); [exact (W_good _ _ _ (s2_Ww h S))|apply S].
    - apply (le_clear _ _ _ L); [exact (W_good _ _ _ (s2_Wc h S))|apply S].
    - pose proof (le_cur _ _ _ L). pose proof (s2_b _ S). lia.
  Qed.
  Lemma finish2 h h1 rel_id lr cands : st2 h -> le [] h h1 -> (cur_id h <= rel_id)%Z -> W h1 rel_id lr -> clear h1 rel_id ->
    exists h' new, build_candidate (find_candidates_r f) wn rel_id child (x :: tp) cands h1 = (Ok (cands ++ new), h') /\ le tp h h' /\ outs h' bnd (adding lr (wls ++ lcs) ts) new.
  Proof.
    intros S0 L Hr Wr Cr. pose proof (st2_le [] h h1 ltac:(easy) S0 L) as S1. pose proof (s2_inv h1 S1) as A. pose proof (s2_b _ S1) as E.
    destruct (build_block (find_candidates_r f) h1 iw wn w0 wcs l0 wls rel_id lr ic child c0 ccs lc0 lcs (x :: tp) cands A (s2_w _ S1) Wr (s2_c _ S1)) as (h2 & n1 & i1 & wcs1 & E1 & L1 & Hi1 & Fe1).
    assert (HC : (cur_id h1 <= cur_id h2)%Z) by apply L1.
    destruct (HR h2 i1 n1 rel_id (wcs1 ++ ccs) lr (wls ++ lcs) tp ts cands bnd (since_le _ _ _ (s2_since _ S1) L1) Fe1 (le_clear _ _ _ L1 rel_id (W_good _ _ _ Wr) Cr) Htt ltac:(lia) ltac:(lia) Htp Hf) as (h3 & new & E3 & L3 & Cs).
    exists h3, new. split; [rewrite E1; exact E3|]. split; [|exact Cs].
    apply (le_comp [] ([rel_id] ++ tp) tp h h1 h3 L); [now apply (le_trans2 _ _ h1 h2)|]. intros z Hz Gz _. apply in_app_iff in Hz as [[]|Hz]. apply in_app_iff in Hz as [[Hz|[]]|Hz]; [|exact Hz].
    subst z. exfalso. exact (not_new h rel_id rel_id (s2_inv h S0) Gz Hr eq_refl).
  Qed.
  Lemma step2_le h h1 h2 : le tp h h1 -> le tp h1 h2 -> le tp h h2.
  Proof. intros L1 L2. apply (le_comp tp tp tp h h1 h2 L1 L2). intros z Hz _ _. now apply in_app_iff in Hz as [H|H]. Qed.
  Lemma relationship2 h cands : st2 h ->
    exists h' new, relationship_candidates (find_candidates_r f) wn child (x :: tp) cands h = (Ok (cands ++ new), h') /\ le tp h h'
      /\ outs h' bnd (fun rel args => (wls = [] /\ adding (lc0 ++ l0) lcs ts rel args) \/ adding (l0 ++ lc0) (wls ++ lcs) ts rel args) new.
  Proof.
    intros S0. unfold relationship_candidates. pose proof (s2_inv h S0) as I. rewrite (run_ok _ _ _ _ _ (free_kids _ _ _ _ _ (s2_w _ S0))), (run_ok (nth_id (w0 :: wcs) 0) _ h w0 h eq_refl).
    pose proof (s2_Ww h S0) as Ww. destruct (W_tget _ _ _ Ww) as (rl & Erl & Trl). rewrite (run_ok _ _ _ _ _ Erl).
    rewrite (run_ok _ _ _ _ _ (free_kids _ _ _ _ _ (s2_c _ S0))), (run_ok (nth_id (c0 :: ccs) 0) _ h c0 h eq_refl).
    pose proof (s2_Wc h S0) as Wc. destruct (W_tget _ _ _ Wc) as (rr & Err & Trr). rewrite (run_ok _ _ _ _ _ Err).
    assert (Facts : forall h', st2 h' -> table h' w0 = Some rl -> table h' c0 = Some rr ->
      refd h' w0 /\ refd h' c0 /\ (exists t lo, unfolds h' w0 t /\ labelled t = l0 /\ deref rl h' = (Ok lo, h') /\ is_terminal lo = terminal t)
      /\ exists u ro, unfolds h' c0 u /\ labelled u = lc0 /\ deref rr h' = (Ok ro, h') /\ is_terminal ro = terminal u).
    { intros h' S' T1 T2. pose proof (s2_inv h' S') as I'. split; [exists iw; split; [apply (s2_w _ S')|apply (free_kid _ _ _ _ _ _ (s2_w _ S')); now left]|]. split; [exists ic; split; [apply (s2_c _ S')|apply (free_kid _ _ _ _ _ _ (s2_c _ S')); now left]|].
      destruct (s2_Ww h' S') as [G1 (t & U1 & L1)]. destruct (s2_Wc h' S') as [G2 (u & U2 & L2)].
      destruct (obj_of h' w0 rl t I' G1 T1 U1) as (lo & E1 & _ & M1 & _). destruct (obj_of h' c0 rr u I' G2 T2 U2) as (ro & E2 & _ & M2 & _).
      split; [exists t, lo; now repeat (split; [assumption|])|exists u, ro; now repeat (split; [assumption|])]. }
    assert (Next : forall h h', st2 h -> le tp h h' -> table h w0 = Some rl -> table h c0 = Some rr -> st2 h' /\ table h' w0 = Some rl /\ table h' c0 = Some rr).
    { intros ha hb Sa L T1 T2. split; [now apply (st2_le tp ha hb)|]. split; apply (le_tab _ _ _ L); try assumption; [exact (W_good _ _ _ (s2_Ww ha Sa))|exact (W_good _ _ _ (s2_Wc ha Sa))]. }
    set (Aft := adding (l0 ++ lc0) (wls ++ lcs) ts).
    (* one of the optional blocks *)
    set (opt := fun (b : bool) (P : words -> list words -> Prop) (rel : words) (args : list words) => b = true /\ P rel args).
    assert (None_ : forall h cands P, st2 h -> exists h' new, sret cands h = (Ok (cands ++ new), h') /\ le tp h h' /\ outs h' bnd (opt false P) new /\ (false = false -> h' = h)).
    { intros ha cs P Sa. exists ha, []. split; [now rewrite app_nil_r|]. split; [apply (le_weaken []); [apply le_refl, (s2_inv ha Sa)|easy]|]. split; [|easy]. apply (outs_iff _ _ (fun _ _ => False)); [|apply outs_nil]. unfold opt. split; [easy|now intros [H _]]. }
    assert (Yes : forall (m : SM (list nat)) h cands P, (exists h' new, m h = (Ok (cands ++ new), h') /\ le tp h h' /\ outs h' bnd P new) -> exists h' new, m h = (Ok (cands ++ new), h') /\ le tp h h' /\ outs h' bnd (opt true P) new /\ (true = false -> h' = h)).
    { intros m ha cs P (h' & new & E & L & O). exists h', new. split; [exact E|]. split; [exact L|]. split; [|easy]. apply (outs_iff _ _ P); [|exact O]. unfold opt. intros a b. split; [now split|now intros [_ H]]. }
    (* insert before *)
    assert (B1 : exists h' new, (if Nat.eqb (List.length (w0 :: wcs)) 1 then run rel <- create_node_of [c0; w0]; run rel_id <- id_of rel; build_candidate (find_candidates_r f) wn rel_id child (x :: tp) cands else sret cands) h = (Ok (cands ++ new), h')
      /\ le tp h h' /\ outs h' bnd (opt (Nat.eqb (List.length (w0 :: wcs)) 1) (adding (lc0 ++ l0) (wls ++ lcs) ts)) new /\ (Nat.eqb (List.length (w0 :: wcs)) 1 = false -> h' = h)).
    { destruct (Nat.eqb (List.length (w0 :: wcs)) 1); [|now apply None_]. apply Yes. destruct (Facts h S0 Trl Trr) as ((k1 & Gk1 & Kk1) & (k2 & Gk2 & Kk2) & _).
      destruct (before_block h c0 w0 lc0 l0 k2 k1 I Wc Ww Gk2 Kk2 Gk1 Kk1 (s2_cc _ S0) (s2_cw _ S0)) as (h1 & rel & E1 & L1 & Ei & Wr & Cr). rewrite (run_ok _ _ _ _ _ E1), (run_ok _ _ _ _ _ Ei).
      apply (finish2 h h1 (cur_id h) (lc0 ++ l0)); try assumption. lia. }
    destruct B1 as (h1 & new1 & E1 & L1 & C1 & _). rewrite (run_ok _ _ _ _ _ E1). destruct (Next h h1 S0 L1 Trl Trr) as (S1 & Tl1 & Tr1).
    destruct (Facts h1 S1 Tl1 Tr1) as (Rl1 & Rr1 & (t1 & lo1 & Ut1 & Lt1 & Elo1 & Mlo1) & (u1 & ro1 & Uu1 & Lu1 & Ero1 & Mro1)). rewrite (run_ok _ _ _ _ _ Elo1), (run_ok _ _ _ _ _ Ero1).
    (* make compound *)
    match goal with |- context [sbind (if is_terminal lo1 && is_terminal ro1 then ?A else ?B) _] => assert (B2 : exists h' new, (if is_terminal lo1 && is_terminal ro1 then A else B) h1 = (Ok ((cands ++ new1) ++ new), h') /\ le tp h1 h' /\ outs h' bnd (opt (is_terminal lo1 && is_terminal ro1) Aft) new /\ (is_terminal lo1 && is_terminal ro1 = false -> h' = h1)) end.
    { destruct (is_terminal lo1 && is_terminal ro1) eqn:Tm; [|now apply None_]. apply Yes. apply andb_true_iff in Tm as [Tm _]. rewrite Mlo1 in Tm.
      destruct Rl1 as (k1 & Gk1 & Kk1).
      destruct (compound_block (fun rel_id => build_candidate (find_candidates_r f) wn rel_id child (x :: tp) (cands ++ new1)) h1 k1 w0 l0 rl t1 ic child c0 ccs lc0 lcs (s2_inv h1 S1) Gk1 Kk1 Tl1 Ut1 Lt1 Tm (s2_c _ S1) (s2_cc _ S1)) as (h1' & rel_id & Eb & Lb & Hb & Wb & Cb).
      rewrite Eb. now apply (finish2 h1 h1' rel_id (l0 ++ lc0)). }
    destruct B2 as (h2 & new2 & E2 & L2 & C2 & K2). rewrite (run_ok _ _ _ _ _ E2). destruct (Next h1 h2 S1 L2 Tl1 Tr1) as (S2 & Tl2 & Tr2).
    destruct (Facts h2 S2 Tl2 Tr2) as (Rl2 & Rr2 & (t2 & lo2 & Ut2 & Lt2 & Elo2 & Mlo2) & (u2 & ro2 & Uu2 & Lu2 & Ero2 & Mro2)). rewrite (run_ok _ _ _ _ _ Elo2), (run_ok _ _ _ _ _ Ero2).
    (* merge at the center *)
    match goal with |- context [sbind (if negb (is_terminal lo2) || negb (is_terminal ro2) then ?A else ?B) _] => assert (B3 : exists h' new, (if negb (is_terminal lo2) || negb (is_terminal ro2) then A else B) h2 = (Ok (((cands ++ new1) ++ new2) ++ new), h') /\ le tp h2 h' /\ outs h' bnd (opt (negb (is_terminal lo2) || negb (is_terminal ro2)) Aft) new /\ (negb (is_terminal lo2) || negb (is_terminal ro2) = false -> h' = h2)) end.
    { destruct (negb (is_terminal lo2) || negb (is_terminal ro2)); [|now apply None_]. apply Yes.
      destruct (center_block (fun rel_id => build_candidate (find_candidates_r f) wn rel_id child (x :: tp) ((cands ++ new1) ++ new2)) h2 lo2 ro2 w0 l0 rl t2 c0 lc0 rr u2 (s2_inv h2 S2) Rl2 Tl2 Ut2 Lt2 Elo2 Rr2 Tr2 Uu2 Lu2 Ero2 (s2_cw _ S2) (s2_cc _ S2)) as (h2' & rel_id & Eb & Lb & Hb & Wb & Cb).
      rewrite Eb. now apply (finish2 h2 h2' rel_id (l0 ++ lc0)). }
    destruct B3 as (h3 & new3 & E3 & L3 & C3 & _). rewrite (run_ok _ _ _ _ _ E3). destruct (Next h2 h3 S2 L3 Tl2 Tr2) as (S3 & Tl3 & Tr3).
    destruct (Facts h3 S3 Tl3 Tr3) as (_ & _ & (t3 & lo3 & Ut3 & _) & (u3 & ro3 & Uu3 & Lu3 & Ero3 & Mro3)). rewrite (run_ok _ _ _ _ _ Ero3).
    (* add to first child *)
    match goal with |- context [(if is_terminal ro3 then ?A else ?B) h3] => assert (B4 : exists h' new, (if is_terminal ro3 then A else B) h3 = (Ok ((((cands ++ new1) ++ new2) ++ new3) ++ new), h') /\ le tp h3 h' /\ outs h' bnd (opt (is_terminal ro3) Aft) new /\ (is_terminal ro3 = false -> h' = h3)) end.
    { destruct (is_terminal ro3); [|now apply None_]. apply Yes.
      destruct (first_block (fun rel_id => build_candidate (find_candidates_r f) wn rel_id child (x :: tp) (((cands ++ new1) ++ new2) ++ new3)) h3 iw wn w0 wcs l0 wls ic child c0 ccs lc0 lcs (s2_inv h3 S3) (s2_w _ S3) (s2_c _ S3) (s2_cw _ S3) (s2_cc _ S3)) as (h3' & rel_id & Eb & Lb & Hb & Wb & Cb).
      rewrite Eb. now apply (finish2 h3 h3' rel_id (l0 ++ lc0)). }
    destruct B4 as (h4 & new4 & E4 & L4 & C4 & _). exists h4, (new1 ++ new2 ++ new3 ++ new4). rewrite E4. split; [now rewrite <- !app_assoc|]. split.
    - apply (step2_le h h1 h4 L1), (step2_le h1 h2 h4 L2), (step2_le h2 h3 h4 L3 L4).
    - assert (K : is_terminal lo1 && is_terminal ro1 = true \/ negb (is_terminal lo2) || negb (is_terminal ro2) = true).
      { destruct (is_terminal lo1 && is_terminal ro1) eqn:Tm; [now left|]. right. rewrite (K2 eq_refl) in *. assert (lo2 = lo1) by congruence. assert (ro2 = ro1) by congruence. subst lo2 ro2. destruct (is_terminal lo1), (is_terminal ro1); cbn in *; congruence. }
      assert (Hw : Nat.eqb (List.length (w0 :: wcs)) 1 = true <-> wls = []).
      { rewrite Nat.eqb_eq. pose proof (fe_words _ _ _ _ _ (s2_w _ S0)) as V. apply F2_cons in V as [_ V]. cbn [List.length]. split; [intros H; destruct wcs; [now inversion V|discriminate]|intros H; rewrite H in V; inversion V; reflexivity]. }
      pose proof (outs_le tp h1 h4 bnd _ _ (s2_inv h1 S1) (step2_le h1 h2 h4 L2 (step2_le h2 h3 h4 L3 L4)) Htp C1) as D1.
      pose proof (outs_le tp h2 h4 bnd _ _ (s2_inv h2 S2) (step2_le h2 h3 h4 L3 L4) Htp C2) as D2. pose proof (outs_le tp h3 h4 bnd _ _ (s2_inv h3 S3) L4 Htp C3) as D3.
      refine (outs_iff _ _ _ _ _ _ (outs_app _ _ _ _ _ _ D1 (outs_app _ _ _ _ _ _ D2 (outs_app _ _ _ _ _ _ D3 C4)))). unfold opt. intros a b. split.
      + intros [[H1 H2]|[[_ H]|[[_ H]|[_ H]]]]; [left|right; exact H|right; exact H|right; exact H]. apply Hw in H1. split; [exact H1|]. now rewrite H1 in H2.
      + intros [[H1 H2]|H]; [left; split; [now apply Hw|]; rewrite H1; exact H2|right]. destruct K as [K|K]; [left; now split|right; left; now split].
  Qed.
End step2.

(** the candidates of a child: a leaf, or relations with arguments *)
Definition kcand (h : tree) (bnd : Z) (p : option (words * list words)) (r : nat) : Prop :=
  match p with
  | None => exists i, table h i = Some r /\ good h i /\ exists ns k, unfolds h i (SLeaf ns k)
  | Some (m0, ms) => cand2 h bnd m0 ms r
  end.
Lemma kcands_le X h h' bnd ps rs : Inv h -> le X h h' -> (forall x, In x X -> (x < bnd)%Z) -> Forall2 (kcand h bnd) ps rs -> Forall2 (kcand h' bnd) ps rs.
Proof.
  intros I L HX. induction 1 as [|p r ps rs H _ IH]; constructor; [|exact IH]. destruct p as [[m0 ms]|]; [now apply (cand2_le X h h')|]. destruct H as (i & T & G & ns & k & U).
  exists i. split; [exact (le_tab _ _ _ L i r G T)|]. split; [exact (le_good _ _ _ i L G)|]. destruct (le_words _ _ _ L i _ G U (good_tree h i _ I G U)) as (t' & U' & _ & _ & El). destruct t' as [n' k'|]; [eauto|discriminate].
Qed.
Definition per (l0 : words) (wls : list words) (t : stree) (ts : list stree) (p : option (words * list words)) (rel : words) (args : list words) : Prop :=
  (exists m ms, p = Some (m, ms) /\ Forall (fun q => relation_word (snd q)) m /\ ((wls = [] /\ adding (m ++ l0) ms ts rel args) \/ adding (l0 ++ m) (wls ++ ms) ts rel args))
  \/ adding l0 (wls ++ [labelled t]) ts rel args.
Lemma rel_words t : rel_all t = true <-> Forall (fun q => relation_word (snd q)) (labelled t).
Proof. rewrite rel_all_iff, leaves_lab, Forall_map. reflexivity. Qed.
Lemma each2 f (HR : recspec2 f) bnd iw wn w0 wcs l0 wls x t tp ts :
  (bnd <= iw)%Z -> (forall z, In z (x :: tp) -> (z < bnd)%Z) -> S (List.length (List.concat (List.map labelled ts))) <= f -> arg1 x t -> Forall2 arg1 tp ts -> forall l ps cands h,
  since h -> free h iw wn (w0 :: wcs) (l0 :: wls) -> clear h w0 -> (bnd <= cur_id h)%Z -> Forall2 (kcand h bnd) ps l ->
  exists h' new, each_candidate (find_candidates_r f) wn x (x :: tp) l cands h = (Ok (cands ++ new), h') /\ le (x :: tp) h h'
    /\ outs h' bnd (fun rel args => exists p, In p ps /\ per l0 wls t ts p rel args) new.
Proof.
  intros Hiw Hx Hf Ax At. assert (Htp : forall z, In z tp -> (z < bnd)%Z) by (intros z Hz; apply Hx; now right).
  induction l as [|child l IH]; intros ps cands h Si Fw Cw Hb Cl; pose proof (since_inv h Si) as I.
  - inversion Cl; subst. exists h, []. cbn [each_candidate]. split; [now rewrite app_nil_r|]. split; [apply (le_weaken []); [now apply le_refl|easy]|]. apply (outs_iff _ _ (fun _ _ => False)); [|apply outs_nil]. intros a b. split; [easy|now intros (p & [] & _)].
  - destruct ps as [|p ps]; [inversion Cl|]. apply F2_cons in Cl as [Cc Cl]. cbn [each_candidate].
    assert (X1 : exists o b h1 new1, deref child h = (Ok o, h) /\ (if is_node o then run cc <- children_ids child; run c0 <- nth_id cc 0; delta_rel c0 else sret false) h = (Ok b, h)
      /\ (if b then relationship_candidates (find_candidates_r f) wn child (x :: tp) cands else sret cands) h = (Ok (cands ++ new1), h1)
      /\ le tp h h1 /\ outs h1 bnd (fun rel args => exists m ms, p = Some (m, ms) /\ Forall (fun q => relation_word (snd q)) m /\ ((wls = [] /\ adding (m ++ l0) ms ts rel args) \/ adding (l0 ++ m) (wls ++ ms) ts rel args)) new1).
    { assert (None_ : forall P : words -> list words -> Prop, (forall a b, ~ P a b) -> exists h1 new1, sret cands h = (Ok (cands ++ new1), h1) /\ le tp h h1 /\ outs h1 bnd P new1).
      { intros P HP. exists h, []. split; [now rewrite app_nil_r|]. split; [apply (le_weaken []); [now apply le_refl|easy]|]. split; [constructor|]. intros a b H. exfalso. exact (HP a b H). }
      destruct p as [[m ms]|].
      - destruct Cc as (ic & c0 & ccs & Fc & Cc0 & Hc). destruct (free_node _ _ _ _ _ Fc) as (o & Eo & En & _).
        pose proof (fe_words _ _ _ _ _ Fc) as V. apply F2_cons in V as [[G0 (u & U & Lu)] _].
        assert (Er : (run cc <- children_ids child; run c1 <- nth_id cc 0; delta_rel c1) h = (Ok (rel_all u), h)).
        { rewrite (run_ok _ _ _ _ _ (free_kids _ _ _ _ _ Fc)), (run_ok (nth_id (c0 :: ccs) 0) _ h c0 h eq_refl). apply delta_rel_u; [apply I|exact U]. }
        exists o, (rel_all u). rewrite En. destruct (rel_all u) eqn:Ra.
        + destruct (relationship2 f HR bnd iw ic wn child w0 c0 x wcs ccs tp l0 m wls ms ts Hiw Hc Htp At Hf h cands) as (h1 & new1 & E1 & L1 & C1); [constructor; assumption|].
          exists h1, new1. split; [exact Eo|]. split; [exact Er|]. split; [exact E1|]. split; [exact L1|]. refine (outs_iff _ _ _ _ _ _ C1). intros a b. split.
          * intros H. exists m, ms. split; [reflexivity|]. split; [rewrite <- Lu; now apply rel_words|exact H].
          * intros (m' & ms' & E & _ & H). injection E as <- <-. exact H.
        + destruct (None_ _ (fun a b (H : exists m' ms', Some (m, ms) = Some (m', ms') /\ Forall (fun q => relation_word (snd q)) m' /\ ((wls = [] /\ adding (m' ++ l0) ms' ts a b) \/ adding (l0 ++ m') (wls ++ ms') ts a b)) => match H with ex_intro _ m' (ex_intro _ ms' (conj E (conj F _))) => Bool.diff_false_true (eq_trans (eq_sym Ra) (proj2 (rel_words u) (eq_ind_r (fun z => Forall (fun q => relation_word (snd q)) z) (eq_ind_r (fun z => Forall (fun q => relation_word (snd q)) z) F (f_equal (fun o => match o with Some (z, _) => z | None => m end) E)) Lu))) end)) as (h1 & new1 & Nn).
          exists h1, new1. split; [exact Eo|]. split; [exact Er|exact Nn].
      - destruct Cc as (i & T & G & ns & k & U). destruct (obj_of h i child _ I G T U) as (o & Eo & _ & _ & En & _). exists o, false.
        destruct (None_ (fun a b => exists m ms, None = Some (m, ms) /\ Forall (fun q => relation_word (snd q)) m /\ ((wls = [] /\ adding (m ++ l0) ms ts a b) \/ adding (l0 ++ m) (wls ++ ms) ts a b))) as (h1 & new1 & Nn); [intros a b (m & ms & H & _); discriminate|].
        exists h1, new1. split; [exact Eo|]. rewrite En. split; [reflexivity|exact Nn]. }
    destruct X1 as (co & b & h1 & new1 & Eo & Eb & E1 & L1 & C1). pose proof (since_le _ _ _ Si L1) as Si1. pose proof (le_inv _ _ _ L1) as I1. assert (HC1 : (cur_id h <= cur_id h1)%Z) by apply L1.
    assert (Fw1 : free h1 iw wn (w0 :: wcs) (l0 :: wls)) by (apply (free_le tp h h1); [exact I|exact L1| |exact Fw]; intros H; apply Htp in H; lia).
    pose proof (arg1_W h1 x t Si1 Ax) as Wx1.
    destruct (append_block (fun n => find_candidates_r f n tp (cands ++ new1)) h1 iw wn (w0 :: wcs) (l0 :: wls) x (labelled t) I1 Fw1 Wx1) as (h2 & n1 & i1 & wcs1 & E2 & L2 & Hi1 & Fe2 & Nw & Cw1).
    assert (HC2 : (cur_id h1 <= cur_id h2)%Z) by apply L2. destruct wcs1 as [|y ys]; [easy|]. apply F_cons in Cw1 as [Cy _]. cbn [app] in Fe2.
    destruct (HR h2 i1 n1 y (ys ++ [x]) l0 (wls ++ [labelled t]) tp ts (cands ++ new1) bnd (since_le _ _ _ Si1 L2) Fe2 Cy At ltac:(lia) ltac:(lia) Htp Hf) as (h3 & new2 & E3 & L3 & C3).
    assert (L23 : le (x :: tp) h1 h3) by exact (le_trans2 [x] tp h1 h2 h3 L2 L3).
    assert (L13 : le (x :: tp) h h3). { apply (le_comp tp (x :: tp) (x :: tp) h h1 h3 L1 L23). intros z Hz _ _. apply in_app_iff in Hz as [Hz|Hz]; [now right|exact Hz]. }
    pose proof (le_inv _ _ _ L3) as I3. assert (HC3 : (cur_id h <= cur_id h3)%Z) by apply L13.
    destruct (IH ps ((cands ++ new1) ++ new2) h3) as (h4 & new3 & E4 & L4 & C4).
    { exact (since_le _ _ _ Si L13). } { apply (free_le (x :: tp) h h3); [exact I|exact L13| |exact Fw]. intros H. apply Hx in H. lia. } { apply (le_clear _ _ _ L13); [|exact Cw]. pose proof (fe_words _ _ _ _ _ Fw) as V. apply F2_cons in V as [V _]. apply V. } { lia. } { exact (kcands_le (x :: tp) h h3 bnd ps l I L13 Hx Cl). }
    exists h4, (new1 ++ new2 ++ new3). split; [|split].
    + rewrite (run_ok _ _ _ _ _ Eo), (run_ok _ _ _ _ _ Eb), (run_ok _ _ _ _ _ E1). cbn [tl].
      rewrite (run_ok _ _ h1 ((cands ++ new1) ++ new2) h3 (eq_trans E2 E3)), E4. now rewrite <- !app_assoc.
    + apply (le_comp (x :: tp) (x :: tp) (x :: tp) h h3 h4 L13 L4). intros z Hz _ _. now apply in_app_iff in Hz as [H|H].
    + assert (L14 : le (x :: tp) h1 h4) by (apply (le_comp (x :: tp) (x :: tp) (x :: tp) h1 h3 h4 L23 L4); intros z Hz _ _; now apply in_app_iff in Hz as [H|H]).
      pose proof (outs_le (x :: tp) h1 h4 bnd _ _ I1 L14 Hx C1) as D1. pose proof (outs_le (x :: tp) h3 h4 bnd _ _ I3 L4 Hx C3) as D2.
      refine (outs_iff _ _ _ _ _ _ (outs_app _ _ _ _ _ _ D1 (outs_app _ _ _ _ _ _ D2 C4))). intros a c. split.
      * intros [H|[H|(q & Hq & H)]]; [exists p; split; [now left|left; exact H]|exists p; split; [now left|right; exact H]|exists q; split; [now right|exact H]].
      * intros (q & [<-|Hq] & H); [|right; right; exists q; now split]. destruct H as [H|H]; [left; exact H|right; left; exact H].
Qed.

Lemma labels_of {A} (P : words -> list words -> Prop) (Q : words -> list words -> A -> Prop) l : Forall (fun r => exists m ms, P m ms /\ Q m ms r) l ->
  exists ps : list (words * list words), Forall2 (fun p r => P (fst p) (snd p) /\ Q (fst p) (snd p) r) ps l.
Proof. induction 1 as [|r l (m & ms & H) _ (ps & F)]; [exists []; constructor|]. exists ((m, ms) :: ps). now constructor. Qed.
Lemma apart_some T : full T -> leafb T = false -> exists rel args, apart T rel args.
Proof.
  destruct T as [|ns c [|r ts]]; [discriminate|intros F; apply full_node in F; easy|]. intros _ _. destruct (adding_some ts (labelled r) []) as (rel & args & A). exists rel, args. now constructor.
Qed.
Lemma search2 : forall f, recspec2 f.
Proof.
  induction f as [|f IH]; intros h iw wn w0 wcs l0 wls tp ts cands bnd Si Fw Cw At Hiw Hb Htp Hf; [lia|]. cbn [find_candidates_r].
  pose proof (since_inv h Si) as I. pose proof (inv_wf h I) as Wf. destruct tp as [|x tp].
  - inversion At; subst ts. pose proof (fe_words _ _ _ _ _ Fw) as V. apply F2_cons in V as [Ww _]. destruct (W_tget _ _ _ Ww) as (r0 & E0 & T0).
    assert (Eg : get_child wn 0 h = (Ok r0, h)).
    { unfold get_child. rewrite (run_ok _ _ _ _ _ (free_kids _ _ _ _ _ Fw)), (run_ok (nth_id (w0 :: wcs) 0) _ h w0 h eq_refl). exact E0. }
    rewrite (run_ok _ _ _ _ _ Eg), (run_ok _ _ _ _ _ (budget_u h)).
    destruct (inv_tree h I w0 (W_good _ _ _ Ww)) as (t & U & _).
    destruct (flatten_u (rk (n_obj h) h) (S (n_obj h)) h r0 w0 I (rk_ranked h I) (W_good _ _ _ Ww) T0) as (h' & E & L & _); [|exact Cw|].
    { rewrite (rk_depth h _ t w0 U (unf_depth h w0 t Wf U)). pose proof (unf_depth h w0 t Wf U). lia. }
    rewrite (run_ok _ _ _ _ _ E). exists h', [wn]. split; [reflexivity|].
    assert (L0 : le [] h h').
    { apply (le_drop [w0]); [exact L|]. intros z [<-|[]] _. exists iw. split; [apply Fw|apply (free_kid _ _ _ _ _ _ Fw); now left]. }
    assert (C : cand2 h' bnd l0 wls wn).
    { exists iw, w0, wcs. split; [now apply (free_le [] h h' iw wn)|]. split; [|exact Hiw]. exact (le_clear _ _ _ L0 w0 (W_good _ _ _ Ww) Cw). }
    split; [exact L0|]. split.
    + constructor; [|constructor]. exists l0, wls. split; [constructor|exact C].
    + intros m ms A. apply adding_nil in A as [-> ->]. exists wn. split; [now left|exact C].
  - destruct ts as [|t ts]; [inversion At|]. apply F2_cons in At as [Ax At]. pose proof (arg1_W h x t Si Ax) as Wx. destruct (W_tget _ _ _ Wx) as (rx & Ex & Tx). rewrite (run_ok _ _ _ _ _ Ex).
    pose proof Wx as Wx'. destruct Wx as [Gx (t' & Ux & Lx)].
    destruct (obj_of h x rx t' I Gx Tx Ux) as (o & Eo & _ & _ & _ & El). rewrite (run_ok _ _ _ _ _ Eo).
    pose proof (W_words h x _ I Wx') as Nc. cbn [List.map List.concat] in Hf. rewrite app_length in Hf.
    match goal with |- context [sbind ?P _] => assert (CC : exists h1 ccs ps, P h = (Ok ccs, h1) /\ le [] h h1 /\ ps <> [] /\ Forall2 (kcand h1 bnd) ps ccs /\ forall m ms, In (Some (m, ms)) ps <-> apart t m ms) end.
    { destruct Ax as (U0 & F0 & As). destruct Si as (Y & LY). assert (Gx0 : good h0 x) by (left; eauto). destruct (le_words _ _ _ LY x t Gx0 U0 F0) as (t2 & U2 & _ & _ & Lf2). assert (t2 = t') by exact (unfolds_fun h x t2 U2 t' Ux). subst t2.
      rewrite El, Lf2. destruct As as [ns k x|ns c t0 us x r cs Sh0 Arx Ur Cr Fs]; cbn [leafb].
      - exists h, [rx], [None]. split; [reflexivity|]. split; [now apply le_refl|]. split; [discriminate|]. split.
        + constructor; [|constructor]. exists x. split; [exact Tx|]. split; [exact Gx|]. destruct t' as [n' k'|]; [now exists n', k'|discriminate].
        + intros m ms. split; [intros [H|[]]; discriminate|intros A; exfalso; exact (apart_leaf _ _ _ _ A)].
      - pose proof (le_A _ _ _ LY x Arx) as ShE. rewrite Sh0 in ShE. pose proof ShE as ShE'. apply shape_node in ShE' as (r' & l & ls & y & T' & O & L). assert (r' = rx) by congruence. subst r'.
        rewrite (run_ok _ _ _ _ _ (children_ids_ok _ _ _ _ _ _ _ _ _ O L)). cbn [firstn skipn].
        assert (Ge : forall z, In z (r :: cs) -> good h z) by (intros z Hz; apply (inv_kids h I x z Gx); now exists ns, c, (r :: cs)).
        assert (Re : forall z, In z (r :: cs) -> refd h z) by (intros z Hz; exists x; split; [exact Gx|now exists ns, c, (r :: cs)]).
        apply full_node in F0 as [_ F0]. apply F_cons in F0 as [F0 F1].
        assert (Uk : Forall2 (unfolds h0) cs us). { apply unf_shape in U0 as (cs' & E' & Us'). rewrite Sh0 in E'. injection E' as <-. now apply F2_cons in Us' as [_ Us']. }
        assert (Ak : Forall2 arg1 cs us).
        { clear - Uk F1 Fs. induction Uk as [|z u cs us Hz _ IHk]; [constructor|]. apply F_cons in F1 as [F1 F2]. apply F2_cons in Fs as [Fs1 Fs2]. constructor; [now repeat apply conj|now apply IHk]. }
        assert (Gr0 : good h0 r) by (left; eauto). destruct (le_words _ _ _ LY r t0 Gr0 Ur F0) as (tr & Utr & Str).
        assert (Wr : W h r (labelled t0)) by (split; [apply Ge; now left|exists tr; split; [exact Utr|apply Str]]). assert (Cr' : clear h r) by exact (le_clear _ _ _ LY r Gr0 Cr).
        destruct (fresh_create [] h h [r] [labelled t0] I (grow_refl [] h I)) as (h1 & E1 & Fs1 & _ & _); [discriminate|constructor; [apply refd_allowed; [exact I|apply Re; now left]|constructor]|now constructor|].
        rewrite (run_ok _ _ _ _ _ E1). pose proof (fresh_fuel _ _ _ _ _ _ _ _ _ I Fs1) as L1. pose proof (fresh_free _ _ _ _ _ _ _ _ _ I Fs1) as Fe1.
        assert (HC1 : (cur_id h <= cur_id h1)%Z) by apply L1. pose proof (full_words t0 F0) as Nt0.
        destruct (IH h1 (cur_id h) (n_obj h) r [] (labelled t0) [] cs us [] (cur_id h) (since_le _ _ _ (ex_intro _ Y LY) L1) Fe1 (le_clear _ _ _ L1 r (W_good _ _ _ Wr) Cr') Ak ltac:(lia) HC1) as (h2 & new & E2 & L2 & C2).
        { intros z Hz. apply (good_bound h z W0 I). apply Ge. now right. }
        { rewrite labelled_concat in Hf. cbn [List.map List.concat] in Hf. rewrite app_length in Hf. destruct (labelled t0); [easy|]. cbn [List.length] in Hf. lia. }
        assert (Cb : outs h2 bnd (adding (labelled t0) [] us) new) by (apply (outs_weak h2 (cur_id h)); [exact Hb|exact C2]).
        destruct Cb as [CA CB]. destruct (labels_of _ _ _ CA) as (ps & Fp).
        exists h2, new, (List.map Some ps). split; [exact E2|]. split; [|split; [|split]].
        + apply (le_drop ([] ++ cs)); [exact (le_trans2 [] cs h h1 h2 L1 L2)|]. intros z Hz _. apply Re. now right.
        + destruct (adding_some us (labelled t0) []) as (a & b & A). destruct (CB a b A) as (q & Hq & _). destruct Fp; [destruct Hq|discriminate].
        + clear - Fp. induction Fp as [|[m ms] q ps new [_ H] _ IHp]; [constructor|]. cbn [List.map]. constructor; [exact H|exact IHp].
        + intros m ms. rewrite apart_iff. split.
          * intros H. apply in_map_iff in H as (p & Ep & Hp). injection Ep as ->. destruct (Forall2_in_l _ _ _ _ Fp Hp) as (q & _ & H & _). exact H.
          * intros A. destruct (CB m ms A) as (q & Hq & Cq). clear - Fp Hq Cq HA. induction Fp as [|[m' ms'] q' ps new [_ H] _ IHp]; [destruct Hq|]. destruct Hq as [<-|Hq]; [|right; now apply IHp].
            destruct (cand2_fun _ _ _ _ _ _ _ _ Cq H) as [E1 E2]. cbn in E1, E2. subst m' ms'. now left. }
    destruct CC as (h1 & ccs & ps & E1 & L1 & N1 & C1 & Hps). rewrite (run_ok _ _ _ _ _ E1). assert (HC1 : (cur_id h <= cur_id h1)%Z) by apply L1.
    destruct (each2 f IH bnd iw wn w0 wcs l0 wls x t tp ts Hiw Htp ltac:(lia) Ax At ccs ps cands h1 (since_le _ _ _ Si L1)) as (h2 & new & E2 & L2 & C2).
    { apply (free_le [] h h1); [exact I|exact L1|easy|exact Fw]. } { apply (le_clear _ _ _ L1); [|exact Cw]. pose proof (fe_words _ _ _ _ _ Fw) as V. apply F2_cons in V as [V _]. apply V. } { lia. } { exact C1. }
    exists h2, new. split; [exact E2|]. split; [apply (le_comp [] (x :: tp) (x :: tp) h h1 h2 L1 L2); intros z Hz _ _; exact Hz|].
    refine (outs_iff _ _ _ _ _ _ C2). intros a b. rewrite adding_cons. unfold per. split.
    + intros (p & Hp & [(m & ms & -> & F & H)|H]); [right|left; exact H]. exists m, ms. split; [now apply Hps|now split].
    + intros [H|(m & ms & A & F & H)]; [destruct ps as [|p ps]; [easy|]; exists p; split; [now left|right; exact H]|]. exists (Some (m, ms)). split; [now apply Hps|]. left. exists m, ms. split; [reflexivity|now split].
Qed.

End delta.

(** ** The stage *)

Lemma inv_start h : wf h -> Inv h h.
Proof.
  intros Wf. constructor; [exact Wf|lia| |].
  - intros i [G|G]; [exact G|lia].
  - intros i j [(t & U & F)|G] K; [|lia]. left. destruct (kid_unf h i j t U K) as (ns & c & ts & u & -> & Hu & Uj). exists u. split; [exact Uj|]. apply full_node in F as [_ F]. rewrite Forall_forall in F. now apply F.
Qed.
Definition best_of (entity : nat) : list nat -> option nat -> Z -> SM (option nat) :=
  fix each (l : list nat) (best : option nat) (best_fit : Z) : SM (option nat) :=
         match l with
         | [] => sret best
         | c :: rest => run fit <- node_fit c entity;
                        if (best_fit <? fit)%Z then each rest (Some c) fit else each rest best best_fit
         end.
Lemma best_loop h entity : forall l zs best fit, Forall2 (fun c z => node_fit c entity h = (Ok z, h)) l zs ->
  (best_of entity l best fit h = (Ok best, h) /\ Forall (fun z => (z <= fit)%Z) zs)
  \/ exists pre b post zpre z zpost, l = pre ++ b :: post /\ zs = zpre ++ z :: zpost /\ List.length pre = List.length zpre
     /\ best_of entity l best fit h = (Ok (Some b), h) /\ (fit < z)%Z /\ Forall (fun z' => (z' < z)%Z) zpre /\ Forall (fun z' => (z' <= z)%Z) zpost.
Proof.
  intros l zs best fit F. revert best fit. induction F as [|c z l zs Ez _ IH]; intros best fit.
  - left. split; [reflexivity|constructor].
  - assert (Eb : best_of entity (c :: l) best fit h = (if (fit <? z)%Z then best_of entity l (Some c) z else best_of entity l best fit) h) by (cbn [best_of]; now rewrite (run_ok _ _ _ _ _ Ez)).
    destruct (Z.ltb_spec fit z) as [Lt|Le].
    + right. destruct (IH (Some c) z) as [[E Fz]|(pre & b & post & zp & z1 & zq & -> & -> & Ll & E & Lz & F1 & F2)].
      * exists [], c, l, [], z, zs. split; [reflexivity|]. split; [reflexivity|]. split; [reflexivity|]. split; [now rewrite Eb|]. split; [exact Lt|]. split; [constructor|exact Fz].
      * exists (c :: pre), b, post, (z :: zp), z1, zq. split; [reflexivity|]. split; [reflexivity|]. split; [cbn; now rewrite Ll|]. split; [now rewrite Eb|]. split; [lia|]. split; [now constructor|exact F2].
    + destruct (IH best fit) as [[E Fz]|(pre & b & post & zp & z1 & zq & -> & -> & Ll & E & Lz & F1 & F2)].
      * left. split; [now rewrite Eb|now constructor].
      * right. exists (c :: pre), b, post, (z :: zp), z1, zq. split; [reflexivity|]. split; [reflexivity|]. split; [cbn; now rewrite Ll|]. split; [now rewrite Eb|]. split; [exact Lz|]. split; [constructor; [lia|exact F1]|exact F2].
Qed.

Lemma set_root_unf j0 : forall T h i, unfolds h i T -> unfolds (Tr (table h) (cur_id h) (Some j0) (objs h) (n_obj h) (lists h) (n_list h)) i T.
Proof.
  induction T as [ns k|ns c ts IH] using stree_ind'; intros h i U; inversion U; subst; [econstructor; eassumption|].
  econstructor; try eassumption. match goal with A : Forall2 _ ?cs ts |- _ => clear - A IH; induction A; [constructor|] end. inversion IH; subst. constructor; auto.
Qed.
Lemma F2_mid {A B} (P : A -> B -> Prop) pre x post l : Forall2 P (pre ++ x :: post) l -> exists lpre y lpost, l = lpre ++ y :: lpost /\ Forall2 P pre lpre /\ P x y /\ Forall2 P post lpost.
Proof. intros F. apply Forall2_app_inv_l in F as (l1 & l2 & F1 & F2 & ->). destruct l2 as [|y l2]; [inversion F2|]. apply F2_cons in F2 as [Hx F2]. now exists l1, y, l2. Qed.
Lemma F2_weigh {A B} (P : A -> B -> Prop) (Q : B -> Prop) l m : Forall2 P l m -> Forall Q m -> Forall (fun x => exists y, P x y /\ Q y) l.
Proof. induction 1; intros F; constructor; inversion F; subst; eauto. Qed.
(** what [delta_entity] does when it searches: it takes the first of the candidates that fit best *)
Lemma delta_entity_best fuel h i ns t0 ts : let T := SNode ns false (t0 :: ts) in
  wf h -> unfolds h i T -> full T -> rel_all t0 = true -> List.length (labelled T) < fuel ->
  exists r h' cands Ts To pre C post j z, table h i = Some r /\ find_candidates fuel r h = (Ok cands, h') /\ delta_entity fuel i h = (Ok j, h') /\ wf h'
    /\ Forall2 (tref h') cands Ts /\ Forall (fun C => full C /\ Permutation (labelled T) (labelled C)) Ts
    /\ unfolds h' i To /\ full To /\ labelled To = labelled T
    /\ Ts = pre ++ C :: post /\ unfolds h' j C /\ fits To C z
    /\ Forall (fun C' => exists z', fits To C' z' /\ (z' < z)%Z) pre /\ Forall (fun C' => exists z', fits To C' z' /\ (z' <= z)%Z) post.
Proof.
  intros T Wf U Fu Hrel Hf. destruct (tget_u _ _ _ U) as (r & Er & Rr & Tr). pose proof (inv_start h Wf) as I. pose (N := fun _ : Z => False). assert (HN : forall z, N z -> exists t, unfolds h z t /\ full t) by (intros z []). assert (NN : forall z, ~ N z) by (intros z []). assert (Gi : good h h i) by (left; now exists T).
  destruct (obj_of h h i r T I Gi Tr U) as (o & Eo & _ & Et & _ & El).
  unfold delta_entity. rewrite (run_ok _ _ _ _ _ Er), (run_ok _ _ _ _ _ Eo), Et. cbn [terminal leafb T] in *.
  destruct (children_ids_u _ _ _ _ _ Rr) as (cs' & Ec' & Us'). destruct cs' as [|i0 cs']; [inversion Us'|]. apply F2_cons in Us' as [U0' _].
  destruct (kids_of h N h i r ns false (t0 :: ts) I Gi Tr U) as (cs & Ec & Rc & Wc & Nn & _). destruct cs as [|c0 cs]; [easy|].
  assert (c0 = i0 /\ cs = cs') as [-> <-] by (rewrite Ec in Ec'; now injection Ec' as -> ->). clear Ec'.
  assert (EL : labelled T = List.concat (List.map labelled (t0 :: ts))) by apply labelled_concat. rewrite EL in Hf.
  destruct (List.map labelled (t0 :: ts)) as [|l0 ls] eqn:Em; [inversion Wc|]. apply F2_cons in Wc as [Wc0 Wc]. apply F_cons in Rc as [Rc0 Rc].
  assert (Ego : (run cs <- children_ids r; run c0 <- nth_id cs 0; delta_rel c0) h = (Ok true, h)).
  { rewrite (run_ok _ _ _ _ _ Ec), (run_ok (nth_id (i0 :: cs) 0) _ h i0 h eq_refl), <- Hrel. now apply delta_rel_u. }
  rewrite (run_ok _ _ _ _ _ Ego).
  destruct (fresh_create h N HN Wf [] h h [i0] [l0] I (grow_refl h N HN [] h I)) as (h1 & E1 & Fs & _ & _); [discriminate|constructor; [now apply refd_allowed|constructor]|now constructor|].
  pose proof (fresh_fuel h N HN _ _ _ _ _ _ _ _ _ I Fs) as L1. pose proof (fresh_free h N HN _ _ _ _ _ _ _ _ _ I Fs) as F1.
  assert (HC1 : (cur_id h <= cur_id h1)%Z) by apply L1. pose proof (W_words h N HN h i0 l0 I Wc0) as Nc0.
  cbn [List.concat] in Hf. rewrite app_length in Hf.
  destruct (find_candidates_r_ok h N HN Wf NN fuel h1 (cur_id h) (n_obj h) i0 [] l0 [] cs ls [] (cur_id h) (le_inv h N _ _ _ L1) F1 (W_le2 h N HN _ h h1 _ _ I L1 Wc) ltac:(lia) HC1) as (h2 & new & E2 & L2 & N2 & C2).
  { intros z Hz. pose proof (W_goods h _ _ _ Wc) as Gc. rewrite Forall_forall in Gc. apply (good_bound h h z Wf I). now apply Gc. }
  { lia. }
  assert (Ef : find_candidates fuel r h = (Ok new, h2)).
  { unfold find_candidates. rewrite (run_ok _ _ _ _ _ Eo), El. cbn [leafb]. rewrite (run_ok _ _ _ _ _ Ec). cbn [firstn skipn]. rewrite (run_ok _ _ _ _ _ E1). exact E2. }
  rewrite (run_ok _ _ _ _ _ Ef). pose proof (le_inv h N _ _ _ L2) as I2. pose proof (inv_wf h h2 I2) as Wf2.
  (* the original entity is still a tree *)
  pose proof (le_trans2 h N HN [] cs h h1 h2 L1 L2) as L02. destruct (le_words h N _ _ _ L02 i _ Gi U Fu) as (To & Uo & So). pose proof (le_tab h N _ _ _ L02 i r Gi Tr) as To2.
  (* the candidates are trees *)
  assert (TT : exists Ts, Forall2 (fun b C => tref h2 b C /\ full C /\ Permutation (labelled T) (labelled C) /\ exists j, id_of b h2 = (Ok j, h2) /\ unfolds h2 j C) new Ts).
  { clear - C2 I2 EL. induction C2 as [|b new (j & ks & lls & Fe & P & _) _ (Ts & F)]; [exists []; constructor|]. destruct (free_tree h _ _ _ _ _ I2 Fe) as (ns' & c' & ts' & U' & F' & Us' & Ls').
    exists (SNode ns' c' ts' :: Ts). constructor; [|exact F]. split; [exact (unf_tref _ _ _ _ (fe_tab h _ _ _ _ _ Fe) U')|]. split; [exact F'|]. split; [rewrite EL, labelled_concat, Ls', P; cbn; reflexivity|].
    destruct (obj_of h h2 j b _ I2 (fe_good h _ _ _ _ _ Fe) (fe_tab h _ _ _ _ _ Fe) U') as (ob & Eob & Ei & _). exists j. split; [unfold id_of; rewrite (run_ok _ _ _ _ _ Eob), Ei; reflexivity|exact U']. }
  destruct TT as (Ts & FT).
  assert (ZZ : exists zs, Forall2 (fun c z => node_fit c r h2 = (Ok z, h2)) new zs /\ Forall2 (fits To) Ts zs).
  { assert (R2 : tref h2 r To) by exact (unf_tref _ _ _ _ To2 Uo). assert (Fo : full To) by apply So. clear - FT Wf2 R2 Fo. induction FT as [|b C new Ts (Rb & Fb & _) _ (zs & A & B)]; [exists []; split; constructor|].
    destruct (node_fit_u h2 b r C To Wf2 Fb Fo Rb R2) as (z & Ez & Hz). exists (z :: zs). split; now constructor. }
  destruct ZZ as (zs & Fz & Ff).
  change (exists r0 h' cands Ts0 To0 pre C post j z, table h i = Some r0 /\ find_candidates fuel r0 h = (Ok cands, h') /\ sbind (best_of r new None (-1)%Z) (fun best => match best with Some b => id_of b | None => sraise AttributeError end) h2 = (Ok j, h') /\ wf h'
    /\ Forall2 (tref h') cands Ts0 /\ Forall (fun C => full C /\ Permutation (labelled T) (labelled C)) Ts0
    /\ unfolds h' i To0 /\ full To0 /\ labelled To0 = labelled T
    /\ Ts0 = pre ++ C :: post /\ unfolds h' j C /\ fits To0 C z
    /\ Forall (fun C' => exists z', fits To0 C' z' /\ (z' < z)%Z) pre /\ Forall (fun C' => exists z', fits To0 C' z' /\ (z' <= z)%Z) post).
  destruct (best_loop h2 r new zs None (-1)%Z Fz) as [[_ Neg]|(pre & b & post & zp & z & zq & En & Es & Ll & Eb & _ & Fp & Fq)].
  { exfalso. destruct Ff as [|C z Ts zs Hz _]; [inversion FT; subst; now apply N2|]. inversion Neg; subst. apply fits_pos in Hz. lia. }
  subst new zs. destruct (F2_mid _ _ _ _ _ FT) as (Tp & C & Tq & -> & P1 & (Rb & Fb & Pb & j & Ej & Uj) & P3).
  assert (L2' : List.length Tp = List.length zp) by (rewrite <- (Forall2_len _ _ _ P1); exact Ll).
  destruct (F2_mid _ _ _ _ _ Ff) as (zp' & z0 & zq' & Ez & Q1 & Q2 & Q3).
  assert (EE : zp = zp' /\ z = z0 /\ zq = zq').
  { assert (L3 : List.length zp = List.length zp') by (rewrite <- L2'; now apply Forall2_len in Q1). clear - Ez L3. revert zp' Ez L3. induction zp as [|x zp IH]; intros [|y zp'] Ez L3; try discriminate; cbn in Ez; injection Ez as -> Ez; [now subst|]. destruct (IH zp' Ez) as (-> & -> & ->); [now injection L3|]. now split. }
  destruct EE as (<- & <- & <-).
  exists r, h2, (pre ++ b :: post), (Tp ++ C :: Tq), To, Tp, C, Tq, j, z. split; [exact Tr|]. split; [exact Ef|]. split; [rewrite (run_ok _ _ _ _ _ Eb); exact Ej|]. split; [exact Wf2|].
  split; [clear - FT; induction FT as [|? ? ? ? (A & _) _ IH]; [constructor|constructor; [exact A|exact IH]]|]. split; [clear - FT; induction FT as [|? ? ? ? (_ & A & B & _) _ IH]; [constructor|constructor; [now split|exact IH]]|].
  split; [exact Uo|]. split; [apply So|]. split; [|split; [reflexivity|]]; [|split; [exact Uj|]; split; [exact Q2|]; split; [now apply (F2_weigh _ _ _ zp)|now apply (F2_weigh _ _ _ zq)]].
  apply So.
Qed.
Lemma delta_entity_u fuel h i T : wf h -> unfolds h i T -> full T -> List.length (labelled T) < fuel ->
  exists h' j T', delta_entity fuel i h = (Ok j, h') /\ wf h' /\ unfolds h' j T' /\ full T' /\ Permutation (labelled T) (labelled T').
Proof.
  intros Wf U Fu Hf. destruct (tget_u _ _ _ U) as (r & Er & Rr & Tr). destruct (deref_u _ _ _ Rr) as (o & Eo & _ & _ & _ & Et & _).
  assert (Plain : exists h' j T', sret i h = (Ok j, h') /\ wf h' /\ unfolds h' j T' /\ full T' /\ Permutation (labelled T) (labelled T')).
  { exists h, i, T. split; [reflexivity|]. split; [exact Wf|]. split; [exact U|]. split; [exact Fu|reflexivity]. }
  destruct T as [ns k|ns [|] [|t0 ts]]; [unfold delta_entity; now rewrite (run_ok _ _ _ _ _ Er), (run_ok _ _ _ _ _ Eo), Et|unfold delta_entity; now rewrite (run_ok _ _ _ _ _ Er), (run_ok _ _ _ _ _ Eo), Et|unfold delta_entity; now rewrite (run_ok _ _ _ _ _ Er), (run_ok _ _ _ _ _ Eo), Et|now apply full_node in Fu as [Fu _]|].
  destruct (rel_all t0) eqn:Hrel.
  - destruct (delta_entity_best fuel h i ns t0 ts Wf U Fu Hrel Hf) as (r' & h' & cands & Ts & To & pre & C & post & j & z & _ & _ & Ed & W' & _ & FT & _ & _ & _ & -> & Uj & _).
    exists h', j, C. split; [exact Ed|]. split; [exact W'|]. split; [exact Uj|]. apply Forall_app in FT as [_ FT]. inversion FT; subst. assumption.
  - unfold delta_entity. rewrite (run_ok _ _ _ _ _ Er), (run_ok _ _ _ _ _ Eo), Et. cbn [terminal]. destruct (children_ids_u _ _ _ _ _ Rr) as (cs & Ec & Us). destruct cs as [|i0 cs]; [inversion Us|]. apply F2_cons in Us as [U0 _].
    assert (Ego : (run cs <- children_ids r; run c0 <- nth_id cs 0; delta_rel c0) h = (Ok false, h)).
    { rewrite (run_ok _ _ _ _ _ Ec), (run_ok (nth_id (i0 :: cs) 0) _ h i0 h eq_refl), <- Hrel. now apply delta_rel_u. }
    rewrite (run_ok _ _ _ _ _ Ego). exact Plain.
Qed.
Lemma delta_u fuel h T : wf h -> shows h T -> full T -> List.length (labelled T) < fuel ->
  exists h' T', delta fuel h = (Ok tt, h') /\ wf h' /\ shows h' T' /\ full T' /\ Permutation (labelled T) (labelled T').
Proof.
  intros Wf (i & Ri & U) Fu Hf. unfold delta. rewrite (run_ok get_root_id _ h i h) by (unfold get_root_id; now rewrite Ri).
  destruct (delta_entity_u fuel h i T Wf U Fu Hf) as (h' & j & T' & E & W' & U' & F' & P). rewrite (run_ok _ _ _ _ _ E).
  eexists _, T'. split; [reflexivity|]. destruct W' as [A B C D]. split; [constructor; cbn; assumption|]. split; [|now split].
  exists j. split; [reflexivity|]. now apply set_root_unf.
Qed.
