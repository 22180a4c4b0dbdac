(** * P_alpha.v -- the alpha stage *)

From Verif Require Import Py P_py M_token M_tree M_stages S_tree P_tree P_treeops C_token.
From Coq Require Import String Permutation.
Open Scope list_scope.

Lemma smap_cons {A B} (f : A -> SM B) x l : smap f (x :: l) = (run y <- f x; run ys <- smap f l; sret (y :: ys)).
Proof. reflexivity. Qed.
Lemma sfor_cons {A} (f : A -> SM unit) x l : sfor f (x :: l) = (f x ;;; sfor f l).
Proof. reflexivity. Qed.
Lemma sany_cons {A} (f : A -> SM bool) x l : sany f (x :: l) = (run b <- f x; if b then sret true else sany f l).
Proof. reflexivity. Qed.
Lemma sall_cons {A} (f : A -> SM bool) x l : sall f (x :: l) = (run b <- f x; if b then sall f l else sret false).
Proof. reflexivity. Qed.

(** ** Reading *)

Lemma smap_tget h cs ts F : reps h cs ts F -> exists rs, smap tget cs h = (Ok rs, h) /\ Forall2 (fun i r => table h i = Some r) cs rs.
Proof.
  induction 1 as [|i is_ t ts F G R Rs (rs & E & H) D]; [exists []; split; [reflexivity|constructor]|].
  destruct (rep_get _ _ _ _ R) as (r & T). exists (r :: rs). split; [|now constructor].
  rewrite smap_cons, (run_ok _ _ _ _ _ (tget_ok _ _ _ T)).
  now rewrite (run_ok _ _ _ _ _ E).
Qed.
Lemma children_ok h r i n l ls y c cs ts F : objs h r = Some (ONode i n l ls y c) -> lists h l = Some cs -> reps h cs ts F ->
  exists rs, children r h = (Ok rs, h) /\ Forall2 (fun i r => table h i = Some r) cs rs.
Proof.
  intros O L R. destruct (smap_tget h cs ts F R) as (rs & E & H). exists rs. split; [|exact H].
  unfold children. now rewrite (run_ok _ _ _ _ _ (children_ids_ok _ _ _ _ _ _ _ _ _ O L)).
Qed.
Lemma sany_ok {A} (f : A -> SM bool) h : forall l bs, Forall2 (fun x b => f x h = (Ok b, h)) l bs -> sany f l h = (Ok (existsb (fun b => b) bs), h).
Proof.
  induction 1 as [|x b l bs H _ IH]; [reflexivity|]. rewrite sany_cons, (run_ok _ _ _ _ _ H). destruct b; [reflexivity|exact IH].
Qed.
Lemma smap_ok {A B} (f : A -> SM B) h : forall l bs, Forall2 (fun x b => f x h = (Ok b, h)) l bs -> smap f l h = (Ok bs, h).
Proof.
  induction 1 as [|x b l bs H _ IH]; [reflexivity|]. rewrite smap_cons, (run_ok _ _ _ _ _ H).
  now rewrite (run_ok _ _ _ _ _ IH).
Qed.
Lemma existsb_flat {A B} (p : B -> bool) (f : A -> list B) l : existsb p (flat_map f l) = existsb (fun x => existsb p (f x)) l.
Proof. induction l as [|x l IH]; [reflexivity|]. cbn. rewrite existsb_app. now rewrite IH. Qed.
Lemma existsb_map {A B} (p : B -> bool) (f : A -> B) l : existsb p (List.map f l) = existsb (fun x => p (f x)) l.
Proof. induction l as [|x l IH]; [reflexivity|]. cbn. now rewrite IH. Qed.

(** a reading method at every child *)
Lemma reps_forall2 {B} h (f : nat -> SM B) (g : stree -> B) : forall cs ts F rs, reps h cs ts F -> Forall2 (fun i r => table h i = Some r) cs rs ->
  (forall i t F' r, In t ts -> rep h i t F' -> table h i = Some r -> f r h = (Ok (g t), h)) ->
  Forall2 (fun r b => f r h = (Ok b, h)) rs (List.map g ts).
Proof.
  intros cs ts F rs R. revert rs. induction R as [|i is_ t ts F G R Rs IH D]; intros rs H K; inversion H as [|i' r is' rs' T H']; subst; [constructor|].
  cbn. constructor.
  - apply (K i t F r); [now left|exact R|exact T].
  - apply IH; [exact H'|]. intros i0 t0 F0 r0 Hi. apply K. now right.
Qed.

Definition has_pos_in (pos : str) (t : stree) : bool := existsb (fun k => str_eqb (t_pos k) pos) (leaves t).
Lemma depth_in t ts n : In t ts -> list_max (List.map depth ts) <= n -> depth t <= n.
Proof.
  intros Hi Hm. assert (H : Forall (fun k => k <= n) (List.map depth ts)) by now apply list_max_le. rewrite Forall_forall in H. apply H. now apply in_map.
Qed.
Lemma has_pos_node h r i n l ls y c cs ts F pos f ns0 c0 : objs h r = Some (ONode i n l ls y c) -> lists h l = Some cs -> reps h cs ts F ->
  (forall i t F' r, In t ts -> rep h i t F' -> table h i = Some r -> has_pos f r pos h = (Ok (has_pos_in pos t), h)) ->
  has_pos (S f) r pos h = (Ok (has_pos_in pos (SNode ns0 c0 ts)), h).
Proof.
  intros O L R K. cbn [has_pos]. rewrite (run_ok _ _ _ _ _ (deref_ok _ _ _ O)). destruct (children_ok _ _ _ _ _ _ _ _ _ _ _ O L R) as (rs & E & H).
  rewrite (run_ok _ _ _ _ _ E). rewrite (sany_ok _ h rs (List.map (has_pos_in pos) ts)).
  - f_equal. f_equal. rewrite existsb_map. unfold has_pos_in. cbn [leaves]. now rewrite existsb_flat.
  - apply (reps_forall2 h (fun x => has_pos f x pos) (has_pos_in pos) cs ts F rs R H K).
Qed.
Lemma has_pos_rep pos : forall f h i t F r, rep h i t F -> table h i = Some r -> depth t <= f -> has_pos f r pos h = (Ok (has_pos_in pos t), h).
Proof.
  induction f as [|f IH]; intros h i t F r R T Hd; [pose proof (depth_pos t); lia|]. destruct t as [ns k|ns c ts].
  - inversion R; subst. assert (r0 = r) by congruence. subst r0. cbn [has_pos].
    match goal with O : objs h r = Some _ |- _ => rewrite (run_ok _ _ _ _ _ (deref_ok _ _ _ O)) end. unfold has_pos_in. cbn. now rewrite orb_false_r.
  - destruct (rep_inv_node _ _ _ _ _ _ _ R T) as (l & cs & F0 & O & L & Rs & D & ->).
    apply (has_pos_node h r i ns l [] (-1)%Z c cs ts F0 pos f ns c O L Rs). intros i0 t0 F' r0 Hi R0 T0. apply (IH h i0 t0 F' r0 R0 T0).
    apply (depth_in t0 ts); [exact Hi|]. change (depth (SNode ns c ts)) with (S (list_max (List.map depth ts))) in Hd. lia.
Qed.
Lemma has_pos_uc pos h i t ls F r : wf h -> uc h i t ls F -> table h i = Some r -> has_pos (S (n_obj h)) r pos h = (Ok (has_pos_in pos t), h).
Proof.
  intros W U T. destruct U as [i r' ns t H1 H2|i r' ns c l cs ts F0 lids ls F1 H1 H2 H3 H4 L D1 D2]; assert (r' = r) by congruence; subst r'.
  - apply (has_pos_rep pos _ h i (SLeaf ns t) [CId i; CObj r]); [now constructor|exact T|cbn; lia].
  - apply (has_pos_node h r i ns l lids (-1)%Z c cs ts F0 pos (n_obj h) ns c H2 H3 H4). intros i0 t0 F' r0 Hi R0 T0.
    apply (has_pos_rep pos (n_obj h) h i0 t0 F' r0 R0 T0). apply (depth_in t0 ts); [exact Hi|]. now apply (reps_depth h cs ts F0).
Qed.

(** ** flat_leafs *)

Lemma flat_leafs_rep : forall f h i t F r, rep h i t F -> table h i = Some r -> depth t <= f ->
  exists rs, flat_leafs f r h = (Ok rs, h) /\ Forall2 (fun r k => exists j ns, objs h r = Some (OLeaf j ns k)) rs (leaves t).
Proof.
  induction f as [|f IH]; intros h i t F r R T Hd; [pose proof (depth_pos t); lia|]. destruct t as [ns k|ns c ts].
  - inversion R; subst. assert (r0 = r) by congruence. subst r0. exists [r]. cbn [flat_leafs].
    match goal with O : objs h r = Some _ |- _ => rewrite (run_ok _ _ _ _ _ (deref_ok _ _ _ O)) end. split; [reflexivity|]. constructor; [eauto|constructor].
  - destruct (rep_inv_node _ _ _ _ _ _ _ R T) as (l & cs & F0 & O & L & Rs & D & ->). cbn [flat_leafs].
    rewrite (run_ok _ _ _ _ _ (deref_ok _ _ _ O)). cbn [is_leaf]. destruct (children_ok _ _ _ _ _ _ _ _ _ _ _ O L Rs) as (rs & E & H).
    rewrite (run_ok _ _ _ _ _ E).
    assert (Hm : list_max (List.map depth ts) <= f) by (change (depth (SNode ns c ts)) with (S (list_max (List.map depth ts))) in Hd; lia).
    clear - IH Rs H Hm.
    assert (X : exists rss, smap (flat_leafs f) rs h = (Ok rss, h) /\ Forall2 (fun r k => exists j ns, objs h r = Some (OLeaf j ns k)) (List.concat rss) (flat_map leaves ts)).
    { revert rs H. induction Rs as [|i is_ t ts F G R Rs IHs D]; intros rs H; inversion H as [|i' r' is' rs' T H']; subst.
      - exists []. split; [reflexivity|constructor].
      - cbn [List.map] in Hm. apply list_max_cons in Hm as [Hm1 Hm2]. destruct (IH h i t F r' R T Hm1) as (r1 & E1 & X1).
        destruct (IHs Hm2 rs' H') as (rss & E2 & X2). exists (r1 :: rss). split.
        + rewrite smap_cons, (run_ok _ _ _ _ _ E1).
          now rewrite (run_ok _ _ _ _ _ E2).
        + cbn. now apply Forall2_app. }
    destruct X as (rss & E2 & X). exists (List.concat rss). split; [|exact X]. now rewrite (run_ok _ _ _ _ _ E2).
Qed.

(** ** remove_redundant_nesting *)


Lemma upd_refl h F : wf h -> upd h h F F.
Proof. intros W. split; [now apply frame_refl|]. intros c Hc. now left. Qed.
Lemma reps_id_fresh i l r F : disj [CId i; CObj r; CList l] F -> ~ In (CId i) F /\ ~ In (CObj r) F /\ ~ In (CList l) F.
Proof. intros D. repeat split; intros H; (eapply D; [|exact H]); cbn; tauto. Qed.

Lemma remove_nesting_rep : forall f h i t F r, wf h -> rep h i t F -> table h i = Some r -> depth t <= f ->
  exists h' F', remove_nesting f r h = (Ok tt, h') /\ rep h' i (squash t) F' /\ upd h h' F F' /\ root_id h' = root_id h.
Proof.
  induction f as [|f IH]; intros h i t F r W R T Hd; [pose proof (depth_pos t); lia|]. destruct t as [ns k|ns c ts].
  - exists h, F. inversion R; subst. assert (r0 = r) by congruence. subst r0. cbn [remove_nesting].
    match goal with O : objs h r = Some _ |- _ => rewrite (run_ok _ _ _ _ _ (deref_ok _ _ _ O)) end.
    split; [reflexivity|]. split; [exact R|]. split; [now apply upd_refl|reflexivity].
  - destruct (rep_inv_node _ _ _ _ _ _ _ R T) as (l & cs & F0 & O & L & Rs & D & ->). cbn [remove_nesting].
    rewrite (run_ok _ _ _ _ _ (deref_ok _ _ _ O)). cbn [is_leaf].
    rewrite (run_ok _ _ _ _ _ (children_ids_ok _ _ _ _ _ _ _ _ _ O L)).
    assert (Hm : list_max (List.map depth ts) <= f) by (change (depth (SNode ns c ts)) with (S (list_max (List.map depth ts))) in Hd; lia).
    assert (Loop : forall h cs ts F0, wf h -> reps h cs ts F0 -> list_max (List.map depth ts) <= f ->
      exists h' F', sfor (fun c => run x <- tget c; remove_nesting f x) cs h = (Ok tt, h') /\ reps h' cs (List.map squash ts) F' /\ upd h h' F0 F' /\ root_id h' = root_id h).
        { clear - IH. intros h is_ ts G W Rs Hm. revert h is_ G W Rs Hm. induction ts as [|t ts IHt]; intros h is_ G W Rs Hm.
          - inversion Rs; subst. exists h, []. split; [reflexivity|]. split; [constructor|]. split; [now apply upd_refl|reflexivity].
          - inversion Rs as [|i is' t' ts' F G' R Rs' D]; subst. cbn [List.map] in Hm. apply list_max_cons in Hm as [Hm1 Hm2].
            destruct (rep_get _ _ _ _ R) as (r & T). destruct (IH h i t F r W R T Hm1) as (h1 & F1 & E1 & R1 & U1 & Rt1).
            assert (W1 : wf h1) by apply U1.
            assert (Rs1 : reps h1 is' ts G') by (apply (reps_frame h h1 F); try assumption; apply U1).
            assert (D1 : disj F1 G') by (apply (within_disj h F F1 G' (proj2 U1)); [now apply (reps_old h is' ts)|exact D]).
            destruct (IHt h1 is' G' W1 Rs1 Hm2) as (h2 & F2 & E2 & R2 & U2 & Rt2). exists h2, (F1 ++ F2). repeat apply conj.
            + rewrite sfor_cons, sbind_assoc, (run_ok _ _ _ _ _ (tget_ok _ _ _ T)), (run_ok _ _ _ _ _ E1). exact E2.
            + cbn. constructor; [|exact R2|].
              * apply (rep_frame h1 h2 G'); try assumption; [apply U2|]. now apply disj_sym.
              * apply disj_sym. apply (within_disj h1 G' F2 F1 (proj2 U2)); [|now apply disj_sym]. now apply (rep_old h1 i (squash t)).
            + apply (frame_trans h h1); [apply (frame_weaken h h1 _ _ (proj1 U1))|apply (frame_weaken h1 h2 _ _ (proj1 U2))]; intros x Hx; apply in_app_iff; tauto.
            + intros x Hx. apply in_app_iff in Hx as [Hx|Hx].
              * destruct (proj2 U1 x Hx); [left; apply in_app_iff; now left|now right].
              * destruct (proj2 U2 x Hx) as [H|H]; [left; apply in_app_iff; now right|]. right. intros Ho. apply H. now apply (frame_old h h1 _ x (proj1 U1)).
            + congruence. }
    destruct (Loop h cs ts F0 W Rs Hm) as (h1 & F1 & E1 & R1 & U1 & Rt1). rewrite (run_ok _ _ _ _ _ E1). clear Loop.
    assert (W1 : wf h1) by apply U1. destruct (reps_id_fresh _ _ _ _ D) as (Ni & Nr & Nl).
    pose proof (wf_obj h W r _ O) as Hr. pose proof (wf_tab h W i r T) as Hi. pose proof (wf_lst h W l _ L) as Hl.
    assert (O1 : objs h1 r = Some (ONode i ns l [] (-1) c)) by (rewrite <- O; apply (fr_same _ _ _ (proj1 U1) (CObj r)); [exact Hr|exact Nr]).
    assert (T1 : table h1 i = Some r) by (rewrite <- T; apply (fr_same _ _ _ (proj1 U1) (CId i)); [exact Hi|exact Ni]).
    assert (L1 : lists h1 l = Some cs) by (rewrite <- L; apply (fr_same _ _ _ (proj1 U1) (CList l)); [exact Hl|exact Nl]).
    assert (D1 : disj [CId i; CObj r; CList l] F1).
    { intros x Hx Hf. destruct (proj2 U1 x Hf) as [H|H]; [now apply (D x)|]. apply H. destruct Hx as [<-|[<-|[<-|[]]]]; assumption. }
    assert (Fr1 : frame h h1 (CId i :: CObj r :: CList l :: F0)) by (apply (frame_weaken h h1 _ _ (proj1 U1)); intros x Hx; do 3 right; exact Hx).
    assert (Keep : rep h1 i (SNode ns c (List.map squash ts)) (CId i :: CObj r :: CList l :: F1)) by (apply (rep_node h1 i r ns c l cs); assumption).
    assert (KeepU : upd h h1 (CId i :: CObj r :: CList l :: F0) (CId i :: CObj r :: CList l :: F1)).
    { split; [exact Fr1|]. intros x [<-|[<-|[<-|Hx]]]; [left; now left|left; right; now left|left; do 2 right; now left|].
      destruct (proj2 U1 x Hx); [left; do 3 right; assumption|now right]. }
    cbn [squash].
    destruct cs as [|c1 [|c2 cs]].
    + inversion R1 as [E3 E4 E5|]; subst. exists h1, [CId i; CObj r; CList l]. rewrite <- E4 in *. repeat apply conj; try assumption; try apply KeepU.
      unfold is_node_singleton. rewrite sbind_assoc, (run_ok _ _ _ _ _ (children_ids_ok _ _ _ _ _ _ _ _ _ O1 L1)). reflexivity.
    + inversion R1 as [|c1' cs' t1 ts1 Fa Fb Ra Rb Dab E3 E4 E5]; subst. inversion Rb; subst.
      destruct (rep_get _ _ _ _ Ra) as (rc & Tc). destruct (deref_terminal _ _ _ _ _ Ra Tc) as (oc & Oc & _ & El & Ei).
      assert (Es : is_node_singleton r h1 = (Ok (is_node oc), h1)).
      { unfold is_node_singleton. rewrite (run_ok _ _ _ _ _ (children_ids_ok _ _ _ _ _ _ _ _ _ O1 L1)), (run_ok _ _ _ _ _ (tget_ok _ _ _ Tc)), (run_ok _ _ _ _ _ (deref_ok _ _ _ Oc)). reflexivity. }
      rewrite (run_ok _ _ _ _ _ Es). destruct t1 as [n1 k1|n1 b1 k1].
      * assert (En : is_node oc = false) by (destruct oc; [reflexivity|discriminate El]). rewrite En. rewrite <- E4 in *. exists h1, (CId i :: CObj r :: CList l :: Fa ++ []).
        repeat apply conj; try assumption; try apply KeepU. reflexivity.
      * assert (En : is_node oc = true) by (destruct oc; [discriminate El|reflexivity]). rewrite En.
        destruct (rep_parts h1 c1 _ Fa Ra) as (rc' & oc' & Fi & EFa & Tc' & Oc' & Ei' & Nrc & Nci & K).
        assert (rc' = rc) by congruence. subst rc'. assert (oc' = oc) by congruence. subst oc'.
        destruct (set_elem_ok h1 i rc oc W1) as (h2 & E2 & Fr2 & Rt2 & T2 & O2 & L2 & _); [now apply (wf_tab h1 W1 i r)|exact Oc|].
        exists h2, (CId i :: CObj rc :: Fi). rewrite app_nil_r in *. repeat apply conj.
        -- unfold disenclose. rewrite (run_ok _ _ _ _ _ (deref_ok _ _ _ O1)). cbn [is_node negb].
           rewrite (run_ok _ _ _ _ _ (children_ids_ok _ _ _ _ _ _ _ _ _ O1 L1)), (run_ok _ _ _ _ _ (tget_ok _ _ _ Tc)). exact E2.
        -- apply K.
           ++ rewrite T2. apply updZ_same.
           ++ rewrite O2. apply updN_same.
           ++ intros x Hx. apply Fr2; [apply (rep_old h1 c1 _ Fa W1 Ra); rewrite EFa; do 2 right; exact Hx|].
              intros [<-|[<-|[]]]; [|easy]. apply (D1 (CId i)); [now left|]. rewrite EFa. do 2 right. exact Hx.
           ++ intros Hx. apply (D1 (CId i)); [now left|]. rewrite EFa. do 2 right. exact Hx.
        -- apply (frame_upd h h1 h2 _ (CId i :: CObj r :: CList l :: Fa) KeepU). apply (frame_weaken h1 h2 _ _ Fr2).
           intros x [<-|[<-|[]]]; [now left|]. do 3 right. rewrite EFa. right; now left.
        -- intros x [<-|Hx]; [left; now left|]. apply (proj2 KeepU). do 3 right. rewrite EFa. now right.
        -- congruence.
    + inversion R1 as [|? ? t1 ts1 Fa Fb Ra Rb Dab E3 E4 E5]; subst. inversion Rb as [|? ? t2 ts2 Fc Fd Rc Rd Dcd E6 E7 E8]; subst.
      exists h1, (CId i :: CObj r :: CList l :: Fa ++ Fc ++ Fd).
      assert (Es : is_node_singleton r h1 = (Ok false, h1)).
      { unfold is_node_singleton. rewrite (run_ok _ _ _ _ _ (children_ids_ok _ _ _ _ _ _ _ _ _ O1 L1)). reflexivity. }
      rewrite (run_ok _ _ _ _ _ Es). rewrite <- E4 in *. repeat apply conj; try assumption; try apply KeepU; try reflexivity.
      destruct t1; exact Keep.
Qed.

(** ** Leaves and fullness of the pure operations *)

Definition lleaves (p : stree * list stree) : list token := leaves (fst p) ++ flat_map leaves (snd p).
Definition uleaves (t : stree) (ls : list (stree * list stree)) : list token := leaves t ++ flat_map lleaves ls.
Definition lfull (p : stree * list stree) : Prop := full (fst p) /\ Forall full (snd p).

Lemma add_last_leaves t x : leaves (add_last t x) = leaves t ++ leaves x.
Proof. destruct t as [ns k|ns c ts]; cbn; [now rewrite app_nil_r|]. rewrite flat_map_app. cbn. now rewrite app_nil_r. Qed.
Lemma add_last_full t x : full t -> full x -> full (add_last t x).
Proof.
  intros F1 F2. destruct t as [ns k|ns c ts]; cbn [add_last].
  - apply full_node. split; [discriminate|]. repeat constructor. exact F2.
  - apply full_node in F1 as [N F1]. apply full_node. split; [destruct ts; discriminate|]. apply Forall_app. split; [exact F1|now constructor].
Qed.
Lemma place_leaves pos ts x : Permutation (flat_map leaves (place pos ts x)) (flat_map leaves ts ++ leaves x).
Proof. destruct pos; cbn; [apply Permutation_app_comm|]. rewrite flat_map_app. cbn. now rewrite app_nil_r. Qed.
Lemma place_full pos ts x : Forall full ts -> full x -> place pos ts x <> [] /\ Forall full (place pos ts x).
Proof.
  intros F1 F2. destruct pos; cbn; (split; [|]).
  - discriminate.
  - now constructor.
  - destruct ts; discriminate.
  - apply Forall_app. split; [exact F1|now constructor].
Qed.
Lemma into_leaves pos y x : Permutation (leaves (into pos y x)) (leaves y ++ leaves x).
Proof.
  destruct y as [ns k|ns [|] ks]; cbn [into leaves]; etransitivity; try apply place_leaves; cbn; [reflexivity|now rewrite app_nil_r|reflexivity].
Qed.
Lemma into_full pos y x : full y -> full x -> full (into pos y x).
Proof.
  intros F1 F2. destruct y as [ns k|ns [|] ks]; cbn [into]; apply full_node.
  - apply place_full; [now constructor|exact F2].
  - apply place_full; [now constructor|exact F2].
  - apply full_node in F1 as [_ F1]. now apply place_full.
Qed.
Lemma add_first_leaves pos t x : full t -> Permutation (leaves (add_first pos t x)) (leaves t ++ leaves x).
Proof.
  intros Fu. destruct t as [ns k|ns c [|y ts]]; cbn [add_first leaves flat_map].
  - rewrite app_nil_r. apply into_leaves.
  - apply full_node in Fu as [N _]. easy.
  - rewrite (into_leaves pos y x), <- !app_assoc. apply Permutation_app_head. apply Permutation_app_comm.
Qed.
Lemma add_first_full pos t x : full t -> full x -> full (add_first pos t x).
Proof.
  intros F1 F2. destruct t as [ns k|ns c [|y ts]]; cbn [add_first].
  - apply full_node. split; [discriminate|]. constructor; [now apply into_full|constructor].
  - exact F1.
  - apply full_node in F1 as [_ F1]. apply full_node. split; [discriminate|]. inversion F1; subst. constructor; [now apply into_full|assumption].
Qed.
Lemma wrap_leaf_leaves t : leaves (wrap_leaf t) = leaves t.
Proof. destruct t; reflexivity. Qed.
Lemma wrap_leaf_full t : full t -> full (wrap_leaf t).
Proof. destruct t; [|easy]. intros _. apply full_node. split; [discriminate|]. now repeat constructor. Qed.
Lemma layer_of_leaves t : full t -> lleaves (layer_of t) = leaves t.
Proof. destruct t as [ns k|ns c [|y ts]]; intros F; [reflexivity| |reflexivity]. apply full_node in F as [N _]. easy. Qed.
Lemma layer_of_full t : full t -> lfull (layer_of t).
Proof.
  destruct t as [ns k|ns c [|y ts]]; intros F; [split; [exact I|constructor]|split; [exact F|constructor]|]. apply full_node in F as [_ F]. inversion F; subst. now split.
Qed.
Lemma one_leaves ts : leaves (one ts) = flat_map leaves ts.
Proof. destruct ts as [|t [|u ts]]; cbn; try reflexivity. now rewrite app_nil_r. Qed.
Lemma one_full ts : ts <> [] -> Forall full ts -> full (one ts).
Proof.
  intros N F. destruct ts as [|t [|u ts]]; [easy| |].
  - now inversion F.
  - change (one (t :: u :: ts)) with (SNode None false (t :: u :: ts)). now apply full_node.
Qed.
Lemma fold_layers_leaves ls : forall ts, Permutation (flat_map leaves (fold_left under_layer ls ts)) (flat_map leaves ts ++ flat_map lleaves ls).
Proof.
  induction ls as [|[a b] ls IH]; intros ts; [cbn; now rewrite app_nil_r|]. cbn [fold_left]. rewrite IH. unfold under_layer. cbn [fst snd flat_map].
  rewrite one_leaves. unfold lleaves at 2. cbn [fst snd].
  rewrite !app_assoc. apply Permutation_app_tail. rewrite <- !app_assoc. rewrite Permutation_app_comm. rewrite <- !app_assoc. apply Permutation_app_head. apply Permutation_app_comm.
Qed.
Lemma fold_layers_full ls : forall ts, ts <> [] -> Forall full ts -> Forall lfull ls -> fold_left under_layer ls ts <> [] /\ Forall full (fold_left under_layer ls ts).
Proof.
  induction ls as [|[a b] ls IH]; intros ts N F L; [now split|]. inversion L as [|? ? [L1 L2] L3]; subst. cbn [fold_left]. apply IH; [discriminate| |exact L3].
  unfold under_layer. cbn. constructor; [exact L1|]. constructor; [now apply one_full|exact L2].
Qed.
Lemma applied_leaves h i t ls F : uc h i t ls F -> Permutation (leaves (applied t ls)) (uleaves t ls).
Proof.
  intros U. destruct U; cbn [applied].
  - reflexivity.
  - cbn [leaves]. rewrite fold_layers_leaves. unfold uleaves. cbn [leaves]. apply Permutation_app_head.
    apply Permutation_flat_map. apply Permutation_sym, Permutation_rev.
Qed.
Lemma applied_full t ls : full t -> Forall lfull ls -> full (applied t ls).
Proof.
  intros F L. destruct t as [ns k|ns c ts]; [exact F|]. apply full_node in F as [N F]. apply full_node. apply fold_layers_full; try assumption. now apply Forall_rev.
Qed.
Lemma applied_nil t : applied t [] = t.
Proof. now destruct t. Qed.

(** ** process_token *)

Definition keptc (c : token) : list token := if left_out c then [] else kept c.
Lemma kept_eq t : kept t = t :: flat_map keptc (t_left t) ++ flat_map keptc (t_right t).
Proof. now destruct t. Qed.

(** What process_token does, without and with an element [R] under construction. *)
Definition in_self pos (s : stree * list layer) (c : token) : stree * list layer :=
  if left_out c then s
  else if nests (fst s) c then let '(C, (T, ls)) := grown c (Some s) in (wrap_leaf T, ls ++ [layer_of C])
  else if joins c then (add_first pos (fst s) (fst (grown c None)), snd s)
  else (add_last (fst s) (fst (grown c None)), snd s).
Definition in_other pos (s : stree * (stree * list layer)) (c : token) : stree * (stree * list layer) :=
  if left_out c then s
  else if nests (fst s) c then let '(C, (R, ls)) := grown c (Some (snd s)) in (fst s, (wrap_leaf R, ls ++ [layer_of C]))
  else if joins c then (add_first pos (fst s) (fst (grown c None)), snd s)
  else (add_last (fst s) (fst (grown c None)), snd s).
Lemma grown_none t : fst (grown t None) = let s := fold_left (in_self RIGHT) (t_right t) (fold_left (in_self LEFT) (t_left t) (SLeaf None t, [])) in applied (fst s) (snd s).
Proof. now destruct t. Qed.
Lemma grown_some t R : grown t (Some R) = fold_left (in_other RIGHT) (t_right t) (fold_left (in_other LEFT) (t_left t) (SLeaf None t, R)).
Proof. now destruct t. Qed.
Definition PT_top (t : token) : Prop := forall h, wf h -> exists h' i T F,
  process_token t None h = (Ok i, h') /\ rep h' i T F /\ full T /\ upd h h' [] F /\ Permutation (leaves T) (kept t) /\ root_id h' = root_id h /\ fst (grown t None) = T.
Definition PT_nest (t : token) : Prop := forall h R RT ls G, wf h -> uc h R RT ls G -> full RT -> Forall lfull ls ->
  exists h' i T F RT' ls' G',
    process_token t (Some R) h = (Ok i, h') /\ rep h' i T F /\ full T /\ uc h' R RT' ls' G' /\ full RT' /\ Forall lfull ls' /\ disj F G'
    /\ frame h h' G /\ within h G (F ++ G') /\ Permutation (leaves T ++ uleaves RT' ls') (kept t ++ uleaves RT ls) /\ root_id h' = root_id h
    /\ grown t (Some (RT, ls)) = (T, (RT', ls')).

Lemma tget_uc h i t ls F : uc h i t ls F -> exists r, tget i h = (Ok r, h) /\ table h i = Some r.
Proof. intros U. destruct (uc_get _ _ _ _ _ U) as (r & T). exists r. split; [now apply tget_ok|exact T]. Qed.
Lemma test_ok h R RT ls G r c : wf h -> uc h R RT ls G -> table h R = Some r ->
  (if among (t_dep c) nest_deps then sret true
   else if str_eqb (t_dep c) (lit "prep") then run fuel <- budget; run b <- has_pos fuel r (lit "VERB"); sret (negb b) else sret false) h = (Ok (nests RT c), h).
Proof.
  intros W U T. unfold nests, nesting. change one_of with among. change (among (t_dep c) _) with (among (t_dep c) nest_deps) at 2. destruct (among (t_dep c) nest_deps); [reflexivity|]. destruct (str_eqb (t_dep c) (lit "prep")); [|reflexivity].
  rewrite (run_ok budget _ h (S (n_obj h)) h eq_refl), (run_ok _ _ _ _ _ (has_pos_uc (lit "VERB") h R RT ls G r W U T)). reflexivity.
Qed.

(** a child of the element under construction itself *)
Lemma child_own c pos : PT_top c -> PT_nest c -> forall h e T ls F, wf h -> uc h e T ls F -> full T -> Forall lfull ls ->
  exists h' T' ls' F', process_child_token (process_token c) e c e pos h = (Ok tt, h') /\ uc h' e T' ls' F' /\ full T' /\ Forall lfull ls'
    /\ upd h h' F F' /\ Permutation (uleaves T' ls') (uleaves T ls ++ keptc c) /\ root_id h' = root_id h /\ in_self pos (T, ls) c = (T', ls').
Proof.
  intros PA PB h e T ls F W U Fu Fl. unfold in_self, process_child_token, keptc. cbn [fst snd]. destruct (left_out c) eqn:Lo; unfold left_out in Lo; rewrite Lo.

  { exists h, T, ls, F. rewrite app_nil_r. repeat apply conj; try assumption; try reflexivity; apply (upd_refl h F W). }
  destruct (tget_uc _ _ _ _ _ U) as (r & E & Tr). rewrite (run_ok _ _ _ _ _ E).
  rewrite (run_ok _ _ _ _ _ (test_ok h e T ls F r c W U Tr)). destruct (nests T c).
  - destruct (PB h e T ls F W U Fu Fl) as (h1 & i & Tc & Fc & T1 & ls1 & F1 & E1 & Rc & Fuc & U1 & Fu1 & Fl1 & D1 & Fr1 & Wi1 & P1 & Rt1 & Sp1).
    rewrite (run_ok _ _ _ _ _ E1). destruct (tget_uc _ _ _ _ _ U1) as (r1 & Et1 & Tr1). rewrite (run_ok _ _ _ _ _ Et1).
    destruct (nest_uc h1 e T1 ls1 F1 r1 i Tc Fc (fr_wf _ _ _ Fr1) U1 Tr1 Rc Fuc (disj_sym _ _ D1)) as (h2 & F2 & E2 & U2 & Fr2 & Wi2 & Rt2).
    exists h2, (wrap_leaf T1), (ls1 ++ [layer_of Tc]), F2. repeat apply conj.
    + exact E2.
    + exact U2.
    + now apply wrap_leaf_full.
    + apply Forall_app. split; [exact Fl1|]. constructor; [now apply layer_of_full|constructor].
    + apply (frame_upd h h1 h2 F F1).
      * split; [exact Fr1|]. intros x Hx. apply Wi1, in_app_iff. now right.
      * exact Fr2.
    + intros x Hx. destruct (Wi2 x Hx) as [H|H].
      * apply Wi1. apply in_app_iff in H. apply in_app_iff. tauto.
      * right. intros Ho. apply H. now apply (frame_old h h1 _ x Fr1).
    + unfold uleaves in *. rewrite wrap_leaf_leaves, flat_map_app. cbn [flat_map]. rewrite app_nil_r, layer_of_leaves by exact Fuc.
      rewrite app_assoc, Permutation_app_comm. rewrite P1. apply Permutation_app_comm.
    + congruence.
    + rewrite Sp1. reflexivity.
  - destruct (PA h W) as (h1 & i & Tc & Fc & E1 & Rc & Fuc & U1 & P1 & Rt1 & Sp1). rewrite (run_ok _ _ _ _ _ E1).
    assert (W1 : wf h1) by apply U1.
    assert (Uc1 : uc h1 e T ls F) by (apply (uc_frame h h1 []); try assumption; [apply U1|apply disj_nill]).
    assert (Tr1 : table h1 e = Some r) by (rewrite <- Tr; apply (fr_same _ _ _ (proj1 U1) (CId e)); [now apply (wf_tab h W e r)|easy]).
    assert (DF : disj F Fc).
    { apply disj_sym. apply (within_disj h [] Fc F (proj2 U1)); [now apply (uc_old h e T ls)|apply disj_nill]. }
    assert (Fr1 : frame h h1 F) by (apply (frame_weaken h h1 _ _ (proj1 U1)); easy).
    assert (Fin : forall h2 F2, frame h1 h2 F -> within h1 (F ++ Fc) F2 -> upd h h2 F F2).
    { intros h2 F2 A B. split; [now apply (frame_trans h h1)|]. intros x Hx. destruct (B x Hx) as [H|H].
      - apply in_app_iff in H as [H|H]; [now left|]. right. destruct (proj2 U1 x H); easy.
      - right. intros Ho. apply H. now apply (frame_old h h1 _ x Fr1). }
    unfold joins. change one_of with among. change (among (t_dep c) ["pcomp"; "compound"]%string) with (among (t_dep c) add_to_first_deps). rewrite Sp1. destruct (among (t_dep c) add_to_first_deps).
    + destruct (add_first_uc pos h1 e T ls F r i Tc Fc W1 Uc1 Fu Tr1 Rc DF) as (h2 & F2 & E2 & U2 & Fr2 & Wi2 & Rt2).
      exists h2, (add_first pos T Tc), ls, F2. split; [exact E2|]. split; [exact U2|]. split; [now apply add_first_full|]. split; [exact Fl|].
      split; [now apply Fin|]. split; [|split; [congruence|reflexivity]].
      unfold uleaves. rewrite (add_first_leaves pos T Tc Fu). rewrite P1, <- !app_assoc. apply Permutation_app_head, Permutation_app_comm.
    + destruct (add_child_uc h1 e T ls F r i Tc Fc W1 Uc1 Tr1 Rc DF) as (h2 & F2 & E2 & U2 & Fr2 & Wi2 & Rt2).
      exists h2, (add_last T Tc), ls, F2. split; [exact E2|]. split; [exact U2|]. split; [now apply add_last_full|]. split; [exact Fl|].
      split; [now apply Fin|]. split; [|split; [congruence|reflexivity]].
      unfold uleaves. rewrite add_last_leaves. rewrite P1, <- !app_assoc. apply Permutation_app_head, Permutation_app_comm.
Qed.

(** a child of another element *)
Lemma child_other c pos : PT_top c -> PT_nest c -> forall h e T F R RT ls G, wf h -> rep h e T F -> full T -> uc h R RT ls G -> full RT -> Forall lfull ls -> disj F G ->
  exists h' T' F' RT' ls' G', process_child_token (process_token c) e c R pos h = (Ok tt, h') /\ rep h' e T' F' /\ full T' /\ uc h' R RT' ls' G' /\ full RT' /\ Forall lfull ls'
    /\ disj F' G' /\ upd h h' (F ++ G) (F' ++ G') /\ Permutation (leaves T' ++ uleaves RT' ls') (leaves T ++ uleaves RT ls ++ keptc c) /\ root_id h' = root_id h
    /\ in_other pos (T, (RT, ls)) c = (T', (RT', ls')).
Proof.
  intros PA PB h e T F R RT ls G W Re Fu U FuR Fl D. unfold in_other, process_child_token, keptc. cbn [fst snd]. destruct (left_out c) eqn:Lo; unfold left_out in Lo; rewrite Lo.
  { exists h, T, F, RT, ls, G. rewrite app_nil_r. repeat apply conj; try assumption; try reflexivity; apply (upd_refl h (F ++ G) W). }
  destruct (tget_uc _ _ _ _ _ (rep_uc _ _ _ _ Re)) as (r & E & Tr). rewrite (run_ok _ _ _ _ _ E).
  rewrite (run_ok _ _ _ _ _ (test_ok h e T [] F r c W (rep_uc _ _ _ _ Re) Tr)).
  assert (OldF : forall x, In x F -> old h x) by now apply (rep_old h e T).
  assert (OldG : forall x, In x G -> old h x) by now apply (uc_old h R RT ls).
  destruct (nests T c).
  - destruct (PB h R RT ls G W U FuR Fl) as (h1 & i & Tc & Fc & T1 & ls1 & G1 & E1 & Rc & Fuc & U1 & Fu1 & Fl1 & D1 & Fr1 & Wi1 & P1 & Rt1 & Sp1).
    rewrite (run_ok _ _ _ _ _ E1). destruct (tget_uc _ _ _ _ _ U1) as (r1 & Et1 & Tr1). rewrite (run_ok _ _ _ _ _ Et1).
    destruct (nest_uc h1 R T1 ls1 G1 r1 i Tc Fc (fr_wf _ _ _ Fr1) U1 Tr1 Rc Fuc (disj_sym _ _ D1)) as (h2 & G2 & E2 & U2 & Fr2 & Wi2 & Rt2).
    assert (DF1 : disj (Fc ++ G1) F) by (apply (within_disj h G (Fc ++ G1) F Wi1 OldF); now apply disj_sym).
    assert (W1 : wf h1) by apply Fr1.
    assert (Re1 : rep h1 e T F) by (apply (rep_frame h h1 G); try assumption; now apply disj_sym).
    assert (Re2 : rep h2 e T F) by (apply (rep_frame h1 h2 G1); try assumption; now apply disj_appl in DF1).
    assert (UW : within h G G2).
    { intros x Hx. destruct (Wi2 x Hx) as [H|H].
      - apply Wi1. apply in_app_iff in H. apply in_app_iff. tauto.
      - right. intros Ho. apply H. now apply (frame_old h h1 _ x Fr1). }
    exists h2, T, F, (wrap_leaf T1), (ls1 ++ [layer_of Tc]), G2. repeat apply conj.
    + exact E2.
    + exact Re2.
    + exact Fu.
    + exact U2.
    + now apply wrap_leaf_full.
    + apply Forall_app. split; [exact Fl1|]. constructor; [now apply layer_of_full|constructor].
    + apply disj_sym. apply (within_disj h G G2 F UW OldF). now apply disj_sym.
    + apply (frame_weaken h h2 G); [|intros x Hx; apply in_app_iff; now right]. apply (frame_upd h h1 h2 G G1).
      * split; [exact Fr1|]. intros x Hx. apply Wi1, in_app_iff. now right.
      * exact Fr2.
    + intros x Hx. apply in_app_iff in Hx as [Hx|Hx]; [left; apply in_app_iff; now left|]. destruct (UW x Hx); [left; apply in_app_iff; now right|now right].
    + apply Permutation_app_head. unfold uleaves in *. rewrite wrap_leaf_leaves, flat_map_app. cbn [flat_map]. rewrite app_nil_r, layer_of_leaves by exact Fuc.
      rewrite app_assoc, Permutation_app_comm. rewrite P1. apply Permutation_app_comm.
    + congruence.
    + rewrite Sp1. reflexivity.
  - destruct (PA h W) as (h1 & i & Tc & Fc & E1 & Rc & Fuc & U1 & P1 & Rt1 & Sp1). rewrite (run_ok _ _ _ _ _ E1).
    assert (W1 : wf h1) by apply U1.
    assert (Re1 : rep h1 e T F) by (apply (rep_frame h h1 []); try assumption; [apply U1|apply disj_nill]).
    assert (UR1 : uc h1 R RT ls G) by (apply (uc_frame h h1 []); try assumption; [apply U1|apply disj_nill]).
    assert (Tr1 : table h1 e = Some r) by (rewrite <- Tr; apply (fr_same _ _ _ (proj1 U1) (CId e)); [now apply (wf_tab h W e r)|easy]).
    assert (DF : disj F Fc).
    { apply disj_sym. apply (within_disj h [] Fc F (proj2 U1)); [exact OldF|apply disj_nill]. }
    assert (DG : disj Fc G) by (apply (within_disj h [] Fc G (proj2 U1)); [exact OldG|apply disj_nill]).
    assert (Fr1 : frame h h1 F) by (apply (frame_weaken h h1 _ _ (proj1 U1)); easy).
    assert (Fin : forall h2 F2, frame h1 h2 F -> within h1 (F ++ Fc) F2 -> disj F2 G /\ uc h2 R RT ls G /\ upd h h2 (F ++ G) (F2 ++ G)).
    { intros h2 F2 A B. assert (Wi : within h F F2).
      { intros x Hx. destruct (B x Hx) as [H|H].
        - apply in_app_iff in H as [H|H]; [now left|]. right. destruct (proj2 U1 x H); easy.
        - right. intros Ho. apply H. now apply (frame_old h h1 _ x Fr1). }
      split; [now apply (within_disj h F F2 G)|]. split; [now apply (uc_frame h1 h2 F)|]. split.
      - apply (frame_weaken h h2 F); [now apply (frame_trans h h1)|]. intros x Hx. apply in_app_iff. now left.
      - intros x Hx. apply in_app_iff in Hx as [Hx|Hx]; [|left; apply in_app_iff; now right]. destruct (Wi x Hx); [left; apply in_app_iff; now left|now right]. }
    unfold joins. change one_of with among. change (among (t_dep c) ["pcomp"; "compound"]%string) with (among (t_dep c) add_to_first_deps). rewrite Sp1. destruct (among (t_dep c) add_to_first_deps).
    + destruct (add_first_uc pos h1 e T [] F r i Tc Fc W1 (rep_uc _ _ _ _ Re1) Fu Tr1 Rc DF) as (h2 & F2 & E2 & U2 & Fr2 & Wi2 & Rt2).
      destruct (Fin h2 F2 Fr2 Wi2) as (X1 & X2 & X3).
      exists h2, (add_first pos T Tc), F2, RT, ls, G. repeat apply conj; try assumption; try apply X3.
      * now apply uc_rep.
      * now apply add_first_full.
      * rewrite (add_first_leaves pos T Tc Fu). rewrite P1, <- !app_assoc. apply Permutation_app_head, Permutation_app_comm.
      * congruence.
      * reflexivity.
    + destruct (add_child_uc h1 e T [] F r i Tc Fc W1 (rep_uc _ _ _ _ Re1) Tr1 Rc DF) as (h2 & F2 & E2 & U2 & Fr2 & Wi2 & Rt2).
      destruct (Fin h2 F2 Fr2 Wi2) as (X1 & X2 & X3).
      exists h2, (add_last T Tc), F2, RT, ls, G. repeat apply conj; try assumption; try apply X3.
      * now apply uc_rep.
      * now apply add_last_full.
      * rewrite add_last_leaves. rewrite P1, <- !app_assoc. apply Permutation_app_head, Permutation_app_comm.
      * congruence.
      * reflexivity.
Qed.

Lemma children_own pos : forall l, Forall (fun c => PT_top c /\ PT_nest c) l -> forall h e T ls F, wf h -> uc h e T ls F -> full T -> Forall lfull ls ->
  exists h' T' ls' F', sfor (fun c => process_child_token (process_token c) e c e pos) l h = (Ok tt, h') /\ uc h' e T' ls' F' /\ full T' /\ Forall lfull ls'
    /\ upd h h' F F' /\ Permutation (uleaves T' ls') (uleaves T ls ++ flat_map keptc l) /\ root_id h' = root_id h /\ fold_left (in_self pos) l (T, ls) = (T', ls').
Proof.
  induction 1 as [|c l [PA PB] _ IH]; intros h e T ls F W U Fu Fl.
  - exists h, T, ls, F. cbn [flat_map]. rewrite app_nil_r. repeat apply conj; try assumption; try reflexivity; apply (upd_refl h F W).
  - destruct (child_own c pos PA PB h e T ls F W U Fu Fl) as (h1 & T1 & ls1 & F1 & E1 & U1 & Fu1 & Fl1 & X1 & P1 & Rt1 & Sp1).
    destruct (IH h1 e T1 ls1 F1 (fr_wf _ _ _ (proj1 X1)) U1 Fu1 Fl1) as (h2 & T2 & ls2 & F2 & E2 & U2 & Fu2 & Fl2 & X2 & P2 & Rt2 & Sp2).
    exists h2, T2, ls2, F2. split; [|split; [exact U2|split; [exact Fu2|split; [exact Fl2|split; [now apply (upd_trans h h1 h2 F F1 F2)|split; [|split; [congruence|cbn [fold_left]; rewrite Sp1; exact Sp2]]]]]]].
    + rewrite sfor_cons, (run_ok _ _ _ _ _ E1). exact E2.
    + rewrite P2, P1. cbn [flat_map]. now rewrite <- app_assoc.
Qed.
Lemma children_other pos R : forall l, Forall (fun c => PT_top c /\ PT_nest c) l -> forall h e T F RT ls G, wf h -> rep h e T F -> full T -> uc h R RT ls G -> full RT -> Forall lfull ls -> disj F G ->
  exists h' T' F' RT' ls' G', sfor (fun c => process_child_token (process_token c) e c R pos) l h = (Ok tt, h') /\ rep h' e T' F' /\ full T' /\ uc h' R RT' ls' G' /\ full RT' /\ Forall lfull ls'
    /\ disj F' G' /\ upd h h' (F ++ G) (F' ++ G') /\ Permutation (leaves T' ++ uleaves RT' ls') (leaves T ++ uleaves RT ls ++ flat_map keptc l) /\ root_id h' = root_id h
    /\ fold_left (in_other pos) l (T, (RT, ls)) = (T', (RT', ls')).
Proof.
  induction 1 as [|c l [PA PB] _ IH]; intros h e T F RT ls G W Re Fu U FuR Fl D.
  - exists h, T, F, RT, ls, G. cbn [flat_map]. rewrite app_nil_r. repeat apply conj; try assumption; try reflexivity; apply (upd_refl h (F ++ G) W).
  - destruct (child_other c pos PA PB h e T F R RT ls G W Re Fu U FuR Fl D) as (h1 & T1 & F1 & RT1 & ls1 & G1 & E1 & Re1 & Fu1 & U1 & FuR1 & Fl1 & D1 & X1 & P1 & Rt1 & Sp1).
    destruct (IH h1 e T1 F1 RT1 ls1 G1 (fr_wf _ _ _ (proj1 X1)) Re1 Fu1 U1 FuR1 Fl1 D1) as (h2 & T2 & F2 & RT2 & ls2 & G2 & E2 & Re2 & Fu2 & U2 & FuR2 & Fl2 & D2 & X2 & P2 & Rt2 & Sp2).
    exists h2, T2, F2, RT2, ls2, G2. split; [rewrite sfor_cons, (run_ok _ _ _ _ _ E1); exact E2|]. repeat (split; [assumption|]).
    split; [now apply (upd_trans h h1 h2 (F ++ G) (F1 ++ G1) (F2 ++ G2))|]. split; [|split; [congruence|cbn [fold_left]; rewrite Sp1; exact Sp2]].
    rewrite P2. cbn [flat_map]. rewrite !app_assoc in P1. rewrite !app_assoc. now apply Permutation_app_tail.
Qed.

Lemma process_token_eq tok root : process_token tok root =
  (run e <- create_leaf tok;
   run elem_id <- id_of e;
   let root_id := match root with None => elem_id | Some i => i end in
   sfor (fun c => process_child_token (process_token c) elem_id c root_id LEFT) (t_left tok);;;
   sfor (fun c => process_child_token (process_token c) elem_id c root_id RIGHT) (t_right tok);;;
   run x <- tget elem_id;
   apply_layers x;;;
   sret elem_id).
Proof. now destruct tok. Qed.

Theorem process_token_ok : forall t, PT_top t /\ PT_nest t.
Proof.
  induction t as [t IHl IHr] using token_ind'. split.
  - intros h W. rewrite process_token_eq. destruct (create_leaf_ok h t W) as (h1 & E1 & Fr1 & Rt1 & T1 & O1).
    rewrite (run_ok _ _ _ _ _ E1), (run_ok _ _ _ _ _ (id_of_ok _ _ _ O1)). cbn [obj_id]. cbv zeta.
    set (e := cur_id h) in *.
    assert (U1 : uc h1 e (SLeaf None t) [] [CId e; CObj (n_obj h)]) by now constructor.
    destruct (children_own LEFT (t_left t) IHl h1 e (SLeaf None t) [] _ (fr_wf _ _ _ Fr1) U1 I (Forall_nil _)) as (h2 & T2 & ls2 & F2 & E2 & U2 & Fu2 & Fl2 & X2 & P2 & Rt2 & Sp2).
    rewrite (run_ok _ _ _ _ _ E2).
    destruct (children_own RIGHT (t_right t) IHr h2 e T2 ls2 F2 (fr_wf _ _ _ (proj1 X2)) U2 Fu2 Fl2) as (h3 & T3 & ls3 & F3 & E3 & U3 & Fu3 & Fl3 & X3 & P3 & Rt3 & Sp3).
    rewrite (run_ok _ _ _ _ _ E3). destruct (tget_uc _ _ _ _ _ U3) as (r & Et & Tr). rewrite (run_ok _ _ _ _ _ Et).
    destruct (apply_layers_uc h3 e T3 ls3 F3 r (fr_wf _ _ _ (proj1 X3)) U3 Tr) as (h4 & F4 & E4 & R4 & X4 & Rt4). rewrite (run_ok _ _ _ _ _ E4).
    exists h4, e, (applied T3 ls3), F4. split; [reflexivity|]. split; [exact R4|]. split; [now apply applied_full|]. split; [|split; [|split; [congruence|rewrite grown_none, Sp2, Sp3; reflexivity]]].
    + apply (upd_trans h h1 h4 [] [CId e; CObj (n_obj h)] F4).
      * split; [exact Fr1|]. intros x [<-|[<-|[]]]; right; cbn; unfold e; lia.
      * apply (upd_trans h1 h2 h4 _ F2 F4 X2). now apply (upd_trans h2 h3 h4 _ F3 F4).
    + rewrite (applied_leaves h3 e T3 ls3 F3 U3), P3, P2, kept_eq. unfold uleaves. cbn [leaves flat_map app]. reflexivity.
  - intros h R RT ls G W U FuR Fl. rewrite process_token_eq. destruct (create_leaf_ok h t W) as (h1 & E1 & Fr1 & Rt1 & T1 & O1).
    rewrite (run_ok _ _ _ _ _ E1), (run_ok _ _ _ _ _ (id_of_ok _ _ _ O1)). cbn [obj_id]. cbv zeta.
    set (e := cur_id h) in *.
    assert (R1 : rep h1 e (SLeaf None t) [CId e; CObj (n_obj h)]) by now constructor.
    assert (U1 : uc h1 R RT ls G) by (apply (uc_frame h h1 []); try assumption; apply disj_nill).
    assert (OldG : forall x, In x G -> old h x) by now apply (uc_old h R RT ls).
    assert (D1 : disj [CId e; CObj (n_obj h)] G).
    { intros x [<-|[<-|[]]] Hx; apply OldG in Hx; cbn in Hx; unfold e in *; lia. }
    destruct (children_other LEFT R (t_left t) IHl h1 e (SLeaf None t) _ RT ls G (fr_wf _ _ _ Fr1) R1 I U1 FuR Fl D1)
      as (h2 & T2 & F2 & RT2 & ls2 & G2 & E2 & Re2 & Fu2 & U2 & FuR2 & Fl2 & D2 & X2 & P2 & Rt2 & Sp2).
    rewrite (run_ok _ _ _ _ _ E2).
    destruct (children_other RIGHT R (t_right t) IHr h2 e T2 F2 RT2 ls2 G2 (fr_wf _ _ _ (proj1 X2)) Re2 Fu2 U2 FuR2 Fl2 D2)
      as (h3 & T3 & F3 & RT3 & ls3 & G3 & E3 & Re3 & Fu3 & U3 & FuR3 & Fl3 & D3 & X3 & P3 & Rt3 & Sp3).
    rewrite (run_ok _ _ _ _ _ E3). destruct (tget_uc _ _ _ _ _ (rep_uc _ _ _ _ Re3)) as (r & Et & Tr). rewrite (run_ok _ _ _ _ _ Et).
    assert (W3 : wf h3) by apply X3.
    destruct (apply_layers_uc h3 e T3 [] F3 r W3 (rep_uc _ _ _ _ Re3) Tr) as (h4 & F4 & E4 & R4 & X4 & Rt4). rewrite (run_ok _ _ _ _ _ E4).
    rewrite applied_nil in R4.
    assert (OldG3 : forall x, In x G3 -> old h3 x) by now apply (uc_old h3 R RT3 ls3).
    assert (X13 : upd h1 h3 ([CId e; CObj (n_obj h)] ++ G) (F3 ++ G3)) by now apply (upd_trans h1 h2 h3 _ (F2 ++ G2) _).
    assert (X14 : upd h1 h4 ([CId e; CObj (n_obj h)] ++ G) (F4 ++ G3)).
    { apply (upd_trans h1 h3 h4 _ (F3 ++ G3) _ X13). split.
      - apply (frame_weaken h3 h4 F3); [apply X4|]. intros x Hx. apply in_app_iff. now left.
      - intros x Hx. apply in_app_iff in Hx as [Hx|Hx]; [|left; apply in_app_iff; now right]. destruct (proj2 X4 x Hx); [left; apply in_app_iff; now left|now right]. }
    exists h4, e, T3, F4, RT3, ls3, G3. repeat apply conj; try assumption.
    + reflexivity.
    + apply (uc_frame h3 h4 F3); try assumption. apply X4.
    + apply (within_disj h3 F3 F4 G3 (proj2 X4)); assumption.
    + apply (frame_upd h h1 h4 G ([CId e; CObj (n_obj h)] ++ G)).
      * split; [apply (frame_weaken h h1 [] _ Fr1); easy|]. intros x Hx. cbn in Hx. destruct Hx as [<-|[<-|Hx]]; [right; cbn; unfold e; lia|right; cbn; lia|now left].
      * apply X14.
    + intros x Hx. destruct (proj2 X14 x Hx) as [H|H].
      * cbn in H. destruct H as [<-|[<-|H]]; [right; cbn; unfold e; lia|right; cbn; lia|now left].
      * right. intros Ho. apply H. now apply (frame_old h h1 _ x Fr1).
    + rewrite P3. rewrite app_assoc, P2, kept_eq. cbn [leaves app]. apply perm_skip. rewrite <- !app_assoc. rewrite Permutation_app_comm. rewrite <- !app_assoc. reflexivity.
    + congruence.
    + now rewrite grown_some, Sp2.
Qed.
