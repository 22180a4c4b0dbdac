(** * P_wide.v -- no stage leaves a node with less than two elements *)

From Verif Require Import Py P_py M_symbol M_token M_tree M_stages S_tree P_tree P_treeops P_alpha P_beta P_gamma C_alpha P_stages P_dag C_token.
From Coq Require Import String Permutation.
Open Scope list_scope.

Lemma wide_node ns c ts : wide (SNode ns c ts) <-> 2 <= List.length ts /\ Forall wide ts.
Proof.
  cbn. assert (E : forall l, (fix go l := match l with [] => True | x :: r => wide x /\ go r end) l <-> Forall wide l).
  { induction l as [|x l IH]; [now split|]. rewrite IH. split; [now intros [H1 H2]; constructor|]. intros H. inversion H. now split. }
  now rewrite E.
Qed.
Lemma wide_full t : wide t -> full t.
Proof.
  induction t as [ns k|ns c ts IH] using stree_ind'; [easy|]. intros H. apply wide_node in H as [L H]. apply full_node. split; [destruct ts; [cbn in L; lia|easy]|].
  clear L. induction IH as [|t ts Ht _ IHs]; [constructor|]. inversion H; subst. constructor; auto.
Qed.

(** ** What a successful run did *)

Lemma run_inv {A B} (m : SM A) (k : A -> SM B) h b h2 : sbind m k h = (Ok b, h2) -> exists a h1, m h = (Ok a, h1) /\ k a h1 = (Ok b, h2).
Proof. unfold sbind. destruct (m h) as [[a|e] h1]; [eauto|discriminate]. Qed.
Definition still {A} (m : SM A) : Prop := forall h v h', m h = (Ok v, h') -> h' = h.
Lemma still_bind {A B} (m : SM A) (k : A -> SM B) : still m -> (forall a, still (k a)) -> still (sbind m k).
Proof. intros H K h v h' E. apply run_inv in E as (a & h1 & E1 & E2). apply H in E1. subst. now apply K in E2. Qed.
Lemma still_ret {A} (a : A) : still (sret a).
Proof. intros h v h' E. now injection E. Qed.
Lemma still_raise {A} e : still (@sraise A e).
Proof. intros h v h' E. discriminate. Qed.
Lemma still_tget i : still (tget i).
Proof. intros h v h' E. unfold tget in E. now destruct (table h i); inversion E. Qed.
Lemma still_deref i : still (deref i).
Proof. intros h v h' E. unfold deref in E. now destruct (objs h i); inversion E. Qed.
Lemma still_read i : still (read_list i).
Proof. intros h v h' E. unfold read_list in E. now destruct (lists h i); inversion E. Qed.
Lemma still_budget : still budget.
Proof. intros h v h' E. now inversion E. Qed.
Lemma still_if {A} (b : bool) (m n : SM A) : still m -> still n -> still (if b then m else n).
Proof. now destruct b. Qed.
Lemma still_kids r : still (kids_ref r).
Proof. apply still_bind; [apply still_deref|]. intros []; [apply still_raise|apply still_ret]. Qed.
Lemma still_children_ids r : still (children_ids r).
Proof. apply still_bind; [apply still_kids|intros; apply still_read]. Qed.
Lemma still_nth cs i : still (nth_id cs i).
Proof. unfold nth_id. destruct (nth_error cs i); [apply still_ret|apply still_raise]. Qed.
Lemma still_id_of r : still (id_of r).
Proof. apply still_bind; [apply still_deref|intros; apply still_ret]. Qed.
Lemma still_smap {A B} (f : A -> SM B) l : (forall x, still (f x)) -> still (smap f l).
Proof. intros H. induction l as [|x l IH]; [apply still_ret|]. cbn. apply still_bind; [apply H|]. intros y. apply still_bind; [exact IH|intros; apply still_ret]. Qed.
Lemma still_sall {A} (f : A -> SM bool) l : (forall x, still (f x)) -> still (sall f l).
Proof. intros H. induction l as [|x l IH]; [apply still_ret|]. cbn. apply still_bind; [apply H|]. intros b. apply still_if; [exact IH|apply still_ret]. Qed.
Lemma still_sany {A} (f : A -> SM bool) l : (forall x, still (f x)) -> still (sany f l).
Proof. intros H. induction l as [|x l IH]; [apply still_ret|]. cbn. apply still_bind; [apply H|]. intros b. apply still_if; [apply still_ret|exact IH]. Qed.
Ltac quiet := repeat first
  [ apply still_ret | apply still_raise | apply still_tget | apply still_deref | apply still_read | apply still_budget | apply still_kids | apply still_children_ids
  | apply still_nth | apply still_id_of | apply still_if | apply still_bind; [|intros ?] | apply still_smap; intros ? | apply still_sall; intros ? | apply still_sany; intros ? ].
Lemma still_get_child r i : still (get_child r i).
Proof. unfold get_child. quiet. Qed.
Lemma still_children r : still (children r).
Proof. unfold children. quiet. Qed.
Lemma still_is_relationship : forall f i s d, still (is_relationship f i s d).
Proof.
  induction f as [|f IH]; intros i s d; [apply still_raise|]. cbn [is_relationship]. apply still_bind; [apply still_tget|]. intros e. apply still_bind; [apply still_deref|].
  intros [? ? t|? ? ? ? ? ?]; quiet. apply IH.
Qed.
Lemma still_delta_rel i : still (delta_rel i).
Proof. unfold delta_rel. quiet. apply still_is_relationship. Qed.
Lemma still_flat_leafs : forall f r, still (flat_leafs f r).
Proof. induction f as [|f IH]; intros r; [apply still_raise|]. cbn [flat_leafs]. quiet. apply IH. Qed.
Lemma still_elem_eq : forall f a b, still (elem_eq f a b).
Proof.
  induction f as [|f IH]; intros a b; [apply still_raise|]. cbn [elem_eq]. apply still_bind; [apply still_deref|]. intros oa. apply still_bind; [apply still_deref|]. intros ob.
  destruct oa, ob; try apply still_ret. apply still_bind; [apply still_children|]. intros c1. apply still_bind; [apply still_children|]. intros c2. quiet. apply IH.
Qed.
Lemma still_part a b : still (is_part_of_rel a b).
Proof. unfold is_part_of_rel. quiet; first [apply still_flat_leafs|apply still_elem_eq]. Qed.
Lemma still_arity r : still (arity r).
Proof. unfold arity. apply still_bind; [apply still_deref|]. intros [|? ? ? ? ? []]; quiet. Qed.
Lemma still_under : forall f n p c, still (is_directly_under f n p c).
Proof.
  induction f as [|f IH]; intros n p c; [apply still_raise|]. cbn [is_directly_under]. quiet; try first [apply IH|apply still_flat_leafs|apply still_elem_eq]. all: match goal with |- still (match ?o with _ => _ end) => destruct o as [|? ? ? ? ? []]; quiet end.
Qed.
Lemma still_fit n o : still (node_fit n o).
Proof.
  unfold node_fit. apply still_bind; [apply still_budget|]. intros fuel. quiet; try apply still_is_relationship. 1, 2: match goal with |- still (match ?o with _ => _ end) => destruct o as [|? ? ? ? ? []]; quiet end.
  match goal with |- still (?F ?z (seq 0 ?n)) => generalize z; generalize (seq 0 n) end.
  induction l as [|i l IH]; intros z; [apply still_ret|]. quiet; try apply still_get_child; try apply still_under. apply IH.
Qed.

Lemma tget_inv i h r h' : tget i h = (Ok r, h') -> h' = h /\ table h i = Some r.
Proof. unfold tget. destruct (table h i); intros E; inversion E; now subst. Qed.
Lemma deref_inv r h o h' : deref r h = (Ok o, h') -> h' = h /\ objs h r = Some o.
Proof. unfold deref. destruct (objs h r); intros E; inversion E; now subst. Qed.
Lemma read_inv l h x h' : read_list l h = (Ok x, h') -> h' = h /\ lists h l = Some x.
Proof. unfold read_list. destruct (lists h l); intros E; inversion E; now subst. Qed.
Lemma kids_inv r h l h' : kids_ref r h = (Ok l, h') -> h' = h /\ exists i n ls y c, objs h r = Some (ONode i n l ls y c).
Proof.
  intros E. apply run_inv in E as (o & h1 & E1 & E2). apply deref_inv in E1 as [-> O]. destruct o; [discriminate|]. injection E2 as <- <-. split; [reflexivity|eauto 10].
Qed.
Lemma children_ids_inv r h cs h' : children_ids r h = (Ok cs, h') -> h' = h /\ exists i n l ls y c, objs h r = Some (ONode i n l ls y c) /\ lists h l = Some cs.
Proof.
  intros E. apply run_inv in E as (o & h1 & E1 & E2). apply kids_inv in E1 as (-> & i & n & ls & y & c & O). apply read_inv in E2 as [-> L]. split; [reflexivity|eauto 10].
Qed.
Lemma nth_inv cs i h x h' : nth_id cs i h = (Ok x, h') -> h' = h /\ nth_error cs i = Some x.
Proof. unfold nth_id. destruct (nth_error cs i) eqn:E; intros H; inversion H; now subst. Qed.
Lemma id_of_inv r h i h' : id_of r h = (Ok i, h') -> h' = h /\ exists o, objs h r = Some o /\ obj_id o = i.
Proof. intros E. apply run_inv in E as (o & h1 & E1 & E2). apply deref_inv in E1 as [-> O]. injection E2 as <- <-. eauto. Qed.
Lemma get_child_inv r i h x h' : get_child r i h = (Ok x, h') -> h' = h /\ exists j n l ls y c cs k, objs h r = Some (ONode j n l ls y c) /\ lists h l = Some cs /\ nth_error cs i = Some k /\ table h k = Some x.
Proof.
  intros E. apply run_inv in E as (cs & h1 & E1 & E2). apply children_ids_inv in E1 as (-> & j & n & l & ls & y & c & O & L).
  apply run_inv in E2 as (k & h1 & E1 & E2). apply nth_inv in E1 as [-> N]. apply tget_inv in E2 as [-> T]. split; [reflexivity|eauto 12].
Qed.

Section wide.
Variable R : Z -> Prop.
Variable c0 : Z.
(** the numbers considered *)
Definition A (i : Z) : Prop := R i \/ (c0 <= i)%Z.
(** a leaf, or a node with at least [n] elements *)
Definition at_least (h : tree) (r n : nat) : Prop :=
  match objs h r with
  | Some (OLeaf _ _ _) => True
  | Some (ONode _ _ l _ _ _) => exists cs, lists h l = Some cs /\ n <= List.length cs
  | None => False
  end.
Definition K (h : tree) (i : Z) : Prop := A i /\ exists r, table h i = Some r /\ at_least h r 2.
Definition aref (h : tree) (r : nat) : Prop := exists i, A i /\ table h i = Some r.
Definition wref (h : tree) (r : nat) : Prop := aref h r /\ at_least h r 2.
Record J (h : tree) : Prop := {
  j_wf : wf h;
  j_cur : (c0 <= cur_id h)%Z;
  j_obj : forall i r, A i -> table h i = Some r -> exists o, objs h r = Some o /\ obj_id o = i /\
    forall l, (exists ns ls y c, o = ONode i ns l ls y c) -> exists cs, lists h l = Some cs /\ Forall (K h) cs }.
Record E (h h' : tree) : Prop := {
  e_tab : forall i r, A i -> table h i = Some r -> table h' i = Some r;
  e_len : forall r n, aref h r -> n <= 2 -> at_least h r n -> at_least h' r n }.
Lemma E_refl h : E h h.
Proof. now constructor. Qed.
Lemma aref_E h h' r : E h h' -> aref h r -> aref h' r.
Proof. intros [T _] (i & Ai & Ti). exists i. auto. Qed.
Lemma E_trans h h1 h2 : E h h1 -> E h1 h2 -> E h h2.
Proof.
  intros E1 E2. constructor; [intros i r Ai T; now apply E2, E1|]. intros r n Ar Hn H. apply (e_len _ _ E2); [now apply (aref_E h)|exact Hn|]. now apply E1.
Qed.
Lemma K_E h h' i : E h h' -> K h i -> K h' i.
Proof. intros X (Ai & r & T & L). split; [exact Ai|]. exists r. split; [now apply X|]. apply X; [exists i; now split|lia|exact L]. Qed.
Lemma Ks_E h h' cs : E h h' -> Forall (K h) cs -> Forall (K h') cs.
Proof. intros X. apply Forall_impl. intros i. now apply K_E. Qed.
Lemma wref_E h h' r : E h h' -> wref h r -> wref h' r.
Proof. intros X [Ar L]. split; [now apply (aref_E h)|]. apply X; [exact Ar|lia|exact L]. Qed.
Lemma wrefs_E h h' cs : E h h' -> Forall (wref h) cs -> Forall (wref h') cs.
Proof. intros X. apply Forall_impl. intros i. now apply wref_E. Qed.
Lemma at_E h h' r n : E h h' -> aref h r -> n <= 2 -> at_least h r n -> at_least h' r n.
Proof. intros X. apply X. Qed.
Lemma at_mono h r n m : at_least h r n -> m <= n -> at_least h r m.
Proof. unfold at_least. destruct (objs h r) as [[]|]; try easy. intros (cs & L & H) Hm. exists cs. split; [exact L|lia]. Qed.

Lemma K_wref h i r : K h i -> table h i = Some r -> wref h r.
Proof. intros (Ai & r' & T & L) T'. assert (r' = r) by congruence. subst. split; [exists i; now split|exact L]. Qed.
Lemma wref_K h r o : J h -> wref h r -> objs h r = Some o -> K h (obj_id o) /\ table h (obj_id o) = Some r.
Proof.
  intros I [(i & Ai & T) L] O. destruct (j_obj h I i r Ai T) as (o' & O' & Id & _). assert (o' = o) by congruence. subst. split; [|exact T]. split; [exact Ai|]. eauto.
Qed.
Lemma kids_K h r i ns l ls y c cs : J h -> aref h r -> objs h r = Some (ONode i ns l ls y c) -> lists h l = Some cs -> Forall (K h) cs.
Proof.
  intros I (j & Aj & T) O L. destruct (j_obj h I j r Aj T) as (o & O' & Id & X). assert (o = ONode i ns l ls y c) by congruence. subst o. cbn in Id. subst i.
  destruct (X l) as (cs' & L' & F); [eauto 10|]. assert (cs' = cs) by congruence. now subst.
Qed.
Lemma aref_len h r i ns l ls y c cs n : at_least h r n -> objs h r = Some (ONode i ns l ls y c) -> lists h l = Some cs -> n <= List.length cs.
Proof. unfold at_least. intros H O L. rewrite O in H. destruct H as (cs' & L' & H). assert (cs' = cs) by congruence. now subst. Qed.

(** ** The writes *)

(** a list changes: what it is changed to is not shorter (or has two elements) *)
Lemma write_list_w h l cs x : J h -> lists h l = Some cs -> (List.length cs <= List.length x \/ 2 <= List.length x) -> (forall h', E h h' -> h' = wl h l x -> Forall (K h') x) -> J (wl h l x) /\ E h (wl h l x).
Proof.
  intros I L Hl Hx. assert (X : E h (wl h l x)).
  { constructor; [easy|]. intros r n _ Hn. unfold at_least. cbn. destruct (objs h r) as [[|i ns l' ls y c]|]; try easy. intros (cs' & L' & H). destruct (Nat.eq_dec l' l) as [->|N].
    - rewrite updN_same. exists x. split; [reflexivity|]. assert (cs' = cs) by congruence. subst. lia.
    - rewrite updN_other by exact N. eauto. }
  split; [|exact X]. constructor; [apply (frame_wl h); [apply I|exact (wf_lst h (j_wf h I) _ _ L)]|apply I|]. intros i r Ai T. cbn in T. destruct (j_obj h I i r Ai T) as (o & O & Id & Y).
  exists o. split; [exact O|]. split; [exact Id|]. intros l' Hl'. destruct (Y l' Hl') as (cs' & L' & F). cbn. destruct (Nat.eq_dec l' l) as [->|N].
  - rewrite updN_same. exists x. split; [reflexivity|]. now apply Hx.
  - rewrite updN_other by exact N. exists cs'. split; [exact L'|]. now apply (Ks_E h).
Qed.
Lemma write_list_K h l cs x : J h -> lists h l = Some cs -> List.length cs <= List.length x -> Forall (K h) x -> J (wl h l x) /\ E h (wl h l x).
Proof. intros I L Hl Hx. apply (write_list_w h l cs x I L); [now left|]. intros h' X ->. now apply (Ks_E h). Qed.
(** a node changes, but not its list; or it gets another list that is long enough *)
Lemma write_obj_w h r i ns l ls y c ns' l' ls' y' c' : J h -> aref h r -> objs h r = Some (ONode i ns l ls y c) ->
  (l' = l \/ exists x, lists h l' = Some x /\ 2 <= List.length x /\ Forall (K h) x) ->
  J (wo h r (ONode i ns' l' ls' y' c')) /\ E h (wo h r (ONode i ns' l' ls' y' c')).
Proof.
  intros I Ar O Hl. set (h' := wo h r (ONode i ns' l' ls' y' c')). assert (X : E h h').
  { constructor; [easy|]. intros q n _ Hn. unfold at_least, h'. cbn. destruct (Nat.eq_dec q r) as [->|N].
    - rewrite updN_same, O. destruct Hl as [->|(x & L & H2 & _)]; [easy|]. intros _. exists x. split; [exact L|lia].
    - rewrite updN_other by exact N. easy. }
  split; [|exact X]. constructor; [apply (frame_wo h); [apply I|exact (wf_obj h (j_wf h I) _ _ O)]|apply I|]. intros j q Aj T. cbn in T. destruct (j_obj h I j q Aj T) as (o & Oq & Id & Y).
  unfold h'. cbn. destruct (Nat.eq_dec q r) as [->|N].
  - rewrite updN_same. assert (o = ONode i ns l ls y c) by congruence. subst o. cbn in Id. subst j. exists (ONode i ns' l' ls' y' c'). split; [reflexivity|]. split; [reflexivity|].
    intros l2 (ns2 & ls2 & y2 & c2 & E2). injection E2 as _ <- _ _ _. destruct Hl as [->|(x & L & _ & F)].
    + destruct (Y l) as (cs & L & F); [eauto 10|]. exists cs. split; [exact L|now apply (Ks_E h)].
    + exists x. split; [exact L|now apply (Ks_E h)].
  - rewrite updN_other by exact N. exists o. split; [exact Oq|]. split; [exact Id|]. intros l2 H2. destruct (Y l2 H2) as (cs & L & F). exists cs. split; [exact L|now apply (Ks_E h)].
Qed.
Lemma create_w h x r h' : J h -> Forall (K h) x -> create_node_of x h = (Ok r, h') ->
  J h' /\ E h h' /\ aref h' r /\ A (cur_id h) /\ table h' (cur_id h) = Some r /\ objs h' r = Some (ONode (cur_id h) None (n_list h) [] (-1) false) /\ lists h' (n_list h) = Some x.
Proof.
  intros I Fx Er. pose proof (j_wf h I) as W. destruct (create_node_of_ok h x W) as (h1 & E1 & Fr & _ & T & O & L). rewrite E1 in Er. injection Er as <- <-.
  assert (Tab : forall i s, table h1 i = Some s -> table h i = Some s \/ i = cur_id h).
  { intros i s Ts. unfold create_node_of, new_list, create_node, new_obj, add_elem, set_elem, deref, write_obj, sret, sbind in E1. cbn in E1. rewrite updN_same in E1. injection E1 as <-.
    cbn in Ts. unfold updZ in Ts. destruct (Z.eqb_spec i (cur_id h)); [now right|now left]. }
  assert (X : E h h1).
  { constructor.
    - intros i s _ Ts. rewrite <- Ts. apply (fr_same _ _ _ Fr (CId i)); [exact (wf_tab h W i s Ts)|intros []].
    - intros s n _ Hn. unfold at_least. destruct (objs h s) as [o|] eqn:Os; [|easy]. assert (Os1 : objs h1 s = Some o) by (rewrite <- Os; apply (fr_same _ _ _ Fr (CObj s)); [exact (wf_obj h W s o Os)|intros []]).
      rewrite Os1. destruct o as [|i ns l ls y c]; [easy|]. intros (cs & Ls & H). exists cs. split; [|exact H]. rewrite <- Ls. apply (fr_same _ _ _ Fr (CList l)); [exact (wf_lst h W l cs Ls)|intros []]. }
  assert (Ac : A (cur_id h)) by (right; apply I). split; [|split; [exact X|]].
  - constructor; [apply Fr|pose proof (j_cur h I); pose proof (fr_cur _ _ _ Fr); lia|]. intros i s Ai Ts. destruct (Tab i s Ts) as [T0| ->].
    + destruct (j_obj h I i s Ai T0) as (o & Os & Id & Y). exists o. split; [rewrite <- Os; apply (fr_same _ _ _ Fr (CObj s)); [exact (wf_obj h W s o Os)|intros []]|]. split; [exact Id|].
      intros l Hl. destruct (Y l Hl) as (cs & Ls & F). exists cs. split; [|now apply (Ks_E h)]. rewrite <- Ls. apply (fr_same _ _ _ Fr (CList l)); [exact (wf_lst h W l cs Ls)|intros []].
    + assert (s = n_obj h) by congruence. subst s. exists (ONode (cur_id h) None (n_list h) [] (-1) false). split; [exact O|]. split; [reflexivity|]. intros l (? & ? & ? & ? & El). injection El as _ <- _ _ _.
      exists x. split; [exact L|now apply (Ks_E h)].
  - split; [exists (cur_id h); now split|]. now repeat apply conj.
Qed.
Lemma smap_K (f : Z -> SM Z) : (forall c h i h', J h -> K h c -> f c h = (Ok i, h') -> J h' /\ E h h' /\ K h' i) ->
  forall cs h ids h', J h -> Forall (K h) cs -> smap f cs h = (Ok ids, h') -> J h' /\ E h h' /\ Forall (K h') ids /\ List.length ids = List.length cs.
Proof.
  intros Hf. induction cs as [|c cs IH]; intros h ids h' I F X.
  - injection X as <- <-. split; [exact I|]. split; [apply E_refl|]. now split.
  - cbn in X. apply run_inv in X as (i & h1 & X1 & X2). apply run_inv in X2 as (js & h2 & X2 & X3). injection X3 as <- <-. inversion F as [|? ? Kc F']; subst.
    destruct (Hf c h i h1 I Kc X1) as (I1 & E1 & K1). destruct (IH h1 js h2 I1) as (I2 & E2 & K2 & L2); [now apply (Ks_E h)|exact X2|].
    split; [exact I2|]. split; [now apply (E_trans h h1)|]. split; [constructor; [now apply (K_E h1)|exact K2]|]. cbn. now rewrite L2.
Qed.
Ltac inv H := apply run_inv in H as (? & ? & ? & H).

(** ** The blocks of the search *)

Lemma clone_w : forall f r h y h', J h -> aref h r -> clone f r h = (Ok y, h') ->
  J h' /\ E h h' /\ aref h' y /\ (forall n, n <= 2 -> at_least h r n -> at_least h' y n) /\ (forall o o', objs h r = Some o -> objs h' y = Some o' -> is_terminal o' = is_terminal o).
Proof.
  induction f as [|f IH]; intros r h y h' I Ar X; [discriminate|]. cbn [clone] in X. apply run_inv in X as (o & h1 & X1 & X). apply deref_inv in X1 as [-> O].
  destruct o as [i ns k|i ns l ls ly c].
  - cbn in X. injection X as <- <-. split; [exact I|]. split; [apply E_refl|]. split; [exact Ar|]. split; [easy|]. congruence.
  - cbn [is_leaf] in X. apply run_inv in X as (cs & h1 & X1 & X). apply children_ids_inv in X1 as (-> & i' & n' & l' & ls' & y' & c' & O' & L). assert (l' = l) by congruence. subst l'. clear O'.
    apply run_inv in X as (ids & h1 & X1 & X). pose proof (kids_K h r _ _ _ _ _ _ cs I Ar O L) as Kc.
    apply (smap_K _) in X1 as (I1 & E1 & K1 & L1); [| |exact I|exact Kc].
    2: { intros c1 h2 j h3 I2 K2 Y. apply run_inv in Y as (x & h4 & Y1 & Y). apply tget_inv in Y1 as [-> Tx]. apply run_inv in Y as (z & h4 & Y1 & Y). apply id_of_inv in Y as (-> & oz & Oz & Id). subst j.
      destruct (K_wref h2 c1 x K2 Tx) as [Ax Lx]. destruct (IH x h2 z h4 I2 Ax Y1) as (I4 & E4 & A4 & L4 & _). split; [exact I4|]. split; [exact E4|].
      apply (wref_K h4 z oz I4); [|exact Oz]. split; [exact A4|]. apply L4; [lia|exact Lx]. }
    apply run_inv in X as (nd & h2 & X2 & X). destruct (create_w h1 ids nd h2 I1 K1 X2) as (I2 & E2 & A2 & _ & T2 & O2 & L2).
    apply run_inv in X as (no & h3 & X3 & X). apply deref_inv in X3 as [-> O3]. assert (no = ONode (cur_id h1) None (n_list h1) [] (-1) false) by congruence. subst no.
    apply run_inv in X as (u & h3 & X3 & X). injection X as <- <-. unfold write_obj in X3. injection X3 as _ <-. change (Tr _ _ _ _ _ _ _) with (wo h2 nd (ONode (cur_id h1) None (n_list h1) [] (-1) c)).
    destruct (write_obj_w h2 nd _ _ _ _ _ _ None (n_list h1) [] (-1) c I2 A2 O2 (or_introl eq_refl)) as [I3 E3].
    split; [exact I3|]. split; [apply (E_trans h h1); [exact E1|now apply (E_trans h1 h2)]|]. split; [now apply (aref_E h2)|]. split.
    + intros n Hn La. unfold at_least. cbn. rewrite updN_same. exists ids. split; [exact L2|]. rewrite L1. now apply (aref_len h r _ _ _ _ _ _ cs n La O L).
    + intros o o' Ho Ho'. rewrite O in Ho. injection Ho as <-. cbn in Ho'. rewrite updN_same in Ho'. now injection Ho' as <-.
Qed.
Lemma set_compound_w : forall f r b h v h', J h -> aref h r -> set_compound f r b h = (Ok v, h') -> J h' /\ E h h'.
Proof.
  induction f as [|f IH]; intros r b h v h' I Ar X; [discriminate|]. cbn [set_compound] in X. apply run_inv in X as (o & h1 & X1 & X). apply deref_inv in X1 as [-> O].
  destruct o as [i ns k|i ns l ls ly c]; [injection X as <- <-; split; [exact I|apply E_refl]|].
  apply run_inv in X as (u & h1 & X1 & X). unfold write_obj in X1. injection X1 as _ X1. change (Tr _ _ _ _ _ _ _) with (wo h r (ONode i ns l ls ly b)) in X1. subst h1.
  destruct (write_obj_w h r _ _ _ _ _ _ ns l ls ly b I Ar O (or_introl eq_refl)) as [I1 E1]. set (h1 := wo h r (ONode i ns l ls ly b)) in *.
  apply run_inv in X as (cs & h2 & X2 & X). unfold children in X2. apply run_inv in X2 as (ids & h3 & X3 & X2). apply children_ids_inv in X3 as (-> & i2 & n2 & l2 & ls2 & y2 & c2 & O2 & L2).
  pose proof (kids_K h1 r _ _ _ _ _ _ ids I1 (aref_E h h1 r E1 Ar) O2 L2) as Kc. pose proof (still_smap tget ids (fun x => still_tget x) _ _ _ X2) as ->.
  assert (Fa : Forall (aref h1) cs).
  { clear -X2 Kc. revert cs X2. induction ids as [|j ids IHi]; intros cs X2; [injection X2 as <-; constructor|]. rewrite smap_cons in X2. apply run_inv in X2 as (q & h2 & X1 & X2). apply tget_inv in X1 as [-> T].
    apply run_inv in X2 as (rs & h2 & X1 & X2). injection X2 as <- ->. inversion Kc; subst. constructor; [apply (K_wref h1 j q); assumption|]. apply IHi; [assumption|exact X1]. }
  clear - IH I1 E1 Fa X. assert (Y : J h' /\ E h1 h'); [|split; [apply Y|now apply (E_trans h h1)]]. revert X. clear E1. generalize dependent h1. induction cs as [|c cs IHc]; intros h1 I1 Fa X.
  - injection X as _ <-. split; [exact I1|apply E_refl].
  - cbn in X. apply run_inv in X as (u & h2 & X1 & X). inversion Fa as [|? ? Ac Fa']; subst. assert (Z : J h2 /\ E h1 h2).
    { apply run_inv in X1 as (oc & h3 & X2 & X1). apply deref_inv in X2 as [-> Oc]. destruct (is_node oc); [now apply (IH c b h1 u h2)|]. injection X1 as _ <-. split; [exact I1|apply E_refl]. }
    destruct Z as [I2 E2]. destruct (IHc h2 I2) as [I3 E3]; [eapply Forall_impl; [|exact Fa']; intros q; now apply aref_E|exact X|]. split; [exact I3|now apply (E_trans h1 h2)].
Qed.
Lemma concat_long {X} (parts : list (list X)) : Forall (fun p => 1 <= List.length p) parts -> List.length parts <= List.length (List.concat parts).
Proof. induction 1 as [|p ps Hp _ IH]; [cbn; lia|]. cbn. rewrite app_length. lia. Qed.
Lemma flatten_w : forall f r h v h', J h -> wref h r -> flatten f r h = (Ok v, h') -> J h' /\ E h h'.
Proof.
  induction f as [|f IH]; intros r h v h' I Wr X; [discriminate|]. cbn [flatten] in X. apply run_inv in X as (o & h1 & X1 & X). apply deref_inv in X1 as [-> O].
  destruct o as [i ns k|i ns l ls ly c]; [injection X as <- <-; split; [exact I|apply E_refl]|]. cbn [is_leaf] in X.
  apply run_inv in X as (cs & h1 & X1 & X). apply children_ids_inv in X1 as (-> & i' & n' & l' & ls' & y' & c' & O' & L). assert (l' = l) by congruence. subst l'. clear O'.
  apply run_inv in X as (parts & h1 & X1 & X). pose proof (kids_K h r _ _ _ _ _ _ cs I (proj1 Wr) O L) as Kc. pose proof (aref_len h r _ _ _ _ _ _ cs 2 (proj2 Wr) O L) as Lc.
  assert (Loop : forall cs h parts h1, J h -> Forall (K h) cs -> smap (fun c => run x <- tget c; flatten f x;;; run ox <- deref x; if is_terminal ox then sret [obj_id ox] else children_ids x) cs h = (Ok parts, h1) ->
    J h1 /\ E h h1 /\ Forall (fun p => 1 <= List.length p /\ Forall (K h1) p) parts /\ List.length parts = List.length cs).
  { clear - IH. induction cs as [|c cs IHc]; intros h parts h1 I Kc X; [injection X as <- <-; split; [exact I|]; split; [apply E_refl|]; now split|].
    rewrite smap_cons in X. apply run_inv in X as (p & h2 & X1 & X). apply run_inv in X as (ps & h3 & X2 & X). injection X as <- <-. inversion Kc as [|? ? Kc1 Kc2]; subst.
    apply run_inv in X1 as (x & h4 & X & X1). apply tget_inv in X as [-> Tx]. pose proof (K_wref h c x Kc1 Tx) as Wx. apply run_inv in X1 as (u & h4 & X & X1).
    destruct (IH x h u h4 I Wx X) as [I4 E4]. apply run_inv in X1 as (ox & h5 & X5 & X1). apply deref_inv in X5 as [-> Ox]. pose proof (wref_E h h4 x E4 Wx) as Wx4.
    assert (Y : h2 = h4 /\ 1 <= List.length p /\ Forall (K h4) p).
    { destruct (is_terminal ox).
      - injection X1 as <- <-. split; [reflexivity|]. split; [cbn; lia|]. constructor; [|constructor]. now apply (wref_K h4 x).
      - apply children_ids_inv in X1 as (-> & i & n & l & ls & y & b & O & L). split; [reflexivity|]. split; [pose proof (aref_len h4 x _ _ _ _ _ _ p 2 (proj2 Wx4) O L); lia|].
        now apply (kids_K h4 x _ _ _ _ _ _ p I4 (proj1 Wx4) O L). }
    destruct Y as (-> & Lp & Kp). destruct (IHc h4 ps h3 I4) as (I3 & E3 & F3 & L3); [now apply (Ks_E h)|exact X2|].
    split; [exact I3|]. split; [now apply (E_trans h h4)|]. split; [constructor; [split; [exact Lp|now apply (Ks_E h4)]|exact F3]|]. cbn. now rewrite L3. }
  destruct (Loop cs h parts h1 I Kc X1) as (I1 & E1 & F1 & L1).
  apply run_inv in X as (nl & h2 & X2 & X). destruct (new_list_ok h1 (List.concat parts) (j_wf h1 I1)) as (h2' & X2' & Fr & Rt & Tb & Cu & Ob & Nb & Ls & Nl). rewrite X2' in X2. injection X2 as <- <-.
  assert (Hold : forall l2 x, lists h1 l2 = Some x -> lists h2' l2 = Some x) by (intros l2 x L2; rewrite <- L2; apply (fr_same _ _ _ Fr (CList l2)); [exact (wf_lst h1 (j_wf h1 I1) _ _ L2)|intros []]).
  assert (E2 : E h1 h2').
  { constructor; [now rewrite Tb|]. intros q n _ Hn. unfold at_least. rewrite Ob. destruct (objs h1 q) as [[|? ? l2 ? ? ?]|]; try easy. intros (x & Lx & Hx). exists x. split; [now apply Hold|exact Hx]. }
  assert (I2 : J h2').
  { constructor; [apply Fr|rewrite Cu; apply I1|]. rewrite Tb, Ob. intros j q Aj Tj. destruct (j_obj h1 I1 j q Aj Tj) as (o & Oq & Id & Y). exists o. split; [exact Oq|]. split; [exact Id|].
    intros l2 H2. destruct (Y l2 H2) as (x & Lx & Fx). exists x. split; [now apply Hold|now apply (Ks_E h1)]. }
  assert (E02 : E h h2') by now apply (E_trans h h1).
  apply run_inv in X as (o' & h3 & X3 & X). apply deref_inv in X3 as [-> O']. destruct o' as [|i6 ns6 l6 ls6 y6 c6]; [discriminate|]. unfold write_obj in X. injection X as _ X. change (Tr _ _ _ _ _ _ _) with (wo h2' r (ONode i6 ns6 (n_list h1) ls6 y6 c6)) in X. subst h'.
  destruct (write_obj_w h2' r _ _ _ _ _ _ ns6 (n_list h1) ls6 y6 c6 I2 (aref_E h h2' r E02 (proj1 Wr)) O') as [I3 E3].
  - right. exists (List.concat parts). split; [exact Ls|]. split.
    + pose proof (concat_long parts ltac:(eapply Forall_impl; [|exact F1]; now intros p [? _])). lia.
    + apply Forall_forall. intros z Hz. apply in_concat in Hz as (p & Hp & Hz). rewrite Forall_forall in F1. destruct (F1 p Hp) as [_ Fp]. rewrite Forall_forall in Fp. apply (K_E h1); [exact E2|now apply Fp].
  - split; [exact I3|now apply (E_trans h h2')].
Qed.

Definition rec_ok (rec : nat -> list Z -> list nat -> SM (list nat)) : Prop := forall wn tp cands h v h', J h -> aref h wn -> at_least h wn (match tp with [] => 2 | _ => 1 end) ->
  Forall (K h) tp -> Forall (wref h) cands -> rec wn tp cands h = (Ok v, h') -> J h' /\ E h h' /\ Forall (wref h') v.

Lemma build_w rec wn rel child tp cands h v h' : rec_ok rec -> J h -> aref h wn -> at_least h wn 1 -> K h rel -> wref h child -> Forall (K h) tp -> Forall (wref h) cands ->
  build_candidate rec wn rel child tp cands h = (Ok v, h') -> J h' /\ E h h' /\ Forall (wref h') v.
Proof.
  intros Hr I Aw Lw Kr Wc Kt Wcs X. unfold build_candidate in X. apply run_inv in X as (b & h1 & X1 & X). apply still_budget in X1 as ->.
  apply run_inv in X as (nn & h1 & X1 & X). destruct (clone_w b wn h nn h1 I Aw X1) as (I1 & E1 & A1 & L1 & _). pose proof (L1 1 ltac:(lia) Lw) as Ln.
  apply run_inv in X as (u & h2 & X2 & X). unfold set_child in X2. apply run_inv in X2 as (l & h3 & X3 & X2). apply kids_inv in X3 as (-> & i & n & ls & y & c & O1).
  apply run_inv in X2 as (cs & h3 & X3 & X2). apply read_inv in X3 as [-> C1]. destruct cs as [|z cs]; [discriminate|]. cbn in X2. unfold write_list in X2. injection X2 as _ X2. change (Tr _ _ _ _ _ _ _) with (wl h1 l (rel :: cs)) in X2. subst h2.
  pose proof (kids_K h1 nn _ _ _ _ _ _ _ I1 A1 O1 C1) as Kz. inversion Kz as [|? ? _ Kcs]; subst.
  destruct (write_list_K h1 l (z :: cs) (rel :: cs) I1 C1 ltac:(cbn; lia)) as [I2 E2]; [constructor; [now apply (K_E h)|exact Kcs]|]. set (h2 := wl h1 l (rel :: cs)) in *.
  assert (E02 : E h h2) by now apply (E_trans h h1).
  apply run_inv in X as (ccs & h3 & X3 & X). apply children_ids_inv in X3 as (-> & i3 & n3 & l3 & ls3 & y3 & c3 & O3 & C3). destruct (wref_E h h2 child E02 Wc) as [A3 L3].
  pose proof (kids_K h2 child _ _ _ _ _ _ _ I2 A3 O3 C3) as Kccs. pose proof (aref_len h2 child _ _ _ _ _ _ ccs 2 L3 O3 C3) as Lccs.
  apply run_inv in X as (l4 & h4 & X4 & X). apply kids_inv in X4 as (-> & i4 & n4 & ls4 & y4 & c4 & O4). apply run_inv in X as (cs4 & h4 & X4 & X). apply read_inv in X4 as [-> C4].
  pose proof (aref_E h1 h2 nn E2 A1) as A2. pose proof (kids_K h2 nn _ _ _ _ _ _ _ I2 A2 O4 C4) as K4.
  apply run_inv in X as (u4 & h5 & X5 & X). unfold write_list in X5. injection X5 as _ X5. change (Tr _ _ _ _ _ _ _) with (wl h2 l4 (cs4 ++ tl ccs)) in X5. subst h5.
  assert (Kt4 : Forall (K h2) (cs4 ++ tl ccs)) by (apply Forall_app; split; [exact K4|]; destruct ccs; [constructor|inversion Kccs; assumption]).
  destruct (write_list_K h2 l4 cs4 (cs4 ++ tl ccs) I2 C4 ltac:(rewrite app_length; lia) Kt4) as [I5 E5]. set (h5 := wl h2 l4 (cs4 ++ tl ccs)) in *.
  assert (E05 : E h h5) by now apply (E_trans h h2). pose proof (at_E h1 h2 nn 1 E2 A1 ltac:(lia) Ln) as Ln2. pose proof (aref_len h2 nn _ _ _ _ _ _ cs4 1 Ln2 O4 C4) as Lcs4.
  destruct (Hr nn (tl tp) cands h5 v h' I5) as (I6 & E6 & F6); try assumption.
  - apply (at_mono _ _ 2); [|destruct (tl tp); lia]. unfold at_least. change (objs h5 nn) with (objs h2 nn). rewrite O4. exists (cs4 ++ tl ccs). split; [apply updN_same|]. rewrite app_length. destruct ccs as [|q [|q2 ccs]]; cbn in *; lia.
  - apply (Ks_E h); [exact E05|]. destruct tp; [constructor|now inversion Kt].
  - now apply (wrefs_E h).
  - split; [exact I6|]. split; [now apply (E_trans h h5)|exact F6].
Qed.
(** a short node is put somewhere and then gets a second element *)
Lemma write_two h l cs a rid rr l2 b0 b i ns ls y c : J h -> lists h l = Some cs -> List.length cs <= List.length a -> Forall (fun j => j = rid \/ K h j) a ->
  A rid -> table h rid = Some rr -> objs h rr = Some (ONode i ns l2 ls y c) -> lists h l2 = Some b0 -> 2 <= List.length b -> Forall (fun j => j = rid \/ K h j) b ->
  let h' := wl (wl h l a) l2 b in J h' /\ E h h' /\ K h' rid.
Proof.
  intros I L La Fa Ar T O L2 Lb Fb h'. assert (W1 : wf (wl h l a)) by (apply (frame_wl h); [apply I|exact (wf_lst h (j_wf h I) _ _ L)]).
  assert (W2 : wf h') by (apply (frame_wl (wl h l a)); [exact W1|exact (wf_lst h (j_wf h I) _ _ L2)]).
  assert (X : E h h').
  { constructor; [easy|]. intros q n _ Hn. unfold at_least, h'. cbn. destruct (objs h q) as [[|? ? l3 ? ? ?]|]; try easy. intros (x & Lx & Hx). destruct (Nat.eq_dec l3 l2) as [->|N2].
    - rewrite updN_same. exists b. split; [reflexivity|lia].
    - rewrite (updN_other _ l2) by exact N2. destruct (Nat.eq_dec l3 l) as [->|N].
      + rewrite updN_same. exists a. split; [reflexivity|]. assert (x = cs) by congruence. subst. lia.
      + rewrite updN_other by exact N. eauto. }
  assert (Kr : K h' rid). { split; [exact Ar|]. exists rr. split; [exact T|]. unfold at_least, h'. cbn. rewrite O. exists b. split; [apply updN_same|exact Lb]. }
  assert (Up : forall x, Forall (fun j => j = rid \/ K h j) x -> Forall (K h') x) by (intros x; apply Forall_impl; intros j [->|H]; [exact Kr|now apply (K_E h)]).
  split; [|split; [exact X|exact Kr]]. constructor; [exact W2|apply I|]. intros j q Aj Tj. cbn in Tj. destruct (j_obj h I j q Aj Tj) as (o & Oq & Id & Y). exists o. split; [exact Oq|]. split; [exact Id|].
  intros l3 H3. destruct (Y l3 H3) as (x & Lx & Fx). unfold h'. cbn. destruct (Nat.eq_dec l3 l2) as [->|N2].
  - rewrite updN_same. exists b. split; [reflexivity|now apply Up].
  - rewrite (updN_other _ l2) by exact N2. destruct (Nat.eq_dec l3 l) as [->|N].
    + rewrite updN_same. exists a. split; [reflexivity|now apply Up].
    + rewrite updN_other by exact N. exists x. split; [exact Lx|now apply (Ks_E h)].
Qed.

Lemma create2_K h x r h' : J h -> Forall (K h) x -> 2 <= List.length x -> create_node_of x h = (Ok r, h') -> J h' /\ E h h' /\ wref h' r.
Proof.
  intros I F L X. destruct (create_w h x r h' I F X) as (I1 & E1 & A1 & _ & _ & O & Lx). split; [exact I1|]. split; [exact E1|]. split; [exact A1|].
  unfold at_least. rewrite O. eauto.
Qed.
Lemma id_K h r i h' : J h -> wref h r -> id_of r h = (Ok i, h') -> h' = h /\ K h i /\ table h i = Some r.
Proof. intros I W X. apply id_of_inv in X as (-> & o & O & <-). split; [reflexivity|]. now apply wref_K. Qed.
Lemma ids_K h r cs h' : J h -> aref h r -> children_ids r h = (Ok cs, h') -> h' = h /\ Forall (K h) cs.
Proof. intros I Ar X. apply children_ids_inv in X as (-> & i & n & l & ls & y & c & O & L). split; [reflexivity|]. now apply (kids_K h r _ _ _ _ _ _ cs I Ar O L). Qed.
Lemma nth_K h cs n i h' : Forall (K h) cs -> nth_id cs n h = (Ok i, h') -> h' = h /\ K h i.
Proof. intros F X. apply nth_inv in X as [-> N]. split; [reflexivity|]. rewrite Forall_forall in F. apply F. now apply (nth_error_In cs n). Qed.
Lemma tget_K h i r h' : K h i -> tget i h = (Ok r, h') -> h' = h /\ wref h r.
Proof. intros Ki X. apply tget_inv in X as [-> T]. split; [reflexivity|]. now apply (K_wref h i). Qed.

Definition step_ok (h h' : tree) (cands : list nat) : Prop := J h' /\ E h h' /\ Forall (wref h') cands.
Lemma step_trans h h1 h2 c1 c2 : step_ok h h1 c1 -> step_ok h1 h2 c2 -> step_ok h h2 c2.
Proof. intros (_ & E1 & _) (I2 & E2 & F2). split; [exact I2|]. split; [now apply (E_trans h h1)|exact F2]. Qed.

Ltac fk := repeat first [apply Forall_cons; [assumption|]|apply Forall_nil].
Ltac at_e h := apply (at_E h); [assumption|assumption|lia|assumption].
Section blocks.
Variable rec : nat -> list Z -> list nat -> SM (list nat).
Hypothesis Hr : rec_ok rec.

Lemma relationship_w wn child tp cands h v h' : J h -> aref h wn -> at_least h wn 1 -> wref h child -> Forall (K h) tp -> Forall (wref h) cands ->
  relationship_candidates rec wn child tp cands h = (Ok v, h') -> step_ok h h' v.
Proof.
  intros I Aw Lw Wc Kt Wcs X. unfold relationship_candidates in X.
  apply run_inv in X as (wcs & h1 & X1 & X). apply (ids_K h wn wcs h1 I Aw) in X1 as [-> Kw].
  apply run_inv in X as (w0 & h1 & X1 & X). apply (nth_K h wcs 0 w0 h1 Kw) in X1 as [-> Kw0].
  apply run_inv in X as (rl & h1 & X1 & X). apply (tget_K h w0 rl h1 Kw0) in X1 as [-> Wl].
  apply run_inv in X as (ccs & h1 & X1 & X). apply (ids_K h child ccs h1 I (proj1 Wc)) in X1 as [-> Kc].
  apply run_inv in X as (k0 & h1 & X1 & X). apply (nth_K h ccs 0 k0 h1 Kc) in X1 as [-> Kc0].
  apply run_inv in X as (rr & h1 & X1 & X). apply (tget_K h k0 rr h1 Kc0) in X1 as [-> Wrr].
  (* insert before *)
  apply run_inv in X as (cands1 & h1 & X1 & X). assert (S1 : step_ok h h1 cands1).
  { destruct (Nat.eqb (List.length wcs) 1); [|injection X1 as <- <-; split; [exact I|split; [apply E_refl|exact Wcs]]].
    apply run_inv in X1 as (rel & h2 & X2 & X1). destruct (create2_K h [k0; w0] rel h2 I) as (I2 & E2 & W2); [fk|cbn; lia|exact X2|].
    apply run_inv in X1 as (ri & h3 & X3 & X1). apply (id_K h2 rel ri h3 I2 W2) in X3 as (-> & K2 & _).
    destruct (build_w rec wn ri child tp cands h2 cands1 h1 Hr I2) as (I3 & E3 & F3); [now apply (aref_E h)|at_e h|exact K2|now apply (wref_E h)|now apply (Ks_E h)|now apply (wrefs_E h)|exact X1|].
    split; [exact I3|]. split; [now apply (E_trans h h2)|exact F3]. }
  apply run_inv in X as (lo & h2 & X2 & X). apply deref_inv in X2 as [-> Olo]. apply run_inv in X as (ro & h2 & X2 & X). apply deref_inv in X2 as [-> Oro].
  (* the facts, in the heap [h1] reached so far *)
  assert (Re : forall ha ca, step_ok h ha ca -> J ha /\ aref ha wn /\ at_least ha wn 1 /\ wref ha child /\ Forall (K ha) tp /\ wref ha rl /\ wref ha rr /\ K ha w0 /\ K ha k0).
  { intros ha ca (Ia & Ea & _). split; [exact Ia|]. split; [now apply (aref_E h)|]. split; [at_e h|]. split; [now apply (wref_E h)|]. split; [now apply (Ks_E h)|].
    split; [now apply (wref_E h)|]. split; [now apply (wref_E h)|]. split; now apply (K_E h). }
  (* make compound *)
  apply run_inv in X as (cands2 & h2 & X2 & X). assert (S2 : step_ok h h2 cands2).
  { apply (step_trans h h1 h2 cands1); [exact S1|]. destruct (Re h1 cands1 S1) as (I1 & Aw1 & Lw1 & Wc1 & Kt1 & Wl1 & _ & _ & _). destruct S1 as (_ & E1 & F1).
    destruct (is_terminal lo && is_terminal ro); [|injection X2 as <- <-; split; [exact I1|split; [apply E_refl|exact F1]]].
    apply run_inv in X2 as (b & h3 & X3 & X2). apply still_budget in X3 as ->.
    apply run_inv in X2 as (rel & h3 & X3 & X2). destruct (clone_w b rl h1 rel h3 I1 (proj1 Wl1) X3) as (I3 & E3 & A3 & L3 & _). pose proof (L3 2 ltac:(lia) (proj2 Wl1)) as Lr.
    apply run_inv in X2 as (relo & h4 & X4 & X2). apply deref_inv in X4 as [-> Orel].
    apply run_inv in X2 as (rel' & h4 & X4 & X2).
    assert (Y : J h4 /\ E h3 h4 /\ aref h4 rel' /\ at_least h4 rel' 1 /\ exists i n l ls y c, objs h4 rel' = Some (ONode i n l ls y c)).
    { destruct (is_terminal relo) eqn:Et.
      - apply run_inv in X4 as (i & h5 & X5 & X4). apply (id_K h3 rel i h5 I3 (conj A3 Lr)) in X5 as (-> & Ki & _). destruct (create_w h3 [i] rel' h4 I3) as (I4 & E4 & A4 & _ & _ & O4 & L4); [fk|exact X4|].
        split; [exact I4|]. split; [exact E4|]. split; [exact A4|]. split; [unfold at_least; rewrite O4; exists [i]; split; [exact L4|cbn; lia]|eauto 10].
      - injection X4 as <- <-. split; [exact I3|]. split; [apply E_refl|]. split; [exact A3|]. split; [apply (at_mono _ _ 2); [exact Lr|lia]|]. destruct relo; [discriminate|]. eauto 10. }
    destruct Y as (I4 & E4 & A4 & L4 & i4 & n4 & l4 & ls4 & y4 & c4 & O4). assert (E14 : E h1 h4) by now apply (E_trans h1 h3).
    apply run_inv in X2 as (ccs' & h5 & X5 & X2). apply (ids_K h4 child ccs' h5 I4) in X5 as [-> Kc4]; [|apply (wref_E h1 h4 child E14 Wc1)].
    apply run_inv in X2 as (k0' & h5 & X5 & X2). apply (nth_K h4 ccs' 0 k0' h5 Kc4) in X5 as [-> Kk4].
    apply run_inv in X2 as (u & h5 & X5 & X2). unfold add_child in X5. apply run_inv in X5 as (o4 & h6 & X6 & X5). apply deref_inv in X6 as [-> O4']. rewrite O4 in O4'. injection O4' as <-. cbn [is_leaf] in X5.
    unfold node_add_child in X5. apply run_inv in X5 as (l5 & h6 & X6 & X5). apply kids_inv in X6 as (-> & i5 & n5 & ls5 & y5 & c5 & O5). apply run_inv in X5 as (cs5 & h6 & X6 & X5). apply read_inv in X6 as [-> C5].
    unfold write_list in X5. injection X5 as _ X5. change (Tr _ _ _ _ _ _ _) with (wl h4 l5 (cs5 ++ [k0'])) in X5. subst h5.
    pose proof (kids_K h4 rel' _ _ _ _ _ _ _ I4 A4 O5 C5) as K5. destruct (write_list_K h4 l5 cs5 (cs5 ++ [k0']) I4 C5) as [I5 E5]; [rewrite app_length; lia|apply Forall_app; split; [exact K5|fk]|].
    set (h5 := wl h4 l5 (cs5 ++ [k0'])) in *. assert (W5 : wref h5 rel').
    { split; [now apply (aref_E h4)|]. unfold at_least. change (objs h5 rel') with (objs h4 rel'). rewrite O5. exists (cs5 ++ [k0']). split; [apply updN_same|]. rewrite app_length. pose proof (aref_len h4 rel' _ _ _ _ _ _ cs5 1 L4 O5 C5). cbn. lia. }
    apply run_inv in X2 as (b' & h6 & X6 & X2). apply still_budget in X6 as ->. apply run_inv in X2 as (u' & h6 & X6 & X2). destruct (set_compound_w b' rel' true h5 u' h6 I5 (proj1 W5) X6) as [I6 E6].
    apply run_inv in X2 as (ri & h7 & X7 & X2). apply (id_K h6 rel' ri h7 I6 (wref_E _ _ _ E6 W5)) in X7 as (-> & K6 & _).
    assert (E16 : E h1 h6) by (apply (E_trans h1 h4); [exact E14|now apply (E_trans h4 h5)]).
    destruct (build_w rec wn ri child tp cands1 h6 cands2 h2 Hr I6) as (I7 & E7 & F7); [now apply (aref_E h1)|at_e h1|exact K6|now apply (wref_E h1)|now apply (Ks_E h1)|now apply (wrefs_E h1)|exact X2|].
    split; [exact I7|]. split; [now apply (E_trans h1 h6)|exact F7]. }
  apply run_inv in X as (lo' & h3 & X3 & X). apply deref_inv in X3 as [-> Olo']. apply run_inv in X as (ro' & h3 & X3 & X). apply deref_inv in X3 as [-> Oro'].
  (* merge at the center *)
  apply run_inv in X as (cands3 & h3 & X3 & X). assert (S3 : step_ok h h3 cands3).
  { apply (step_trans h h2 h3 cands2); [exact S2|]. destruct (Re h2 cands2 S2) as (I2 & Aw2 & Lw2 & Wc2 & Kt2 & Wl2 & Wr2 & _ & _). destruct S2 as (_ & E2 & F2).
    destruct (negb (is_terminal lo') || negb (is_terminal ro')) eqn:Et; [|injection X3 as <- <-; split; [exact I2|split; [apply E_refl|exact F2]]].
    apply run_inv in X3 as ([la lb] & h4 & X4 & X3). assert (Y : h4 = h2 /\ Forall (K h2) la /\ K h2 lb /\ (is_terminal lo' = false -> 1 <= List.length la)).
    { destruct (is_terminal lo').
      - injection X4 as <- <- <-. split; [reflexivity|]. split; [constructor|]. split; [now apply (wref_K h2 rl lo' I2 Wl2 Olo')|discriminate].
      - apply run_inv in X4 as (cs & h5 & X5 & X4). apply children_ids_inv in X5 as (-> & i5 & n5 & l5 & ls5 & y5 & c5 & O5 & L5). pose proof (kids_K h2 rl _ _ _ _ _ _ cs I2 (proj1 Wl2) O5 L5) as Kcs.
        pose proof (aref_len h2 rl _ _ _ _ _ _ cs 2 (proj2 Wl2) O5 L5) as Lcs.
        apply Forall_rev in Kcs. rewrite <- rev_length in Lcs. destruct (rev cs) as [|x r]; [discriminate|]. injection X4 as <- <- <-. inversion Kcs; subst. split; [reflexivity|]. split; [now apply Forall_rev|]. split; [assumption|]. intros _. rewrite rev_length. cbn in Lcs. lia. }
    destruct Y as (-> & Kla & Klb & Lla). clear X4.
    apply run_inv in X3 as ([ra rb] & h4 & X4 & X3). assert (Y : h4 = h2 /\ Forall (K h2) rb /\ K h2 ra /\ (is_terminal ro' = false -> 1 <= List.length rb)).
    { destruct (is_terminal ro').
      - injection X4 as <- <- <-. split; [reflexivity|]. split; [constructor|]. split; [now apply (wref_K h2 rr ro' I2 Wr2 Oro')|discriminate].
      - apply run_inv in X4 as (cs & h5 & X5 & X4). apply children_ids_inv in X5 as (-> & i5 & n5 & l5 & ls5 & y5 & c5 & O5 & L5). pose proof (kids_K h2 rr _ _ _ _ _ _ cs I2 (proj1 Wr2) O5 L5) as Kcs.
        pose proof (aref_len h2 rr _ _ _ _ _ _ cs 2 (proj2 Wr2) O5 L5) as Lcs.
        destruct cs as [|x r]; [discriminate|]. injection X4 as <- <- <-. inversion Kcs; subst. split; [reflexivity|]. split; [assumption|]. split; [assumption|]. intros _. cbn in Lcs. lia. }
    destruct Y as (-> & Krb & Kra & Lrb). clear X4. cbn [fst snd] in X3.
    apply run_inv in X3 as (ce & h4 & X4 & X3). destruct (create2_K h2 [lb; ra] ce h4 I2) as (I4 & E4 & W4); [fk|cbn; lia|exact X4|].
    apply run_inv in X3 as (b & h5 & X5 & X3). apply still_budget in X5 as ->. apply run_inv in X3 as (u & h5 & X5 & X3). destruct (set_compound_w b ce true h4 u h5 I4 (proj1 W4) X5) as [I5 E5].
    apply run_inv in X3 as (ci & h6 & X6 & X3). apply (id_K h5 ce ci h6 I5 (wref_E _ _ _ E5 W4)) in X6 as (-> & K5 & _). assert (E25 : E h2 h5) by now apply (E_trans h2 h4).
    apply run_inv in X3 as (rel & h6 & X6 & X3). destruct (create2_K h5 (la ++ [ci] ++ rb) rel h6 I5) as (I6 & E6 & W6).
    - apply Forall_app. split; [now apply (Ks_E h2)|]. constructor; [exact K5|now apply (Ks_E h2)].
    - rewrite app_length. cbn. destruct (is_terminal lo'); [|specialize (Lla eq_refl); lia]. destruct (is_terminal ro'); [discriminate|]. specialize (Lrb eq_refl). lia.
    - exact X6.
    - apply run_inv in X3 as (ri & h7 & X7 & X3). apply (id_K h6 rel ri h7 I6 W6) in X7 as (-> & K6 & _). assert (E26 : E h2 h6) by now apply (E_trans h2 h5).
      destruct (build_w rec wn ri child tp cands2 h6 cands3 h3 Hr I6) as (I7 & E7 & F7); [now apply (aref_E h2)|at_e h2|exact K6|now apply (wref_E h2)|now apply (Ks_E h2)|now apply (wrefs_E h2)|exact X3|].
      split; [exact I7|]. split; [now apply (E_trans h2 h6)|exact F7]. }
  apply run_inv in X as (ro3 & h4 & X4 & X). apply deref_inv in X4 as [-> Oro3].
  (* add to first child *)
  apply (step_trans h h3 h' cands3); [exact S3|]. destruct (Re h3 cands3 S3) as (I3 & Aw3 & Lw3 & Wc3 & Kt3 & _ & _ & _ & _). destruct S3 as (_ & E3 & F3).
  destruct (is_terminal ro3); [|injection X as <- <-; split; [exact I3|split; [apply E_refl|exact F3]]].
  apply run_inv in X as (b & h4 & X4 & X). apply still_budget in X4 as ->.
  apply run_inv in X as (nn & h4 & X4 & X). destruct (clone_w b wn h3 nn h4 I3 Aw3 X4) as (I4 & E4 & A4 & L4 & _). pose proof (L4 1 ltac:(lia) Lw3) as Ln4.
  apply run_inv in X as (wcs4 & h5 & X5 & X). apply (ids_K h4 wn wcs4 h5 I4 (aref_E _ _ _ E4 Aw3)) in X5 as [-> Kw4].
  apply run_inv in X as (w4 & h5 & X5 & X). apply (nth_K h4 wcs4 0 w4 h5 Kw4) in X5 as [-> Kw40].
  apply run_inv in X as (rel & h5 & X5 & X). apply (tget_K h4 w4 rel h5 Kw40) in X5 as [-> Wrel].
  apply run_inv in X as (relo & h5 & X5 & X). apply deref_inv in X5 as [-> Orel].
  apply run_inv in X as (rel' & h5 & X5 & X). assert (Y : J h5 /\ E h4 h5 /\ aref h5 rel' /\ at_least h5 rel' 1 /\ exists i n l ls y, objs h5 rel' = Some (ONode i n l ls y false)).
  { destruct (is_terminal relo) eqn:Et.
    - apply run_inv in X5 as (i & h6 & X6 & X5). apply (id_K h4 rel i h6 I4 Wrel) in X6 as (-> & Ki & _). destruct (create_w h4 [i] rel' h5 I4) as (I5 & E5 & A5 & _ & _ & O5 & L5); [fk|exact X5|].
      split; [exact I5|]. split; [exact E5|]. split; [exact A5|]. split; [unfold at_least; rewrite O5; exists [i]; split; [exact L5|cbn; lia]|eauto 10].
    - destruct (clone_w b rel h4 rel' h5 I4 (proj1 Wrel) X5) as (I5 & E5 & A5 & L5 & C5). split; [exact I5|]. split; [exact E5|]. split; [exact A5|]. split; [apply (at_mono _ _ 2); [apply L5; [lia|apply Wrel]|lia]|].
      destruct A5 as (i5 & Ai5 & T5). destruct (j_obj h5 I5 i5 rel' Ai5 T5) as (o5 & O5 & _). pose proof (C5 relo o5 Orel O5) as C. rewrite Et in C. destruct o5 as [|? ? ? ? ? []]; try discriminate. eauto 10. }
  destruct Y as (I5 & E5 & A5 & L5 & i5 & n5 & l5 & ls5 & y5 & O5).
  apply run_inv in X as (ri & h6 & X6 & X). apply id_of_inv in X6 as (-> & o5 & O5' & Id5). rewrite O5 in O5'. injection O5' as <-. cbn in Id5. subst i5.
  assert (T5 : A ri /\ table h5 ri = Some rel').
  { destruct A5 as (j & Aj & Tj). destruct (j_obj h5 I5 j rel' Aj Tj) as (o & Oj & Id & _). rewrite O5 in Oj. injection Oj as <-. cbn in Id. subst j. now split. }
  destruct T5 as [Ai5 T5]. assert (Ln5 : at_least h5 nn 1) by (apply (at_E h4); assumption || lia). pose proof (aref_E h4 h5 nn E5 A4) as An5.
  apply run_inv in X as (u & h6 & X6 & X). unfold set_child in X6. apply run_inv in X6 as (l6 & h7 & X7 & X6). apply kids_inv in X7 as (-> & i6 & n6 & ls6 & y6 & c6 & O6).
  apply run_inv in X6 as (cs6 & h7 & X7 & X6). apply read_inv in X7 as [-> C6]. pose proof (kids_K h5 nn _ _ _ _ _ _ _ I5 An5 O6 C6) as Kcs6. destruct cs6 as [|z6 cs6]; [discriminate|]. cbn in X6. unfold write_list in X6. injection X6 as _ X6.
  change (Tr _ _ _ _ _ _ _) with (wl h5 l6 (ri :: cs6)) in X6. set (h6' := wl h5 l6 (ri :: cs6)) in X6. subst h6.
  assert (E35 : E h3 h5) by now apply (E_trans h3 h4).
  apply run_inv in X as (ccs6 & h7 & X7 & X). apply children_ids_inv in X7 as (-> & i7 & n7 & l7 & ls7 & y7 & c7 & O7 & C7). 
  apply run_inv in X as (k6 & h7 & X7 & X). apply nth_inv in X7 as [-> N7].
  assert (Fr : Forall (fun j => j = ri \/ K h5 j) (ri :: cs6)). { constructor; [now left|]. inversion Kcs6; subst. eapply Forall_impl; [|eassumption]. intros j Hj. now right. }
  assert (Old : forall l x, lists h6' l = Some x -> (exists r i n ls y c, aref h5 r /\ objs h5 r = Some (ONode i n l ls y c)) -> Forall (fun j => j = ri \/ K h5 j) x).
  { intros l x Lx (r & i & n & ls & y & c & Ar & Or). cbn in Lx. destruct (Nat.eq_dec l l6) as [->|N].
    - rewrite updN_same in Lx. injection Lx as <-. exact Fr.
    - rewrite updN_other in Lx by exact N. eapply Forall_impl; [|exact (kids_K h5 r _ _ _ _ _ _ x I5 Ar Or Lx)]. intros j Hj. now right. }
  assert (Kk6 : k6 = ri \/ K h5 k6).
  { pose proof (Old l7 ccs6 C7) as Y. rewrite Forall_forall in Y. apply Y; [|now apply (nth_error_In ccs6 0)]. exists child, i7, n7, ls7, y7, c7. split; [apply (wref_E h3 h5 child E35 Wc3)|exact O7]. }
  apply run_inv in X as (u' & h7 & X7 & X). unfold add_to_first_child in X7. apply run_inv in X7 as (on & h8 & X8 & X7). apply deref_inv in X8 as [-> On]. cbn in On. rewrite O6 in On. injection On as <-. cbn [is_leaf] in X7.
  unfold node_add_to_first_child in X7. apply run_inv in X7 as (cs8 & h8 & X8 & X7). apply children_ids_inv in X8 as (-> & i8 & n8 & l8 & ls8 & y8 & c8 & O8 & C8). cbn in O8, C8. rewrite O6 in O8. injection O8 as <- <- <- <- <- <-. rewrite updN_same in C8. injection C8 as <-.
  apply run_inv in X7 as (f8 & h8 & X8 & X7). apply get_child_inv in X8 as (-> & i8 & n8 & l8 & ls8 & y8 & c8 & cs8 & k8 & O8 & C8 & N8 & T8). cbn in O8, C8, T8. rewrite O6 in O8. injection O8 as <- <- <- <- <- <-. rewrite updN_same in C8. injection C8 as <-. cbn in N8. injection N8 as <-. rewrite T5 in T8. injection T8 as <-.
  apply run_inv in X7 as (o8 & h8 & X8 & X7). apply deref_inv in X8 as [-> O8]. cbn in O8. rewrite O5 in O8. injection O8 as <-. cbn [is_terminal is_leaf is_compound orb] in X7.
  apply run_inv in X7 as (u8 & h8 & X8 & X7). injection X8 as _ <-.
  apply run_inv in X7 as (f9 & h8 & X8 & X7). apply get_child_inv in X8 as (-> & i8 & n8 & l8 & ls8 & y8 & c8 & cs8 & k8 & O8 & C8 & N8 & T8). cbn in O8, C8, T8. rewrite O6 in O8. injection O8 as <- <- <- <- <- <-. rewrite updN_same in C8. injection C8 as <-. cbn in N8. injection N8 as <-. rewrite T5 in T8. injection T8 as <-.
  apply run_inv in X7 as (l9 & h8 & X8 & X7). apply kids_inv in X8 as (-> & i9 & n9 & ls9 & y9 & c9 & O9). cbn in O9. rewrite O5 in O9. injection O9 as <- <- <- <- <- <-.
  apply run_inv in X7 as (ks & h8 & X8 & X7). apply read_inv in X8 as [-> C9]. unfold write_list in X7. injection X7 as _ X7. change (Tr _ _ _ _ _ _ _) with (wl h6' l5 (ks ++ [k6])) in X7.
  assert (L9 : exists b0, lists h5 l5 = Some b0 /\ 1 <= List.length b0) by (unfold at_least in L5; rewrite O5 in L5; exact L5). destruct L9 as (b0 & Lb0 & Hb0).
  assert (Lks : 1 <= List.length ks). { cbn in C9. destruct (Nat.eq_dec l5 l6) as [<-|N]; [rewrite updN_same in C9; injection C9 as <-; cbn; lia|]. rewrite updN_other in C9 by exact N. assert (ks = b0) by congruence. now subst. }
  assert (Fks : Forall (fun j => j = ri \/ K h5 j) (ks ++ [k6])). { apply Forall_app. split; [|constructor; [exact Kk6|constructor]]. apply (Old l5 ks C9). exists rel', ri, n5, ls5, y5, false. now split. }
  destruct (write_two h5 l6 (z6 :: cs6) (ri :: cs6) ri rel' l5 b0 (ks ++ [k6]) ri n5 ls5 y5 false I5 C6 ltac:(cbn; lia) Fr Ai5 T5 O5 Lb0 ltac:(rewrite app_length; cbn; lia) Fks) as (I7 & E7 & K7).
  fold h6' in I7, E7, K7. subst h7. set (h7 := wl h6' l5 (ks ++ [k6])) in *. assert (E37 : E h3 h7) by now apply (E_trans h3 h5).
  apply run_inv in X as (ncs & h8 & X8 & X). apply (ids_K h7 nn ncs h8 I7 (aref_E h5 h7 nn E7 An5)) in X8 as [-> Kn].
  apply run_inv in X as (ri' & h8 & X8 & X). apply (nth_K h7 ncs 0 ri' h8 Kn) in X8 as [-> Kri].
  destruct (build_w rec wn ri' child tp cands3 h7 v h' Hr I7) as (I8 & E8 & F8); [now apply (aref_E h3)|at_e h3|exact Kri|now apply (wref_E h3)|now apply (Ks_E h3)|now apply (wrefs_E h3)|exact X|].
  split; [exact I8|]. split; [now apply (E_trans h3 h7)|exact F8].
Qed.

Lemma each_w wn cid tp : forall ccands cands h v h', J h -> aref h wn -> at_least h wn 1 -> K h cid -> Forall (K h) tp -> Forall (wref h) ccands -> Forall (wref h) cands ->
  each_candidate rec wn cid tp ccands cands h = (Ok v, h') -> step_ok h h' v.
Proof.
  induction ccands as [|child rest IH]; intros cands h v h' I Aw Lw Kcid Kt Wcc Wcs X.
  - injection X as <- <-. split; [exact I|]. split; [apply E_refl|exact Wcs].
  - cbn [each_candidate] in X. inversion Wcc as [|? ? Wc Wrest]; subst. apply run_inv in X as (co & h1 & X1 & X). apply deref_inv in X1 as [-> Oc].
    apply run_inv in X as (isrel & h1 & X1 & X). assert (h1 = h).
    { destruct (is_node co); [|now injection X1]. apply run_inv in X1 as (cc & h2 & X2 & X1). apply still_children_ids in X2 as ->. apply run_inv in X1 as (k & h2 & X2 & X1). apply still_nth in X2 as ->. now apply still_delta_rel in X1. }
    subst h1. clear X1. apply run_inv in X as (cands1 & h1 & X1 & X). assert (S1 : step_ok h h1 cands1).
    { destruct isrel; [now apply (relationship_w wn child tp cands h cands1 h1)|]. injection X1 as <- <-. split; [exact I|]. split; [apply E_refl|exact Wcs]. }
    apply (step_trans h h1 h' cands1); [exact S1|]. destruct S1 as (I1 & E1 & F1). clear X1.
    apply run_inv in X as (cands2 & h2 & X2 & X). assert (S2 : step_ok h1 h2 cands2).
    { apply run_inv in X2 as (b & h3 & X3 & X2). apply still_budget in X3 as ->. apply run_inv in X2 as (nn & h3 & X3 & X2). destruct (clone_w b wn h1 nn h3 I1 (aref_E h h1 wn E1 Aw) X3) as (I3 & E3 & A3 & L3 & _).
      assert (Ln : at_least h3 nn 1) by (apply L3; [lia|]; at_e h). apply run_inv in X2 as (l & h4 & X4 & X2). apply kids_inv in X4 as (-> & i4 & n4 & ls4 & y4 & c4 & O4). apply run_inv in X2 as (cs & h4 & X4 & X2). apply read_inv in X4 as [-> C4].
      apply run_inv in X2 as (u & h4 & X4 & X2). unfold write_list in X4. injection X4 as _ X4. change (Tr _ _ _ _ _ _ _) with (wl h3 l (cs ++ [cid])) in X4. subst h4. assert (E03 : E h h3) by now apply (E_trans h h1).
      destruct (write_list_K h3 l cs (cs ++ [cid]) I3 C4) as [I4 E4]; [rewrite app_length; lia|apply Forall_app; split; [exact (kids_K h3 nn _ _ _ _ _ _ _ I3 A3 O4 C4)|constructor; [now apply (K_E h)|constructor]]|].
      set (h4 := wl h3 l (cs ++ [cid])) in *. assert (E14 : E h1 h4) by now apply (E_trans h1 h3).
      destruct (Hr nn (tl tp) cands1 h4 cands2 h2 I4) as (I5 & E5 & F5).
      - now apply (aref_E h3).
      - apply (at_mono _ _ 2); [|destruct (tl tp); lia]. unfold at_least. change (objs h4 nn) with (objs h3 nn). rewrite O4. exists (cs ++ [cid]). split; [apply updN_same|]. rewrite app_length. pose proof (aref_len h3 nn _ _ _ _ _ _ cs 1 Ln O4 C4). cbn. lia.
      - apply (Ks_E h1); [exact E14|]. apply (Ks_E h); [exact E1|]. destruct tp; [constructor|now inversion Kt].
      - now apply (wrefs_E h1).
      - exact X2.
      - split; [exact I5|]. split; [now apply (E_trans h1 h4)|exact F5]. }
    apply (step_trans h1 h2 h' cands2); [exact S2|]. destruct S2 as (I2 & E2 & F2). assert (E02 : E h h2) by now apply (E_trans h h1).
    apply (IH cands2 h2 v h'); try assumption; [now apply (aref_E h)|at_e h|now apply (K_E h)|now apply (Ks_E h)|now apply (wrefs_E h)].
Qed.
End blocks.

Lemma search_w : forall f, rec_ok (find_candidates_r f).
Proof.
  induction f as [|f IH]; intros wn tp cands h v h' I Aw Lw Kt Wcs X; [discriminate|]. cbn [find_candidates_r] in X. destruct tp as [|cid tp].
  - apply run_inv in X as (c & h1 & X1 & X). apply get_child_inv in X1 as (-> & i & n & l & ls & y & b & cs & k & O & L & N & T).
    pose proof (kids_K h wn _ _ _ _ _ _ cs I Aw O L) as Kc. rewrite Forall_forall in Kc. pose proof (K_wref h k c (Kc k (nth_error_In cs 0 N)) T) as Wc.
    apply run_inv in X as (bu & h1 & X1 & X). apply still_budget in X1 as ->. apply run_inv in X as (u & h1 & X1 & X). injection X as <- <-. destruct (flatten_w bu c h u h1 I Wc X1) as [I1 E1].
    split; [exact I1|]. split; [exact E1|]. apply Forall_app. split; [now apply (wrefs_E h)|]. constructor; [|constructor]. apply (wref_E h); [exact E1|]. now split.
  - inversion Kt as [|? ? Kc Kt']; subst. apply run_inv in X as (child & h1 & X1 & X). apply (tget_K h cid child h1 Kc) in X1 as [-> Wc]. apply run_inv in X as (co & h1 & X1 & X). apply deref_inv in X1 as [-> Oc].
    apply run_inv in X as (ccands & h1 & X1 & X). assert (S1 : step_ok h h1 ccands).
    { destruct (is_leaf co); [injection X1 as <- <-; split; [exact I|]; split; [apply E_refl|]; constructor; [exact Wc|constructor]|].
      apply run_inv in X1 as (ccs & h2 & X2 & X1). apply children_ids_inv in X2 as (-> & i & n & l & ls & y & b & O & L). pose proof (kids_K h child _ _ _ _ _ _ ccs I (proj1 Wc) O L) as Kcs.
      pose proof (aref_len h child _ _ _ _ _ _ ccs 2 (proj2 Wc) O L) as Lcs. destruct ccs as [|k0 [|k1 ccs]]; [cbn in Lcs; lia|cbn in Lcs; lia|]. cbn [firstn skipn] in X1. inversion Kcs as [|? ? Kk0 Kks]; subst.
      apply run_inv in X1 as (nn & h2 & X2 & X1). destruct (create_w h [k0] nn h2 I) as (I2 & E2 & A2 & _ & _ & O2 & L2); [fk|exact X2|].
      destruct (IH nn (k1 :: ccs) [] h2 ccands h1 I2 A2) as (I3 & E3 & F3); [unfold at_least; rewrite O2; exists [k0]; split; [exact L2|cbn; lia]|now apply (Ks_E h)|constructor|exact X1|].
      split; [exact I3|]. split; [now apply (E_trans h h2)|exact F3]. }
    destruct S1 as (I1 & E1 & F1). apply (each_w (find_candidates_r f) IH) in X as (I2 & E2 & F2); try assumption.
    + split; [exact I2|]. split; [now apply (E_trans h h1)|exact F2].
    + now apply (aref_E h).
    + at_e h.
    + now apply (K_E h).
    + now apply (Ks_E h).
    + now apply (wrefs_E h).
Qed.
Lemma delta_w f i h j h' : J h -> K h i -> delta_entity f i h = (Ok j, h') -> J h' /\ K h' j.
Proof.
  intros I Ki X. unfold delta_entity in X. apply run_inv in X as (en & h1 & X1 & X). apply (tget_K h i en h1 Ki) in X1 as [-> We]. apply run_inv in X as (o & h1 & X1 & X). apply deref_inv in X1 as [-> Oe].
  apply run_inv in X as (go & h1 & X1 & X). assert (h1 = h).
  { destruct (is_terminal o); [now injection X1|]. apply run_inv in X1 as (cc & h2 & X2 & X1). apply still_children_ids in X2 as ->. apply run_inv in X1 as (k & h2 & X2 & X1). apply still_nth in X2 as ->. now apply still_delta_rel in X1. }
  subst h1. destruct go; [|injection X as <- <-; now split]. clear X1.
  apply run_inv in X as (cands & h1 & X1 & X). assert (S1 : step_ok h h1 cands).
  { unfold find_candidates in X1. apply run_inv in X1 as (o' & h2 & X2 & X1). apply deref_inv in X2 as [-> Oe']. destruct (is_leaf o'); [injection X1 as <- <-; split; [exact I|]; split; [apply E_refl|]; constructor; [exact We|constructor]|].
    apply run_inv in X1 as (ccs & h2 & X2 & X1). apply children_ids_inv in X2 as (-> & i2 & n & l & ls & y & b & O & L). pose proof (kids_K h en _ _ _ _ _ _ ccs I (proj1 We) O L) as Kcs.
    pose proof (aref_len h en _ _ _ _ _ _ ccs 2 (proj2 We) O L) as Lcs. destruct ccs as [|k0 [|k1 ccs]]; [cbn in Lcs; lia|cbn in Lcs; lia|]. cbn [firstn skipn] in X1. inversion Kcs as [|? ? Kk0 Kks]; subst.
    apply run_inv in X1 as (nn & h2 & X2 & X1). destruct (create_w h [k0] nn h2 I) as (I2 & E2 & A2 & _ & _ & O2 & L2); [fk|exact X2|].
    destruct (search_w f nn (k1 :: ccs) [] h2 cands h1 I2 A2) as (I3 & E3 & F3); [unfold at_least; rewrite O2; exists [k0]; split; [exact L2|cbn; lia]|now apply (Ks_E h)|constructor|exact X1|].
    split; [exact I3|]. split; [now apply (E_trans h h2)|exact F3]. }
  destruct S1 as (I1 & _ & F1). apply run_inv in X as (best & h2 & X2 & X).
  assert (B : forall l z best0 best h2, (fix each (l : list nat) (best : option nat) (best_fit : Z) : SM (option nat) :=
         match l with
         | [] => sret best
         | c :: rest => run fit <- node_fit c en;
                        if (best_fit <? fit)%Z then each rest (Some c) fit else each rest best best_fit
         end) l best0 z h1 = (Ok best, h2) -> h2 = h1 /\ (forall b, best = Some b -> best0 = Some b \/ In b l)).
  { clear. induction l as [|c l IH]; intros z best0 best h2 X; [injection X as <- <-; split; [reflexivity|]; now left|]. apply run_inv in X as (fit & h3 & X3 & X). apply still_fit in X3 as ->.
    destruct (z <? fit)%Z; apply IH in X as [-> Hb]; (split; [reflexivity|]); intros b Eb; destruct (Hb b Eb) as [H|H]; try (right; now right); [injection H as ->; right; now left|now left]. }
  apply B in X2 as [-> Hb]. destruct best as [b|]; [|discriminate]. destruct (Hb b eq_refl) as [H|H]; [discriminate|]. rewrite Forall_forall in F1. apply (id_K h1 b j h' I1 (F1 b H)) in X as (-> & Kj & _). now split.
Qed.
Lemma K_wide h : J h -> forall t i, unfolds h i t -> K h i -> wide t.
Proof.
  intros I. induction t as [ns k|ns c ts IH] using stree_ind'; intros i U (Ai & r & T & L); [exact Logic.I|]. inversion U as [|? r' ? l ls y ? cs ? T' O Lc Us]; subst. assert (r' = r) by congruence. subst r'.
  apply wide_node. split; [rewrite <- (Forall2_len _ _ _ Us); exact (aref_len h r _ _ _ _ _ _ cs 2 L O Lc)|].
  pose proof (kids_K h r _ _ _ _ _ _ cs I ltac:(exists i; now split) O Lc) as Kc. clear - IH Us Kc. induction Us as [|j t cs ts U _ IHs]; [constructor|]. inversion IH; subst. inversion Kc; subst. constructor; [eauto|now apply IHs].
Qed.
End wide.

(** delta keeps wide trees wide *)
Lemma delta_wide f h T h' T' : wf h -> shows h T -> wide T -> delta f h = (Ok tt, h') -> shows h' T' -> wide T'.
Proof.
  intros W (i & Ri & U) Wi X (j & Rj & U'). unfold delta in X. apply run_inv in X as (i' & h1 & X1 & X). unfold get_root_id in X1. rewrite Ri in X1. injection X1 as <- <-.
  apply run_inv in X as (j' & h1 & X1 & X). unfold set_root_id in X. injection X as <-. cbn in Rj. injection Rj as ->.
  set (R := fun i => exists t, unfolds h i t /\ wide t). assert (KR : forall k t, unfolds h k t -> wide t -> K R (cur_id h) h k).
  { intros k t Uk Wk. split; [left; now exists t|]. inversion Uk as [? r ? ? T0 O|? r ? l ls y c cs ts T0 O L Us]; subst; exists r; (split; [exact T0|]); unfold at_least; rewrite O; [exact I|]. exists cs. split; [exact L|]. apply wide_node in Wk as [H _]. now rewrite (Forall2_len _ _ _ Us). }
  assert (J0 : J R (cur_id h) h).
  { constructor; [exact W|lia|]. intros k r [(t & Uk & Wk)|H] T0; [|apply (wf_tab h W) in T0; lia]. inversion Uk as [? r' ? ? T1 O|? r' ? l ls y c cs ts T1 O L Us]; subst; assert (r' = r) by congruence; subst r'.
    - exists (OLeaf k ns k0). split; [exact O|]. split; [reflexivity|]. intros l (? & ? & ? & ? & ?). discriminate.
    - exists (ONode k ns l ls y c). split; [exact O|]. split; [reflexivity|]. intros l' (? & ? & ? & ? & El). injection El as _ <- _ _ _. exists cs. split; [exact L|].
      apply wide_node in Wk as [_ Wk]. clear - Us Wk KR. induction Us as [|k t cs ts U _ IH]; [constructor|]. inversion Wk; subst. constructor; [now apply (KR k t)|now apply IH]. }
  destruct (delta_w R (cur_id h) f i h j h1 J0 (KR i T U Wi) X1) as [J1 Kj]. apply (K_wide R (cur_id h) h1 J1 T' j); [|exact Kj].
  clear - U'. revert U'. generalize (Some j) at 1. intros rt. revert j. induction T' as [ns k|ns c ts IH] using stree_ind'; intros j U; inversion U as [? r ? ? T0 O|? r ? l ls y ? cs ? T0 O L Us]; subst; [exact (unfolds_leaf h1 j r ns k T0 O)|].
  apply (unfolds_node h1 j r ns l ls y c cs ts T0 O L). clear - IH Us. induction Us as [|k t cs ts U _ IHs]; [constructor|]. inversion IH; subst. constructor; [auto|now apply IHs].
Qed.

(** ** The other stages *)

Lemma marked_wide : forall T T', marked T T' -> wide T -> wide T'.
Proof.
  induction T as [ns k|ns c ts IH] using stree_ind'; intros T' M W; inversion M as [|? ? ? b us Fm _]; subst; [exact I|]. apply wide_node in W as [L W]. apply wide_node. split; [now rewrite <- (Forall2_len _ _ _ Fm)|].
  clear - IH Fm W. induction Fm as [|t u ts us Hm _ IHf]; [constructor|]. inversion IH; subst. inversion W; subst. constructor; [auto|now apply IHf].
Qed.
Lemma setc_wide b : forall t, wide t -> wide (setc b t).
Proof.
  induction t as [ns k|ns c ts IH] using stree_ind'; [easy|]. intros W. apply wide_node in W as [L W]. cbn [setc]. apply wide_node. split; [now rewrite map_length|].
  clear L. induction IH as [|t ts Ht _ IHs]; [constructor|]. inversion W; subst. constructor; [auto|now apply IHs].
Qed.
Lemma comb_wide a : wide a -> forall s, wide s -> wide (comb a s).
Proof.
  intros Wa. induction s as [ns k|ns c ts IH] using stree_ind'; [easy|]. intros W. apply wide_node in W as [L W]. destruct ts as [|y ts]; [cbn in L; lia|]. inversion W as [|? ? Wy Wts]; subst. inversion IH as [|? ? Iy _]; subst.
  cbn [comb]. destruct (terminal y); apply wide_node; (split; [exact L|]); constructor; try assumption; [|now apply Iy]. apply setc_wide, wide_node. split; [cbn; lia|]. now repeat (constructor; [assumption|]).
Qed.
Lemma gamma_wide : forall t, wide t -> wide (gamma_t t).
Proof.
  induction t as [ns k|ns c ts IH] using stree_ind'; [easy|]. intros W. apply wide_node in W as [L W]. cbn [gamma_t].
  assert (Wm : Forall wide (List.map gamma_t ts)) by (clear L; induction IH as [|t ts Ht _ IHs]; [constructor|]; inversion W; subst; constructor; auto).
  assert (Wn : wide (SNode ns c (List.map gamma_t ts))) by (apply wide_node; rewrite map_length; now split).
  unfold pe1. destruct (forallb rel_leaf (List.map gamma_t ts)); [now apply setc_wide|]. destruct (List.map gamma_t ts) as [|a [|s [|? ?]]]; try exact Wn.
  inversion Wm as [|? ? Wa Wm']; subst. inversion Wm' as [|? ? Ws _]; subst. destruct (article a); [exact Ws|]. destruct (negb (terminal s) && (rel_all a && first_rel s)); [now apply comb_wide|exact Wn].
Qed.

(** no node has a word as its only child, or no child: then [squash] makes the tree wide *)
Inductive fine : stree -> Prop :=
| fine_leaf ns k : fine (SLeaf ns k)
| fine_wrap ns c ns' c' ks : fine (SNode ns' c' ks) -> fine (SNode ns c [SNode ns' c' ks])
| fine_node ns c ts : 2 <= List.length ts -> Forall fine ts -> fine (SNode ns c ts).
Lemma squash_wide : forall t, fine t -> wide (squash t).
Proof.
  induction t as [ns k|ns c ts IH] using stree_ind'; intros F; [exact I|]. inversion F as [|? ? ns' c' ks F'|? ? ? L Fs]; subst.
  - inversion IH as [|? ? H _]; subst. specialize (H F'). cbn [squash List.map]. change (match List.map squash ks with [SNode n b l] => SNode n b l | ts' => SNode ns' c' ts' end) with (squash (SNode ns' c' ks)).
    assert (X : exists n b l, squash (SNode ns' c' ks) = SNode n b l) by (cbn [squash]; destruct (List.map squash ks) as [|[? ?|? ? ?] [|? ?]]; eauto). destruct X as (n & b & l & X). rewrite X in *. exact H.
  - assert (Wm : Forall wide (List.map squash ts)) by (clear L F; induction IH as [|t ts Ht _ IHs]; [constructor|]; inversion Fs; subst; constructor; auto).
    assert (Wn : wide (SNode ns c (List.map squash ts))) by (apply wide_node; rewrite map_length; now split). cbn [squash]. destruct ts as [|t1 [|t2 ts]]; [cbn in L; lia|cbn in L; lia|]. cbn [List.map] in *. destruct (squash t1); exact Wn.
Qed.
Definition kids_fine (t : stree) : Prop := match t with SLeaf _ _ => True | SNode _ _ ts => ts <> [] /\ Forall fine ts end.
Lemma fine_kids t : fine t -> kids_fine t.
Proof. intros F. inversion F as [|? ? ? ? ? F'|? ? ts L Fs]; subst; cbn; [exact I| |]; split; [easy|constructor; [exact F'|constructor]|intros ->; cbn in L; lia|exact Fs]. Qed.
Definition layer_fine (l : layer) : Prop := fine (fst l) /\ Forall fine (snd l).
Lemma layer_of_fine t : fine t -> layer_fine (layer_of t).
Proof.
  intros F. inversion F as [|? ? ? ? ? F'|? ? ts L Fs]; subst; cbn; [split; [exact F|constructor]|split; [exact F'|constructor]|]. destruct ts as [|k ks]; [cbn in L; lia|]. inversion Fs; now split.
Qed.
Lemma one_fine ts : ts <> [] -> Forall fine ts -> fine (one ts).
Proof. intros N F. destruct ts as [|a [|b ts]]; [easy|now inversion F|]. apply fine_node; [cbn; lia|exact F]. Qed.
Lemma under_fine ts l : ts <> [] -> Forall fine ts -> layer_fine l -> 2 <= List.length (under_layer ts l) /\ Forall fine (under_layer ts l).
Proof. intros N F [H1 H2]. unfold under_layer. split; [cbn; lia|]. constructor; [exact H1|]. constructor; [now apply one_fine|exact H2]. Qed.
Lemma unders_fine ls : Forall layer_fine ls -> forall ts, 2 <= List.length ts -> Forall fine ts -> 2 <= List.length (fold_left under_layer ls ts) /\ Forall fine (fold_left under_layer ls ts).
Proof.
  induction 1 as [|l ls Hl _ IH]; intros ts L F; [now split|]. cbn. destruct (under_fine ts l) as [L1 F1]; [intros ->; cbn in L; lia|exact F|exact Hl|]. now apply IH.
Qed.
(** a tree under construction with its layers *)
Definition ready (s : stree * list layer) : Prop := kids_fine (fst s) /\ Forall layer_fine (snd s) /\ (snd s = [] -> fine (fst s)).
Lemma applied_fine s : ready s -> fine (applied (fst s) (snd s)).
Proof.
  destruct s as [t ls]. intros (K & L & N). cbn [fst snd] in *. destruct t as [ns k|ns c ts]; [constructor|]. cbn [applied]. destruct ls as [|l ls]; [now apply N|]. destruct K as [Nt Ft].
  apply Forall_rev in L. assert (Nr : rev (l :: ls) <> []) by (intros H; apply (f_equal (@List.length _)) in H; rewrite rev_length in H; discriminate). destruct (rev (l :: ls)) as [|l1 ls1]; [easy|]. inversion L as [|? ? L1 L2]; subst.
  cbn [fold_left]. destruct (under_fine ts l1 Nt Ft L1) as [A1 A2]. destruct (unders_fine ls1 L2 _ A1 A2) as [B1 B2]. now apply fine_node.
Qed.
Lemma place_fine pos ks x : Forall fine ks -> fine x -> Forall fine (place pos ks x).
Proof. intros F H. destruct pos; cbn; [constructor; assumption|apply Forall_app; split; [exact F|constructor; [exact H|constructor]]]. Qed.
Lemma place_len pos ks x : List.length (place pos ks x) = S (List.length ks).
Proof. destruct pos; cbn; [reflexivity|]. rewrite app_length. cbn. lia. Qed.
Lemma into_fine pos y x : fine y -> fine x -> fine (into pos y x) /\ exists ns c ks, into pos y x = SNode ns c ks.
Proof.
  intros Fy Fx. destruct y as [ns k|ns [|] ks]; cbn [into]; (split; [|eauto]); apply fine_node; try (rewrite place_len; cbn; lia); try (apply place_fine; [solve [constructor; [exact Fy|constructor]]|exact Fx]).
  - rewrite place_len. apply fine_kids in Fy as [N _]. destruct ks; [easy|cbn; lia].
  - apply place_fine; [|exact Fx]. now apply fine_kids in Fy as [_ F].
Qed.
Lemma add_last_fine t x : kids_fine t -> fine x -> fine (add_last t x).
Proof.
  intros K F. destruct t as [ns k|ns c ts]; cbn [add_last]; apply fine_node; try (cbn; lia); try (constructor; [constructor|constructor; [exact F|constructor]]); destruct K as [N Ft].
  - rewrite app_length. destruct ts; [easy|cbn; lia].
  - apply Forall_app. split; [exact Ft|constructor; [exact F|constructor]].
Qed.
Lemma add_first_fine pos t x : kids_fine t -> fine x -> fine (add_first pos t x).
Proof.
  intros K F. destruct t as [ns k|ns c [|y ts]]; cbn [add_first].
  - destruct (into_fine pos (SLeaf ns k) x (fine_leaf ns k) F) as [Fi (n & c & ks & Ei)]. rewrite Ei in *. now constructor.
  - now destruct K.
  - destruct K as [_ Ft]. inversion Ft as [|? ? Fy Fts]; subst. destruct (into_fine pos y x Fy F) as [Fi (n & b & ks & Ei)]. rewrite Ei in *. destruct ts as [|z ts]; [now constructor|]. apply fine_node; [cbn; lia|now constructor].
Qed.
Lemma wrap_kids t : kids_fine t -> kids_fine (wrap_leaf t).
Proof. destruct t; [intros _|easy]. cbn. split; [easy|repeat constructor]. Qed.
Lemma grown_fine : forall t root, match root with None => True | Some s => ready s end -> fine (fst (grown t root)) /\ ready (snd (grown t root)).
Proof.
  induction t as [[i w le po de en ki l r] Hl Hrr] using token_ind'; intros root Hroot. cbn [t_left t_right] in *. cbn [grown].
  set (in_self := fun pos (s : stree * list layer) (c : token) => if left_out c then s else if nests (fst s) c then let '(C, (T, ls)) := grown c (Some s) in (wrap_leaf T, ls ++ [layer_of C])
     else if joins c then (add_first pos (fst s) (fst (grown c None)), snd s) else (add_last (fst s) (fst (grown c None)), snd s)).
  set (in_other := fun pos (s : stree * (stree * list layer)) (c : token) => if left_out c then s else if nests (fst s) c then let '(C, (R, ls)) := grown c (Some (snd s)) in (fst s, (wrap_leaf R, ls ++ [layer_of C]))
     else if joins c then (add_first pos (fst s) (fst (grown c None)), snd s) else (add_last (fst s) (fst (grown c None)), snd s)).
  pose (ok := fun c => forall root, match root with None => True | Some s => ready s end -> fine (fst (grown c root)) /\ ready (snd (grown c root))).
  assert (Nest : forall c s, ok c -> ready s -> forall C T ls, grown c (Some s) = (C, (T, ls)) -> ready (wrap_leaf T, ls ++ [layer_of C])).
  { intros c s Hc Hs C T ls Eg. destruct (Hc (Some s) Hs) as [FC (K & L & _)]. rewrite Eg in *. cbn [fst snd] in *. split; [now apply wrap_kids|]. split; [apply Forall_app; split; [exact L|constructor; [now apply layer_of_fine|constructor]]|].
    intros H. cbn in H. now destruct ls. }
  assert (Self : forall pos cs s, Forall ok cs -> ready s -> ready (fold_left (in_self pos) cs s)).
  { intros pos. induction cs as [|c cs IH]; intros s Hc Hs; [exact Hs|]. inversion Hc as [|? ? Hc1 Hc2]; subst. cbn [fold_left]. apply IH; [exact Hc2|]. unfold in_self. destruct (left_out c); [exact Hs|].
    destruct (nests (fst s) c); [destruct (grown c (Some s)) as [C [T ls]] eqn:Eg; now apply (Nest c s Hc1 Hs)|]. destruct Hs as (K & L & _). destruct (Hc1 None I) as [Fx _].
    destruct (joins c); (split; [|split; [exact L|]]); cbn [fst snd]; try intros _; try apply fine_kids; first [apply add_first_fine; assumption|apply add_last_fine; assumption]. }
  assert (Other : forall pos cs s, Forall ok cs -> fine (fst s) -> ready (snd s) -> fine (fst (fold_left (in_other pos) cs s)) /\ ready (snd (fold_left (in_other pos) cs s))).
  { intros pos. induction cs as [|c cs IH]; intros s Hc Hs Ho; [now split|]. inversion Hc as [|? ? Hc1 Hc2]; subst. cbn [fold_left]. destruct (Hc1 None I) as [Fx _].
    apply IH; [exact Hc2| |]; unfold in_other; (destruct (left_out c); [assumption|]); (destruct (nests (fst s) c); [destruct (grown c (Some (snd s))) as [C [T ls]] eqn:Eg; cbn [fst snd]|destruct (joins c); cbn [fst snd]]); try assumption;
      try (apply add_first_fine; [now apply fine_kids|exact Fx]); try (apply add_last_fine; [now apply fine_kids|exact Fx]). now apply (Nest c (snd s) Hc1 Ho). }
  assert (Leaf : fine (SLeaf None (Token i w le po de en ki l r))) by constructor.
  destruct root as [s|].
  - destruct (Other LEFT l (SLeaf None (Token i w le po de en ki l r), s) Hl Leaf Hroot) as [F1 R1]. now apply Other.
  - assert (R0 : ready (SLeaf None (Token i w le po de en ki l r), [])) by (split; [exact I|]; split; [constructor|]; intros _; exact Leaf).
    pose proof (Self RIGHT r _ Hrr (Self LEFT l _ Hl R0)) as Rs. cbn [fst snd]. split; [now apply applied_fine|exact Rs].
Qed.
Lemma alpha_wide t : wide (alpha_tree t).
Proof. apply squash_wide. now apply (grown_fine t None). Qed.
