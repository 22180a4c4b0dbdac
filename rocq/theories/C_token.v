(** * C_token.v -- property theorem C52 (dependency tree linearisation) *)

From Verif Require Import Py P_py M_token.
From Coq Require Import Sorting.Sorted String Arith.
Open Scope list_scope.

(** ** Specification *)

(** [under x t]: token [x] belongs to the dependency tree with root [t]. *)
Inductive under (x : token) : token -> Prop :=
| under_self : under x x
| under_left t c : In c (t_left t) -> under x c -> under x t
| under_right t c : In c (t_right t) -> under x c -> under x t.

(** How many nodes of the tree satisfy [p]. *)
Fixpoint nodes (p : token -> bool) (t : token) : nat :=
  match t with
  | Token _ _ _ _ _ _ _ l r =>
      (if p t then 1 else 0) + list_sum (List.map (nodes p) l) + list_sum (List.map (nodes p) r)
  end.

(** [before a b]: all tokens of [a]'s subtree stand to the left of all of [b]'s. *)
Definition before (a b : token) : Prop := forall x y, under x a -> under y b -> t_index x < t_index y.
(** A (projective) parse: in the sentence, the subtrees of the left children, in
    order, then the token, then the subtrees of the right children, in order. *)
Definition parse_order (root : token) : Prop := forall t, under t root ->
  (forall c x, In c (t_left t) -> under x c -> t_index x < t_index t)
  /\ (forall c x, In c (t_right t) -> under x c -> t_index t < t_index x)
  /\ (forall l1 a l2 b l3, t_left t = l1 ++ a :: l2 ++ b :: l3 -> before a b)
  /\ (forall l1 a l2 b l3, t_right t = l1 ++ a :: l2 ++ b :: l3 -> before a b).

(** ** Proof *)

Section token_ind.
  Variable P : token -> Prop.
  Hypothesis H : forall t, Forall P (t_left t) -> Forall P (t_right t) -> P t.
  Fixpoint token_ind' (t : token) : P t.
  Proof.
    destruct t as [i w lm po de en se l r]. apply H; cbn [t_left t_right].
    - induction l as [|c l IH]; constructor; [apply token_ind'|exact IH].
    - induction r as [|c r IH]; constructor; [apply token_ind'|exact IH].
  Defined.
End token_ind.

Lemma to_list_eq t : to_list t = flat_map to_list (t_left t) ++ [t] ++ flat_map to_list (t_right t).
Proof. now destruct t. Qed.
Lemma nodes_eq p t : nodes p t = (if p t then 1 else 0) + list_sum (List.map (nodes p) (t_left t)) + list_sum (List.map (nodes p) (t_right t)).
Proof. now destruct t. Qed.

Lemma to_list_in x : forall t, In x (to_list t) <-> under x t.
Proof.
  induction t as [t IHl IHr] using token_ind'. rewrite to_list_eq. rewrite Forall_forall in IHl, IHr. split.
  - intros H. rewrite !in_app_iff, !in_flat_map in H. destruct H as [(c & Hc & Hx)|[[<-|[]]|(c & Hc & Hx)]].
    + apply (under_left x t c Hc). now apply IHl.
    + constructor.
    + apply (under_right x t c Hc). now apply IHr.
  - intros H. rewrite !in_app_iff, !in_flat_map. destruct H as [|t c Hc Hx|t c Hc Hx].
    + right. left. now left.
    + left. exists c. split; [exact Hc|]. now apply IHl.
    + right. right. exists c. split; [exact Hc|]. now apply IHr.
Qed.

Lemma flat_count p l : Forall (fun t => List.length (filter p (to_list t)) = nodes p t) l ->
  List.length (filter p (flat_map to_list l)) = list_sum (List.map (nodes p) l).
Proof.
  induction 1 as [|t l H _ IH]; [reflexivity|]. cbn. now rewrite filter_app, app_length, H, IH.
Qed.
Lemma to_list_count p : forall t, List.length (filter p (to_list t)) = nodes p t.
Proof.
  induction t as [t IHl IHr] using token_ind'. rewrite to_list_eq, nodes_eq, !filter_app, !app_length, (flat_count p _ IHl), (flat_count p _ IHr).
  cbn. destruct (p t); cbn; lia.
Qed.

Lemma sorted_app (R : nat -> nat -> Prop) l1 l2 : StronglySorted R l1 -> StronglySorted R l2 ->
  (forall a b, In a l1 -> In b l2 -> R a b) -> StronglySorted R (l1 ++ l2).
Proof.
  induction 1 as [|a l1 S IH F]; intros S2 H; [exact S2|]. cbn. constructor.
  - apply IH; [exact S2|]. intros x y Hx Hy. apply H; [now right|exact Hy].
  - apply Forall_app. split; [exact F|]. apply Forall_forall. intros y Hy. apply H; [now left|exact Hy].
Qed.
Definition idx (l : list token) : list nat := List.map t_index l.
Lemma flat_sorted l : Forall (fun t => StronglySorted lt (idx (to_list t))) l ->
  (forall l1 a l2 b l3, l = l1 ++ a :: l2 ++ b :: l3 -> before a b) -> StronglySorted lt (idx (flat_map to_list l)).
Proof.
  induction 1 as [|t l H _ IH]; intros B; [constructor|]. cbn. unfold idx in *. rewrite map_app. apply sorted_app; [exact H| |].
  - apply IH. intros l1 a l2 b l3 ->. now apply (B (t :: l1) a l2 b l3).
  - intros a b Ha Hb. apply in_map_iff in Ha as (x & <- & Hx). apply in_map_iff in Hb as (y & <- & Hy).
    apply in_flat_map in Hy as (c & Hc & Hy). apply in_split in Hc as (l2 & l3 & ->).
    apply (B [] t l2 c l3 eq_refl); now apply to_list_in.
Qed.
Lemma under_trans x y z : under x y -> under y z -> under x z.
Proof. intros H1 H2. induction H2 as [|t c Hc _ IH|t c Hc _ IH]; [exact H1| |]; [apply (under_left x t c Hc)|apply (under_right x t c Hc)]; assumption. Qed.
Lemma parse_order_sub t c : parse_order t -> under c t -> parse_order c.
Proof. intros H Hc x Hx. apply H. now apply (under_trans x c t). Qed.
Lemma to_list_sorted : forall t, parse_order t -> StronglySorted lt (idx (to_list t)).
Proof.
  induction t as [t IHl IHr] using token_ind'. intros H. rewrite to_list_eq. unfold idx. rewrite !map_app.
  destruct (H t (under_self t)) as (Hl & Hr & Bl & Br).
  assert (Sl : StronglySorted lt (idx (flat_map to_list (t_left t)))).
  { apply flat_sorted; [|exact Bl]. rewrite Forall_forall in *. intros c Hc. apply IHl; [exact Hc|].
    apply (parse_order_sub t c H). apply (under_left c t c Hc). constructor. }
  assert (Sr : StronglySorted lt (idx (flat_map to_list (t_right t)))).
  { apply flat_sorted; [|exact Br]. rewrite Forall_forall in *. intros c Hc. apply IHr; [exact Hc|].
    apply (parse_order_sub t c H). apply (under_right c t c Hc). constructor. }
  apply sorted_app; [exact Sl| |].
  - cbn. constructor; [exact Sr|]. apply Forall_forall. intros y Hy. apply in_map_iff in Hy as (z & <- & Hz).
    apply in_flat_map in Hz as (c & Hc & Hz). apply (Hr c z Hc). now apply to_list_in.
  - intros a b Ha Hb. apply in_map_iff in Ha as (x & <- & Hx). apply in_flat_map in Hx as (c & Hc & Hx). apply to_list_in in Hx.
    pose proof (Hl c x Hc Hx) as L. cbn in Hb. destruct Hb as [<-|Hb]; [exact L|].
    apply in_map_iff in Hb as (z & <- & Hz). apply in_flat_map in Hz as (d & Hd & Hz). apply to_list_in in Hz.
    pose proof (Hr d z Hd Hz). lia.
Qed.

Lemma sorted_unique : forall l1 l2 : list token, StronglySorted lt (idx l1) -> StronglySorted lt (idx l2) ->
  (forall x, In x l1 <-> In x l2) -> l1 = l2.
Proof.
  induction l1 as [|a l1 IH]; intros [|b l2] S1 S2 H.
  - reflexivity.
  - exfalso. apply (H b). now left.
  - exfalso. apply (H a). now left.
  - cbn in S1, S2. inversion S1 as [|? ? S1' F1]; inversion S2 as [|? ? S2' F2]; subst. rewrite Forall_forall in F1, F2.
    assert (L1 : forall x, In x l1 -> t_index a < t_index x) by (intros x Hx; apply F1; now apply in_map).
    assert (L2 : forall x, In x l2 -> t_index b < t_index x) by (intros x Hx; apply F2; now apply in_map).
    assert (E : a = b).
    { destruct (proj1 (H a) (or_introl eq_refl)) as [E|Ha]; [now symmetry|].
      destruct (proj2 (H b) (or_introl eq_refl)) as [E|Hb]; [exact E|]. specialize (L1 _ Hb). specialize (L2 _ Ha). lia. }
    subst b. f_equal. apply IH; [exact S1'|exact S2'|]. intros x. split; intros Hx.
    + destruct (proj1 (H x) (or_intror Hx)) as [<-|G]; [|exact G]. specialize (L1 _ Hx). lia.
    + destruct (proj2 (H x) (or_intror Hx)) as [<-|G]; [|exact G]. specialize (L2 _ Hx). lia.
Qed.

(** What a word is. *)
Definition wordlike (t : token) : Prop := t_sep t = false /\ t_pos t <> lit "PUNCT" /\ t_pos t <> lit "SPACE".
Lemma is_word_iff t : is_word t = true <-> wordlike t.
Proof.
  unfold is_word, wordlike. destruct (t_sep t); [easy|].
  destruct (str_eqb (t_pos t) (lit "PUNCT")) eqn:E; [apply str_eqb_eq in E; split; [easy|now intros (_ & [] & _)]|].
  destruct (str_eqb (t_pos t) (lit "SPACE")) eqn:E'; [apply str_eqb_eq in E'; split; [easy|now intros (_ & _ & [])]|].
  apply str_eqb_neq in E, E'. now split.
Qed.

(** ** C52 *)

(** [root]: any dependency tree.  to_list has exactly the tokens of the tree, each
    as often as it stands in the tree; for a projective parse they are in sentence
    order, so the list is the sentence itself; the word list is its sub-list of
    the tokens that are no separator, punctuation or space. *)
Theorem C52_linearisation :
  forall root,
    (forall x, In x (to_list root) <-> under x root)
    /\ (forall p, List.length (filter p (to_list root)) = nodes p root)
    /\ (parse_order root -> StronglySorted (fun a b => t_index a < t_index b) (to_list root))
    /\ (parse_order root -> forall sentence,
          StronglySorted (fun a b => t_index a < t_index b) sentence -> (forall x, In x sentence <-> under x root) ->
          to_list root = sentence)
    /\ (forall x, In x (to_word_token_list root) <-> under x root /\ wordlike x)
    /\ (forall p, (forall x, p x = true <-> wordlike x) -> to_word_token_list root = filter p (to_list root)).
Proof.
  intros root.
  assert (SM : forall l, StronglySorted (fun a b => t_index a < t_index b) l <-> StronglySorted lt (idx l)).
  { induction l as [|a l IH]; [split; constructor|]. cbn. split; intros H; inversion H as [|? ? S F]; subst; constructor; try (now apply IH).
    - unfold idx. apply Forall_map. exact F.
    - rewrite Forall_forall in *. intros y Hy. apply F. now apply in_map. }
  split; [intros x; apply to_list_in|]. split; [intros p; apply to_list_count|].
  split; [intros H; apply SM, to_list_sorted, H|]. split.
  - intros H s Ss Hs. apply sorted_unique; [apply to_list_sorted, H|apply SM, Ss|]. intros x. rewrite to_list_in. symmetry. apply Hs.
  - split.
    + intros x. unfold to_word_token_list. now rewrite filter_In, to_list_in, is_word_iff.
    + intros p Hp. unfold to_word_token_list. apply filter_ext. intros x. destruct (is_word x) eqn:E, (p x) eqn:F; try reflexivity.
      * apply is_word_iff, Hp in E. congruence.
      * apply Hp, is_word_iff in F. congruence.
Qed.
Print Assumptions C52_linearisation.

(** "the sky, is blue" with a comma *)
Definition tk (i : nat) (w po de : string) (l r : list token) : token := Token i (lit w) (lit w) (lit po) (lit de) [] false l r.
Definition c52_the := tk 0 "the" "DET" "det" [] [].
Definition c52_sky := tk 1 "sky" "NOUN" "nsubj" [c52_the] [].
Definition c52_comma := tk 2 "," "PUNCT" "punct" [] [].
Definition c52_blue := tk 4 "blue" "ADJ" "acomp" [] [].
Definition c52_root := tk 3 "is" "VERB" "ROOT" [c52_sky; c52_comma] [c52_blue].
(** The order condition is exactly that the list is sorted. *)
Lemma sorted_app_inv l1 : forall l2 : list nat, StronglySorted lt (l1 ++ l2) ->
  StronglySorted lt l1 /\ StronglySorted lt l2 /\ forall a b, In a l1 -> In b l2 -> a < b.
Proof.
  induction l1 as [|a l1 IH]; intros l2 H; [repeat split; [constructor|exact H|easy]|]. cbn in H. inversion H as [|? ? S F]; subst.
  destruct (IH l2 S) as (S1 & S2 & H12). apply Forall_app in F as [F1 F2]. repeat split; [now constructor|exact S2|].
  intros x y [<-|Hx] Hy; [|now apply H12]. rewrite Forall_forall in F2. now apply F2.
Qed.
Lemma sorted_sub t : forall x, under x t -> StronglySorted lt (idx (to_list t)) -> StronglySorted lt (idx (to_list x)).
Proof.
  intros x H. induction H as [|t c Hc H IH|t c Hc H IH]; [easy| |]; intros S; apply IH; rewrite to_list_eq in S; unfold idx in S;
    rewrite !map_app in S; apply sorted_app_inv in S as (S1 & S2 & _).
  - apply in_split in Hc as (l1 & l2 & E). rewrite E, flat_map_app, map_app in S1. apply sorted_app_inv in S1 as (_ & S1 & _).
    cbn in S1. rewrite map_app in S1. now apply sorted_app_inv in S1 as (S1 & _).
  - apply sorted_app_inv in S2 as (_ & S2 & _).
    apply in_split in Hc as (l1 & l2 & E). rewrite E, flat_map_app, map_app in S2. apply sorted_app_inv in S2 as (_ & S2 & _).
    cbn in S2. rewrite map_app in S2. now apply sorted_app_inv in S2 as (S2 & _).
Qed.
Lemma sorted_parse_order root : StronglySorted lt (idx (to_list root)) -> parse_order root.
Proof.
  intros S t Ht. pose proof (sorted_sub root t Ht S) as St. rewrite to_list_eq in St. unfold idx in St. rewrite !map_app in St.
  apply sorted_app_inv in St as (Sl & S2 & Hl). apply sorted_app_inv in S2 as (_ & Sr & Hr).
  assert (B : forall l, StronglySorted lt (idx (flat_map to_list l)) -> forall l1 a l2 b l3, l = l1 ++ a :: l2 ++ b :: l3 -> before a b).
  { intros l Sx l1 a l2 b l3 -> x y Hx Hy. unfold idx in Sx. rewrite flat_map_app, map_app in Sx. apply sorted_app_inv in Sx as (_ & Sx & _).
    cbn in Sx. rewrite map_app in Sx. apply sorted_app_inv in Sx as (_ & _ & Hx'). apply Hx'; apply in_map; [now apply to_list_in|].
    rewrite flat_map_app, in_app_iff. right. cbn. rewrite in_app_iff. left. now apply to_list_in. }
  repeat apply conj.
  - intros c x Hc Hx. apply Hl; [apply in_map, in_flat_map; exists c; split; [exact Hc|now apply to_list_in]|]. cbn. now left.
  - intros c x Hc Hx. apply Hr; [cbn; now left|]. apply in_map, in_flat_map. exists c. split; [exact Hc|now apply to_list_in].
  - exact (B _ Sl).
  - exact (B _ Sr).
Qed.
Example C52_nonvacuous : parse_order c52_root /\ List.map t_index (to_list c52_root) = [0; 1; 2; 3; 4]
  /\ chunk_str c52_root = lit "the sky is blue" /\ sentence_root (to_list c52_root) = Some c52_root.
Proof.
  split; [|split; [|split]; vm_compute; reflexivity]. apply sorted_parse_order. vm_compute. repeat constructor.
Qed.

(** The parser's conversion keeps the tree: same positions, parts of speech and
    dependencies, children on the same side in the same order; only the word
    changes: lower case, without surrounding white space. *)
Inductive same_tree (lower : str -> str) : stoken -> token -> Prop :=
| same_node i orth w lemma pos dep ent sl sr tl tr :
    (exists a b, lower orth = a ++ w ++ b /\ forallb is_space a = true /\ forallb is_space b = true) ->
    (forall c, hd_error w = Some c -> is_space c = false) -> (forall c, hd_error (rev w) = Some c -> is_space c = false) ->
    Forall2 (same_tree lower) sl tl -> Forall2 (same_tree lower) sr tr ->
    same_tree lower (SToken i orth lemma pos dep ent sl sr) (Token i w lemma pos dep ent false tl tr).
Lemma lstrip_ok s : exists a, s = a ++ lstrip s /\ forallb is_space a = true /\ (forall c, hd_error (lstrip s) = Some c -> is_space c = false).
Proof.
  induction s as [|c s IH]; [now exists []|]. cbn. destruct (is_space c) eqn:E.
  - destruct IH as (a & E' & F & H). exists (c :: a). cbn. rewrite E. split; [now rewrite <- E'|easy].
  - exists []. cbn. repeat split. now intros c' [= <-].
Qed.
Lemma hd_rev_app (a b : str) : hd_error (rev (a ++ b)) = match rev b with [] => hd_error (rev a) | c :: _ => Some c end.
Proof. rewrite rev_app_distr. now destruct (rev b). Qed.
Lemma strip_ok s : exists a b, s = a ++ strip s ++ b /\ forallb is_space a = true /\ forallb is_space b = true
  /\ (forall c, hd_error (strip s) = Some c -> is_space c = false) /\ (forall c, hd_error (rev (strip s)) = Some c -> is_space c = false).
Proof.
  unfold strip. destruct (lstrip_ok s) as (a & E1 & Fa & Ha). destruct (lstrip_ok (rev (lstrip s))) as (b & E2 & Fb & Hb).
  set (x := lstrip s) in *. set (y := lstrip (rev x)) in *.
  assert (Ex : x = rev y ++ rev b) by (now rewrite <- (rev_involutive x), E2, rev_app_distr).
  exists a, (rev b). rewrite E1 at 1. rewrite Ex at 1. rewrite rev_involutive. repeat apply conj; try assumption.
  - reflexivity.
  - rewrite forallb_forall in *. intros c Hc. apply Fb. now apply in_rev.
  - intros c Hc. apply Ha. rewrite Ex. destruct (rev y); [discriminate|exact Hc].
Qed.
Section stoken_ind.
  Variable P : stoken -> Prop.
  Hypothesis H : forall i o lm po de en l r, Forall P l -> Forall P r -> P (SToken i o lm po de en l r).
  Fixpoint stoken_ind' (t : stoken) : P t.
  Proof.
    destruct t as [i o lm po de en l r]. apply H.
    - induction l as [|c l IH]; constructor; [apply stoken_ind'|exact IH].
    - induction r as [|c r IH]; constructor; [apply stoken_ind'|exact IH].
  Defined.
End stoken_ind.
Theorem C52_parser_tree :
  forall lower s, same_tree lower s (spacy2token lower s).
Proof.
  intros lower. induction s as [i o lm po de en l r IHl IHr] using stoken_ind'. cbn.
  destruct (strip_ok (lower o)) as (a & b & E & Fa & Fb & H1 & H2). constructor; [now exists a, b|exact H1|exact H2| |].
  - clear -IHl. induction IHl; constructor; assumption.
  - clear -IHr. induction IHr; constructor; assumption.
Qed.
Print Assumptions C52_parser_tree.
Example C52_parser_nonvacuous :
  to_list (spacy2token (fun s => s) (SToken 1 (lit " sky ") (lit "sky") (lit "NOUN") (lit "ROOT") [] [SToken 0 (lit "the") (lit "the") (lit "DET") (lit "det") [] [] []] []))
  = [tk 0 "the" "DET" "det" [] []; tk 1 "sky" "NOUN" "ROOT" [tk 0 "the" "DET" "det" [] []] []].
Proof. vm_compute. reflexivity. Qed.
