(** * P_parser.v -- the table of converted tokens *)

From Verif Require Import Py P_py M_token M_tree M_stages M_parser S_parser.
From Coq Require Import String Lia Arith.
Open Scope list_scope.

(** ** Lists of objects *)

Lemma set_obj_len o x l : o < List.length l -> List.length (set_obj o x l) = List.length l.
Proof. intros H. unfold set_obj. rewrite app_length, firstn_length. cbn [List.length]. rewrite skipn_length. lia. Qed.
Lemma set_obj_same o x l : o < List.length l -> nth_error (set_obj o x l) o = Some x.
Proof. intros H. unfold set_obj. rewrite nth_error_app2; rewrite firstn_length_le by lia; [|lia]. now rewrite Nat.sub_diag. Qed.
Lemma set_obj_other o x l p : o < List.length l -> p <> o -> nth_error (set_obj o x l) p = nth_error l p.
Proof.
  intros H N. unfold set_obj. destruct (Nat.lt_ge_cases p o) as [L|L].
  - rewrite nth_error_app1 by (rewrite firstn_length_le; lia). rewrite <- (firstn_skipn o l) at 2. rewrite nth_error_app1 by (rewrite firstn_length_le; lia). reflexivity.
  - rewrite nth_error_app2; rewrite firstn_length_le by lia; [|lia]. destruct (p - o) as [|q] eqn:E; [lia|]. cbn.
    rewrite <- (firstn_skipn (S o) l) at 2. rewrite nth_error_app2; rewrite firstn_length_le by lia; [|lia]. f_equal. lia.
Qed.
Lemma key_eqb_eq a b : key_eqb a b = true <-> a = b.
Proof.
  unfold key_eqb. rewrite andb_true_iff, !Nat.eqb_eq. destruct a, b; cbn. split; [intros [-> ->]; reflexivity|intros H; injection H; auto].
Qed.
Lemma tlook_cons k o t k' : tlook k' ((k, o) :: t) = if key_eqb k' k then Some o else tlook k' t.
Proof. reflexivity. Qed.
Lemma tlook_new k o t : tlook k ((k, o) :: t) = Some o.
Proof. rewrite tlook_cons. now rewrite (proj2 (key_eqb_eq k k) eq_refl). Qed.
Lemma tlook_old k o t k' : k' <> k -> tlook k' ((k, o) :: t) = tlook k' t.
Proof. intros N. rewrite tlook_cons. destruct (key_eqb k' k) eqn:E; [now apply key_eqb_eq in E|reflexivity]. Qed.

(** ** Acyclicity *)

Lemma deep_mono dc : forall n i, deep dc n i -> deep dc (S n) i.
Proof.
  induction n as [|n IH]; [intros i []|]. intros i (w & E & F). exists w. split; [exact E|]. eapply Forall_impl; [|exact F]. exact IH.
Qed.
Lemma deep_below dc n i j : deep dc n i -> below dc i j -> deep dc n j.
Proof.
  intros D B. induction B as [|j k w B IH E K]; [exact D|]. destruct n as [|n]; [destruct IH|]. destruct IH as (w' & E' & F).
  assert (w' = w) by congruence. subst w'. apply deep_mono. rewrite Forall_forall in F. now apply F.
Qed.
Lemma deep_acyclic dc : forall n i w c, deep dc n i -> nth_error (dc_toks dc) i = Some w -> In c (kids w) -> ~ below dc c i.
Proof.
  induction n as [|n IH]; [intros i w c []|]. intros i w c (w' & E' & F) E K B. assert (w' = w) by congruence. subst w'.
  rewrite Forall_forall in F. apply (IH i w c); auto. apply (deep_below dc n c i); auto.
Qed.
Lemma below_trans dc i j k : below dc i j -> below dc j k -> below dc i k.
Proof. intros A B. induction B as [|j' k w _ IH E K]; [exact A|]. now apply (below_kid dc i j' k w). Qed.
Lemma below_kid_first dc i w c j : nth_error (dc_toks dc) i = Some w -> In c (kids w) -> below dc c j -> below dc i j.
Proof. intros E K B. apply (below_trans dc i c j); [|exact B]. apply (below_kid dc i i c w); [constructor|exact E|exact K]. Qed.

(** ** What any run of the conversion leaves alone *)

Section Run.
Variable lower : str -> str.
Variable d : nat.
Variable dc : doc.

(** [n0]: how many objects there were before the document *)
Record mine (n0 : nat) (s : parser) : Prop := {
  mi_len : n0 <= List.length (ps_objs s);
  mi_tab : forall i o, tlook (d, i) (ps_table s) = Some o -> n0 <= o < List.length (ps_objs s) }.
(** from [s] to [s']: older objects, other documents and the number of documents stay;
    nothing is taken from the table *)
Record grow (n0 : nat) (s s' : parser) : Prop := {
  gr_len : List.length (ps_objs s) <= List.length (ps_objs s');
  gr_old : forall o, o < n0 -> nth_error (ps_objs s') o = nth_error (ps_objs s) o;
  gr_other : forall e i, e <> d -> tlook (e, i) (ps_table s') = tlook (e, i) (ps_table s);
  gr_docs : ps_docs s' = ps_docs s }.
Lemma grow_refl n0 s : grow n0 s s.
Proof. now split. Qed.
Lemma grow_trans n0 a b c : grow n0 a b -> grow n0 b c -> grow n0 a c.
Proof.
  intros G H. split.
  - pose proof (gr_len _ _ _ G). pose proof (gr_len _ _ _ H). lia.
  - intros o Ho. rewrite (gr_old _ _ _ H o Ho). now apply (gr_old _ _ _ G).
  - intros e i N. rewrite (gr_other _ _ _ H e i N). now apply (gr_other _ _ _ G).
  - rewrite (gr_docs _ _ _ H). apply (gr_docs _ _ _ G).
Qed.
Lemma km_bind {A B} n0 (m : PM A) (k : A -> PM B) (Q : A -> parser -> Prop) (R : B -> parser -> Prop) s : mine n0 s ->
  (mine n0 (snd (m s)) /\ grow n0 s (snd (m s)) /\ forall a, fst (m s) = Ok a -> Q a (snd (m s))) ->
  (forall a s1, mine n0 s1 -> grow n0 s s1 -> Q a s1 ->
     mine n0 (snd (k a s1)) /\ grow n0 s1 (snd (k a s1)) /\ forall b, fst (k a s1) = Ok b -> R b (snd (k a s1))) ->
  mine n0 (snd (qbind m k s)) /\ grow n0 s (snd (qbind m k s)) /\ forall b, fst (qbind m k s) = Ok b -> R b (snd (qbind m k s)).
Proof.
  intros M (M1 & G1 & Q1) K. unfold qbind. destruct (m s) as [[a|e] s1]; cbn in *.
  - destruct (K a s1 M1 G1 (Q1 a eq_refl)) as (M2 & G2 & R2). split; [exact M2|]. split; [now apply (grow_trans n0 s s1)|exact R2].
  - split; [exact M1|]. split; [exact G1|]. discriminate.
Qed.
(** objects of the document *)
Definition fresh (n0 o : nat) (s : parser) : Prop := n0 <= o < List.length (ps_objs s).
Lemma fresh_grow n0 s s' o : grow n0 s s' -> fresh n0 o s -> fresh n0 o s'.
Proof. intros G [A B]. pose proof (gr_len _ _ _ G). unfold fresh. lia. Qed.
Lemma fresh_grow_all n0 s s' l : grow n0 s s' -> Forall (fun o => fresh n0 o s) l -> Forall (fun o => fresh n0 o s') l.
Proof. intros G F. eapply Forall_impl; [|exact F]. intros o Ho. now apply (fresh_grow n0 s). Qed.

Lemma km_map {A} n0 (f : A -> PM nat) (l : list A) s : mine n0 s ->
  (forall x s, mine n0 s -> mine n0 (snd (f x s)) /\ grow n0 s (snd (f x s)) /\ forall o, fst (f x s) = Ok o -> fresh n0 o (snd (f x s))) ->
  mine n0 (snd (qmap f l s)) /\ grow n0 s (snd (qmap f l s)) /\ forall os, fst (qmap f l s) = Ok os -> Forall (fun o => fresh n0 o (snd (qmap f l s))) os.
Proof.
  intros M K. revert s M. induction l as [|x l IH]; intros s M.
  - cbn. split; [exact M|]. split; [apply grow_refl|]. intros os E. injection E as <-. constructor.
  - change (qmap f (x :: l)) with (have y <- f x; have ys <- qmap f l; qret (y :: ys)).
    apply (km_bind n0 (f x) _ (fun o s1 => fresh n0 o s1) (fun os s9 => Forall (fun o => fresh n0 o s9) os)); [exact M|now apply K|]. intros o s1 M1 G1 F1.
    apply (km_bind n0 (qmap f l) _ (fun os s2 => Forall (fun o => fresh n0 o s2) os /\ grow n0 s1 s2) (fun os s9 => Forall (fun o => fresh n0 o s9) os)); [exact M1| |].
    + destruct (IH s1 M1) as (M2 & G2 & F2). split; [exact M2|]. split; [exact G2|]. intros os E. split; [now apply F2|exact G2].
    + intros os s2 M2 _ [F2 G2]. cbn. split; [exact M2|]. split; [apply grow_refl|]. intros b E. injection E as <-. constructor; [|exact F2].
      now apply (fresh_grow n0 s1).
Qed.
Lemma km_mark n0 l s : mine n0 s -> Forall (fun o => fresh n0 o s) l ->
  mine n0 (snd (qmap mark_parent l s)) /\ grow n0 s (snd (qmap mark_parent l s)) /\ forall b, fst (qmap mark_parent l s) = Ok b -> True.
Proof.
  revert s. induction l as [|o l IH]; intros s M F.
  - cbn. split; [exact M|]. split; [apply grow_refl|auto].
  - change (qmap mark_parent (o :: l)) with (have y <- mark_parent o; have ys <- qmap mark_parent l; qret (y :: ys)).
    inversion F as [|? ? Fo Fl]; subst.
    apply (km_bind n0 (mark_parent o) _ (fun _ s1 => Forall (fun o => fresh n0 o s1) l) (fun _ _ => True)); [exact M| |].
    + unfold mark_parent. destruct (nth_error (ps_objs s) o) as [x|] eqn:E; cbn [fst snd].
      * assert (L : o < List.length (ps_objs s)) by (apply nth_error_Some; congruence).
        match goal with |- mine _ ?s' /\ _ => assert (G : grow n0 s s') end.
        { split; cbn [ps_objs ps_table ps_docs]; [rewrite set_obj_len by exact L; lia| |reflexivity|reflexivity].
          intros p Hp. apply set_obj_other; [exact L|]. destruct Fo. lia. }
        split; [|split; [exact G|]].
        -- split; cbn [ps_objs ps_table]; rewrite set_obj_len by exact L; apply M.
        -- intros _ _. now apply (fresh_grow_all n0 s).
      * split; [exact M|]. split; [apply grow_refl|discriminate].
    + intros a s1 M1 G1 F1. apply (km_bind n0 (qmap mark_parent l) _ (fun _ _ => True) (fun _ _ => True)); [exact M1|now apply IH|].
      intros ys s2 M2 G2 _. cbn. split; [exact M2|]. split; [apply grow_refl|auto].
Qed.
Lemma km_put n0 o x s : mine n0 s -> fresh n0 o s ->
  mine n0 (snd (put_token o x s)) /\ grow n0 s (snd (put_token o x s)) /\ forall b, fst (put_token o x s) = Ok b -> True.
Proof.
  intros M [A B]. unfold put_token. cbn [fst snd]. split; [|split; [|auto]].
  - split; cbn [ps_objs ps_table]; rewrite set_obj_len by exact B; apply M.
  - split; cbn [ps_objs ps_table ps_docs]; [rewrite set_obj_len by exact B; lia| |reflexivity|reflexivity].
    intros p Hp. apply set_obj_other; [exact B|lia].
Qed.
Lemma km_new n0 x s : mine n0 s ->
  mine n0 (snd (new_token x s)) /\ grow n0 s (snd (new_token x s)) /\ forall o, fst (new_token x s) = Ok o -> fresh n0 o (snd (new_token x s)).
Proof.
  intros M. unfold new_token. cbn [fst snd]. pose proof (mi_len _ _ M) as L. split; [|split].
  - split; cbn [ps_objs ps_table]; rewrite app_length; cbn; [lia|]. intros i o E. pose proof (mi_tab _ _ M i o E). lia.
  - split; cbn [ps_objs ps_table ps_docs]; [rewrite app_length; lia| |reflexivity|reflexivity].
    intros o Ho. apply nth_error_app1. lia.
  - intros o E. injection E as <-. unfold fresh. cbn [ps_objs]. rewrite app_length. cbn. lia.
Qed.
Lemma km_conv n0 : forall fuel i s, mine n0 s ->
  mine n0 (snd (conv lower d dc fuel i s)) /\ grow n0 s (snd (conv lower d dc fuel i s))
  /\ forall o, fst (conv lower d dc fuel i s) = Ok o -> fresh n0 o (snd (conv lower d dc fuel i s)).
Proof.
  induction fuel as [|f IH]; intros i s M; cbn [conv].
  - cbn. split; [exact M|]. split; [apply grow_refl|discriminate].
  - destruct (tlook (d, i) (ps_table s)) as [o|] eqn:T.
    + cbn. split; [exact M|]. split; [apply grow_refl|]. intros o' E. injection E as <-. apply (mi_tab _ _ M i o T).
    + destruct (nth_error (dc_toks dc) i) as [w|] eqn:W; [|cbn; split; [exact M|]; split; [apply grow_refl|discriminate]].
      apply (km_bind n0 (new_token _) _ (fun o s1 => fresh n0 o s1) (fun o9 s9 => fresh n0 o9 s9)); [exact M|now apply km_new|]. intros o s1 M1 G1 F1.
      apply (km_bind n0 (qmap _ _) _ (fun l s2 => Forall (fun o => fresh n0 o s2) l) (fun o9 s9 => fresh n0 o9 s9)); [exact M1|apply km_map; [exact M1|intros; now apply IH]|]. intros l s2 M2 G2 F2.
      pose proof (fresh_grow n0 _ _ o G2 F1) as F1'.
      apply (km_bind n0 (put_token _ _) _ (fun _ _ => True) (fun o9 s9 => fresh n0 o9 s9)); [exact M2|now apply km_put|]. intros _ s3 M3 G3 _.
      apply (km_bind n0 (qmap _ _) _ (fun l s2 => Forall (fun o => fresh n0 o s2) l) (fun o9 s9 => fresh n0 o9 s9)); [exact M3|apply km_map; [exact M3|intros; now apply IH]|]. intros r s4 M4 G4 F4.
      pose proof (fresh_grow n0 _ _ o (grow_trans n0 _ _ _ G3 G4) F1') as F1''. pose proof (fresh_grow_all n0 _ _ l (grow_trans n0 _ _ _ G3 G4) F2) as F2'.
      apply (km_bind n0 (put_token _ _) _ (fun _ _ => True) (fun o9 s9 => fresh n0 o9 s9)); [exact M4|now apply km_put|]. intros _ s5 M5 G5 _.
      apply (km_bind n0 (qmap mark_parent l) _ (fun _ _ => True) (fun o9 s9 => fresh n0 o9 s9)); [exact M5|apply km_mark; [exact M5|now apply (fresh_grow_all n0 s4)]|]. intros _ s6 M6 G6 _.
      pose proof (grow_trans n0 _ _ _ G5 G6) as G56.
      apply (km_bind n0 (qmap mark_parent r) _ (fun _ _ => True) (fun o9 s9 => fresh n0 o9 s9)); [exact M6|apply km_mark; [exact M6|now apply (fresh_grow_all n0 s4)]|]. intros _ s7 M7 G7 _.
      pose proof (fresh_grow n0 _ _ o (grow_trans n0 _ _ _ G56 G7) F1'') as [A B].
      apply (km_bind n0 (put_table _ _) _ (fun _ s8 => fresh n0 o s8) (fun o9 s9 => fresh n0 o9 s9)); [exact M7| |].
      * unfold put_table. cbn [fst snd]. split; [|split].
        -- split; cbn [ps_objs ps_table]; [apply M7|]. intros j p. rewrite tlook_cons. destruct (key_eqb (d, j) (d, i)); [|apply M7].
           intros E. injection E as <-. now split.
        -- split; cbn [ps_objs ps_table ps_docs]; [lia|reflexivity| |reflexivity]. intros e j N. apply tlook_old. congruence.
        -- intros _ _. now split.
      * intros _ s8 M8 G8 F8. cbn. split; [exact M8|]. split; [apply grow_refl|]. intros o' E. injection E as <-. exact F8.
Qed.

(** ** What a run within the recursion limit makes *)

Definition T (s : parser) (i : nat) : option nat := tlook (d, i) (ps_table s).
Definition mk (i : nat) (w : raw) (l r : list nat) (p : option parent) : tobj :=
  TObj i (strip (lower (w_orth w))) (w_lemma w) (w_pos w) (w_dep w) (w_ent w) l r p.
(** [i] is a child of a token in the table *)
Definition headed (s : parser) (i : nat) : Prop :=
  exists j oj wj, T s j = Some oj /\ nth_error (dc_toks dc) j = Some wj /\ In i (kids wj).
Record good (s : parser) : Prop := {
  go_ok : forall i o, T s i = Some o -> exists w l r p, nth_error (dc_toks dc) i = Some w /\ nth_error (ps_objs s) o = Some (mk i w l r p)
    /\ Forall2 (fun c oc => T s c = Some oc) (w_lefts w) l /\ Forall2 (fun c oc => T s c = Some oc) (w_rights w) r
    /\ (p = None \/ p = Some PaParser) /\ (p = Some PaParser <-> headed s i);
  go_inj : forall i j o, T s i = Some o -> T s j = Some o -> i = j }.
Record ext (P : nat -> Prop) (s s' : parser) : Prop := {
  ex_len : List.length (ps_objs s) <= List.length (ps_objs s');
  ex_keep : forall j o, T s j = Some o -> T s' j = Some o;
  ex_new : forall j o, T s' j = Some o -> T s j = None -> P j /\ List.length (ps_objs s) <= o;
  ex_same : forall o, o < List.length (ps_objs s) -> (forall j, T s j <> Some o) -> nth_error (ps_objs s') o = nth_error (ps_objs s) o }.
Lemma ext_refl P s : ext P s s.
Proof. split; auto. intros j o H1 H2. congruence. Qed.
Lemma ext_trans (P Q R : nat -> Prop) a b c : ext P a b -> ext Q b c -> (forall j, P j \/ Q j -> R j) -> ext R a c.
Proof.
  intros A B H. split.
  - pose proof (ex_len _ _ _ A). pose proof (ex_len _ _ _ B). lia.
  - intros j o X. now apply (ex_keep _ _ _ B), (ex_keep _ _ _ A).
  - intros j o X N. pose proof (ex_len _ _ _ A). destruct (T b j) as [o'|] eqn:E.
    + assert (o' = o) by (pose proof (ex_keep _ _ _ B j o' E); congruence). subst o'. destruct (ex_new _ _ _ A j o E N). auto.
    + destruct (ex_new _ _ _ B j o X E) as [Hq Hl]. split; [auto|lia].
  - intros o L N. rewrite (ex_same _ _ _ B), (ex_same _ _ _ A); auto.
    + pose proof (ex_len _ _ _ A). lia.
    + intros j X. destruct (T a j) as [o'|] eqn:E.
      * pose proof (ex_keep _ _ _ A j o' E). apply (N j). congruence.
      * destruct (ex_new _ _ _ A j o X E). lia.
Qed.
Lemma Forall2_in_l {A B} (R : A -> B -> Prop) l m x : Forall2 R l m -> In x l -> exists y, In y m /\ R x y.
Proof. induction 1 as [|a b l m H _ IH]; intros []; [subst; exists b; split; [now left|assumption]|]. destruct (IH H0) as (y & Hy & Ry). exists y. split; [now right|assumption]. Qed.
Lemma Forall2_in_r {A B} (R : A -> B -> Prop) l m y : Forall2 R l m -> In y m -> exists x, In x l /\ R x y.
Proof. induction 1 as [|a b l m H _ IH]; intros []; [subst; exists a; split; [now left|assumption]|]. destruct (IH H0) as (x & Hx & Rx). exists x. split; [now right|assumption]. Qed.
Lemma Forall2_weaken {A B} (R S : A -> B -> Prop) l m : (forall a b, R a b -> S a b) -> Forall2 R l m -> Forall2 S l m.
Proof. intros K. induction 1; constructor; auto. Qed.

Lemma map_ok n0 f (l : list nat) : (forall i s, mine n0 s -> good s -> deep dc f i ->
    exists o s', conv lower d dc f i s = (Ok o, s') /\ good s' /\ mine n0 s' /\ ext (below dc i) s s' /\ T s' i = Some o) ->
  forall s, mine n0 s -> good s -> Forall (deep dc f) l ->
    exists os s', qmap (conv lower d dc f) l s = (Ok os, s') /\ good s' /\ mine n0 s' /\ ext (fun j => exists c, In c l /\ below dc c j) s s'
      /\ Forall2 (fun c o => T s' c = Some o) l os.
Proof.
  intros K. induction l as [|i l IH]; intros s M I D.
  - exists [], s. cbn. split; [reflexivity|]. split; [exact I|]. split; [exact M|]. split; [apply ext_refl|constructor].
  - inversion D as [|? ? Di Dl]; subst. destruct (K i s M I Di) as (o & s1 & E1 & I1 & M1 & X1 & T1).
    destruct (IH s1 M1 I1 Dl) as (os & s2 & E2 & I2 & M2 & X2 & F2). exists (o :: os), s2.
    change (qmap (conv lower d dc f) (i :: l)) with (have y <- conv lower d dc f i; have ys <- qmap (conv lower d dc f) l; qret (y :: ys)).
    unfold qbind at 1. rewrite E1. unfold qbind. rewrite E2. split; [reflexivity|]. split; [exact I2|]. split; [exact M2|]. split.
    + eapply ext_trans; [exact X1|exact X2|]. intros j [B|(c & Hc & B)]; [exists i|exists c]; (split; [|exact B]); [now left|now right].
    + constructor; [|exact F2]. now apply (ex_keep _ _ _ X2).
Qed.

Definition marked (x : tobj) : tobj :=
  TObj (o_index x) (o_word x) (o_lemma x) (o_pos x) (o_dep x) (o_ent x) (o_left x) (o_right x) (Some PaParser).
Lemma mark_ok : forall l s, Forall (fun o => o < List.length (ps_objs s)) l ->
  exists us s', qmap mark_parent l s = (Ok us, s') /\ ps_table s' = ps_table s /\ ps_docs s' = ps_docs s /\ List.length (ps_objs s') = List.length (ps_objs s)
    /\ forall o x, nth_error (ps_objs s) o = Some x -> nth_error (ps_objs s') o = Some (if existsb (Nat.eqb o) l then marked x else x).
Proof.
  induction l as [|o l IH]; intros s F.
  - exists [], s. cbn. auto 6.
  - inversion F as [|? ? Fo Fl]; subst. destruct (nth_error (ps_objs s) o) as [x|] eqn:E; [|apply nth_error_None in E; lia].
    set (s1 := Parser (set_obj o (marked x) (ps_objs s)) (ps_table s) (ps_docs s)).
    assert (E1 : mark_parent o s = (Ok tt, s1)) by (unfold mark_parent; now rewrite E).
    assert (L1 : List.length (ps_objs s1) = List.length (ps_objs s)) by (cbn [ps_objs s1]; now apply set_obj_len).
    destruct (IH s1) as (us & s2 & E2 & T2 & D2 & L2 & N2); [now rewrite L1|]. exists (tt :: us), s2.
    change (qmap mark_parent (o :: l)) with (have y <- mark_parent o; have ys <- qmap mark_parent l; qret (y :: ys)).
    unfold qbind at 1. rewrite E1. unfold qbind. rewrite E2. split; [reflexivity|]. split; [exact T2|]. split; [exact D2|]. split; [congruence|].
    intros p y Hp. cbn [existsb]. destruct (Nat.eqb_spec p o) as [->|N].
    + assert (y = x) by congruence. subst y. cbn [orb]. rewrite (N2 o (marked x)); [|cbn [ps_objs s1]; now apply set_obj_same]. now destruct (existsb _ l).
    + cbn [orb]. apply N2. cbn [ps_objs s1]. now rewrite set_obj_other.
Qed.

Lemma good_T s s' : (forall i, T s' i = T s i) -> (forall i o, T s i = Some o -> nth_error (ps_objs s') o = nth_error (ps_objs s) o) -> good s -> good s'.
Proof.
  intros E N [G J]. split.
  - intros i o X. rewrite E in X. destruct (G i o X) as (w & l & r & p & W & O & Fl & Fr & P1 & P2). exists w, l, r, p.
    split; [exact W|]. split; [rewrite (N i o X); exact O|]. split; [|split; [|split; [exact P1|]]].
    + eapply Forall2_weaken; [|exact Fl]. intros a b H. now rewrite E.
    + eapply Forall2_weaken; [|exact Fr]. intros a b H. now rewrite E.
    + rewrite P2. unfold headed. split; intros (j & oj & wj & A & B); exists j, oj, wj; [rewrite E|rewrite E in A]; now split.
  - intros i j o. rewrite !E. apply J.
Qed.

Lemma conv_ok n0 : forall f i s, mine n0 s -> good s -> deep dc f i ->
  exists o s', conv lower d dc f i s = (Ok o, s') /\ good s' /\ mine n0 s' /\ ext (below dc i) s s' /\ T s' i = Some o.
Proof.
  induction f as [|f IH]; intros i s M I D; [destruct D|]. pose proof (km_conv n0 (S f) i s M) as (M' & _ & _).
  destruct (T s i) as [o|] eqn:E.
  { exists o, s. split; [cbn [conv]; fold (T s i); now rewrite E|]. split; [exact I|]. split; [exact M|]. split; [apply ext_refl|exact E]. }
  destruct D as (w & W & Dk).
  set (x := fun l r => TObj i (strip (lower (w_orth w))) (w_lemma w) (w_pos w) (w_dep w) (w_ent w) l r None).
  apply Forall_app in Dk as Dk'. destruct Dk' as [Dl Dr].
  set (o := List.length (ps_objs s)).
  (* the new object *)
  set (s1 := Parser (ps_objs s ++ [x [] []]) (ps_table s) (ps_docs s)).
  assert (E1 : new_token (x [] []) s = (Ok o, s1)) by reflexivity.
  assert (L1 : List.length (ps_objs s1) = S o) by (cbn [ps_objs s1]; rewrite app_length; cbn; unfold o; lia).
  assert (X1 : ext (below dc i) s s1).
  { split; [lia|auto|intros j p A B; unfold T in *; cbn in A; congruence|]. intros p Hp _. cbn [ps_objs s1]. now apply nth_error_app1. }
  pose proof (proj1 (km_new n0 (x [] []) s M)) as M1. rewrite E1 in M1. cbn [snd] in M1.
  assert (I1 : good s1). { apply (good_T s); [reflexivity| |exact I]. intros j p Hj. cbn [ps_objs s1]. apply nth_error_app1. apply (mi_tab _ _ M j p Hj). }
  assert (No1 : forall j, T s1 j <> Some o). { intros j Hj. pose proof (mi_tab _ _ M j o Hj). unfold o in *. lia. }
  (* the left children *)
  destruct (map_ok n0 f (w_lefts w) IH s1 M1 I1 Dl) as (l & s2 & E2 & I2 & M2 & X2 & F2).
  assert (X12 : ext (fun j => exists c, In c (kids w) /\ below dc c j) s s2).
  { eapply ext_trans; [split; [|eapply (ex_keep _ _ _ X1)| |apply (ex_same _ _ _ X1)]|exact X2|].
    - apply (ex_len _ _ _ X1).
    - intros j p A B. exfalso. unfold T in *. cbn in A. congruence.
    - intros j [F|(c & Hc & B)]; [exact F|]. exists c. split; [apply in_or_app; now left|exact B].
    Unshelve. all: exact (fun _ => False). }
  assert (No2 : forall j, T s2 j <> Some o).
  { intros j Hj. destruct (T s1 j) as [p|] eqn:A; [pose proof (ex_keep _ _ _ X2 j p A); apply (No1 j); congruence|]. destruct (ex_new _ _ _ X2 j o Hj A). lia. }
  assert (L2 : o < List.length (ps_objs s2)) by (pose proof (ex_len _ _ _ X2); lia).
  (* left_children is set *)
  set (s3 := Parser (set_obj o (x l []) (ps_objs s2)) (ps_table s2) (ps_docs s2)).
  assert (E3 : put_token o (x l []) s2 = (Ok tt, s3)) by reflexivity.
  assert (L3 : List.length (ps_objs s3) = List.length (ps_objs s2)) by (cbn [ps_objs s3]; now apply set_obj_len).
  assert (I3 : good s3). { apply (good_T s2); [reflexivity| |exact I2]. intros j p Hj. cbn [ps_objs s3]. apply set_obj_other; [exact L2|]. intros ->. now apply (No2 j). }
  assert (F0 : fresh n0 o s2) by (split; [pose proof (mi_len _ _ M); unfold o; lia|exact L2]).
  pose proof (proj1 (km_put n0 o (x l []) s2 M2 F0)) as M3. rewrite E3 in M3. cbn [snd] in M3.
  (* the right children *)
  destruct (map_ok n0 f (w_rights w) IH s3 M3 I3 Dr) as (r & s4 & E4 & I4 & M4 & X4 & F4).
  assert (L4 : o < List.length (ps_objs s4)) by (pose proof (ex_len _ _ _ X4); lia).
  assert (No4 : forall j, T s4 j <> Some o).
  { intros j Hj. destruct (T s3 j) as [p|] eqn:A; [pose proof (ex_keep _ _ _ X4 j p A); apply (No2 j); change (T s2 j) with (T s3 j); congruence|]. destruct (ex_new _ _ _ X4 j o Hj A). lia. }
  assert (Ti4 : T s4 i = None).
  { destruct (T s4 i) as [p|] eqn:A; [exfalso|reflexivity]. destruct (T s3 i) as [q|] eqn:B.
    - change (T s3 i) with (T s2 i) in B. destruct (ex_new _ _ _ X12 i q B E) as [(c & Hc & Bc) _].
      apply (deep_acyclic dc (S f) i w c); auto. exists w. now split.
    - destruct (ex_new _ _ _ X4 i p A B) as [(c & Hc & Bc) _]. apply (deep_acyclic dc (S f) i w c); auto; [exists w; now split|apply in_or_app; now right]. }
  assert (Fl4 : Forall2 (fun c oc => T s4 c = Some oc) (w_lefts w) l).
  { eapply Forall2_weaken; [|exact F2]. intros c oc H. apply (ex_keep _ _ _ X4). exact H. }
  (* right_children is set *)
  set (s5 := Parser (set_obj o (x l r) (ps_objs s4)) (ps_table s4) (ps_docs s4)).
  assert (E5 : put_token o (x l r) s4 = (Ok tt, s5)) by reflexivity.
  assert (L5 : List.length (ps_objs s5) = List.length (ps_objs s4)) by (cbn [ps_objs s5]; now apply set_obj_len).
  assert (In4 : forall ks os, Forall2 (fun c oc => T s4 c = Some oc) ks os -> Forall (fun p => p < List.length (ps_objs s4)) os).
  { intros ks os F. apply Forall_forall. intros p Hp. destruct (Forall2_in_r _ _ _ p F Hp) as (c & _ & Hc). apply (mi_tab _ _ M4 c p Hc). }
  (* the parents *)
  destruct (mark_ok l s5) as (us & s6 & E6 & T6 & D6 & L6 & N6); [rewrite L5; now apply (In4 (w_lefts w))|].
  destruct (mark_ok r s6) as (vs & s7 & E7 & T7 & D7 & L7 & N7); [rewrite L6, L5; now apply (In4 (w_rights w))|].
  set (s8 := Parser (ps_objs s7) (((d, i), o) :: ps_table s7) (ps_docs s7)).
  assert (R : conv lower d dc (S f) i s = (Ok o, s8)).
  { cbn [conv]. fold (T s i). rewrite E, W. unfold x in E1, E3, E5. unfold qbind at 1. rewrite E1. unfold qbind at 1. rewrite E2. unfold qbind at 1. rewrite E3.
    unfold qbind at 1. rewrite E4. unfold qbind at 1. rewrite E5.
    unfold qbind at 1. rewrite E6. unfold qbind at 1. rewrite E7. reflexivity. }
  assert (M8 : mine n0 s8) by (rewrite R in M'; exact M').
  assert (T8 : forall j, j <> i -> T s8 j = T s4 j).
  { intros j N. unfold T. cbn [ps_table s8]. rewrite tlook_old by congruence. rewrite T7, T6. reflexivity. }
  assert (T8i : T s8 i = Some o) by (unfold T; cbn [ps_table s8]; apply tlook_new).
  assert (Keep : forall c oc, T s4 c = Some oc -> T s8 c = Some oc).
  { intros c oc H. rewrite T8; [exact H|]. intros ->. congruence. }
  (* an object after the marks *)
  assert (N8 : forall p y, nth_error (ps_objs s5) p = Some y -> nth_error (ps_objs s8) p = Some (if existsb (Nat.eqb p) (l ++ r) then marked y else y)).
  { intros p y H. cbn [ps_objs s8]. rewrite (N7 p _ (N6 p y H)). rewrite existsb_app. destruct (existsb (Nat.eqb p) l), (existsb (Nat.eqb p) r); reflexivity. }
  assert (Mem : forall j oj, T s4 j = Some oj -> (existsb (Nat.eqb oj) (l ++ r) = true <-> In j (kids w))).
  { intros j oj Hj. rewrite existsb_exists. split.
    - intros (p & Hp & Ep). apply Nat.eqb_eq in Ep. subst p. unfold kids. apply in_or_app. apply in_app_or in Hp as [Hp|Hp].
      + destruct (Forall2_in_r _ _ _ oj Fl4 Hp) as (c & Hc & Tc). assert (c = j) by (apply (go_inj _ I4 c j oj); auto). subst c. now left.
      + destruct (Forall2_in_r _ _ _ oj F4 Hp) as (c & Hc & Tc). assert (c = j) by (apply (go_inj _ I4 c j oj); auto). subst c. now right.
    - intros Hk. apply in_app_or in Hk as [Hk|Hk].
      + destruct (Forall2_in_l _ _ _ j Fl4 Hk) as (p & Hp & Tp). assert (p = oj) by congruence. subst p. exists oj. split; [apply in_or_app; now left|apply Nat.eqb_refl].
      + destruct (Forall2_in_l _ _ _ j F4 Hk) as (p & Hp & Tp). assert (p = oj) by congruence. subst p. exists oj. split; [apply in_or_app; now right|apply Nat.eqb_refl]. }
  assert (Head : forall j, headed s8 j <-> headed s4 j \/ In j (kids w)).
  { intros j. unfold headed. split.
    - intros (k & ok & wk & A & B & C). destruct (Nat.eq_dec k i) as [->|N]; [right; congruence|]. rewrite T8 in A by exact N. left. exists k, ok, wk. auto.
    - intros [(k & ok & wk & A & B & C)|H]; [exists k, ok, wk; auto|]. exists i, o, w. auto. }
  assert (Noh : ~ headed s4 i).
  { intros (k & ok & wk & A & B & C). destruct (go_ok _ I4 k ok A) as (wk' & l' & r' & p' & B' & _ & Fl' & Fr' & _). assert (wk' = wk) by congruence. subst wk'.
    apply in_app_or in C as [C|C]; [destruct (Forall2_in_l _ _ _ i Fl' C) as (y & _ & Hy)|destruct (Forall2_in_l _ _ _ i Fr' C) as (y & _ & Hy)]; congruence. }
  assert (Noi : ~ In i (kids w)).
  { intros H. apply (deep_acyclic dc (S f) i w i); auto; [exists w; now split|constructor]. }
  exists o, s8. split; [exact R|]. split; [|split; [exact M8|split; [|exact T8i]]].
  - split.
    + intros j oj Hj. destruct (Nat.eq_dec j i) as [->|N].
      * assert (oj = o) by congruence. subst oj. exists w, l, r, None. split; [exact W|]. split; [|split; [|split; [|split; [now left|]]]].
        -- rewrite (N8 o (x l r)); [|cbn [ps_objs s5]; now apply set_obj_same].
           destruct (existsb (Nat.eqb o) (l ++ r)) eqn:Ex; [exfalso|reflexivity]. apply existsb_exists in Ex as (p & Hp & Ep). apply Nat.eqb_eq in Ep. subst p.
           apply in_app_or in Hp as [Hp|Hp]; [destruct (Forall2_in_r _ _ _ o Fl4 Hp) as (c & _ & Hc)|destruct (Forall2_in_r _ _ _ o F4 Hp) as (c & _ & Hc)]; now apply (No4 c).
        -- eapply Forall2_weaken; [|exact Fl4]. exact Keep.
        -- eapply Forall2_weaken; [|exact F4]. exact Keep.
        -- split; [discriminate|]. rewrite Head. tauto.
      * rewrite T8 in Hj by exact N. destruct (go_ok _ I4 j oj Hj) as (wj & lj & rj & p & Wj & Oj & Flj & Frj & P1 & P2).
        exists wj, lj, rj, (if existsb (Nat.eqb oj) (l ++ r) then Some PaParser else p). split; [exact Wj|]. split; [|split; [|split; [|split]]].
        -- rewrite (N8 oj (mk j wj lj rj p)); [now destruct (existsb _ _)|]. cbn [ps_objs s5]. rewrite set_obj_other; [exact Oj|exact L4|]. intros ->. now apply (No4 j).
        -- eapply Forall2_weaken; [|exact Flj]. exact Keep.
        -- eapply Forall2_weaken; [|exact Frj]. exact Keep.
        -- destruct (existsb _ _); [now right|exact P1].
        -- rewrite Head. pose proof (Mem j oj Hj) as Me. destruct (existsb (Nat.eqb oj) (l ++ r)); [split; [intros _; right; now apply Me|reflexivity]|].
           rewrite P2. split; [tauto|]. intros [H|H]; [exact H|]. apply Me in H. discriminate.
    + intros j k p Hj Hk. destruct (Nat.eq_dec j i) as [->|Nj], (Nat.eq_dec k i) as [->|Nk]; [reflexivity| | |].
      * rewrite T8 in Hk by exact Nk. assert (p = o) by congruence. subst p. now destruct (No4 k).
      * rewrite T8 in Hj by exact Nj. assert (p = o) by congruence. subst p. now destruct (No4 j).
      * rewrite T8 in Hj, Hk by assumption. now apply (go_inj _ I4 j k p).
  - assert (No : forall p, p < List.length (ps_objs s) -> (forall j, T s j <> Some p) -> forall j, T s4 j <> Some p).
    { intros p Hp Np j Hj. destruct (T s3 j) as [q|] eqn:A.
      - assert (q = p) by (pose proof (ex_keep _ _ _ X4 j q A); congruence). subst q. change (T s3 j) with (T s2 j) in A. destruct (T s j) as [q|] eqn:B.
        + pose proof (ex_keep _ _ _ X12 j q B). apply (Np j). congruence.
        + destruct (ex_new _ _ _ X12 j p A B). lia.
      - destruct (ex_new _ _ _ X4 j p Hj A). unfold o in *. lia. }
    split.
    + cbn [ps_objs s8]. unfold o in *. lia.
    + intros j p Hj. apply Keep, (ex_keep _ _ _ X4). change (T s3 j) with (T s2 j). now apply (ex_keep _ _ _ X12).
    + intros j p Hj Nj. destruct (Nat.eq_dec j i) as [->|N]; [split; [constructor|assert (p = o) by congruence; subst p; unfold o; lia]|].
      rewrite T8 in Hj by exact N. destruct (T s3 j) as [q|] eqn:A.
      * assert (q = p) by (pose proof (ex_keep _ _ _ X4 j q A); congruence). subst q. change (T s3 j) with (T s2 j) in A.
        destruct (ex_new _ _ _ X12 j p A Nj) as [(c & Hc & Bc) Hl]. split; [now apply (below_kid_first dc i w c j)|exact Hl].
      * destruct (ex_new _ _ _ X4 j p Hj A) as [(c & Hc & Bc) Hl]. split; [apply (below_kid_first dc i w c j); auto; apply in_or_app; now right|unfold o in *; lia].
    + intros p Hp Np. assert (Po : p <> o) by (unfold o; lia).
      assert (A5 : nth_error (ps_objs s5) p = nth_error (ps_objs s) p).
      { cbn [ps_objs s5]. rewrite set_obj_other by assumption. rewrite (ex_same _ _ _ X4).
        - cbn [ps_objs s3]. rewrite set_obj_other by assumption. apply (ex_same _ _ _ X12); assumption.
        - unfold o in *. lia.
        - intros j Hj. apply (No p Hp Np j). now apply (ex_keep _ _ _ X4). }
      destruct (nth_error (ps_objs s) p) as [y|] eqn:Ey; [|apply nth_error_None in Ey; lia]. rewrite (N8 p y A5).
      destruct (existsb (Nat.eqb p) (l ++ r)) eqn:Ex; [exfalso|reflexivity]. apply existsb_exists in Ex as (q & Hq & Eq). apply Nat.eqb_eq in Eq. subst q.
      apply in_app_or in Hq as [Hq|Hq]; [destruct (Forall2_in_r _ _ _ p Fl4 Hq) as (c & _ & Hc)|destruct (Forall2_in_r _ _ _ p F4 Hq) as (c & _ & Hc)]; now apply (No p Hp Np c).
Qed.
End Run.
