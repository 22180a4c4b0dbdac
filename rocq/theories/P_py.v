(** * P_py.v -- facts about the Python substrate of Py.v *)

From Verif Require Import Double Py.
From Coq Require Import String ZifyBool ZifyNat ZifyN Permutation.
Ltac Zify.zify_post_hook ::= Z.div_mod_to_equations.

(** ** strings *)

Lemma str_eqb_eq (a b : str) : str_eqb a b = true <-> a = b.
Proof.
  revert b; induction a as [|x a IH]; intros [|y b]; cbn [str_eqb]; split; intros H; try easy.
  - apply andb_true_iff in H as [H1 H2]. apply N.eqb_eq in H1. apply IH in H2. now subst.
  - injection H as -> ->. rewrite N.eqb_refl. now apply IH.
Qed.
Lemma str_eqb_refl a : str_eqb a a = true.
Proof. now apply str_eqb_eq. Qed.
Lemma str_eqb_neq a b : str_eqb a b = false <-> a <> b.
Proof.
  split.
  - intros H E. subst. rewrite str_eqb_refl in H. easy.
  - intros H. destruct (str_eqb a b) eqn:E; [|easy]. apply str_eqb_eq in E. easy.
Qed.
Lemma str_eqb_sym a b : str_eqb a b = str_eqb b a.
Proof.
  destruct (str_eqb a b) eqn:E.
  - apply str_eqb_eq in E. subst. now rewrite str_eqb_refl.
  - apply str_eqb_neq in E. symmetry. apply str_eqb_neq. congruence.
Qed.
Lemma str_eq_dec (a b : str) : {a = b} + {a <> b}.
Proof. apply list_eq_dec, N.eq_dec. Defined.

Lemma prefixb_spec p s : prefixb p s = true <-> exists r, s = p ++ r.
Proof.
  revert s; induction p as [|x p IH]; intros s; cbn [prefixb].
  - split; [intros _; now exists s | easy].
  - destruct s as [|y s].
    + split; [easy | intros [r Hr]; easy].
    + rewrite andb_true_iff, N.eqb_eq, IH. split.
      * intros [-> [r ->]]. now exists r.
      * intros [r Hr]. injection Hr as -> ->. split; [easy | now exists r].
Qed.

Lemma prefixb_app p r : prefixb p (p ++ r) = true.
Proof. apply prefixb_spec. now exists r. Qed.

Definition nospace (w : str) : bool := forallb (fun c => negb (is_space c)) w.
Definition is_word (w : str) : Prop := w <> [] /\ nospace w = true.

Lemma nospace_app a b : nospace (a ++ b) = nospace a && nospace b.
Proof. apply forallb_app. Qed.

Lemma split_ws_aux_app cur w rest :
  nospace w = true -> split_ws_aux cur (w ++ rest) = split_ws_aux (cur ++ w) rest.
Proof.
  revert cur; induction w as [|c w IH]; intros cur H; cbn [app].
  - now rewrite app_nil_r.
  - cbn [nospace forallb] in H. apply andb_true_iff in H as [H1 H2].
    cbn [split_ws_aux]. apply negb_true_iff in H1. rewrite H1.
    rewrite IH by exact H2. now rewrite <- app_assoc.
Qed.

Lemma join_cons sep x y l : join sep (x :: y :: l) = x ++ sep ++ join sep (y :: l).
Proof. reflexivity. Qed.

Lemma join_app sep l1 l2 :
  l1 <> [] -> l2 <> [] -> join sep (l1 ++ l2) = join sep l1 ++ sep ++ join sep l2.
Proof.
  induction l1 as [|x l1 IH]; intros H1 H2; [easy|].
  destruct l1 as [|y l1].
  - destruct l2 as [|z l2]; [easy|]. reflexivity.
  - cbn [app]. rewrite !join_cons. cbn [app] in IH. rewrite IH by easy.
    now rewrite !app_assoc.
Qed.

Lemma split_ws_join ws :
  Forall is_word ws -> split_ws (join [c_space] ws) = ws.
Proof.
  unfold split_ws. intros H. induction H as [|w ws [Hw Hs] H IH]; [reflexivity|].
  destruct ws as [|w2 ws].
  - cbn [join]. rewrite <- (app_nil_r w) at 1. rewrite split_ws_aux_app by exact Hs.
    cbn. destruct w; easy.
  - rewrite join_cons, split_ws_aux_app by exact Hs.
    cbn [app]. unfold split_ws_aux at 1; fold split_ws_aux.
    change (is_space c_space) with true. cbn [app]. destruct w as [|c w]; [easy|].
    now rewrite IH.
Qed.

(** ** numerals *)

Lemma val_digits_app a b :
  val_digits (a ++ b) = (val_digits a * 10 ^ N.of_nat (List.length b) + val_digits b)%N.
Proof.
  unfold val_digits. rewrite fold_left_app.
  assert (G : forall l x, fold_left (fun acc c => (10 * acc + (c - c_0))%N) l x
     = (x * 10 ^ N.of_nat (List.length l)
        + fold_left (fun acc c => (10 * acc + (c - c_0))%N) l 0)%N).
  { induction l as [|c l IH]; intros x; cbn [fold_left List.length].
    - cbn. lia.
    - rewrite IH. rewrite (IH (10 * 0 + (c - c_0))%N).
      rewrite Nat2N.inj_succ, N.pow_succ_r'. lia. }
  apply G.
Qed.

Lemma val_digits_zeros n : val_digits (zeros n) = 0%N.
Proof.
  induction n as [|n IH]; [reflexivity|].
  change (zeros (S n)) with ([c_0] ++ zeros n). rewrite val_digits_app, IH. reflexivity.
Qed.

Lemma digit_char_is_digit d : (d < 10)%N -> is_digit (digit_char d) = true.
Proof. unfold is_digit, digit_char, c_0, c_9. lia. Qed.

Lemma show_aux_spec fuel n acc :
  (n < 10 ^ N.of_nat fuel)%N -> (0 < fuel)%nat ->
  exists ds d, show_aux fuel n acc = ds ++ digit_char d :: acc
    /\ d = (n mod 10)%N
    /\ forallb is_digit ds = true
    /\ val_digits (ds ++ [digit_char d]) = n
    /\ (n <> 0%N -> hd c_0 (ds ++ [digit_char d]) <> c_0)
    /\ (n = 0%N -> ds = []).
Proof.
  revert n acc; induction fuel as [|f IH]; intros n acc Hn Hf; [lia|].
  cbn [show_aux]. destruct (N.ltb_spec n 10) as [Hlt|Hge].
  - exists [], n. split; [reflexivity|].
    split; [lia|]. split; [reflexivity|].
    assert (val_digits ([] ++ [digit_char n]) = n).
    { unfold val_digits. cbn [app fold_left]. unfold digit_char, c_0. lia. }
    split; [assumption|]. split; [|easy].
    intros Hz. cbn. unfold digit_char, c_0. lia.
  - assert (Hf0 : (0 < f)%nat).
    { destruct f; [|lia]. change (10 ^ N.of_nat 1)%N with 10%N in Hn. lia. }
    assert (Hq : (n / 10 < 10 ^ N.of_nat f)%N).
    { rewrite Nat2N.inj_succ, N.pow_succ_r' in Hn.
      apply N.div_lt_upper_bound; lia. }
    destruct (IH (n / 10)%N (digit_char (n mod 10)%N :: acc) Hq Hf0)
      as (ds & d & E & Hd & Hdig & Hval & Hhd & _).
    exists (ds ++ [digit_char d]), (n mod 10)%N.
    split; [rewrite E; rewrite <- app_assoc; reflexivity|].
    split; [reflexivity|].
    split.
    { rewrite forallb_app, Hdig. cbn [forallb andb].
      rewrite digit_char_is_digit by lia. reflexivity. }
    split.
    { rewrite val_digits_app, Hval. cbn [List.length].
      change (10 ^ N.of_nat 1)%N with 10%N.
      unfold val_digits; cbn [fold_left]. unfold digit_char, c_0. lia. }
    split; [|intros Hz; lia].
    intros _. assert (Hnz : (n / 10)%N <> 0%N) by lia.
    specialize (Hhd Hnz). destruct ds; cbn in *; exact Hhd.
Qed.

Lemma show_N_spec n :
  exists ds d, show_N n = ds ++ [digit_char d]
    /\ d = (n mod 10)%N
    /\ forallb is_digit (show_N n) = true
    /\ val_digits (show_N n) = n
    /\ (n <> 0%N -> hd c_0 (show_N n) <> c_0)
    /\ (n = 0%N -> ds = []).
Proof.
  unfold show_N.
  assert (Hn : (n < 10 ^ N.of_nat (S (N.to_nat (N.size n))))%N).
  { rewrite Nat2N.inj_succ, N2Nat.id.
    apply N.lt_le_trans with (2 ^ N.size n)%N; [apply N.size_gt|].
    apply N.le_trans with (10 ^ N.size n)%N.
    - apply N.pow_le_mono_l; lia.
    - apply N.pow_le_mono_r; lia. }
  destruct (show_aux_spec _ n [] Hn ltac:(lia)) as (ds & d & E & Hd & Hdig & Hval & Hhd & Hz).
  exists ds, d. rewrite E. split; [reflexivity|]. split; [exact Hd|].
  split. { rewrite forallb_app, Hdig. cbn. rewrite digit_char_is_digit by lia. reflexivity. }
  repeat split; assumption.
Qed.

Lemma show_N_digits n : forallb is_digit (show_N n) = true.
Proof. now destruct (show_N_spec n) as (ds & d & _ & _ & H & _). Qed.
Lemma show_N_val n : val_digits (show_N n) = n.
Proof. now destruct (show_N_spec n) as (ds & d & _ & _ & _ & H & _). Qed.
Lemma show_N_nonnil n : show_N n <> [].
Proof. destruct (show_N_spec n) as (ds & d & H & _). rewrite H. now destruct ds. Qed.
Lemma show_N_inj a b : show_N a = show_N b -> a = b.
Proof. intros H. rewrite <- (show_N_val a), <- (show_N_val b). now rewrite H. Qed.

Lemma show_N_0 : show_N 0 = [c_0].
Proof. reflexivity. Qed.

(** digit characters *)
Lemma is_digit_bounds c : is_digit c = true -> (48 <= c <= 57)%N.
Proof. unfold is_digit, c_0, c_9. lia. Qed.

Lemma hd_digit s : forallb is_digit s = true -> s <> [] ->
  exists c r, s = c :: r /\ (48 <= c <= 57)%N /\ forallb is_digit r = true.
Proof.
  destruct s as [|c r]; [easy|]. cbn [forallb]. intros H _.
  apply andb_true_iff in H as [H1 H2]. exists c, r. split; [easy|].
  split; [now apply is_digit_bounds | easy].
Qed.

Lemma py_int_digits s : forallb is_digit s = true -> s <> [] ->
  py_int s = Ok (Z.of_N (val_digits s)).
Proof.
  intros H Hn. destruct (hd_digit s H Hn) as (c & r & -> & Hc & Hr).
  unfold py_int. replace (N.eqb c c_minus) with false by (unfold c_minus; lia).
  replace (N.eqb c c_plus) with false by (unfold c_plus; lia).
  now rewrite H.
Qed.

Lemma py_int_show z : py_int (show_Z z) = Ok z.
Proof.
  unfold show_Z. destruct (Z.ltb_spec z 0) as [Hz|Hz].
  - unfold py_int. rewrite N.eqb_refl.
    pose proof (show_N_nonnil (Z.to_N (- z))) as Hn.
    rewrite (show_N_digits (Z.to_N (- z))).
    destruct (show_N (Z.to_N (-z))) as [|c r] eqn:E; [easy|].
    rewrite <- E, show_N_val. f_equal. lia.
  - rewrite py_int_digits; [|apply show_N_digits | apply show_N_nonnil].
    rewrite show_N_val. f_equal. lia.
Qed.

Lemma show_Z_inj a b : show_Z a = show_Z b -> a = b.
Proof.
  intros H. pose proof (py_int_show a) as Ha. rewrite H, py_int_show in Ha. congruence.
Qed.

(** ** floats *)

Lemma split_dot_app a b :
  forallb is_digit a = true -> split_dot (a ++ c_dot :: b) = Some (a, b).
Proof.
  induction a as [|c a IH]; intros H; [reflexivity|].
  cbn [forallb] in H. apply andb_true_iff in H as [H1 H2].
  cbn [app split_dot]. replace (N.eqb c c_dot) with false
    by (apply is_digit_bounds in H1; unfold c_dot; lia).
  now rewrite IH.
Qed.

Lemma strip0_zeros n l : strip0 (zeros n ++ l) = let '(k, r) := strip0 l in ((n + k)%nat, r).
Proof.
  induction n as [|n IH]; cbn [zeros repeat app strip0].
  - destruct (strip0 l); reflexivity.
  - rewrite N.eqb_refl. unfold zeros in IH. rewrite IH. now destruct (strip0 l).
Qed.

Lemma rev_zeros n : rev (zeros n) = zeros n.
Proof.
  unfold zeros. induction n as [|n IH]; [reflexivity|].
  cbn [repeat rev]. rewrite IH. clear IH. induction n as [|n IH]; [reflexivity|].
  cbn [repeat app]. now rewrite IH.
Qed.
Lemma zeros_length n : List.length (zeros n) = n.
Proof. apply repeat_length. Qed.
Lemma zeros_digits n : forallb is_digit (zeros n) = true.
Proof. induction n; [reflexivity|]. cbn. assumption. Qed.

(** value of a decimal body: digits of [ip.fp] *)
Lemma py_float_body neg ip fp m e (n z : nat) :
  flt_canon (FFin neg m e) = true ->
  ip ++ fp = zeros z ++ show_N m ++ zeros n ->
  forallb is_digit ip = true ->
  (m <> 0%N -> e = Z.of_nat n - Z.of_nat (List.length fp))%Z ->
  py_float ((if neg then [c_minus] else []) ++ ip ++ c_dot :: fp) = Ok (FFin neg m e).
Proof.
  intros Hc Heq Hip He. unfold py_float.
  set (body := ip ++ c_dot :: fp).
  assert (Hsplit : strip_minus ((if neg then [c_minus] else []) ++ body) = (neg, body)).
  { destruct neg; [reflexivity|]. cbn [app]. unfold body.
    destruct ip as [|c ip]; [reflexivity|]. cbn [app strip_minus].
    cbn [forallb] in Hip. apply andb_true_iff in Hip as [H1 _].
    replace (N.eqb c c_minus) with false
      by (apply is_digit_bounds in H1; unfold c_minus; lia). reflexivity. }
  rewrite Hsplit. unfold body. rewrite split_dot_app by exact Hip. rewrite Heq.
  assert (Hdig : forallb is_digit (zeros z ++ show_N m ++ zeros n) = true).
  { rewrite !forallb_app, !zeros_digits, show_N_digits. reflexivity. }
  rewrite Hdig.
  destruct (zeros z ++ show_N m ++ zeros n) as [|c0 r0] eqn:E0.
  { exfalso. apply app_eq_nil in E0 as [_ E0]. apply app_eq_nil in E0 as [E0 _].
    now apply show_N_nonnil in E0. }
  rewrite <- E0.
  rewrite !rev_app_distr, rev_zeros, <- app_assoc, rev_zeros, strip0_zeros.
  destruct (show_N_spec m) as (ds & d & Hs & Hd & _ & Hval & Hhd & Hz).
  cbn [flt_canon] in Hc. destruct (N.eqb_spec m 0) as [Hm|Hm].
  - (* zero *)
    subst m. rewrite show_N_0. change (rev [c_0]) with (zeros 1).
    rewrite strip0_zeros. pose proof (strip0_zeros z []) as Hz0.
    rewrite app_nil_r in Hz0. rewrite Hz0. cbn [strip0 rev].
    change (val_digits []) with 0%N. rewrite N.eqb_refl.
    apply Z.eqb_eq in Hc. now subst e.
  - rewrite Hs, rev_app_distr. cbn [rev app strip0].
    replace (N.eqb (digit_char d) c_0) with false
      by (unfold digit_char, c_0; symmetry; apply N.eqb_neq; lia).
    cbn [rev].
    replace (rev (rev ds ++ zeros z) ++ [digit_char d]) with (zeros z ++ show_N m)
      by (rewrite rev_app_distr, rev_zeros, rev_involutive, <- app_assoc, Hs; reflexivity).
    rewrite val_digits_app, val_digits_zeros, Hval.
    rewrite N.mul_0_l, N.add_0_l.
    destruct (N.eqb_spec m 0) as [Hm'|_]; [easy|].
    apply andb_true_iff in Hc as [Hc Hr].
    rewrite Nat.add_0_r, <- (He Hm).
    unfold is_repr in Hr. destruct (reprint m e) as [[m1 e1]|]; [|discriminate].
    apply andb_true_iff in Hr as [H1 H2]. apply N.eqb_eq in H1. apply Z.eqb_eq in H2. now subst m1 e1.
Qed.

Lemma show_float_shape f :
  flt_canon f = true -> flt_positional f = true ->
  exists neg m e ip fp, f = FFin neg m e
    /\ show_float f = (if neg then [c_minus] else []) ++ ip ++ c_dot :: fp
    /\ ip <> [] /\ fp <> []
    /\ forallb is_digit ip = true /\ forallb is_digit fp = true
    /\ py_float (show_float f) = Ok f.
Proof.
  intros Hc Hp. destruct f as [neg m e| |]; try (cbn in Hp; discriminate).
  exists neg, m, e. unfold show_float. rewrite Hp. unfold flt_decpt.
  set (ds := show_N m) in *. set (k := List.length ds).
  assert (Hk : (0 < k)%nat).
  { unfold k, ds. pose proof (show_N_nonnil m). destruct (show_N m); [easy | cbn; lia]. }
  assert (Hdsd : forallb is_digit ds = true) by apply show_N_digits.
  assert (Hm0 : m = 0%N -> e = 0%Z).
  { intros ->. cbn [flt_canon] in Hc. rewrite N.eqb_refl in Hc. now apply Z.eqb_eq in Hc. }
  assert (Hfl : forall ip fp (n z : nat), ip <> [] -> fp <> [] ->
     ip ++ fp = zeros z ++ show_N m ++ zeros n ->
     forallb is_digit ip = true -> forallb is_digit fp = true ->
     (m <> 0%N -> e = Z.of_nat n - Z.of_nat (List.length fp))%Z ->
     exists ip' fp', FFin neg m e = FFin neg m e
    /\ (if neg then c_minus :: (ip ++ c_dot :: fp) else ip ++ c_dot :: fp)
       = (if neg then [c_minus] else []) ++ ip' ++ c_dot :: fp'
    /\ ip' <> [] /\ fp' <> []
    /\ forallb is_digit ip' = true /\ forallb is_digit fp' = true
    /\ py_float (if neg then c_minus :: (ip ++ c_dot :: fp) else ip ++ c_dot :: fp)
       = Ok (FFin neg m e)).
  { intros ip fp n z H1 H2 H3 H4 H5 H6. exists ip, fp. split; [easy|].
    split; [now destruct neg|]. repeat split; try assumption.
    rewrite <- (py_float_body neg ip fp m e n z Hc H3 H4 H6). now destruct neg. }
  destruct (Z.leb_spec (Z.of_nat k + e) 0) as [Hd1|Hd1].
  - apply (Hfl [c_0] (zeros (Z.to_nat (- (Z.of_nat k + e))) ++ ds) O
             (S (Z.to_nat (- (Z.of_nat k + e)))));
      try easy.
    + unfold ds. destruct (zeros _); [|easy]. apply show_N_nonnil.
    + cbn [zeros repeat app]. now rewrite app_nil_r.
    + rewrite forallb_app, zeros_digits. exact Hdsd.
    + intros _. rewrite app_length, zeros_length. fold k. lia.
  - destruct (Z.ltb_spec (Z.of_nat k + e) (Z.of_nat k)) as [Hd2|Hd2].
    + set (j := Z.to_nat (Z.of_nat k + e)).
      assert (Hds : firstn j ds ++ skipn j ds = ds) by apply firstn_skipn.
      assert (Hj : (0 < j < k)%nat) by (unfold j; lia).
      assert (L1 : List.length (firstn j ds) = j) by (apply firstn_length_le; fold k; lia).
      assert (L2 : List.length (skipn j ds) = (k - j)%nat) by (rewrite skipn_length; reflexivity).
      apply (Hfl (firstn j ds) (skipn j ds) O O).
      * intros E. rewrite E in L1. cbn [List.length] in L1. lia.
      * intros E. rewrite E in L2. cbn [List.length] in L2. lia.
      * cbn [zeros repeat app]. now rewrite app_nil_r.
      * rewrite <- Hds, forallb_app in Hdsd. now apply andb_true_iff in Hdsd.
      * rewrite <- Hds, forallb_app in Hdsd. now apply andb_true_iff in Hdsd.
      * intros _. rewrite L2. unfold j. lia.
    + replace (ds ++ zeros (Z.to_nat (Z.of_nat k + e) - k) ++ [c_dot; c_0])
        with ((ds ++ zeros (Z.to_nat (Z.of_nat k + e) - k)) ++ c_dot :: [c_0])
        by (now rewrite <- app_assoc).
      apply (Hfl (ds ++ zeros (Z.to_nat (Z.of_nat k + e) - k)) [c_0]
               (S (Z.to_nat (Z.of_nat k + e) - k)) O); try easy.
      * destruct ds; [cbn in Hk; lia|easy].
      * cbn [zeros repeat app]. rewrite <- app_assoc. f_equal.
        change (c_0 :: repeat c_0 (Z.to_nat (Z.of_nat k + e) - k))
          with (zeros (S (Z.to_nat (Z.of_nat k + e) - k))).
        change [c_0] with (zeros 1). unfold zeros. rewrite <- repeat_app. f_equal. lia.
      * rewrite forallb_app, zeros_digits, Hdsd. reflexivity.
      * intros Hm. cbn [List.length]. lia.
Qed.

(** ** lists and results *)

Lemma mapr_ok {A B} (f : A -> res B) (g : A -> B) l :
  (forall x, In x l -> f x = Ok (g x)) -> mapr f l = Ok (List.map g l).
Proof.
  induction l as [|x l IH]; intros H; cbn; [reflexivity|].
  rewrite H by (now left). cbn. rewrite IH by (intros; apply H; now right). reflexivity.
Qed.

Lemma mapr_in {A B} (f : A -> res B) l r y :
  mapr f l = Ok r -> In y r -> exists x, In x l /\ f x = Ok y.
Proof.
  revert r; induction l as [|x l IH]; intros r H Hy; cbn in H.
  - injection H as <-. easy.
  - destruct (f x) as [b|] eqn:E; cbn in H; [|easy].
    destruct (mapr f l) as [bs|] eqn:E2; cbn in H; [|easy].
    injection H as <-. destruct Hy as [<-|Hy].
    + exists x. split; [now left|easy].
    + destruct (IH bs eq_refl Hy) as (x' & ? & ?). exists x'. split; [now right|easy].
Qed.

Lemma mapr_length {A B} (f : A -> res B) l r : mapr f l = Ok r -> List.length r = List.length l.
Proof.
  revert r; induction l as [|x l IH]; intros r H; cbn in H.
  - now injection H as <-.
  - destruct (f x); cbn in H; [|easy]. destruct (mapr f l); cbn in H; [|easy].
    injection H as <-. cbn. now rewrite IH.
Qed.

(** ** induction over nested values *)

Section value_ind.
  Variable P : value -> Prop.
  Hypothesis HNone : P VNone.
  Hypothesis HStr : forall s, P (VStr s).
  Hypothesis HInt : forall z, P (VInt z).
  Hypothesis HFlt : forall f, P (VFlt f).
  Hypothesis HTup : forall l, Forall P l -> P (VTup l).
  Fixpoint value_nested_ind (v : value) : P v :=
    match v with
    | VNone => HNone
    | VStr s => HStr s
    | VInt z => HInt z
    | VFlt f => HFlt f
    | VTup l => HTup l ((fix go (l : list value) : Forall P l :=
                           match l with
                           | [] => Forall_nil P
                           | x :: l' => Forall_cons x (value_nested_ind x) (go l')
                           end) l)
    end.
End value_ind.

(** decidable structural equality *)
Definition float_dec (f g : pyfloat) : {f = g} + {f <> g}.
Proof. decide equality; auto using Bool.bool_dec, N.eq_dec, Z.eq_dec. Defined.

Lemma py_eq_tup l m :
  py_eq (VTup l) (VTup m) = Nat.eqb (List.length l) (List.length m)
     && forallb (fun '(x, y) => py_eq x y) (combine l m).
Proof.
  cbn [py_eq]. revert m; induction l as [|x l IH]; intros [|y m]; try reflexivity.
  rewrite IH. cbn [List.length Nat.eqb combine forallb].
  destruct (py_eq x y), (Nat.eqb (List.length l) (List.length m)); reflexivity.
Qed.
