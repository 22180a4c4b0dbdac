(** * P_exact.v -- exact answers in the cases where a round trip fails:
    texts without parentheses, floats in exponent notation, repeated negation,
    hash collisions, meanings of URLs.  Proofs only. *)

From Verif Require Import Py M_symbol M_edge Spec P_py P_edge P_symbol.
From Coq Require Import String Ascii ZArith Znumtheory Lia.
Open Scope list_scope.

(** ** Texts without parentheses *)

Lemma split_ws_aux_words s : forall cur, nospace cur = true ->
  Forall (fun w => w <> [] /\ nospace w = true /\ forall c, In c w -> In c cur \/ In c s) (split_ws_aux cur s).
Proof.
  induction s as [|c s IH]; intros cur Hc; cbn [split_ws_aux].
  - destruct cur as [|x cur]; constructor; [|constructor]. split; [easy|]. split; [exact Hc|]. tauto.
  - destruct (is_space c) eqn:E.
    + assert (Hr : Forall (fun w => w <> [] /\ nospace w = true /\ forall c0, In c0 w -> In c0 cur \/ In c0 (c :: s)) (split_ws_aux [] s)).
      { eapply Forall_impl; [|apply (IH [] eq_refl)]. intros w (H1 & H2 & H3). split; [exact H1|]. split; [exact H2|].
        intros x Hx. destruct (H3 x Hx) as [[]|H]. right. now right. }
      destruct cur as [|x cur]; [exact Hr|]. constructor; [|exact Hr]. split; [easy|]. split; [exact Hc|]. tauto.
    + assert (Hn : nospace (cur ++ [c]) = true) by (rewrite nospace_app, Hc; cbn; now rewrite E).
      eapply Forall_impl; [|apply (IH _ Hn)]. intros w (H1 & H2 & H3). split; [exact H1|]. split; [exact H2|].
      intros x Hx. destruct (H3 x Hx) as [H|H]; [|right; now right]. apply in_app_iff in H as [H|[<-|[]]]; [now left|]. right. now left.
Qed.

Lemma split_loop_plain ws : Forall plain ws -> split_loop None 0 ws = Ok ws.
Proof.
  induction 1 as [|w ws Hw H IH]; [reflexivity|].
  change (w :: ws) with ([w] ++ ws). rewrite split_loop_bal by (now apply plain_bal). rewrite IH. reflexivity.
Qed.

Lemma starts_in c s : starts_with c s = true -> In c s.
Proof. destruct s as [|x s]; cbn; [easy|]. destruct (N.eqb_spec x c) as [->|]; [now left|easy]. Qed.

Lemma split_edge_str_noparen s : s <> [] -> ~ In c_lpar s -> ~ In c_rpar s ->
  split_edge_str s = Ok (split_ws s) /\ Forall plain (split_ws s).
Proof.
  intros Hn Hl Hr.
  assert (F : Forall plain (split_ws s)).
  { eapply Forall_impl; [|apply (split_ws_aux_words s [] eq_refl)]. intros w (H1 & H2 & H3).
    split; [exact H1|]. split; [exact H2|].
    assert (Hin : forall c, In c w -> In c s) by (intros c Hc; destruct (H3 c Hc) as [[]|H]; exact H). split.
    - destruct (starts_with c_lpar w) eqn:E; [|reflexivity]. apply starts_in, Hin in E. easy.
    - destruct (ends_with c_rpar w) eqn:E; [|reflexivity]. unfold ends_with in E. apply starts_in in E.
      apply in_rev, Hin in E. easy. }
  split; [|exact F]. unfold split_edge_str. destruct s as [|c s]; [easy|].
  destruct (N.eqb_spec c c_lpar) as [->|_]; [exfalso; apply Hl; now left|]. now apply split_loop_plain.
Qed.

(** a text without parentheses reads back as itself iff it is one word that
    does not look like a number *)
Lemma str2edge_self s : ~ In c_lpar s -> ~ In c_rpar s ->
  (str2edge s = Ok (VStr s) <-> s <> [] /\ no_white s = true /\ looks_numeric s = false).
Proof.
  intros Hl Hr. split.
  - intros H. assert (Hn : s <> []) by (intros ->; discriminate).
    destruct (split_edge_str_noparen s Hn Hl Hr) as [E F]. unfold str2edge in H. cbn [str2edge_f] in H. rewrite E in H. cbn [rbind] in H.
    set (rec := str2edge_f (List.length s)) in H.
    destruct (split_ws s) as [|w ws] eqn:Ew; [discriminate|]. cbn [mapr] in H.
    inversion F as [|? ? Hw Fw]; subst.
    assert (Pw : parsed_token rec w = match token_type w with
        | TString => Ok (VStr w) | TInteger => let? z := py_int w in Ok (VInt z) | TDouble => let? x := py_float w in Ok (VFlt x) end).
    { destruct Hw as (W1 & _ & W3 & _). unfold parsed_token. destruct w as [|c w]; [easy|]. cbn in W3. now rewrite W3. }
    destruct (parsed_token rec w) as [x|e] eqn:E1; [|discriminate]. cbn [rbind] in H.
    destruct (mapr (parsed_token rec) ws) as [ys|e] eqn:E2; [|discriminate]. cbn [rbind] in H.
    destruct ys as [|y ys]; [|discriminate]. injection H as ->.
    assert (Hs : token_type w = TString /\ s = w).
    { destruct (token_type w); [destruct (py_int w); discriminate|destruct (py_float w); discriminate|].
      injection Pw as ->. now split. }
    destruct Hs as [Ht Es]. split; [exact Hn|]. split; [rewrite Es; apply Hw|].
    rewrite Es. rewrite token_type_spec in Ht. unfold looks_numeric.
    destruct (int_shape w), (dbl_shape w); try discriminate; reflexivity.
  - intros (Hn & Hw & Hx). assert (Hok : sym_ok s = true).
    { unfold sym_ok. rewrite Hw, Hx. destruct s as [|c s]; [easy|]. cbn [andb negb].
      destruct (starts_with c_lpar (c :: s)) eqn:E1; [now apply starts_in in E1|].
      destruct (ends_with c_rpar (c :: s)) eqn:E2; [|reflexivity]. unfold ends_with in E2. apply starts_in, in_rev in E2. easy. }
    apply (str2edge_edge2str (VStr s) Hok).
Qed.

Lemma str2symbol_noparen lower s : ~ In c_lpar (str2symbol lower s) /\ ~ In c_rpar (str2symbol lower s).
Proof. split; intros H; apply str2symbol_clean in H; discriminate. Qed.

Lemma str2symbol_white lower s :
  no_white (str2symbol lower s) = true <-> forall c, In c (lower s) -> is_space c = true -> c = c_space.
Proof.
  rewrite str2symbol_map. unfold no_white. rewrite forallb_forall. split.
  - intros H c Hc Hs. destruct (N.eqb_spec c c_space) as [->|Hne]; [reflexivity|exfalso].
    assert (D : delim c = false).
    { unfold delim. unfold is_space in Hs. unfold c_slash, c_space, c_lpar, c_rpar in *. lia. }
    specialize (H c). rewrite Hs in H. discriminate H. apply in_map_iff. exists c. rewrite D. now split.
  - intros H c Hc. apply in_map_iff in Hc as (x & <- & Hx). destruct (delim x) eqn:D; [reflexivity|].
    destruct (is_space x) eqn:E; [|reflexivity]. apply H in E; [|exact Hx]. subst x. discriminate.
Qed.

Lemma str2symbol_self lower s :
  str2edge (str2symbol lower s) = Ok (VStr (str2symbol lower s))
  <-> lower s <> [] /\ (forall c, In c (lower s) -> is_space c = true -> c = c_space)
      /\ looks_numeric (str2symbol lower s) = false.
Proof.
  destruct (str2symbol_noparen lower s) as [H1 H2]. rewrite (str2edge_self _ H1 H2), str2symbol_white.
  assert (X : str2symbol lower s <> [] <-> lower s <> []).
  { rewrite str2symbol_map. now destruct (lower s). }
  rewrite X. reflexivity.
Qed.

(** ** Floats *)

Lemma nonnumeric s c : In c s -> is_digit c = false -> c <> c_minus -> c <> c_dot -> looks_numeric s = false.
Proof.
  intros Hc Hd Hm Hp. unfold looks_numeric, int_shape, dbl_shape.
  assert (Hr : In c (snd (strip_minus s))).
  { destruct s as [|x s]; [easy|]. cbn. destruct (N.eqb_spec x c_minus) as [->|]; [|exact Hc].
    destruct Hc as [<-|Hc]; [easy|exact Hc]. }
  set (r := snd (strip_minus s)) in *. clearbody r.
  assert (F : forall l, In c l -> forallb is_digit l = false).
  { intros l Hl. destruct (forallb is_digit l) eqn:E; [|reflexivity]. rewrite forallb_forall in E. rewrite (E c Hl) in Hd. discriminate. }
  rewrite (F r Hr). cbn [orb]. destruct (split_dot r) as [[a b]|] eqn:E; [|reflexivity].
  assert (Er : r = a ++ c_dot :: b).
  { clear -E. revert a E. induction r as [|x r IH]; intros a E; [discriminate|]. cbn in E.
    destruct (N.eqb_spec x c_dot) as [->|]; [injection E as <- <-; reflexivity|].
    destruct (split_dot r) as [[u v]|]; [|discriminate]. injection E as <- <-. cbn. now rewrite (IH u eq_refl). }
  rewrite Er in Hr. apply in_app_iff in Hr as [Hr|[Hr|Hr]]; [now rewrite (F a Hr)|now subst|].
  rewrite (F b Hr). apply andb_false_r.
Qed.

Lemma exp_digits x : exists d, show_exp x = (if (x <? 0)%Z then c_minus else c_plus) :: d /\ forallb is_digit d = true /\ d <> [].
Proof.
  unfold show_exp. set (d := show_N _). pose proof (show_N_digits (Z.to_N (Z.abs x))) as D. pose proof (show_N_nonnil (Z.to_N (Z.abs x))) as N.
  fold d in D, N. destruct (Nat.ltb (List.length d) 2); eexists; (split; [reflexivity|]); split; [now cbn|easy|exact D|exact N].
Qed.

Lemma show_float_exp f : flt_positional f = false -> sym_ok (show_float f) = true.
Proof.
  intros Hp. destruct f as [neg m e|neg|]; [|now destruct neg|reflexivity].
  unfold show_float. rewrite Hp. pose proof (show_N_digits m) as D. pose proof (show_N_nonnil m) as Nn.
  destruct (show_N m) as [|d0 rest] eqn:Em; [easy|].
  destruct (exp_digits (flt_decpt m e - 1)) as (dd & Ed & Dd & Nd). rewrite Ed.
  set (sg := if (_ <? 0)%Z then c_minus else c_plus). set (frac := match rest with [] => [] | _ => c_dot :: rest end).
  assert (Hsg : is_space sg = false) by (unfold sg; now destruct (_ <? 0)%Z).
  cbn [forallb] in D. apply andb_true_iff in D as [D0 Dr].
  assert (W : forall l, forallb is_digit l = true -> nospace l = true).
  { intros l Hl. unfold nospace. rewrite forallb_forall in *. intros c Hc. specialize (Hl c Hc). apply is_digit_bounds in Hl. unfold is_space. lia. }
  assert (Wf : nospace frac = true) by (unfold frac; destruct rest; [reflexivity|apply (W _ Dr)]).
  assert (body_ok : forall pre, (pre = [] \/ pre = [c_minus]) ->
            sym_ok (pre ++ d0 :: frac ++ ch "e"%char :: sg :: dd) = true).
  { intros pre Hpre. unfold sym_ok. rewrite !andb_true_iff, !negb_true_iff.
    assert (N1 : no_white (pre ++ d0 :: frac ++ ch "e"%char :: sg :: dd) = true).
    { change no_white with nospace. rewrite nospace_app. change (d0 :: frac ++ ch "e"%char :: sg :: dd) with ([d0] ++ frac ++ [ch "e"%char; sg] ++ dd).
      rewrite !nospace_app, Wf, (W dd Dd). rewrite (W [d0]) by (cbn; now rewrite D0). cbn. rewrite Hsg. now destruct Hpre as [-> | ->]. }
    assert (N2 : starts_with c_lpar (pre ++ d0 :: frac ++ ch "e"%char :: sg :: dd) = false).
    { destruct Hpre as [-> | ->]; [|reflexivity]. cbn. apply is_digit_bounds in D0. unfold c_lpar. lia. }
    assert (N3 : ends_with c_rpar (pre ++ d0 :: frac ++ ch "e"%char :: sg :: dd) = false).
    { replace (pre ++ d0 :: frac ++ ch "e"%char :: sg :: dd) with ((pre ++ d0 :: frac ++ [ch "e"%char; sg]) ++ dd)
        by (rewrite <- app_assoc; cbn; now rewrite <- app_assoc).
      rewrite ends_with_app_r by exact Nd. now apply ends_with_digits. }
    assert (N4 : looks_numeric (pre ++ d0 :: frac ++ ch "e"%char :: sg :: dd) = false).
    { apply (nonnumeric _ (ch "e"%char)); try (vm_compute; congruence). apply in_app_iff. right. right. apply in_app_iff. right. now left. }
    repeat split; try assumption. now destruct Hpre as [-> | ->]. }
  destruct neg; [apply (body_ok [c_minus]); now right|apply (body_ok []); now left].
Qed.

(** ** negative *)

Lemma negative_iff s :
  (exists t, negative (VStr s) = Ok (VStr t) /\ negative (VStr t) = Ok (VStr s)) <-> neg_ok s.
Proof.
  split.
  - intros (t & E1 & E2). destruct s as [|c s]; [discriminate|]. rewrite negative_str in E1. injection E1 as <-.
    split; [easy|]. destruct (N.eqb_spec c c_tilde) as [->|Hc].
    + destruct s as [|d s]; [discriminate|]. split; [easy|]. rewrite negative_str in E2. cbn [prefixb]. rewrite N.eqb_refl. cbn [andb].
      destruct (N.eqb_spec d c_tilde) as [->|Hd].
      * exfalso. injection E2 as E2. apply (f_equal (@List.length _)) in E2. cbn in E2. lia.
      * rewrite andb_true_r. apply N.eqb_neq. congruence.
    + split; [congruence|]. cbn [prefixb]. apply andb_false_iff. left. apply N.eqb_neq. congruence.
  - intros H. destruct (negative_involutive s H) as (t & b & E1 & E2 & _). now exists t.
Qed.

Lemma is_negative_flips s :
  (exists t b, negative (VStr s) = Ok (VStr t) /\ is_negative (VStr s) = Ok b /\ is_negative (VStr t) = Ok (negb b)) <-> neg_ok s.
Proof.
  split.
  - intros (t & b & E1 & E2 & E3). destruct s as [|c s]; [discriminate|]. rewrite negative_str in E1. injection E1 as <-.
    rewrite is_negative_str in E2. injection E2 as <-.
    split; [easy|]. destruct (N.eqb_spec c c_tilde) as [->|Hc].
    + destruct s as [|d s]; [discriminate|]. split; [easy|]. rewrite is_negative_str in E3. injection E3 as E3. cbn in E3.
      cbn [prefixb]. rewrite N.eqb_refl. cbn [andb]. rewrite andb_true_r, N.eqb_sym. exact E3.
    + split; [congruence|]. cbn [prefixb]. apply andb_false_iff. left. apply N.eqb_neq. congruence.
  - intros H. destruct (negative_involutive s H) as (t & b & E1 & E2 & E3 & E4). now exists t, b.
Qed.

(** ** new_meaning of a URL *)

Lemma url_app s t : url s = true -> url (s ++ t) = true.
Proof.
  unfold url. rewrite !orb_true_iff. intros [H|H]; apply prefixb_spec in H as [r ->]; [left|right]; rewrite <- app_assoc; apply prefixb_app.
Qed.
Lemma new_meaning_url rnd u prefix : url u = true ->
  new_meaning rnd (VStr u) prefix = Ok (VStr (u ++ c_slash :: prefix ++ hashed rnd)).
Proof.
  intros H. unfold new_meaning. assert (Ir : is_root (VStr u) = true) by (apply is_root_spec; now left).
  rewrite Ir. apply (build_strs [u; prefix ++ random_hash rnd]).
Qed.

(** ** Collisions *)

Local Open Scope Z_scope.
(** the text as a number in base 31 *)
Fixpoint num31 (s : str) : Z :=
  match s with
  | [] => 0
  | c :: s' => Z.of_N c * 31 ^ Z.of_nat (List.length s') + num31 s'
  end.
Lemma poly_num31 s : Z.of_N (poly s) = 31 * num31 s.
Proof.
  induction s as [|c s IH]; [reflexivity|]. cbn [poly num31]. rewrite N2Z.inj_add, N2Z.inj_mul, N2Z.inj_pow, IH.
  cbn [List.length]. rewrite nat_N_Z, Nat2Z.inj_succ, Z.pow_succ_r by lia. change (Z.of_N 31) with 31. ring.
Qed.
Lemma num31_diff lo (s : str) : forall t : str, List.length s = List.length t ->
  Forall (fun c => (lo <= c < lo + 31)%N) s -> Forall (fun c => (lo <= c < lo + 31)%N) t ->
  - 31 ^ Z.of_nat (List.length s) < num31 s - num31 t < 31 ^ Z.of_nat (List.length s) /\ (num31 s = num31 t -> s = t).
Proof.
  induction s as [|c s IH]; intros [|d t] L Fs Ft; try discriminate.
  - cbn. split; [lia|reflexivity].
  - injection L as L. inversion Fs as [|? ? Hc Fs']; subst. inversion Ft as [|? ? Hd Ft']; subst.
    destruct (IH t L Fs' Ft') as [B I]. cbn [num31 List.length]. rewrite <- L. rewrite Nat2Z.inj_succ, Z.pow_succ_r by lia.
    set (K := 31 ^ Z.of_nat (List.length s)) in *. assert (HK : 0 < K) by (apply Z.pow_pos_nonneg; lia).
    assert (Q : -30 <= Z.of_N c - Z.of_N d <= 30) by lia. set (q := Z.of_N c - Z.of_N d) in *.
    assert (E : Z.of_N c * K + num31 s - (Z.of_N d * K + num31 t) = q * K + (num31 s - num31 t)) by (unfold q; ring).
    set (D := num31 s - num31 t) in *. assert (U : q * K <= 30 * K) by (apply Z.mul_le_mono_nonneg_r; lia).
    assert (W : -30 * K <= q * K) by (apply Z.mul_le_mono_nonneg_r; lia).
    split; [rewrite E; lia|]. intros X.
    assert (X2 : q * K + D = 0) by (rewrite <- E; lia).
    assert (q = 0).
    { destruct (Z.lt_trichotomy q 0) as [Hq|[Hq|Hq]]; [exfalso|exact Hq|exfalso].
      - assert (q * K <= -1 * K) by (apply Z.mul_le_mono_nonneg_r; lia). lia.
      - assert (1 * K <= q * K) by (apply Z.mul_le_mono_nonneg_r; lia). lia. }
    assert (c = d) by lia. subst d. f_equal. apply I. unfold D in X2. lia.
Qed.
Lemma hash_short lo (s t : str) : List.length s = List.length t -> (List.length s <= 12)%nat ->
  Forall (fun c => (lo <= c < lo + 31)%N) s -> Forall (fun c => (lo <= c < lo + 31)%N) t ->
  hashed s = hashed t -> s = t.
Proof.
  intros L L12 Fs Ft H. apply hashed_inj_hash in H. rewrite !hash64_poly, <- L in H.
  destruct (num31_diff lo s t L Fs Ft) as [B I]. apply I.
  assert (E : ((hash_seed * 31 ^ N.of_nat (List.length s) + poly s) mod two64
             = (hash_seed * 31 ^ N.of_nat (List.length s) + poly t) mod two64)%N) by exact H.
  apply (f_equal Z.of_N) in E. rewrite !N2Z.inj_mod, !N2Z.inj_add, !poly_num31 in E.
  set (A := Z.of_N (hash_seed * _)) in E. set (M := Z.of_N two64) in E.
  assert (HM : M = 18446744073709551616) by reflexivity.
  assert (D : (M | 31 * (num31 s - num31 t))).
  { replace (31 * (num31 s - num31 t)) with ((A + 31 * num31 s) - (A + 31 * num31 t)) by ring.
    apply Z.mod_divide; [lia|]. rewrite Zminus_mod, E, Z.sub_diag. reflexivity. }
  apply Gauss in D; [|apply rel_prime_sym, Zgcd_1_rel_prime; rewrite HM; reflexivity].
  destruct D as [k Hk].
  assert (P : 31 ^ Z.of_nat (List.length s) <= 31 ^ 12) by (apply Z.pow_le_mono_r; lia).
  assert (P12 : 31 ^ 12 = 787662783788549761) by reflexivity.
  clearbody M. subst M. clear - Hk B P P12.
  set (d := num31 s - num31 t) in *. assert (k = 0) by lia. lia.
Qed.
Local Close Scope Z_scope.

(** a collision survives any common text around it *)
Lemma hash_collision_ctx a s t b : List.length s = List.length t -> hashed s = hashed t ->
  hashed (a ++ s ++ b) = hashed (a ++ t ++ b).
Proof.
  intros L H. apply hashed_inj_hash. apply hashed_inj_hash in H. rewrite !hash64_poly in *.
  rewrite !poly_app, !app_length, <- L in *.
  set (K := (31 ^ N.of_nat (List.length b))%N).
  set (H0 := (hash_seed * 31 ^ N.of_nat (List.length s))%N) in H.
  assert (Cancel : (poly s mod two64 = poly t mod two64)%N).
  { pose proof (N.mod_lt H0 two64 two64_nz) as HR.
    assert (C : forall u, (((H0 + u) + (two64 - H0 mod two64)) mod two64 = u mod two64)%N).
    { intros u. rewrite (N.div_mod H0 two64) at 1 by exact two64_nz.
      replace (two64 * (H0 / two64) + H0 mod two64 + u + (two64 - H0 mod two64))%N
        with (u + (H0 / two64 + 1) * two64)%N by lia.
      apply N.mod_add. exact two64_nz. }
    rewrite <- (C (poly s)), <- (C (poly t)).
    rewrite <- (N.add_mod_idemp_l (H0 + poly s)), <- (N.add_mod_idemp_l (H0 + poly t)) by exact two64_nz. now rewrite H. }
  assert (M : forall u v R, (u mod two64 = v mod two64 -> (R + u * K) mod two64 = (R + v * K) mod two64)%N).
  { intros u v R E. rewrite <- (N.add_mod_idemp_r R (u * K)), <- (N.add_mod_idemp_r R (v * K)) by exact two64_nz.
    rewrite <- (N.mul_mod_idemp_l u), <- (N.mul_mod_idemp_l v) by exact two64_nz. now rewrite E. }
  match goal with |- ((?S + (?P + (_ + ?B))) mod _ = _)%N =>
    replace (S + (P + (poly s * K + B)))%N with ((S + P + B) + poly s * K)%N by lia;
    replace (S + (P + (poly t * K + B)))%N with ((S + P + B) + poly t * K)%N by lia end.
  now apply M.
Qed.
