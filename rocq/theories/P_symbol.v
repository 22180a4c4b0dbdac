(** * P_symbol.v -- proofs about the symbol model (M_symbol) *)

From Verif Require Import Py M_symbol P_py Spec P_edge M_edge.
From Coq Require Import String Zify ZifyBool ZifyN ZifyNat.
Open Scope list_scope.

(** ** split / join *)

Lemma split_char_aux_app sep cur w rest : ~ In sep w ->
  split_char_aux sep cur (w ++ rest) = split_char_aux sep (cur ++ w) rest.
Proof.
  revert cur; induction w as [|c w IH]; intros cur H; [now rewrite app_nil_r|].
  cbn [app split_char_aux]. destruct (N.eqb_spec c sep) as [->|Hc].
  - destruct H. now left.
  - rewrite IH by (intros Hi; apply H; now right). now rewrite <- app_assoc.
Qed.

Lemma split_char_join sep ws : ws <> [] -> Forall (fun w => ~ In sep w) ws ->
  split_char sep (join [sep] ws) = ws.
Proof.
  unfold split_char. intros Hn H. induction H as [|w ws Hw H IH]; [easy|].
  destruct ws as [|w2 ws].
  - cbn [join]. rewrite <- (app_nil_r w) at 1.
    rewrite split_char_aux_app by exact Hw. reflexivity.
  - rewrite join_cons, split_char_aux_app by exact Hw. cbn [app split_char_aux].
    rewrite N.eqb_refl. f_equal. now apply IH.
Qed.

Lemma split_char_aux_nonnil sep cur s : split_char_aux sep cur s <> [].
Proof. revert cur; induction s as [|c s IH]; intros cur; cbn; [easy|]. destruct (N.eqb c sep); easy. Qed.

Lemma join_split_aux sep s : forall cur, join [sep] (split_char_aux sep cur s) = cur ++ s.
Proof.
  induction s as [|c s IH]; intros cur; cbn [split_char_aux].
  - cbn. now rewrite app_nil_r.
  - destruct (N.eqb_spec c sep) as [->|Hc].
    + specialize (IH []). destruct (split_char_aux sep [] s) eqn:E.
      { now apply split_char_aux_nonnil in E. }
      rewrite join_cons, IH. reflexivity.
    + rewrite IH. now rewrite <- app_assoc.
Qed.
Lemma join_split sep s : join [sep] (split_char sep s) = s.
Proof. apply join_split_aux. Qed.

Lemma split_char_aux_nosep sep s : forall cur, ~ In sep cur ->
  Forall (fun w => ~ In sep w) (split_char_aux sep cur s).
Proof.
  induction s as [|c s IH]; intros cur H; cbn [split_char_aux]; [now repeat constructor|].
  destruct (N.eqb_spec c sep) as [->|Hc].
  - constructor; [exact H|]. now apply IH.
  - apply IH. rewrite in_app_iff. cbn. tauto.
Qed.
Lemma split_char_nosep sep s : Forall (fun w => ~ In sep w) (split_char sep s).
Proof. now apply split_char_aux_nosep. Qed.

Lemma split_char_single sep s : ~ In sep s -> split_char sep s = [s].
Proof.
  intros H. unfold split_char. rewrite <- (app_nil_r s) at 1.
  now rewrite split_char_aux_app.
Qed.

(** ** URLs *)

Lemma prefixb_In p s c : prefixb p s = true -> In c p -> In c s.
Proof. intros H Hc. apply prefixb_spec in H as [r ->]. rewrite in_app_iff. now left. Qed.

Lemma url_slash s : url s = true -> In c_slash s.
Proof.
  unfold url. intros H. apply orb_true_iff in H as [H|H];
  (eapply prefixb_In; [exact H|]); vm_compute; tauto.
Qed.
Lemma noslash_not_url s : ~ In c_slash s -> url s = false.
Proof. intros H. destruct (url s) eqn:E; [|reflexivity]. now apply url_slash in E. Qed.

Lemma sym_type_str s : sym_type (VStr s) = if url s then URL else CONCEPT.
Proof. unfold sym_type, url. destruct (prefixb (lit "http://") s), (prefixb (lit "https://") s); reflexivity. Qed.

Lemma parts_str s : parts (VStr s) = if url s then [VStr s] else List.map VStr (split_char c_slash s).
Proof. unfold parts. rewrite sym_type_str. destruct (url s); reflexivity. Qed.

Lemma build_strs l : build (List.map VStr l) = Ok (VStr (join [c_slash] l)).
Proof.
  unfold build. assert (E : mapr as_str (List.map VStr l) = Ok l).
  { induction l as [|x l IH]; cbn; [reflexivity|]. now rewrite IH. }
  now rewrite E.
Qed.

Lemma build_parts s : build (parts (VStr s)) = Ok (VStr s).
Proof.
  rewrite parts_str. destruct (url s).
  - apply (build_strs [s]).
  - rewrite build_strs. now rewrite join_split.
Qed.

Lemma parts_build ps : ps <> [] -> Forall (fun p => ~ In c_slash p) ps ->
  url (join [c_slash] ps) = false ->
  exists t, build (List.map VStr ps) = Ok (VStr t) /\ parts (VStr t) = List.map VStr ps.
Proof.
  intros Hn H Hu. exists (join [c_slash] ps). split; [apply build_strs|].
  rewrite parts_str, Hu. now rewrite split_char_join.
Qed.

(** ** roots *)

Lemma parts_hd_str s : exists r, root (VStr s) = VStr r /\
   (url s = true /\ r = s \/ url s = false /\ ~ In c_slash r).
Proof.
  unfold root. rewrite parts_str. destruct (url s) eqn:E.
  - exists s. split; [reflexivity|now left].
  - pose proof (split_char_nosep c_slash s) as H.
    destruct (split_char c_slash s) as [|r l] eqn:El.
    { now apply split_char_aux_nonnil in El. }
    exists r. split; [reflexivity|right]. split; [reflexivity|]. now inversion H.
Qed.

Lemma root_idem v : root (root v) = root v.
Proof.
  destruct v as [|s|z|f|l]; try reflexivity.
  destruct (parts_hd_str s) as (r & -> & [[Hu ->]|[Hu Hr]]).
  - unfold root. rewrite parts_str, Hu. reflexivity.
  - unfold root. rewrite parts_str, noslash_not_url by exact Hr.
    rewrite split_char_single by exact Hr. reflexivity.
Qed.

Lemma py_eq_str s t : py_eq (VStr s) (VStr t) = str_eqb s t.
Proof. reflexivity. Qed.

Lemma in_slash_split s : In c_slash s -> exists a b l, split_char c_slash s = a :: b :: l.
Proof.
  intros H. destruct (split_char c_slash s) as [|a [|b l]] eqn:E.
  - now apply split_char_aux_nonnil in E.
  - exfalso. pose proof (join_split c_slash s) as J. rewrite E in J. cbn in J. subst a.
    pose proof (split_char_nosep c_slash s) as N. rewrite E in N. inversion N; subst. easy.
  - now exists a, b, l.
Qed.

Lemma is_root_spec s :
  is_root (VStr s) = true <-> (url s = true \/ ~ In c_slash s).
Proof.
  unfold is_root. destruct (in_dec N.eq_dec c_slash s) as [Hi|Hi].
  - destruct (parts_hd_str s) as (r & -> & [[Hu ->]|[Hu Hr]]).
    + rewrite py_eq_str, str_eqb_refl. tauto.
    + rewrite py_eq_str, str_eqb_eq. split; [intros ->; easy|].
      intros [H|H]; [congruence|easy].
  - unfold root. rewrite parts_str, noslash_not_url, split_char_single by exact Hi.
    cbn [List.map hd]. rewrite py_eq_str, str_eqb_refl. tauto.
Qed.

Lemma nspace_none s : nspace (VStr s) = VNone <-> (url s = true \/ ~ In c_slash s).
Proof.
  unfold nspace. rewrite parts_str. destruct (url s) eqn:E; [tauto|].
  destruct (in_dec N.eq_dec c_slash s) as [Hi|Hi].
  - destruct (in_slash_split s Hi) as (a & b & l & ->). cbn. split; [easy|].
    intros [H|H]; easy.
  - rewrite split_char_single by exact Hi. cbn. tauto.
Qed.

Lemma is_root_nspace s : is_root (VStr s) = true <-> nspace (VStr s) = VNone.
Proof. rewrite is_root_spec, nspace_none. tauto. Qed.

Lemma root_nspace_slash r n : ~ In c_slash r -> ~ In c_slash n -> url (r ++ c_slash :: n) = false ->
  root (VStr (r ++ c_slash :: n)) = VStr r /\ nspace (VStr (r ++ c_slash :: n)) = VStr n.
Proof.
  intros Hr Hn Hu. unfold root, nspace. rewrite parts_str, Hu.
  change (r ++ c_slash :: n) with (join [c_slash] [r; n]).
  rewrite split_char_join; [now split|easy|]. repeat constructor; assumption.
Qed.

(** ** new_meaning *)

Lemma hex_digit_ok d : (d < 16)%N -> (48 <= hex_digit d <= 57 \/ 97 <= hex_digit d <= 102)%N.
Proof. unfold hex_digit. destruct (N.ltb_spec d 10); lia. Qed.

Lemma hex_aux_hex fuel : forall n acc, Forall (fun c => is_hex c = true) acc ->
  Forall (fun c => is_hex c = true) (hex_aux fuel n acc).
Proof.
  induction fuel as [|f IH]; intros n acc H; cbn [hex_aux]; [exact H|].
  destruct (N.ltb_spec n 16).
  - constructor; [|exact H]. pose proof (hex_digit_ok n ltac:(lia)). unfold is_hex. lia.
  - apply IH. constructor; [|exact H].
    pose proof (hex_digit_ok (n mod 16) ltac:(apply N.mod_lt; lia)). unfold is_hex. lia.
Qed.
Lemma hashed_hex s : Forall (fun c => is_hex c = true) (hashed s).
Proof. apply hex_aux_hex. constructor. Qed.

Lemma hex_aux_nonnil fuel : forall n acc, acc <> [] \/ fuel <> O -> hex_aux fuel n acc <> [].
Proof.
  induction fuel as [|f IH]; intros n acc H; cbn [hex_aux]; [tauto|].
  destruct (n <? 16)%N; [easy|]. apply IH. now left.
Qed.
Lemma hashed_nonnil s : hashed s <> [].
Proof. apply hex_aux_nonnil. now right. Qed.

Lemma hashed_noslash s : ~ In c_slash (hashed s).
Proof.
  intros H. pose proof (hashed_hex s) as Hh. rewrite Forall_forall in Hh.
  apply Hh in H. discriminate.
Qed.

Lemma url_cons_slash r n : ~ In c_slash r -> url (r ++ c_slash :: n) = true -> exists m, n = c_slash :: m.
Proof.
  unfold url. intros Hr H. apply orb_true_iff in H. revert H.
  assert (G : forall p, ~ In c_slash p -> prefixb (p ++ [c_slash; c_slash]) (r ++ c_slash :: n) = true ->
            exists m, n = c_slash :: m).
  { intros p Hp Hx. apply prefixb_spec in Hx as [t Ht]. revert p Hp t Ht.
    induction r as [|x r IH]; intros p Hp t Ht.
    - destruct p as [|y p]; cbn in Ht; injection Ht; [intros; subst; eauto|].
      intros _ E. destruct Hp. left. congruence.
    - destruct p as [|y p]; cbn in Ht; injection Ht.
      + intros _ E. destruct Hr. left. congruence.
      + intros E _. refine (IH _ p _ t E); [intros Hi; apply Hr; now right|].
        intros Hi. apply Hp. now right. }
  intros [H|H].
  - apply (G (lit "http:")); [vm_compute; intuition discriminate|exact H].
  - apply (G (lit "https:")); [vm_compute; intuition discriminate|exact H].
Qed.

Lemma new_meaning_root rnd r prefix : ~ In c_slash r -> ~ In c_slash prefix ->
  exists m h, new_meaning rnd (VStr r) prefix = Ok (VStr m)
    /\ root (VStr m) = VStr r /\ nspace (VStr m) = VStr (prefix ++ h)
    /\ h = hashed rnd
    /\ forall rnd' prefix', new_meaning rnd' (VStr m) prefix' = Ok (VStr m).
Proof.
  intros Hr Hp. exists (r ++ c_slash :: prefix ++ hashed rnd), (hashed rnd).
  assert (Hn : ~ In c_slash (prefix ++ hashed rnd)).
  { rewrite in_app_iff. intros [H|H]; [easy|]. now apply hashed_noslash in H. }
  assert (Hu : url (r ++ c_slash :: prefix ++ hashed rnd) = false).
  { destruct (url _) eqn:E; [|reflexivity]. apply url_cons_slash in E as (m & Em); [|exact Hr].
    destruct Hn. rewrite Em. now left. }
  split; [|split; [|split; [|split]]].
  - unfold new_meaning. assert (Ir : is_root (VStr r) = true) by (apply is_root_spec; now right).
    rewrite Ir. apply (build_strs [r; prefix ++ random_hash rnd]).
  - now apply root_nspace_slash.
  - now apply root_nspace_slash.
  - reflexivity.
  - intros rnd' prefix'. unfold new_meaning.
    destruct (is_root (VStr (r ++ c_slash :: prefix ++ hashed rnd))) eqn:E; [|reflexivity].
    apply is_root_spec in E as [E|E]; [congruence|]. destruct E. rewrite in_app_iff. right. now left.
Qed.

Lemma new_meaning_nonroot rnd s prefix : nspace (VStr s) <> VNone ->
  new_meaning rnd (VStr s) prefix = Ok (VStr s).
Proof.
  intros H. unfold new_meaning. destruct (is_root (VStr s)) eqn:E; [|reflexivity].
  now apply is_root_nspace in E.
Qed.

(** ** negative *)

Lemma is_negative_str c s : is_negative (VStr (c :: s)) = Ok (N.eqb c c_tilde).
Proof. unfold is_negative. cbn. now rewrite andb_true_r. Qed.

Lemma negative_str c s :
  negative (VStr (c :: s)) = Ok (VStr (if N.eqb c c_tilde then s else c_tilde :: c :: s)).
Proof. unfold negative. rewrite is_negative_str. cbn [rbind]. now destruct (N.eqb c c_tilde). Qed.

Lemma negative_involutive s : neg_ok s ->
  exists t b, negative (VStr s) = Ok (VStr t) /\ negative (VStr t) = Ok (VStr s)
    /\ is_negative (VStr s) = Ok b /\ is_negative (VStr t) = Ok (negb b).
Proof.
  intros (H1 & H2 & H3). destruct s as [|c s]; [easy|].
  destruct (N.eqb_spec c c_tilde) as [->|Hc].
  - destruct s as [|d s]; [easy|]. exists (d :: s), true.
    cbn [prefixb] in H3. rewrite N.eqb_refl in H3. cbn [andb] in H3.
    rewrite andb_true_r in H3. rewrite N.eqb_sym in H3.
    rewrite !negative_str, !is_negative_str. rewrite H3, N.eqb_refl. now repeat split.
  - exists (c_tilde :: c :: s), false. rewrite !negative_str, !is_negative_str.
    rewrite N.eqb_refl. replace (N.eqb c c_tilde) with false by lia. now repeat split.
Qed.

Lemma edge_negative_involutive s r : neg_ok s ->
  exists t b, edge_negative (VTup (VStr s :: r)) = Ok (VTup (VStr t :: r))
    /\ edge_negative (VTup (VStr t :: r)) = Ok (VTup (VStr s :: r))
    /\ edge_is_negative (VTup (VStr s :: r)) = Ok b
    /\ edge_is_negative (VTup (VStr t :: r)) = Ok (negb b).
Proof.
  intros H. destruct (negative_involutive s H) as (t & b & E1 & E2 & E3 & E4).
  exists t, b. unfold edge_negative, edge_is_negative, index0. cbn [as_seq rbind].
  rewrite E1, E2, E3, E4. now repeat split.
Qed.

(** ** hashed *)

Local Open Scope N_scope.

Lemma two64_nz : two64 <> 0. Proof. easy. Qed.

Lemma hash_step_mod h c : hash_step h c = (31 * (h + c)) mod two64.
Proof. unfold hash_step. rewrite N.mul_mod_idemp_r by exact two64_nz. reflexivity. Qed.

Lemma hash_fold s : forall h,
  (fold_left hash_step s h) mod two64 = (h * 31 ^ N.of_nat (List.length s) + poly s) mod two64.
Proof.
  induction s as [|c s IH]; intros h.
  - cbn. rewrite N.mul_1_r, N.add_0_r. reflexivity.
  - cbn [fold_left]. rewrite IH. rewrite hash_step_mod.
    cbn [poly]. cbn [List.length]. rewrite Nat2N.inj_succ, N.pow_succ_r by lia.
    set (k := 31 ^ N.of_nat (List.length s)).
    rewrite <- N.add_mod_idemp_l, N.mul_mod_idemp_l, N.add_mod_idemp_l by exact two64_nz.
    f_equal. lia.
Qed.

Lemma hash64_lt s : hash64 s < two64.
Proof.
  unfold hash64. destruct s as [|c s] using rev_ind; [reflexivity|].
  rewrite fold_left_app. cbn [fold_left]. rewrite hash_step_mod. now apply N.mod_lt.
Qed.

Lemma hash64_poly s : hash64 s = (hash_seed * 31 ^ N.of_nat (List.length s) + poly s) mod two64.
Proof.
  rewrite <- hash_fold. symmetry. apply N.mod_small. apply hash64_lt.
Qed.

(** hex is injective and short *)
Lemma hex_val_digit d : d < 16 -> hex_val (hex_digit d) = d.
Proof. unfold hex_val, hex_digit. intros H. destruct (N.ltb_spec d 10).
  - destruct (N.ltb_spec (48 + d) 58); lia.
  - destruct (N.ltb_spec (87 + d) 58); lia. Qed.

Lemma unhex_fold s a : fold_left (fun a c => 16 * a + hex_val c) s a
  = a * 16 ^ N.of_nat (List.length s) + unhex s.
Proof.
  unfold unhex. revert a. induction s as [|c s IH]; intros a; cbn [fold_left List.length].
  - cbn. lia.
  - rewrite IH. rewrite (IH (16 * 0 + _)). rewrite Nat2N.inj_succ, N.pow_succ_r by lia. lia.
Qed.

Lemma hex_aux_val fuel : forall n acc, n < 16 ^ N.of_nat fuel ->
  unhex (hex_aux fuel n acc) = n * 16 ^ N.of_nat (List.length acc) + unhex acc
  /\ exists p, hex_aux fuel n acc = p ++ acc
       /\ (forall k : nat, (k <> 0)%nat -> n < 16 ^ N.of_nat k -> (List.length p <= k)%nat).
Proof.
  induction fuel as [|f IH]; intros n acc H.
  - cbn in H. assert (n = 0) by lia. subst. cbn [hex_aux].
    split; [lia|]. exists []. split; [reflexivity|cbn; lia].
  - cbn [hex_aux]. destruct (N.ltb_spec n 16).
    + split.
      * unfold unhex at 1. cbn [fold_left]. rewrite unhex_fold. rewrite hex_val_digit by lia.
        now replace (16 * 0 + n) with n by lia.
      * exists [hex_digit n]. split; [reflexivity|cbn; lia].
    + rewrite Nat2N.inj_succ, N.pow_succ_r in H by lia.
      assert (Hd : n = 16 * (n / 16) + n mod 16) by (apply N.div_mod; lia).
      assert (Hm : n mod 16 < 16) by (apply N.mod_lt; lia).
      destruct (IH (n / 16) (hex_digit (n mod 16) :: acc)) as (I1 & p & Ip & Il).
      { apply N.div_lt_upper_bound; lia. }
      split.
      * rewrite I1. cbn [List.length]. unfold unhex at 1. cbn [fold_left].
        rewrite unhex_fold. rewrite hex_val_digit by lia.
        rewrite Nat2N.inj_succ, N.pow_succ_r by lia.
        set (K := 16 ^ N.of_nat (List.length acc)) in *. nia.
      * exists (p ++ [hex_digit (n mod 16)]). rewrite <- app_assoc. split; [exact Ip|].
        intros k Hk Hn. rewrite app_length. cbn [List.length].
        destruct k as [|k]; [easy|]. rewrite Nat2N.inj_succ, N.pow_succ_r in Hn by lia.
        destruct k as [|k].
        { cbn in Hn. lia. }
        specialize (Il (S k) ltac:(easy)). assert (n / 16 < 16 ^ N.of_nat (S k)).
        { apply N.div_lt_upper_bound; lia. }
        specialize (Il H1). lia.
Qed.

Lemma hex_fuel n : n < 16 ^ N.of_nat (S (N.to_nat (N.size n))).
Proof.
  rewrite Nat2N.inj_succ, N2Nat.id.
  apply N.lt_le_trans with (2 ^ N.size n); [apply N.size_gt|].
  transitivity (16 ^ N.size n).
  - apply N.pow_le_mono_l. lia.
  - apply N.pow_le_mono_r; lia.
Qed.

Lemma unhex_hex n : unhex (hex n) = n.
Proof.
  unfold hex. destruct (hex_aux_val _ n [] (hex_fuel n)) as [H _]. rewrite H. cbn [List.length].
  change (16 ^ N.of_nat 0) with 1. change (unhex []) with 0. lia.
Qed.

Lemma hex_length n (k : nat) : (k <> 0)%nat -> n < 16 ^ N.of_nat k -> (List.length (hex n) <= k)%nat.
Proof.
  intros Hk Hn. unfold hex. destruct (hex_aux_val _ n [] (hex_fuel n)) as (_ & p & -> & H).
  rewrite app_nil_r. now apply H.
Qed.

Lemma hex_no_zero n r : hex n = 48%N :: r -> r = [].
Proof.
  intros E. destruct r as [|c r]; [reflexivity|exfalso].
  assert (V : n = unhex (c :: r)).
  { rewrite <- (unhex_hex n), E. unfold unhex. cbn [fold_left]. reflexivity. }
  assert (B : Forall (fun c => is_hex c = true) (c :: r)).
  { pose proof (hex_aux_hex (S (N.to_nat (N.size n))) n [] (Forall_nil _)) as H. unfold hex in E. rewrite E in H. now inversion H. }
  assert (L : forall s, Forall (fun c => is_hex c = true) s -> unhex s < 16 ^ N.of_nat (List.length s)).
  { clear. induction s as [|c s IH]; intros H; [cbn; lia|]. inversion H as [|? ? Hc Hs]; subst. specialize (IH Hs).
    unfold unhex. cbn [fold_left List.length]. rewrite unhex_fold, Nat2N.inj_succ, N.pow_succ_r by lia.
    assert (hex_val c <= 15). { unfold is_hex in Hc. unfold hex_val. apply orb_true_iff in Hc as [Hc|Hc]; apply andb_true_iff in Hc as [Ha Hb]; apply N.leb_le in Ha, Hb; destruct (N.ltb_spec c 58); lia. }
    set (K := 16 ^ N.of_nat (List.length s)) in *. nia. }
  specialize (L _ B). rewrite <- V in L. assert (Q : (List.length (hex n) <= List.length (c :: r))%nat) by (apply hex_length; [easy|exact L]). rewrite E in Q. exact (Nat.nle_succ_diag_l _ Q).
Qed.

Lemma hashed_length s : (1 <= List.length (hashed s) <= 16)%nat.
Proof.
  split.
  - pose proof (hashed_nonnil s). destruct (hashed s); [easy|cbn; lia].
  - apply hex_length; [easy|]. apply hash64_lt.
Qed.

Lemma hashed_inj_hash s t : hashed s = hashed t <-> hash64 s = hash64 t.
Proof.
  unfold hashed. split; [|now intros ->]. intros H.
  rewrite <- (unhex_hex (hash64 s)), H. apply unhex_hex.
Qed.

Lemma poly_app a b : poly (a ++ b) = poly a * 31 ^ N.of_nat (List.length b) + poly b.
Proof.
  induction a as [|c a IH]; cbn [app poly]; [lia|]. rewrite IH.
  cbn [List.length]. rewrite app_length. replace (S (List.length a + List.length b))%nat
    with (S (List.length a) + List.length b)%nat by lia.
  rewrite Nat2N.inj_add, N.pow_add_r.
  rewrite N.mul_add_distr_r, N.mul_assoc, N.add_assoc. reflexivity.
Qed.

Lemma pow31_unit k : exists i, (31 ^ k * i) mod two64 = 1.
Proof.
  assert (H31 : exists i, (31 * i) mod two64 = 1).
  { exists 17256631552825064415. vm_compute. reflexivity. }
  destruct H31 as [i Hi]. exists (i ^ k).
  rewrite <- N.pow_mul_l.
  induction k as [|k IH] using N.peano_ind; [reflexivity|].
  rewrite N.pow_succ_r by lia. rewrite <- N.mul_mod_idemp_l, Hi by exact two64_nz.
  now rewrite N.mul_1_l.
Qed.

Lemma hash_one_char a x y b : x < two64 -> y < two64 ->
  hash64 (a ++ x :: b) = hash64 (a ++ y :: b) -> x = y.
Proof.
  intros Hx Hy. rewrite !hash64_poly. rewrite !poly_app. cbn [poly].
  rewrite !app_length. cbn [List.length].
  set (K := 31 ^ N.of_nat (S (List.length b))).
  set (A := poly a * K). set (B := poly b).
  set (H := hash_seed * _).
  intros E.
  destruct (pow31_unit (N.of_nat (S (List.length b)))) as [i Hi]. fold K in Hi.
  assert (E2 : (x * K) mod two64 = (y * K) mod two64).
  { set (R := H + A + B).
    assert (E' : (x * K + R) mod two64 = (y * K + R) mod two64).
    { unfold R. replace (x * K + (H + A + B)) with (H + (A + (x * K + B))) by lia.
      replace (y * K + (H + A + B)) with (H + (A + (y * K + B))) by lia. exact E. }
    clear E. (* cancel R modulo two64 *)
    pose proof (N.mod_lt R two64 two64_nz) as HR.
    assert (C : forall u, ((u + R) + (two64 - R mod two64)) mod two64 = u mod two64).
    { intros u. rewrite (N.div_mod R two64) at 1 by exact two64_nz.
      replace (u + (two64 * (R / two64) + R mod two64) + (two64 - R mod two64))
        with (u + (R / two64 + 1) * two64) by lia.
      apply N.mod_add. exact two64_nz. }
    rewrite <- (C (x * K)), <- (C (y * K)).
    rewrite <- (N.add_mod_idemp_l (x * K + R)), <- (N.add_mod_idemp_l (y * K + R)) by exact two64_nz.
    now rewrite E'. }
  assert (E3 : forall u, u < two64 -> (((u * K) mod two64) * i) mod two64 = u).
  { intros u Hu. rewrite N.mul_mod_idemp_l by exact two64_nz.
    rewrite <- N.mul_assoc, <- N.mul_mod_idemp_r, Hi, N.mul_1_r by exact two64_nz.
    now apply N.mod_small. }
  rewrite <- (E3 x Hx), <- (E3 y Hy). now rewrite E2.
Qed.
Local Close Scope N_scope.

(** ** str2symbol / symbol2str *)

Lemma str2symbol_map lower s :
  str2symbol lower s = List.map (fun c => if delim c then c_under else c) (lower s).
Proof.
  unfold str2symbol, replace_char. rewrite !map_map. apply map_ext. intros c. unfold delim.
  destruct (N.eqb_spec c c_slash) as [->|H1]; [reflexivity|].
  destruct (N.eqb_spec c c_space) as [->|H2]; [reflexivity|].
  destruct (N.eqb_spec c c_lpar) as [->|H3]; [reflexivity|].
  destruct (N.eqb_spec c c_rpar) as [->|H4]; reflexivity.
Qed.

Lemma str2symbol_clean lower s c : In c (str2symbol lower s) -> delim c = false.
Proof.
  rewrite str2symbol_map, in_map_iff. intros (x & <- & _). destruct (delim x) eqn:E; [reflexivity|exact E].
Qed.

Lemma str2symbol_forall2 lower s :
  Forall2 (fun a b => b = if delim a then c_under else a) (lower s) (str2symbol lower s).
Proof.
  rewrite str2symbol_map. induction (lower s); cbn; constructor; auto.
Qed.

Lemma str2symbol_id lower s : (forall c, In c (lower s) -> delim c = false) ->
  str2symbol lower s = lower s.
Proof.
  intros H. rewrite str2symbol_map. rewrite <- map_id. apply map_ext_in.
  intros c Hc. now rewrite H.
Qed.

Lemma lower_ascii_like : lower_like lower_ascii.
Proof.
  intros s t H. unfold lower_ascii in *.
  rewrite <- (map_id t) at 2. revert t H. induction s as [|c s IH]; intros t H.
  - inversion H. reflexivity.
  - inversion H as [|a b l l' Hb Hl]; subst. cbn [List.map]. f_equal; [|now apply IH].
    destruct Hb as [->| ->]; [|reflexivity].
    destruct ((65 <=? c) && (c <=? 90))%N eqn:E; [|now rewrite E].
    destruct ((65 <=? c + 32) && (c + 32 <=? 90))%N eqn:E2; [lia|reflexivity].
Qed.

Lemma str2symbol_idem lower s : lower_like lower ->
  str2symbol lower (str2symbol lower s) = str2symbol lower s.
Proof.
  intros H.
  assert (E : lower (str2symbol lower s) = str2symbol lower s).
  { apply (H s). pose proof (str2symbol_forall2 lower s) as F.
    induction F as [|a b l l' Hab F IHF]; constructor; [|exact IHF].
    subst b. destruct (delim a); tauto. }
  rewrite str2symbol_id; [exact E|]. rewrite E. intros c. apply str2symbol_clean.
Qed.

Lemma symbol2str_str2symbol lower s :
  (forall c, In c (lower s) -> c <> c_under /\ c <> c_slash /\ c <> c_lpar /\ c <> c_rpar) ->
  symbol2str (VStr (str2symbol lower s)) = Ok (lower s).
Proof.
  intros H. unfold symbol2str. rewrite sym_type_str.
  assert (Hs : ~ In c_slash (str2symbol lower s)).
  { intros Hi. apply str2symbol_clean in Hi. discriminate. }
  rewrite noslash_not_url by exact Hs.
  unfold root. rewrite parts_str, noslash_not_url, split_char_single by exact Hs.
  cbn [List.map hd as_str rbind]. f_equal. rewrite str2symbol_map. unfold replace_char.
  rewrite map_map. rewrite <- map_id. apply map_ext_in. intros c Hc.
  destruct (H c Hc) as (H1 & H2 & H3 & H4). unfold delim.
  destruct (N.eqb_spec c c_slash) as [->|]; [easy|].
  destruct (N.eqb_spec c c_lpar) as [->|]; [easy|].
  destruct (N.eqb_spec c c_rpar) as [->|]; [easy|].
  destruct (N.eqb_spec c c_space) as [->|]; [reflexivity|]. cbn [orb].
  destruct (N.eqb_spec c c_under); [easy|reflexivity].
Qed.

Lemma str2symbol_valid lower s :
  lower s <> [] ->
  (forall c, In c (lower s) -> is_space c = true -> c = c_space) ->
  looks_numeric (str2symbol lower s) = false ->
  sym_ok (str2symbol lower s) = true.
Proof.
  intros Hn Hw Hnum. unfold sym_ok. rewrite Hnum.
  assert (E1 : starts_with c_lpar (str2symbol lower s) = false).
  { destruct (str2symbol lower s) as [|c r] eqn:E; [reflexivity|]. cbn.
    destruct (N.eqb_spec c c_lpar) as [->|]; [|reflexivity].
    assert (D : delim c_lpar = false) by (apply (str2symbol_clean lower s); rewrite E; now left).
    discriminate. }
  assert (E2 : ends_with c_rpar (str2symbol lower s) = false).
  { unfold ends_with. destruct (rev (str2symbol lower s)) as [|c r] eqn:E; [reflexivity|]. cbn.
    destruct (N.eqb_spec c c_rpar) as [->|]; [|reflexivity].
    assert (D : delim c_rpar = false).
    { apply (str2symbol_clean lower s). apply in_rev. rewrite E. now left. }
    discriminate. }
  rewrite E1, E2.
  assert (E3 : no_white (str2symbol lower s) = true).
  { unfold no_white. apply forallb_forall. intros c Hc. rewrite str2symbol_map in Hc.
    apply in_map_iff in Hc as (x & <- & Hx). destruct (delim x) eqn:D; [reflexivity|].
    destruct (is_space x) eqn:S; [|reflexivity]. apply Hw in S; [|exact Hx]. subst x. discriminate. }
  rewrite E3. destruct (str2symbol lower s) eqn:E; [|reflexivity].
  rewrite str2symbol_map in E. apply map_eq_nil in E. easy.
Qed.
