(** * P_range.v -- the range scan of the index is a prefix scan *)

From Verif Require Import Py M_sql P_py Spec.
From Coq Require Import Zify ZifyBool ZifyN ZifyNat.
Ltac Zify.zify_post_hook ::= Z.div_mod_to_equations.
Open Scope list_scope.

Lemma lex_leb_cons x a y b :
  lex_leb (x :: a) (y :: b) = if N.eqb x y then lex_leb a b else N.ltb x y.
Proof. reflexivity. Qed.

Lemma lex_leb_app p a b : lex_leb (p ++ a) (p ++ b) = lex_leb a b.
Proof. induction p as [|x p IH]; cbn; [reflexivity|]. now rewrite N.eqb_refl. Qed.

Ltac lexstep :=
  rewrite lex_leb_cons;
  match goal with
  | |- context [N.eqb ?x ?y] => destruct (N.eqb_spec x y); [|lia]
  end.

Lemma base64_digits c :
  (c = 64 * (c / 64) + c mod 64 /\ c mod 64 < 64
   /\ c / 64 = 64 * (c / 4096) + (c / 64) mod 64 /\ (c / 64) mod 64 < 64
   /\ c / 4096 = 64 * (c / 262144) + (c / 4096) mod 64 /\ (c / 4096) mod 64 < 64)%N.
Proof.
  assert (E1 : (c / 4096 = c / 64 / 64)%N) by (rewrite N.div_div by easy; reflexivity).
  assert (E2 : (c / 262144 = c / 4096 / 64)%N) by (rewrite N.div_div by easy; reflexivity).
  split; [apply N.div_mod; easy|]. split; [apply N.mod_lt; easy|].
  split; [rewrite E1; apply N.div_mod; easy|]. split; [apply N.mod_lt; easy|].
  split; [rewrite E2; apply N.div_mod; easy|]. apply N.mod_lt; easy.
Qed.

Lemma utf8_char_lt c d x y : (c < d)%N ->
  lex_leb (utf8_char c ++ x) (utf8_char d ++ y) = true
  /\ lex_leb (utf8_char d ++ y) (utf8_char c ++ x) = false.
Proof.
  intros H. unfold utf8_char.
  pose proof (base64_digits c) as Bc. pose proof (base64_digits d) as Bd. revert Bc Bd.
  generalize ((c / 4096) mod 64)%N; generalize ((c / 64) mod 64)%N; generalize (c mod 64)%N;
  generalize (c / 262144)%N (c / 4096)%N (c / 64)%N.
  generalize ((d / 4096) mod 64)%N; generalize ((d / 64) mod 64)%N; generalize (d mod 64)%N;
  generalize (d / 262144)%N (d / 4096)%N (d / 64)%N.
  intros d6 d4 d2 d1 d3 d5 c6 c4 c2 c1 c3 c5 Bc Bd.
  destruct (N.ltb_spec c 128); destruct (N.ltb_spec d 128); try lia;
  [| destruct (N.ltb_spec d 2048); [|destruct (N.ltb_spec d 65536)]
   | destruct (N.ltb_spec c 2048); destruct (N.ltb_spec d 2048); try lia;
     [|destruct (N.ltb_spec d 65536)
      |destruct (N.ltb_spec c 65536); destruct (N.ltb_spec d 65536); try lia]];
  cbn [app]; rewrite !lex_leb_cons;
  repeat match goal with
  | |- context [N.eqb ?a ?b] =>
      destruct (N.eqb_spec a b); destruct (N.eqb_spec b a); try lia
  end; lia.
Qed.

Lemma utf8_order a b : lex_leb (utf8 a) (utf8 b) = lex_leb a b.
Proof.
  revert b; induction a as [|c a IH]; intros b; [reflexivity|].
  destruct b as [|d b].
  - cbn. unfold utf8_char. destruct (c <? 128)%N, (c <? 2048)%N, (c <? 65536)%N; reflexivity.
  - change (utf8 (c :: a)) with (utf8_char c ++ utf8 a).
    change (utf8 (d :: b)) with (utf8_char d ++ utf8 b).
    rewrite lex_leb_cons. destruct (N.eqb_spec c d) as [->|Hne].
    + rewrite lex_leb_app. apply IH.
    + destruct (N.ltb_spec c d).
      * now apply utf8_char_lt.
      * apply utf8_char_lt. lia.
Qed.

Lemma lex_leb_prefix_range r c t :
  lex_leb (r ++ [c]) t && negb (lex_leb (r ++ [(c + 1)%N]) t) = prefixb (r ++ [c]) t.
Proof.
  revert t; induction r as [|x r IH]; intros [|y t]; try reflexivity.
  - cbn [app prefixb]. rewrite !lex_leb_cons. cbn [lex_leb].
    destruct (N.eqb_spec c y), (N.eqb_spec (c + 1) y); try lia; cbn [andb negb]; lia.
  - cbn [app prefixb]. rewrite !lex_leb_cons. destruct (N.eqb_spec x y) as [->|Hne].
    + rewrite IH. reflexivity.
    + destruct (x <? y)%N; reflexivity.
Qed.

Lemma str_plus_1_app r c : str_plus_1 (r ++ [c]) =
  if (c + 1 <=? max_cp)%N then Ok (r ++ [(c + 1)%N]) else Err ValueError.
Proof. unfold str_plus_1. rewrite rev_app_distr. cbn. now rewrite rev_involutive. Qed.

Lemma in_range_prefix s hi t : str_plus_1 s = Ok hi -> in_range s hi t = prefixb s t.
Proof.
  destruct s as [|c r _] using rev_ind; [easy|]. rewrite str_plus_1_app.
  destruct (c + 1 <=? max_cp)%N; [|easy]. intros [= <-].
  unfold in_range, lex_ltb. rewrite !utf8_order. apply lex_leb_prefix_range.
Qed.

(** storable texts: the bounds exist and can be bound *)
Lemma db_text_scalar s : db_text s = true -> forallb is_scalar s = true.
Proof. unfold db_text. now intros [[H _]%andb_true_iff _]%andb_true_iff. Qed.

Lemma scalar_bindable s : forallb is_scalar s = true -> bindable s = true.
Proof.
  unfold bindable. rewrite !forallb_forall. intros H c Hc. apply H in Hc.
  unfold is_scalar in Hc. now apply andb_true_iff in Hc as [_ Hc].
Qed.

Lemma db_text_plus_1 s : s <> [] -> db_text s = true ->
  exists hi, str_plus_1 s = Ok hi /\ bindable s = true /\ bindable hi = true.
Proof.
  intros Hn H. pose proof (db_text_scalar s H) as Hs.
  destruct s as [|c r _] using rev_ind; [easy|].
  unfold db_text in H. apply andb_true_iff in H as [H H2]. apply andb_true_iff in H as [_ H1].
  unfold ends_with in *. rewrite rev_app_distr in *. cbn [rev app starts_with] in *.
  rewrite forallb_app in Hs. cbn [forallb] in Hs. apply andb_true_iff in Hs as [Hs1 Hs2].
  exists (r ++ [(c + 1)%N]). rewrite str_plus_1_app.
  unfold is_scalar, is_surrogate, max_cp in *.
  replace (c + 1 <=? 1114111)%N with true by lia. split; [reflexivity|].
  split.
  - unfold bindable. rewrite forallb_app. apply scalar_bindable in Hs1. unfold bindable in Hs1.
    rewrite Hs1. cbn [forallb]. unfold is_surrogate. lia.
  - unfold bindable. rewrite forallb_app. apply scalar_bindable in Hs1. unfold bindable in Hs1.
    rewrite Hs1. cbn [forallb]. unfold is_surrogate. lia.
Qed.
