(** * C_edge.v -- property theorems C01-C05, C46 (edge text codec) *)

From Verif Require Import Py M_symbol M_edge Spec P_py P_edge P_symbol P_exact.
From Coq Require Import String.
Open Scope list_scope.

(** A nested sample vertex used in the non-vacuity examples:
    ("is", ("~likes/1", -7, 0.25), ("a", "b")) *)
Definition sample_edge : value :=
  VTup [VStr (lit "is");
        VTup [VStr (lit "~likes/1"); VInt (-7); VFlt (FFin false 25 (-2))];
        VTup [VStr (lit "a"); VStr (lit "b")]].

(** C01: reading back the text of a well-formed vertex gives that vertex. *)
Theorem C01_edge_text_round_trip :
  forall v, wf_vertex v = true -> str2edge (edge2str v) = Ok v.
Proof. exact str2edge_edge2str. Qed.
Print Assumptions C01_edge_text_round_trip.
Example C01_nonvacuous : wf_vertex sample_edge = true
  /\ edge2str sample_edge = lit "(is (~likes/1 -7 0.25) (a b))".
Proof. vm_compute. split; reflexivity. Qed.

(** C02: different well-formed vertices have different texts. *)
Theorem C02_vertex_ids_unique :
  forall v w, wf_vertex v = true -> wf_vertex w = true -> edge2str v = edge2str w -> v = w.
Proof. exact edge2str_inj. Qed.
Print Assumptions C02_vertex_ids_unique.
(** None is not a vertex: its text is that of a symbol. *)
Example C02_none : edge2str VNone = lit "None" /\ edge2str (VStr (lit "None")) = lit "None".
Proof. split; reflexivity. Qed.
Example C02_nonvacuous :
  wf_vertex sample_edge = true /\ wf_vertex (VTup [VStr (lit "a"); VStr (lit "b")]) = true.
Proof. vm_compute. split; reflexivity. Qed.

(** C03: the parser never runs out of the recursion budget length(s)+1, on any
    string: it returns a value, or raises IndexError or ValueError. *)
Theorem C03_parser_terminates :
  forall s, (exists v, str2edge s = Ok v) \/ str2edge s = Err IndexError \/ str2edge s = Err ValueError.
Proof.
  intros s. destruct (str2edge s) as [v|e] eqn:E; [left; eauto|right].
  apply str2edge_benign in E as [->| ->]; tauto.
Qed.
Print Assumptions C03_parser_terminates.
Example C03_all_outcomes :
  str2edge (lit "(a (b c) 3)") = Ok (VTup [VStr (lit "a"); VTup [VStr (lit "b"); VStr (lit "c")]; VInt 3])
  /\ str2edge (lit "()") = Err IndexError /\ str2edge (lit "(a -)") = Err ValueError.
Proof. vm_compute. repeat split. Qed.

(** ** recursion depth *)

(** the number of opening brackets of a text *)
Definition brackets (s : str) : nat := List.length (filter (N.eqb c_lpar) s).
Lemma brackets_app a b : brackets (a ++ b) = (brackets a + brackets b)%nat.
Proof. unfold brackets. now rewrite filter_app, app_length. Qed.
Lemma brackets_cons c s : brackets (c :: s) = ((if N.eqb c_lpar c then 1 else 0) + brackets s)%nat.
Proof. unfold brackets. cbn [filter]. now destruct (N.eqb c_lpar c). Qed.
Lemma brackets_space : brackets [c_space] = 0%nat. Proof. reflexivity. Qed.

Lemma split_loop_tok_br ws : forall cur d r t, split_loop cur d ws = Ok r -> In t r ->
  (brackets t <= match cur with None => 0 | Some c => brackets c end + list_sum (List.map brackets ws))%nat.
Proof.
  induction ws as [|w ws IH]; intros cur d r t; cbn [split_loop].
  - intros [= <-]. easy.
  - destruct (open_pars w) as [o|]; cbn [rbind]; [|easy].
    destruct (close_pars w) as [c|]; cbn [rbind]; [|easy].
    set (cur' := match cur with None => w | Some t0 => t0 ++ [c_space] ++ w end).
    assert (Hc : (brackets cur' = match cur with None => 0 | Some c => brackets c end + brackets w)%nat).
    { unfold cur'. destruct cur; [|reflexivity]. now rewrite !brackets_app, brackets_space. }
    cbn [List.map list_sum fold_right]. fold (list_sum (List.map brackets ws)).
    destruct (d + o - c =? 0)%Z.
    + destruct (split_loop None (d + o - c) ws) as [more|] eqn:E; cbn [rbind]; [|easy].
      intros [= <-] [<-|Ht]; [lia|]. specialize (IH _ _ _ _ E Ht). cbn in IH. lia.
    + intros E Ht. specialize (IH _ _ _ _ E Ht). cbn in IH. lia.
Qed.
Lemma split_ws_aux_br s : forall cur, (list_sum (List.map brackets (split_ws_aux cur s)) <= brackets cur + brackets s)%nat.
Proof.
  induction s as [|c s IH]; intros cur; cbn [split_ws_aux].
  - destruct cur; cbn; lia.
  - rewrite brackets_cons. destruct (is_space c).
    + specialize (IH []). cbn [brackets filter List.length] in *. destruct cur as [|x cur]; [cbn in *; lia|].
      cbn [List.map list_sum fold_right]. fold (list_sum (List.map brackets (split_ws_aux [] s))). cbn in IH. lia.
    + specialize (IH (cur ++ [c])). rewrite brackets_app, brackets_cons in IH. cbn in IH. lia.
Qed.
Lemma brackets_removelast s : (brackets (removelast s) <= brackets s)%nat.
Proof.
  induction s as [|c s IH]; [cbn; lia|]. cbn [removelast]. destruct s as [|d s]; [cbn; lia|].
  rewrite brackets_cons, (brackets_cons c (d :: s)). lia.
Qed.
Lemma split_edge_str_tok_br s r t : split_edge_str s = Ok r -> In t r ->
  (brackets t <= brackets s)%nat /\ (starts_with c_lpar s = true -> (brackets t + 1 <= brackets s)%nat).
Proof.
  unfold split_edge_str. destruct s as [|c s]; [easy|]. intros E Ht.
  pose proof (split_loop_tok_br _ _ _ _ _ E Ht) as H. cbn [Nat.add] in H. unfold split_ws in H.
  cbn [starts_with]. destruct (N.eqb_spec c c_lpar) as [->|Hc].
  - pose proof (split_ws_aux_br (strip_ends (c_lpar :: s)) []) as H2. unfold strip_ends in H2 at 2. cbn [tl] in H2.
    pose proof (brackets_removelast s). rewrite brackets_cons, N.eqb_refl. cbn [brackets filter List.length] in H2. split; [lia|intros _; lia].
  - pose proof (split_ws_aux_br (c :: s) []) as H2. cbn [brackets filter List.length] in H2. cbn in H2. unfold brackets in *. cbn in *. split; [lia|easy].
Qed.
Lemma mapr_ext {A B} (f g : A -> res B) l : (forall x, In x l -> f x = g x) -> mapr f l = mapr g l.
Proof.
  induction l as [|x l IH]; intros H; cbn; [reflexivity|]. rewrite (H x (or_introl eq_refl)). destruct (g x); cbn; [|reflexivity].
  now rewrite IH by (intros y Hy; apply H; now right).
Qed.
Lemma str2edge_f_depth f1 : forall f2 s,
  (brackets s + (if starts_with c_lpar s then 1 else 2) <= f1)%nat -> (brackets s + (if starts_with c_lpar s then 1 else 2) <= f2)%nat ->
  str2edge_f f1 s = str2edge_f f2 s.
Proof.
  induction f1 as [|f1 IH]; intros [|f2] s H1 H2; try (exfalso; destruct (starts_with c_lpar s); lia).
  cbn [str2edge_f]. destruct (split_edge_str s) as [toks|e] eqn:E; cbn [rbind]; [|reflexivity].
  assert (Em : mapr (parsed_token (str2edge_f f1)) toks = mapr (parsed_token (str2edge_f f2)) toks).
  { apply mapr_ext. intros t Ht. destruct (split_edge_str_tok_br s toks t E Ht) as [B1 B2].
    unfold parsed_token. destruct t as [|c t]; [reflexivity|]. destruct (N.eqb c c_lpar) eqn:Ec; [|reflexivity].
    assert (Hs : starts_with c_lpar (c :: t) = true) by (cbn; exact Ec).
    apply IH; rewrite Hs; destruct (starts_with c_lpar s); try specialize (B2 eq_refl); lia. }
  now rewrite Em.
Qed.
Lemma brackets_length s : (brackets s <= List.length s)%nat.
Proof. unfold brackets. induction s as [|c s IH]; cbn; [lia|]. destruct (N.eqb c_lpar c); cbn in *; lia. Qed.

(** C03: recursion no deeper than the opening brackets of the text plus two is
    enough; more does not change the outcome. *)
Theorem C03_recursion_depth :
  forall s depth, (brackets s + 2 <= depth)%nat \/ (List.length s < depth)%nat -> str2edge_f depth s = str2edge s.
Proof.
  assert (K : forall s depth, (brackets s + 2 <= depth)%nat \/ (List.length s < depth)%nat ->
                 s <> [] -> (brackets s + (if starts_with c_lpar s then 1 else 2) <= depth)%nat).
  { intros s depth H Hs. destruct s as [|c s]; [easy|]. destruct H as [H|H]; [destruct (starts_with c_lpar (c :: s)); lia|].
    pose proof (brackets_length s). cbn [starts_with List.length] in *. rewrite brackets_cons. rewrite N.eqb_sym. destruct (N.eqb c c_lpar); lia. }
  intros s depth H. destruct s as [|c s].
  - destruct depth; [|reflexivity]. exfalso. destruct H as [H|H]; cbn in H; lia.
  - unfold str2edge. apply str2edge_f_depth; apply K; try discriminate; [exact H|]. right. cbn. lia.
Qed.
Print Assumptions C03_recursion_depth.
(** ... and some depth is needed: with two levels it runs out *)
Example C03_depth_nonvacuous : let s := lit "a (b (c d))" in
  brackets s = 2%nat /\ str2edge_f 4 s = str2edge s /\ str2edge_f 2 s = Err OutOfFuel.
Proof. vm_compute. repeat split. Qed.

(** C04: the shapes, spelled out. *)
Definition digits (s : str) : Prop := Forall (fun c => (48 <= c <= 57)%N) s.
Definition is_integer_text (s : str) : Prop :=
  exists sign ds, (sign = [] \/ sign = [c_minus]) /\ digits ds /\ s = sign ++ ds.
Definition is_double_text (s : str) : Prop :=
  exists sign a b, (sign = [] \/ sign = [c_minus]) /\ digits a /\ digits b
                   /\ s = sign ++ a ++ [c_dot] ++ b.

Lemma digits_b s : digits s <-> forallb is_digit s = true.
Proof.
  unfold digits. rewrite forallb_Forall. split; intros H; (eapply Forall_impl; [|exact H]); intros c Hc.
  - unfold is_digit, c_0, c_9. destruct Hc as [H1 H2].
    apply N.leb_le in H1, H2. now rewrite H1, H2.
  - now apply is_digit_bounds.
Qed.

Lemma int_shape_text s : int_shape s = true <-> is_integer_text s.
Proof.
  unfold int_shape, is_integer_text. split.
  - intros H. destruct s as [|c s]; [exists [], []; repeat split; [tauto|constructor]|].
    cbn in H. destruct (N.eqb_spec c c_minus) as [->|Hc].
    + exists [c_minus], s. repeat split; [tauto|now apply digits_b].
    + exists [], (c :: s). repeat split; [tauto|now apply digits_b].
  - intros (sign & ds & [-> | ->] & H & ->).
    + apply digits_b in H. destruct ds as [|c ds]; [reflexivity|]. cbn [app strip_minus].
      destruct (N.eqb_spec c c_minus) as [->|Hc]; [discriminate H|exact H].
    + cbn. now apply digits_b.
Qed.

Lemma split_dot_spec s a b : split_dot s = Some (a, b) -> s = a ++ [c_dot] ++ b.
Proof.
  revert a; induction s as [|c s IH]; intros a; cbn; [easy|].
  destruct (N.eqb_spec c c_dot) as [->|Hc]; [intros [= <- <-]; reflexivity|].
  destruct (split_dot s) as [[x y]|]; [|easy]. intros [= <- <-]. now rewrite (IH x eq_refl).
Qed.

Lemma dbl_shape_text s : dbl_shape s = true <-> is_double_text s.
Proof.
  unfold dbl_shape, is_double_text. split.
  - intros H.
    assert (E : exists sign r, (sign = [] \/ sign = [c_minus]) /\ snd (strip_minus s) = r /\ s = sign ++ r).
    { destruct s as [|c s]; [exists [], []; tauto|]. cbn.
      destruct (N.eqb_spec c c_minus) as [->|Hc]; [exists [c_minus], s; tauto|exists [], (c :: s); tauto]. }
    destruct E as (sign & r & Hs & Er & ->). rewrite Er in H.
    destruct (split_dot r) as [[a b]|] eqn:Ed; [|easy].
    apply andb_true_iff in H as [Ha Hb]. exists sign, a, b.
    apply split_dot_spec in Ed. subst r. repeat split; try easy; now apply digits_b.
  - intros (sign & a & b & Hs & Ha & Hb & ->).
    apply digits_b in Ha, Hb.
    assert (E : snd (strip_minus (sign ++ a ++ [c_dot] ++ b)) = a ++ [c_dot] ++ b).
    { destruct Hs as [-> | ->]; [|reflexivity]. destruct a as [|c a]; [reflexivity|]. cbn [app strip_minus].
      destruct (N.eqb_spec c c_minus) as [->|Hc]; [discriminate Ha|reflexivity]. }
    rewrite E. cbn [app]. rewrite split_dot_app by exact Ha. now rewrite Ha, Hb.
Qed.

Lemma int_not_dbl s : int_shape s = true -> dbl_shape s = false.
Proof.
  unfold int_shape, dbl_shape. generalize (snd (strip_minus s)). intros r H.
  now rewrite split_dot_digits.
Qed.

Theorem C04_token_classification :
  (forall t, token_type t = TInteger <-> is_integer_text t)
  /\ (forall t, token_type t = TDouble <-> is_double_text t)
  /\ (forall t, token_type t = TString <-> ~ is_integer_text t /\ ~ is_double_text t)
  /\ (forall z, token_type (show_Z z) = TInteger /\ py_int (show_Z z) = Ok z).
Proof.
  split; [|split; [|split]].
  - intros t. rewrite token_type_spec, <- int_shape_text.
    destruct (int_shape t), (dbl_shape t); split; easy.
  - intros t. rewrite token_type_spec, <- dbl_shape_text.
    destruct (int_shape t) eqn:E; [rewrite (int_not_dbl t E); split; easy|].
    destruct (dbl_shape t); split; easy.
  - intros t. rewrite token_type_spec, <- int_shape_text, <- dbl_shape_text.
    destruct (int_shape t) eqn:E; [split; [easy|intros [H _]; easy]|].
    destruct (dbl_shape t); split; try easy.
  - intros z. split; [|apply py_int_show]. now rewrite token_type_spec, int_shape_show.
Qed.
Print Assumptions C04_token_classification.
Example C04_nonvacuous :
  is_integer_text (lit "-42") /\ is_double_text (lit "-.5") /\ token_type (lit "a-1") = TString
  /\ token_type (lit "-") = TInteger /\ token_type (lit "1.2.3") = TString.
Proof.
  split; [exists [c_minus], (lit "42"); split; [tauto|split; [apply digits_b; reflexivity|reflexivity]]|].
  split; [exists [c_minus], [], (lit "5"); split; [tauto|split; [constructor|split; [apply digits_b; reflexivity|reflexivity]]]|].
  repeat split.
Qed.

(** C05: the shallow splitter returns the element texts: with parentheses for
    every edge, without them when the first element is an atom. *)
Theorem C05_split_recovers_elements :
  (forall l, Forall (fun v => wf_vertex v = true) l ->
     split_edge_str (edge2str (VTup l)) = Ok (List.map edge2str l))
  /\ (forall a l, wf_atom a = true -> Forall (fun v => wf_vertex v = true) l ->
     split_edge_str (nodes2str (a :: l)) = Ok (List.map edge2str (a :: l))).
Proof. split; [exact split_edge_str_tup|exact split_edge_str_bare]. Qed.
Print Assumptions C05_split_recovers_elements.

(** Without the parentheses and with an edge in first position the splitter
    eats the first and the last character of the text. *)
Theorem C05_bare_split_of_nested_head_refuted :
  exists l, Forall (fun v => wf_vertex v = true) l
    /\ split_edge_str (nodes2str l) <> Ok (List.map edge2str l).
Proof.
  exists [VTup [VStr (lit "a"); VStr (lit "b")]; VStr (lit "c")]. split.
  - repeat constructor.
  - vm_compute. discriminate.
Qed.
Print Assumptions C05_bare_split_of_nested_head_refuted.
(** What separates the elements of a text (and may not occur in a symbol): the
    white space of str.split(), character by character. *)
Definition white_space : list N :=
  [9; 10; 11; 12; 13; 28; 29; 30; 31; 32; 133; 160; 5760; 8192; 8193; 8194; 8195; 8196; 8197; 8198; 8199; 8200; 8201; 8202;
   8232; 8233; 8239; 8287; 12288]%N.
Theorem C05_white_space : forall c, is_space c = true <-> In c white_space.
Proof.
  intros c. unfold is_space, white_space. rewrite !orb_true_iff, !andb_true_iff, !N.leb_le, !N.eqb_eq. cbn [In]. lia.
Qed.
Print Assumptions C05_white_space.
Example C05_nonvacuous : Forall (fun v => wf_vertex v = true) [VStr (lit "x"); sample_edge].
Proof. repeat constructor. Qed.

(** C46: what comes back for ANY float (canonical mantissa: no trailing zero
    digit, so every Python float has one representation here).  [reread]: floats
    printed without exponent (1e-4 <= |x| < 1e16 and zero) stay floats; all the
    others, infinities and nan included, come back as the symbol that spells
    them.  Nothing else changes, at any depth. *)
Fixpoint reread (v : value) : value :=
  match v with
  | VFlt f => if flt_positional f then VFlt f else VStr (show_float f)
  | VTup l => VTup (List.map reread l)
  | _ => v
  end.
(** vertices with arbitrary floats in them *)
Fixpoint any_float_vertex (v : value) : bool :=
  match v with
  | VFlt f => flt_canon f
  | VTup l => Nat.leb 2 (List.length l) && forallb any_float_vertex l
  | _ => wf_atom v
  end.
Lemma reread_wf v : any_float_vertex v = true -> wf_vertex (reread v) = true /\ edge2str (reread v) = edge2str v.
Proof.
  induction v as [| | |f|l IH] using value_nested_ind; cbn [any_float_vertex reread]; intros H; try (split; [exact H|reflexivity]).
  - destruct (flt_positional f) eqn:E; [|now split; [apply show_float_exp|]]. split; [|reflexivity].
    cbn. unfold flt_ok. now rewrite H, E.
  - apply andb_true_iff in H as [H1 H2]. rewrite forallb_forall in H2. rewrite Forall_forall in IH.
    split.
    + unfold wf_vertex. cbn [vertex_of]. rewrite map_length, H1. cbn [andb]. apply forallb_forall. intros x Hx.
      apply in_map_iff in Hx as (y & <- & Hy). now apply IH, H2.
    + cbn [edge2str]. do 2 f_equal. f_equal. rewrite map_map. apply map_ext_in. intros y Hy. now apply IH, H2.
Qed.
Theorem C46_float_text :
  (forall v, any_float_vertex v = true -> str2edge (edge2str v) = Ok (reread v))
  /\ (forall f, flt_canon f = true ->
        (str2edge (edge2str (VFlt f)) = Ok (VFlt f) <-> flt_positional f = true)).
Proof.
  assert (A : forall v, any_float_vertex v = true -> str2edge (edge2str v) = Ok (reread v)).
  { intros v H. destruct (reread_wf v H) as [W E]. rewrite <- E. now apply str2edge_edge2str. }
  split; [exact A|]. intros f Hf. rewrite (A (VFlt f) Hf). cbn [reread].
  destruct (flt_positional f); split; intros H; try reflexivity; discriminate.
Qed.
Print Assumptions C46_float_text.
(** so not every float is read back as the same float *)
Theorem C46_float_round_trip_refuted :
  exists f, flt_canon f = true
    /\ str2edge (edge2str (VTup [VStr (lit "x"); VFlt f])) = Ok (VTup [VStr (lit "x"); VStr (show_float f)]).
Proof. exists (FFin false 1 22). split; vm_compute; reflexivity. Qed.
Print Assumptions C46_float_round_trip_refuted.
Example C46_nonvacuous :
  let v := VTup [VStr (lit "x"); VFlt (FFin true 314 (-2)); VTup [VInt 7; VFlt (FFin false 15 21); VFlt FNan; VFlt (FInf true); VFlt (FInf false)]] in
  any_float_vertex v = true /\ edge2str v = lit "(x -3.14 (7 1.5e+22 nan -inf inf))"
  /\ reread v = VTup [VStr (lit "x"); VFlt (FFin true 314 (-2)); VTup [VInt 7; VStr (lit "1.5e+22"); VStr (lit "nan"); VStr (lit "-inf"); VStr (lit "inf")]].
Proof. split; [|split]; vm_compute; reflexivity. Qed.
