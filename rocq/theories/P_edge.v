(** * P_edge.v -- proofs about the edge text format *)

From Verif Require Import Py P_py M_symbol M_edge Spec.
From Coq Require Import String ZifyBool ZifyNat ZifyN.

Lemma forallb_Forall {A} (f : A -> bool) l : forallb f l = true <-> Forall (fun x => f x = true) l.
Proof.
  induction l as [|x l IH]; cbn; [split; [constructor|easy]|].
  rewrite andb_true_iff, IH. split; [intros [? ?]; now constructor|inversion 1; easy].
Qed.
Lemma vertex_of_tup P l :
  vertex_of P (VTup l) = true <-> (2 <= List.length l)%nat /\ Forall (fun v => vertex_of P v = true) l.
Proof.
  cbn [vertex_of]. rewrite andb_true_iff, Nat.leb_le, forallb_Forall. reflexivity.
Qed.
Lemma wf_vertex_tup l :
  wf_vertex (VTup l) = true <-> (2 <= List.length l)%nat /\ Forall (fun v => wf_vertex v = true) l.
Proof. apply vertex_of_tup. Qed.

(** ** Word-level view of the text of a vertex *)

Fixpoint snoc_last (ws : list str) : list str :=
  match ws with
  | [] => []
  | [w] => [w ++ [c_rpar]]
  | w :: r => w :: snoc_last r
  end.
Definition wrap (ws : list str) : list str :=
  match ws with [] => [] | w :: r => snoc_last ((c_lpar :: w) :: r) end.
Fixpoint words (v : value) : list str :=
  match v with
  | VTup l => wrap (flat_map words l)
  | _ => [show_atom v]
  end.

Lemma snoc_last_app ws w : snoc_last (ws ++ [w]) = ws ++ [w ++ [c_rpar]].
Proof.
  induction ws as [|x ws IH]; [reflexivity|].
  cbn [app]. rewrite <- IH. destruct (ws ++ [w]) eqn:E; [|reflexivity].
  now destruct ws.
Qed.

Lemma join_snoc_last ws : ws <> [] -> join [c_space] (snoc_last ws) = join [c_space] ws ++ [c_rpar].
Proof.
  induction ws as [|w ws IH]; intros H; [easy|].
  destruct ws as [|w2 ws]; [reflexivity|].
  change (snoc_last (w :: w2 :: ws)) with (w :: snoc_last (w2 :: ws)).
  destruct (snoc_last (w2 :: ws)) as [|y ys] eqn:E.
  - exfalso. cbn in E. destruct ws; discriminate.
  - rewrite !join_cons, IH by easy. now rewrite !app_assoc.
Qed.

Lemma join_wrap ws : ws <> [] ->
  join [c_space] (wrap ws) = c_lpar :: join [c_space] ws ++ [c_rpar].
Proof.
  intros H. destruct ws as [|w r]; [easy|]. unfold wrap.
  rewrite join_snoc_last by easy. destruct r; reflexivity.
Qed.

Lemma wrap_nil ws : wrap ws = [] -> ws = [].
Proof. destruct ws as [|w r]; [easy|]. cbn. destruct r; discriminate. Qed.

Lemma join_flat_map (f : value -> list str) l :
  Forall (fun v => f v <> []) l ->
  join [c_space] (flat_map f l) = join [c_space] (List.map (fun v => join [c_space] (f v)) l).
Proof.
  induction 1 as [|v l Hv H IH]; [reflexivity|].
  cbn [flat_map List.map]. destruct l as [|v2 l].
  - cbn. now rewrite app_nil_r.
  - rewrite join_app, IH; [reflexivity|exact Hv|].
    inversion H as [|? ? Hv2 ?]; subst. cbn. now destruct (f v2).
Qed.

Lemma words_nonnil v : wf_vertex v = true -> words v <> [].
Proof.
  induction v as [| | | |l IH] using value_nested_ind; cbn; try easy.
  intros H. apply andb_true_iff in H as [Hlen Hl].
  intros E. apply wrap_nil in E. destruct l as [|v l]; [cbn in Hlen; lia|].
  cbn in E. apply app_eq_nil in E as [E _]. inversion IH as [|? ? Hv _]; subst.
  cbn in Hl. apply andb_true_iff in Hl as [Hv1 _]. now apply Hv in Hv1.
Qed.

Lemma edge2str_words v : wf_vertex v = true -> edge2str v = join [c_space] (words v).
Proof.
  induction v as [| | | |l IH] using value_nested_ind; cbn -[join wrap]; try easy.
  intros H. apply andb_true_iff in H as [Hlen Hl]. apply forallb_Forall in Hl.
  assert (Hn : Forall (fun v => words v <> []) l).
  { eapply Forall_impl; [|exact Hl]. intros v. apply words_nonnil. }
  rewrite join_wrap.
  - rewrite join_flat_map by exact Hn. f_equal. f_equal. f_equal.
    apply map_ext_in. intros v Hv. rewrite Forall_forall in IH, Hl. now apply IH, Hl.
  - destruct l as [|v l]; [cbn in Hlen; lia|]. cbn. inversion Hn; subst.
    now destruct (words v).
Qed.

(** ** Parenthesis depth *)

Definition delta (w : str) : Z :=
  match open_pars w, close_pars w with Ok o, Ok c => (o - c)%Z | _, _ => 0%Z end.
Definition goodw (w : str) : Prop :=
  is_word w /\ exists o c, open_pars w = Ok o /\ close_pars w = Ok c.
Fixpoint dsum (ws : list str) : Z :=
  match ws with [] => 0%Z | w :: r => (delta w + dsum r)%Z end.

Lemma dsum_app a b : dsum (a ++ b) = (dsum a + dsum b)%Z.
Proof. induction a as [|x a IH]; cbn; [lia|]. rewrite IH. lia. Qed.

Definition nonneg (ws : list str) : Prop := forall p q, ws = p ++ q -> (0 <= dsum p)%Z.
Definition bal (ws : list str) : Prop :=
  Forall goodw ws /\ ws <> [] /\ dsum ws = 0%Z
  /\ forall p q, ws = p ++ q -> p <> [] -> q <> [] -> (1 <= dsum p)%Z.

Lemma bal_nonneg ws : bal ws -> nonneg ws.
Proof.
  intros (_ & _ & H0 & H) p q E. destruct p as [|x p]; [cbn; lia|].
  destruct q as [|y q].
  - rewrite app_nil_r in E. rewrite <- E. lia.
  - specialize (H _ _ E ltac:(easy) ltac:(easy)). lia.
Qed.

Lemma app_split {A} (a b p q : list A) :
  a ++ b = p ++ q ->
  (exists r, p = a ++ r /\ b = r ++ q) \/ (exists r, a = p ++ r /\ q = r ++ b).
Proof.
  revert p; induction a as [|x a IH]; intros p E; cbn in E.
  - left. exists p. easy.
  - destruct p as [|y p]; cbn in E.
    + right. exists (x :: a). easy.
    + injection E as -> E. destruct (IH _ E) as [(r & -> & ->)|(r & -> & ->)].
      * left. exists r. easy.
      * right. exists r. easy.
Qed.

Lemma nonneg_app a b : nonneg a -> dsum a = 0%Z -> nonneg b -> nonneg (a ++ b).
Proof.
  intros Ha H0 Hb p q E. destruct (app_split _ _ _ _ E) as [(r & -> & E2)|(r & E2 & _)].
  - rewrite dsum_app. specialize (Hb _ _ E2). lia.
  - exact (Ha _ _ E2).
Qed.

Lemma open_pars_cons_lpar w : open_pars (c_lpar :: w) = (let? n := open_pars w in Ok (1 + n)%Z).
Proof. reflexivity. Qed.
Lemma close_pars_snoc w : close_pars (w ++ [c_rpar]) = (let? n := close_pars w in Ok (1 + n)%Z).
Proof. unfold close_pars. rewrite rev_app_distr. reflexivity. Qed.
Lemma open_pars_app w x o : open_pars w = Ok o -> open_pars (w ++ x) = Ok o.
Proof.
  revert o; induction w as [|c w IH]; intros o; cbn; [easy|].
  destruct (N.eqb c c_lpar); [|easy].
  destruct (open_pars w) as [n|]; cbn; [|easy]. intros H. now rewrite (IH n).
Qed.
Lemma close_pars_cons w x o : close_pars w = Ok o -> close_pars (x :: w) = Ok o.
Proof.
  unfold close_pars. cbn [rev]. generalize (rev w). clear w.
  intros w; revert o; induction w as [|c w IH]; intros o; cbn; [easy|].
  destruct (N.eqb c c_rpar); [|easy].
  destruct (count_close w) as [n|]; cbn; [|easy]. intros H. now rewrite (IH n).
Qed.

Lemma lpar_nospace : is_space c_lpar = false. Proof. reflexivity. Qed.
Lemma rpar_nospace : is_space c_rpar = false. Proof. reflexivity. Qed.

Lemma goodw_lpar w : goodw w -> goodw (c_lpar :: w) /\ delta (c_lpar :: w) = (1 + delta w)%Z.
Proof.
  intros ((Hn & Hs) & o & c & Ho & Hc). unfold delta.
  rewrite open_pars_cons_lpar, (close_pars_cons _ _ _ Hc), Ho, Hc. cbn.
  split; [|lia]. split.
  - split; [easy|]. cbn. exact Hs.
  - exists (1 + o)%Z, c. rewrite open_pars_cons_lpar, (close_pars_cons _ _ _ Hc), Ho. easy.
Qed.
Lemma goodw_rpar w : goodw w -> goodw (w ++ [c_rpar]) /\ delta (w ++ [c_rpar]) = (delta w - 1)%Z.
Proof.
  intros ((Hn & Hs) & o & c & Ho & Hc). unfold delta.
  rewrite close_pars_snoc, (open_pars_app _ _ _ Ho), Ho, Hc. cbn.
  split; [|lia]. split.
  - split; [now destruct w|]. rewrite nospace_app, Hs. reflexivity.
  - exists o, (1 + c)%Z. rewrite close_pars_snoc, (open_pars_app _ _ _ Ho), Hc. easy.
Qed.

Lemma split_ends {A} (a b : A) m p q :
  a :: m ++ [b] = p ++ q -> p <> [] -> q <> [] ->
  exists p' q', p = a :: p' /\ q = q' ++ [b] /\ m = p' ++ q'.
Proof.
  intros E Hp Hq. destruct p as [|x p]; [easy|]. injection E as -> E.
  destruct (exists_last Hq) as (q' & y & ->).
  rewrite app_assoc in E. apply app_inj_tail in E as [-> ->].
  exists p, q'. easy.
Qed.

Lemma ends_decomp {A} (l : list A) : (2 <= List.length l)%nat ->
  exists a m b, l = a :: m ++ [b].
Proof.
  destruct l as [|a l]; cbn; [lia|]. intros H.
  destruct l as [|b l]; [cbn in H; lia|].
  destruct (exists_last (l := b :: l) ltac:(easy)) as (m & z & ->). now exists a, m, z.
Qed.

Lemma wrap_bal C :
  Forall goodw C -> (2 <= List.length C)%nat -> dsum C = 0%Z -> nonneg C -> bal (wrap C).
Proof.
  intros Hg Hlen H0 Hnn. destruct (ends_decomp C Hlen) as (w & m & z & ->).
  unfold wrap. rewrite app_comm_cons, snoc_last_app.
  inversion Hg as [|? ? Hw Hrest]; subst. apply Forall_app in Hrest as [Hm Hz].
  inversion Hz as [|? ? Hz1 _]; subst.
  destruct (goodw_lpar w Hw) as [Hw' Dw]. destruct (goodw_rpar z Hz1) as [Hz' Dz].
  split; [|split; [easy|split]].
  - constructor; [exact Hw'|]. apply Forall_app. split; [exact Hm|]. now constructor.
  - cbn in H0 |- *. rewrite dsum_app in *. cbn in H0 |- *. lia.
  - intros p q E Hp Hq.
    destruct (split_ends _ _ _ _ _ E Hp Hq) as (p' & q' & -> & -> & ->).
    specialize (Hnn (w :: p') (q' ++ [z])). cbn in Hnn |- *.
    specialize (Hnn ltac:(now rewrite <- app_assoc)). lia.
Qed.

(** *** atoms *)

Lemma int_digits_word s : forallb is_digit s = true -> s <> [] -> is_word s.
Proof.
  intros H Hn. split; [exact Hn|]. unfold nospace.
  rewrite forallb_forall in *. intros c Hc. specialize (H c Hc).
  apply is_digit_bounds in H. unfold is_space. lia.
Qed.

Lemma open_pars_0 s : s <> [] -> starts_with c_lpar s = false -> open_pars s = Ok 0%Z.
Proof. destruct s as [|c s]; [easy|]. cbn. intros _ ->. reflexivity. Qed.
Lemma close_pars_0 s : s <> [] -> ends_with c_rpar s = false -> close_pars s = Ok 0%Z.
Proof.
  unfold close_pars, ends_with. intros H. destruct (rev s) as [|c r] eqn:E.
  - exfalso. apply H. rewrite <- (rev_involutive s), E. reflexivity.
  - cbn. intros ->. reflexivity.
Qed.

(** text of an atom: non-empty, no white space, no outer parenthesis *)
Definition plain (s : str) : Prop :=
  s <> [] /\ nospace s = true /\ starts_with c_lpar s = false /\ ends_with c_rpar s = false.

Lemma ends_with_app_last c s d : ends_with c (s ++ [d]) = N.eqb d c.
Proof. unfold ends_with. rewrite rev_app_distr. reflexivity. Qed.

Lemma ends_with_digits s : forallb is_digit s = true -> ends_with c_rpar s = false.
Proof.
  intros H. destruct (list_eq_dec N.eq_dec s []) as [->|Hn]; [reflexivity|].
  destruct (exists_last Hn) as (r & d & ->). rewrite ends_with_app_last.
  rewrite forallb_app in H. cbn in H. apply andb_true_iff in H as [_ H].
  rewrite andb_true_r in H. apply is_digit_bounds in H. unfold c_rpar. lia.
Qed.

Lemma ends_with_app_r c a b : b <> [] -> ends_with c (a ++ b) = ends_with c b.
Proof.
  intros H. unfold ends_with. rewrite rev_app_distr.
  destruct (rev b) as [|x r] eqn:E; [|reflexivity].
  exfalso. apply H. rewrite <- (rev_involutive b), E. reflexivity.
Qed.

Lemma show_Z_plain z : plain (show_Z z).
Proof.
  unfold show_Z. destruct (z <? 0)%Z.
  - set (s := show_N _). assert (Hd : forallb is_digit s = true) by apply show_N_digits.
    assert (Hn : s <> []) by apply show_N_nonnil.
    split; [easy|]. split.
    + cbn. apply (int_digits_word s Hd Hn).
    + split; [reflexivity|]. change (c_minus :: s) with ([c_minus] ++ s).
      rewrite ends_with_app_r by exact Hn. now apply ends_with_digits.
  - set (s := show_N _). assert (Hd : forallb is_digit s = true) by apply show_N_digits.
    assert (Hn : s <> []) by apply show_N_nonnil.
    split; [exact Hn|]. split; [apply (int_digits_word s Hd Hn)|].
    split; [|now apply ends_with_digits].
    destruct (hd_digit s Hd Hn) as (c & r & -> & Hc & _). cbn. unfold c_lpar. lia.
Qed.

Lemma show_float_plain f : flt_ok f = true -> plain (show_float f).
Proof.
  unfold flt_ok. intros H. apply andb_true_iff in H as [Hc Hp].
  destruct (show_float_shape f Hc Hp) as (neg & m & e & ip & fp & -> & E & Hi & Hf & Di & Df & _).
  rewrite E. destruct (int_digits_word ip Di Hi) as [_ Si].
  destruct (int_digits_word fp Df Hf) as [_ Sf].
  split; [destruct neg; [easy|now destruct ip]|].
  split. { rewrite !nospace_app. change (nospace (c_dot :: fp)) with (nospace fp). rewrite Si, Sf. now destruct neg. }
  split.
  - destruct neg; [reflexivity|].
    destruct (hd_digit ip Di Hi) as (c & r & -> & Hcc & _). cbn. unfold c_lpar. lia.
  - rewrite ends_with_app_r by (now destruct ip). rewrite ends_with_app_r by easy.
    change (c_dot :: fp) with ([c_dot] ++ fp). rewrite ends_with_app_r by exact Hf.
    now apply ends_with_digits.
Qed.

Lemma sym_ok_plain s : sym_ok s = true -> plain s.
Proof.
  unfold sym_ok. rewrite !andb_true_iff, !negb_true_iff.
  intros [[[[Hn Hs] Hl] Hr] _]. split; [now destruct s|]. easy.
Qed.

Lemma atom_plain v : wf_atom v = true -> plain (show_atom v).
Proof.
  destruct v as [|s|z|f|l]; cbn; intros H; try discriminate.
  - now apply sym_ok_plain.
  - apply show_Z_plain.
  - now apply show_float_plain.
Qed.

Lemma plain_bal s : plain s -> bal [s].
Proof.
  intros (Hn & Hs & Ho & Hc).
  pose proof (open_pars_0 s Hn Ho) as EO. pose proof (close_pars_0 s Hn Hc) as EC.
  split; [|split; [easy|split]].
  - constructor; [|constructor]. split; [easy|]. exists 0%Z, 0%Z. easy.
  - cbn. unfold delta. rewrite EO, EC. reflexivity.
  - intros p q E Hp Hq. destruct p as [|x p]; [easy|]. destruct p as [|y p]; [|easy].
    cbn in E. injection E as _ E. now destruct q.
Qed.

Lemma wf_vertex_atom v : is_tup v = false -> wf_vertex v = wf_atom v.
Proof. now destruct v. Qed.

Lemma flat_map_bal l :
  Forall (fun v => bal (words v)) l ->
  Forall goodw (flat_map words l) /\ dsum (flat_map words l) = 0%Z /\ nonneg (flat_map words l)
  /\ (List.length l <= List.length (flat_map words l))%nat.
Proof.
  induction 1 as [|v l Hv H IH].
  - repeat split; [constructor| |cbn; lia]. intros p q E. destruct p; [cbn; lia|easy].
  - destruct IH as (I1 & I2 & I3 & I4). cbn [flat_map].
    pose proof Hv as (Hg & Hne & H0 & _). split; [|split; [|split]].
    + apply Forall_app. easy.
    + rewrite dsum_app. lia.
    + apply nonneg_app; [now apply bal_nonneg|exact H0|exact I3].
    + rewrite app_length. cbn. destruct (words v); [easy|cbn; lia].
Qed.

Lemma words_bal v : wf_vertex v = true -> bal (words v).
Proof.
  induction v as [|s|z|f|l IH] using value_nested_ind; intros H.
  - easy.
  - apply plain_bal. now apply (atom_plain (VStr s)).
  - apply plain_bal. now apply (atom_plain (VInt z)).
  - apply plain_bal. now apply (atom_plain (VFlt f)).
  - apply wf_vertex_tup in H as [Hlen Hl].
    assert (Hb : Forall (fun v => bal (words v)) l).
    { rewrite Forall_forall in *. intros v Hv. apply IH; [exact Hv|]. now apply Hl. }
    destruct (flat_map_bal l Hb) as (I1 & I2 & I3 & I4).
    cbn [words]. apply wrap_bal; try assumption. lia.
Qed.

(** ** Splitting *)

Lemma split_loop_inside ws : forall cur d rest,
  Forall goodw ws -> ws <> [] -> (d + dsum ws = 0)%Z ->
  (forall p q, ws = p ++ q -> p <> [] -> q <> [] -> (d + dsum p <> 0)%Z) ->
  split_loop (Some cur) d (ws ++ rest)
  = (let? more := split_loop None 0 rest in Ok ((cur ++ [c_space] ++ join [c_space] ws) :: more)).
Proof.
  induction ws as [|w ws IH]; intros cur d rest Hg Hn Hs Hp; [easy|].
  inversion Hg as [|? ? (Hw & o & c & Ho & Hc) Hg']; subst.
  cbn [app split_loop]. rewrite Ho, Hc. cbn [rbind].
  assert (Hd : delta w = (o - c)%Z) by (unfold delta; now rewrite Ho, Hc).
  cbn in Hs. rewrite Hd in Hs.
  destruct ws as [|w2 ws].
  - cbn in Hs. replace (d + o - c)%Z with 0%Z by lia. rewrite Z.eqb_refl.
    cbn [app join]. reflexivity.
  - assert (Hne : (d + o - c <> 0)%Z).
    { specialize (Hp [w] (w2 :: ws) eq_refl ltac:(easy) ltac:(easy)). cbn in Hp. lia. }
    replace (d + o - c =? 0)%Z with false by lia.
    rewrite IH; try easy.
    + rewrite join_cons. rewrite <- !app_assoc; reflexivity.
    + lia.
    + intros p q E Hp1 Hq1. specialize (Hp (w :: p) q).
      cbn in Hp. rewrite E in Hp. specialize (Hp eq_refl ltac:(easy) Hq1).
      lia.
Qed.

Lemma split_loop_bal ws rest : bal ws ->
  split_loop None 0 (ws ++ rest)
  = (let? more := split_loop None 0 rest in Ok (join [c_space] ws :: more)).
Proof.
  intros (Hg & Hn & Hs & Hp). destruct ws as [|w ws]; [easy|].
  inversion Hg as [|? ? (Hw & o & c & Ho & Hc) Hg']; subst.
  cbn [app split_loop]. rewrite Ho, Hc. cbn [rbind].
  assert (Hd : delta w = (o - c)%Z) by (unfold delta; now rewrite Ho, Hc).
  cbn in Hs. rewrite Hd in Hs.
  destruct ws as [|w2 ws].
  - cbn in Hs. replace (0 + o - c)%Z with 0%Z by lia. rewrite Z.eqb_refl. reflexivity.
  - assert (Hne : (1 <= o - c)%Z).
    { specialize (Hp [w] (w2 :: ws) eq_refl ltac:(easy) ltac:(easy)). cbn in Hp. lia. }
    replace (0 + o - c =? 0)%Z with false by lia.
    rewrite split_loop_inside; [reflexivity|exact Hg'|easy|lia|].
    intros p q E Hp1 Hq1. specialize (Hp (w :: p) q).
      cbn in Hp. rewrite E in Hp. specialize (Hp eq_refl ltac:(easy) Hq1).
      lia.
Qed.

Lemma split_loop_vertices l :
  Forall (fun v => wf_vertex v = true) l ->
  split_loop None 0 (flat_map words l) = Ok (List.map edge2str l).
Proof.
  induction 1 as [|v l Hv H IH]; [reflexivity|].
  cbn [flat_map List.map]. rewrite split_loop_bal by (now apply words_bal).
  rewrite IH. cbn. now rewrite edge2str_words.
Qed.

Lemma nodes2str_words l :
  Forall (fun v => wf_vertex v = true) l ->
  nodes2str l = join [c_space] (flat_map words l).
Proof.
  intros H. unfold nodes2str. rewrite join_flat_map.
  - f_equal. apply map_ext_in. intros v Hv. rewrite Forall_forall in H.
    now apply edge2str_words, H.
  - eapply Forall_impl; [|exact H]. intros v. apply words_nonnil.
Qed.

Lemma flat_map_words_word l :
  Forall (fun v => wf_vertex v = true) l -> Forall is_word (flat_map words l).
Proof.
  intros H. assert (Hb : Forall (fun v => bal (words v)) l).
  { eapply Forall_impl; [|exact H]. intros v. apply words_bal. }
  destruct (flat_map_bal l Hb) as (I1 & _). eapply Forall_impl; [|exact I1].
  intros w [Hw _]. exact Hw.
Qed.

(** the core of the splitter on the text of a sequence of vertices *)
Lemma split_core_nodes l :
  Forall (fun v => wf_vertex v = true) l ->
  split_loop None 0 (split_ws (nodes2str l)) = Ok (List.map edge2str l).
Proof.
  intros H. rewrite nodes2str_words by exact H.
  rewrite split_ws_join by (now apply flat_map_words_word).
  now apply split_loop_vertices.
Qed.

Lemma strip_ends_par s : strip_ends (c_lpar :: s ++ [c_rpar]) = s.
Proof. unfold strip_ends. cbn [tl]. apply removelast_last. Qed.

Lemma split_edge_str_tup l :
  Forall (fun v => wf_vertex v = true) l ->
  split_edge_str (edge2str (VTup l)) = Ok (List.map edge2str l).
Proof.
  intros H. cbn [edge2str]. unfold split_edge_str. rewrite N.eqb_refl.
  rewrite strip_ends_par. now apply split_core_nodes.
Qed.

Lemma atom_text_start v : wf_atom v = true -> edge2str v = show_atom v /\
  exists c r, show_atom v = c :: r /\ N.eqb c c_lpar = false.
Proof.
  intros H. destruct (atom_plain v H) as (Hn & _ & Ho & _).
  split; [now destruct v|]. destruct (show_atom v) as [|c r]; [easy|].
  exists c, r. now cbn in Ho.
Qed.

Lemma nodes2str_cons v l : exists s, nodes2str (v :: l) = edge2str v ++ s.
Proof.
  unfold nodes2str. cbn [List.map]. destruct (List.map edge2str l) as [|y ys].
  - exists []. now rewrite app_nil_r.
  - rewrite join_cons. now eexists.
Qed.

Lemma split_edge_str_bare v l :
  wf_atom v = true -> Forall (fun v => wf_vertex v = true) l ->
  split_edge_str (nodes2str (v :: l)) = Ok (List.map edge2str (v :: l)).
Proof.
  intros Hv Hl. unfold split_edge_str.
  destruct (nodes2str_cons v l) as (s & E).
  destruct (atom_text_start v Hv) as (E1 & c & r & E2 & Hc).
  destruct (nodes2str (v :: l)) as [|c' r'] eqn:E3.
  { exfalso. rewrite E1, E2 in E. discriminate. }
  rewrite E1, E2 in E. injection E as -> _. rewrite Hc. rewrite <- E3.
  apply split_core_nodes. constructor; [|exact Hl].
  destruct v; try easy.
Qed.

(** ** Token types *)

Lemma token_type_loop_digits s : forallb is_digit s = true ->
  forall pos pt, token_type_loop pos pt s = if pt then TDouble else TInteger.
Proof.
  induction s as [|c s IH]; cbn [forallb]; intros H pos pt; [reflexivity|].
  apply andb_true_iff in H as [Hc Hs]. apply is_digit_bounds in Hc.
  cbn [token_type_loop]. replace (N.eqb c c_minus) with false by (unfold c_minus; lia).
  replace (N.eqb c c_dot) with false by (unfold c_dot; lia).
  replace ((c <? c_0) || (c_9 <? c))%N with false by (unfold c_0, c_9; lia).
  now apply IH.
Qed.

Lemma token_type_loop_app a b : forallb is_digit a = true ->
  forall pos pt, a <> [] -> token_type_loop pos pt (a ++ b) = token_type_loop true pt b.
Proof.
  induction a as [|c a IH]; cbn [forallb]; intros H pos pt Hn; [easy|].
  apply andb_true_iff in H as [Hc Hs]. pose proof (is_digit_bounds c Hc) as Hb.
  cbn [app token_type_loop]. replace (N.eqb c c_minus) with false by (unfold c_minus; lia).
  replace (N.eqb c c_dot) with false by (unfold c_dot; lia).
  replace ((c <? c_0) || (c_9 <? c))%N with false by (unfold c_0, c_9; lia).
  destruct a as [|c2 a]; [reflexivity|]. now apply IH.
Qed.

(** characterisation *)
Lemma token_type_loop_true_pt s :
  token_type_loop true true s = if forallb is_digit s then TDouble else TString.
Proof.
  induction s as [|c s IH]; [reflexivity|]. cbn [token_type_loop forallb].
  destruct (N.eqb_spec c c_minus) as [->|H1]; [reflexivity|].
  destruct (N.eqb_spec c c_dot) as [->|H2]; [reflexivity|].
  unfold is_digit at 1.
  destruct (N.ltb_spec c c_0); destruct (N.leb_spec c_0 c); try lia;
  destruct (N.ltb_spec c_9 c); destruct (N.leb_spec c c_9); try lia; cbn [orb andb];
  try reflexivity. exact IH.
Qed.
Lemma token_type_loop_true_nopt s :
  token_type_loop true false s =
    if forallb is_digit s then TInteger
    else match split_dot s with
         | Some (a, b) => if forallb is_digit a && forallb is_digit b then TDouble else TString
         | None => TString
         end.
Proof.
  induction s as [|c s IH]; [reflexivity|]. cbn [token_type_loop forallb split_dot].
  destruct (N.eqb_spec c c_minus) as [->|H1].
  { cbn. destruct (split_dot s) as [[a b]|]; reflexivity. }
  destruct (N.eqb_spec c c_dot) as [->|H2].
  { rewrite token_type_loop_true_pt. reflexivity. }
  destruct (is_digit c) eqn:Hc.
  - pose proof (is_digit_bounds _ Hc). replace ((c <? c_0) || (c_9 <? c))%N with false
      by (unfold c_0, c_9; lia).
    rewrite IH. cbn [andb]. destruct (forallb is_digit s); [reflexivity|].
    destruct (split_dot s) as [[a b]|]; [|reflexivity]. cbn [forallb]. now rewrite Hc.
  - unfold is_digit in Hc. replace ((c <? c_0) || (c_9 <? c))%N with true by lia.
    cbn [andb]. destruct (split_dot s) as [[a b]|]; [|reflexivity].
    cbn [forallb]. unfold is_digit at 1. now rewrite Hc.
Qed.

Lemma token_type_spec s :
  token_type s = if int_shape s then TInteger else if dbl_shape s then TDouble else TString.
Proof.
  unfold token_type, int_shape, dbl_shape. destruct s as [|c s]; [reflexivity|].
  cbn [token_type_loop strip_minus]. destruct (N.eqb_spec c c_minus) as [->|H1].
  - cbn [snd]. rewrite token_type_loop_true_nopt.
    destruct (forallb is_digit s); [reflexivity|].
    destruct (split_dot s) as [[a b]|]; reflexivity.
  - cbn [snd].
    transitivity (token_type_loop true false (c :: s)).
    + cbn [token_type_loop]. replace (N.eqb c c_minus) with false by lia. reflexivity.
    + rewrite token_type_loop_true_nopt. destruct (forallb is_digit (c :: s)); [reflexivity|].
      destruct (split_dot (c :: s)) as [[a b]|]; reflexivity.
Qed.

(** ** Round trip *)

Lemma int_shape_show z : int_shape (show_Z z) = true.
Proof.
  unfold int_shape, show_Z. destruct (z <? 0)%Z.
  - cbn [strip_minus]. rewrite N.eqb_refl. apply show_N_digits.
  - pose proof (show_N_digits (Z.to_N z)) as Hd.
    destruct (hd_digit _ Hd (show_N_nonnil _)) as (c & r & E & Hc & _).
    rewrite E. cbn [strip_minus]. replace (N.eqb c c_minus) with false by (unfold c_minus; lia).
    cbn [snd]. now rewrite <- E.
Qed.

Lemma split_dot_digits s : forallb is_digit s = true -> split_dot s = None.
Proof.
  induction s as [|c s IH]; cbn; [easy|]. intros H. apply andb_true_iff in H as [Hc Hs].
  apply is_digit_bounds in Hc. replace (N.eqb c c_dot) with false by (unfold c_dot; lia).
  now rewrite IH.
Qed.

Lemma float_shape_show f : flt_ok f = true ->
  int_shape (show_float f) = false /\ dbl_shape (show_float f) = true.
Proof.
  unfold flt_ok. intros H. apply andb_true_iff in H as [Hc Hp].
  destruct (show_float_shape f Hc Hp) as (neg & m & e & ip & fp & -> & E & Hi & Hf & Di & Df & _).
  rewrite E. unfold int_shape, dbl_shape.
  assert (Es : strip_minus ((if neg then [c_minus] else []) ++ ip ++ c_dot :: fp)
               = (neg, ip ++ c_dot :: fp)).
  { destruct neg; [reflexivity|]. destruct (hd_digit ip Di Hi) as (c & r & -> & Hcc & _).
    cbn [app strip_minus]. replace (N.eqb c c_minus) with false by (unfold c_minus; lia). reflexivity. }
  rewrite Es. cbn [snd]. rewrite split_dot_app by exact Di. rewrite Di, Df.
  split; [|reflexivity]. rewrite forallb_app. cbn. now rewrite andb_false_r.
Qed.

Lemma parsed_token_atom rec v : wf_atom v = true -> parsed_token rec (edge2str v) = Ok v.
Proof.
  intros H. destruct (atom_text_start v H) as (E1 & c & r & E2 & Hc).
  rewrite E1. unfold parsed_token. rewrite E2, Hc, <- E2. clear c r E2 Hc E1.
  rewrite token_type_spec. destruct v as [|s|z|f|l]; cbn in H; try easy; cbn [show_atom].
  - unfold sym_ok, looks_numeric in H. rewrite !andb_true_iff, !negb_true_iff in H.
    destruct H as [_ H]. apply orb_false_iff in H as [-> ->]. reflexivity.
  - rewrite int_shape_show, py_int_show. reflexivity.
  - destruct (float_shape_show f H) as [-> ->].
    unfold flt_ok in H. apply andb_true_iff in H as [Hcan Hpos].
    destruct (show_float_shape f Hcan Hpos) as (_ & _ & _ & _ & _ & _ & _ & _ & _ & _ & _ & ->).
    reflexivity.
Qed.

Lemma edge2str_tup_length v l : In v l ->
  (List.length (edge2str v) + 2 <= List.length (edge2str (VTup l)))%nat.
Proof.
  intros H. cbn [edge2str]. cbn [List.length]. rewrite app_length. cbn.
  assert (G : (List.length (edge2str v) <= List.length (join [c_space] (List.map edge2str l)))%nat).
  { induction l as [|x l IH]; [easy|]. destruct H as [->|H].
    - cbn [List.map]. destruct (List.map edge2str l); [cbn; lia|].
      rewrite join_cons, app_length. lia.
    - specialize (IH H). cbn [List.map]. destruct (List.map edge2str l) as [|y ys] eqn:E.
      + destruct l; [easy|discriminate].
      + rewrite join_cons, !app_length. lia. }
  lia.
Qed.

Lemma str2edge_f_vertex v : wf_vertex v = true -> is_tup v = true ->
  forall fuel, (List.length (edge2str v) <= fuel)%nat -> str2edge_f fuel (edge2str v) = Ok v.
Proof.
  induction v as [|s|z|f|l IH] using value_nested_ind; intros H Ht fuel Hf; try easy.
  pose proof H as H'. apply wf_vertex_tup in H' as [Hlen Hl].
  destruct fuel as [|fuel].
  { cbn in Hf. lia. }
  cbn [str2edge_f]. rewrite split_edge_str_tup by exact Hl. cbn [rbind].
  assert (E : mapr (parsed_token (str2edge_f fuel)) (List.map edge2str l) = Ok l).
  { rewrite Forall_forall in IH, Hl.
    assert (G : forall x, In x l -> parsed_token (str2edge_f fuel) (edge2str x) = Ok x).
    { intros x Hx. destruct (is_tup x) eqn:Ex.
      - pose proof (edge2str_tup_length x l Hx). rewrite <- (IH x Hx (Hl x Hx) Ex fuel) by lia.
        destruct x; try easy. 
      - apply parsed_token_atom. rewrite <- wf_vertex_atom by exact Ex. now apply Hl. }
    clear -G. induction l as [|x l IHl]; [reflexivity|]. cbn.
    rewrite G by (now left). cbn. rewrite IHl by (intros; apply G; now right). reflexivity. }
  rewrite E. cbn [rbind]. destruct l as [|a [|b l]]; [easy|easy|reflexivity].
Qed.

Lemma str2edge_edge2str v : wf_vertex v = true -> str2edge (edge2str v) = Ok v.
Proof.
  intros H. unfold str2edge. destruct (is_tup v) eqn:E.
  - apply str2edge_f_vertex; [exact H|exact E|lia].
  - rewrite wf_vertex_atom in H by exact E.
    pose proof (split_edge_str_bare v [] H ltac:(constructor)) as Hs.
    unfold nodes2str in Hs. cbn [List.map join] in Hs.
    cbn [str2edge_f]. rewrite Hs. cbn [rbind mapr].
    rewrite parsed_token_atom by exact H. reflexivity.
Qed.

Lemma edge2str_inj v w :
  wf_vertex v = true -> wf_vertex w = true -> edge2str v = edge2str w -> v = w.
Proof.
  intros Hv Hw E. pose proof (str2edge_edge2str v Hv) as H1.
  rewrite E, str2edge_edge2str in H1 by exact Hw. congruence.
Qed.

(** str2edge of the bare text of a sequence (no outer parentheses) *)
Lemma str2edge_bare v w l :
  wf_atom v = true -> Forall (fun v => wf_vertex v = true) (w :: l) ->
  str2edge (nodes2str (v :: w :: l)) = Ok (VTup (v :: w :: l)).
Proof.
  intros Hv Hl. unfold str2edge. set (n := List.length _).
  cbn [str2edge_f]. rewrite split_edge_str_bare by assumption. cbn [rbind].
  assert (E : mapr (parsed_token (str2edge_f n)) (List.map edge2str (v :: w :: l)) = Ok (v :: w :: l)).
  { assert (G : forall x, In x (v :: w :: l) -> parsed_token (str2edge_f n) (edge2str x) = Ok x).
    { intros x Hx. assert (Hwx : wf_vertex x = true).
      { destruct Hx as [<-|Hx]; [|rewrite Forall_forall in Hl; now apply Hl].
        destruct v; easy. }
      destruct (is_tup x) eqn:Ex.
      - rewrite <- (str2edge_f_vertex x Hwx Ex n).
        + destruct x; try easy.
        + pose proof (edge2str_tup_length x _ Hx) as HH. cbn [edge2str List.length] in HH.
          rewrite app_length in HH. cbn [List.length] in HH.
          unfold n, nodes2str. lia.
      - apply parsed_token_atom. now rewrite <- wf_vertex_atom. }
    revert G. clearbody n. generalize (v :: w :: l) as k. clear.
    induction k as [|x k IHk]; intros G; [reflexivity|]. cbn [List.map mapr].
    rewrite G by (now left). cbn [rbind].
    rewrite IHk by (intros; apply G; now right). reflexivity. }
  rewrite E. reflexivity.
Qed.

(** ** Termination on every string *)

Definition benign (e : exn) : Prop := e = IndexError \/ e = ValueError.

Lemma open_pars_err s e : open_pars s = Err e -> benign e.
Proof.
  revert e; induction s as [|c s IH]; intros e; cbn.
  - intros [= <-]. now left.
  - destruct (N.eqb c c_lpar); [|easy]. destruct (open_pars s) as [n|e']; cbn; [easy|].
    intros [= <-]. now apply IH.
Qed.
Lemma close_pars_err s e : close_pars s = Err e -> benign e.
Proof.
  unfold close_pars. generalize (rev s). clear s. intros s.
  revert e; induction s as [|c s IH]; intros e; cbn.
  - intros [= <-]. now left.
  - destruct (N.eqb c c_rpar); [|easy]. destruct (count_close s) as [n|e']; cbn; [easy|].
    intros [= <-]. now apply IH.
Qed.

Lemma split_loop_err ws : forall cur d e, split_loop cur d ws = Err e -> benign e.
Proof.
  induction ws as [|w ws IH]; intros cur d e; cbn [split_loop]; [easy|].
  destruct (open_pars w) as [o|e'] eqn:Eo; cbn [rbind].
  2:{ intros [= <-]. eapply open_pars_err; eauto. }
  destruct (close_pars w) as [c|e'] eqn:Ec; cbn [rbind].
  2:{ intros [= <-]. eapply close_pars_err; eauto. }
  destruct (d + o - c =? 0)%Z.
  - destruct (split_loop None (d + o - c) ws) eqn:E; cbn; [easy|].
    intros [= <-]. eapply IH; eauto.
  - apply IH.
Qed.

Lemma split_loop_tok_len ws : forall cur d r t, split_loop cur d ws = Ok r -> In t r ->
  (List.length t <= match cur with None => 0 | Some c => S (List.length c) end
                    + List.length (join [c_space] ws))%nat.
Proof.
  induction ws as [|w ws IH]; intros cur d r t; cbn [split_loop].
  - intros [= <-]. easy.
  - destruct (open_pars w) as [o|]; cbn [rbind]; [|easy].
    destruct (close_pars w) as [c|]; cbn [rbind]; [|easy].
    set (cur' := match cur with None => w | Some t0 => t0 ++ [c_space] ++ w end).
    assert (Hc : (List.length cur' = match cur with None => 0 | Some c => S (List.length c) end
                                     + List.length w)%nat).
    { unfold cur'. destruct cur; [|reflexivity]. rewrite app_length. cbn. lia. }
    assert (Hj : (List.length w + List.length (join [c_space] ws)
                  <= List.length (join [c_space] (w :: ws)))%nat).
    { destruct ws; [cbn; lia|]. rewrite join_cons, !app_length. lia. }
    destruct (d + o - c =? 0)%Z.
    + destruct (split_loop None (d + o - c) ws) as [more|] eqn:E; cbn [rbind]; [|easy].
      intros [= <-] [<-|Ht]; [lia|].
      specialize (IH _ _ _ _ E Ht). cbn in IH. lia.
    + intros E Ht. specialize (IH _ _ _ _ E Ht). cbn in IH.
      destruct ws as [|w2 ws]; [cbn in E; injection E as <-; easy|].
      rewrite join_cons in *. rewrite !app_length in *. cbn [List.length] in *. lia.
Qed.

Lemma split_ws_aux_len s : forall cur,
  (List.length (join [c_space] (split_ws_aux cur s)) <= List.length cur + List.length s)%nat.
Proof.
  induction s as [|c s IH]; intros cur; cbn [split_ws_aux].
  - destruct cur; cbn; lia.
  - destruct (is_space c).
    + specialize (IH []). cbn [List.length] in *. destruct cur as [|x cur]; [cbn in *; lia|].
      destruct (split_ws_aux [] s) as [|y ys]; [cbn in *; lia|].
      rewrite join_cons, !app_length. cbn [List.length] in *. lia.
    + specialize (IH (cur ++ [c])). rewrite app_length in IH. cbn in *. lia.
Qed.

Lemma split_edge_str_tok_len s r t : split_edge_str s = Ok r -> In t r ->
  (List.length t <= List.length s)%nat
  /\ (starts_with c_lpar s = true -> (List.length t + 1 <= List.length s)%nat).
Proof.
  unfold split_edge_str. destruct s as [|c s]; [easy|]. intros E Ht.
  pose proof (split_loop_tok_len _ _ _ _ _ E Ht) as H. cbn [Nat.add] in H.
  cbn [starts_with]. unfold split_ws in H. destruct (N.eqb c c_lpar).
  - pose proof (split_ws_aux_len (strip_ends (c :: s)) []) as H2.
    assert (H3 : (List.length (strip_ends (c :: s)) <= List.length s)%nat).
    { unfold strip_ends. cbn [tl]. clear. induction s as [|x s IH]; [cbn; lia|].
      cbn [removelast]. destruct s; cbn in *; lia. }
    cbn [List.length] in *. split; [lia|intros _; lia].
  - pose proof (split_ws_aux_len (c :: s) []) as H2. cbn [List.length] in *. split; [lia|easy].
Qed.

Lemma py_int_err s e : py_int s = Err e -> e = ValueError.
Proof.
  unfold py_int. destruct (match s with [] => _ | _ => _ end) as [n ds].
  destruct ds; [congruence|]. destruct (forallb is_digit _); congruence.
Qed.
Lemma py_float_err s e : py_float s = Err e -> e = ValueError.
Proof.
  unfold py_float. destruct (strip_minus s) as [n r].
  destruct (split_dot r) as [[a b]|]; [|congruence].
  destruct (a ++ b) eqn:E; [congruence|]. rewrite <- E. destruct (forallb is_digit _); [|congruence].
  destruct (strip0 _) as [k rds]. destruct (N.eqb _ 0); [congruence|].
  match goal with |- context [match ?r with Some _ => _ | None => _ end] => destruct r as [[m' e']|] end; congruence.
Qed.

Lemma mapr_err {A B} (f : A -> res B) l e : mapr f l = Err e -> exists x, In x l /\ f x = Err e.
Proof.
  induction l as [|x l IH]; cbn; [easy|]. destruct (f x) as [b|e'] eqn:E; cbn.
  - destruct (mapr f l) as [bs|e'] eqn:E2; cbn; [easy|]. intros [= <-].
    destruct (IH eq_refl) as (y & ? & ?). exists y. split; [now right|easy].
  - intros [= <-]. exists x. split; [now left|easy].
Qed.

Lemma str2edge_f_step fuel s e :
  (forall t, starts_with c_lpar t = true -> (List.length t <= fuel)%nat ->
             forall e, str2edge_f fuel t = Err e -> benign e) ->
  (forall r t, split_edge_str s = Ok r -> In t r -> (List.length t <= fuel)%nat) ->
  str2edge_f (S fuel) s = Err e -> benign e.
Proof.
  intros IH Hlen. cbn [str2edge_f].
  destruct (split_edge_str s) as [toks|e'] eqn:E; cbn [rbind].
  2:{ intros [= <-]. unfold split_edge_str in E. destruct s; [injection E as <-; now left|].
      eapply split_loop_err; eauto. }
  destruct (mapr _ toks) as [els|e'] eqn:E2; cbn [rbind].
  - destruct els as [|a [|b els]]; try easy. intros [= <-]. now left.
  - intros [= <-]. apply mapr_err in E2 as (t & Ht & Et).
    unfold parsed_token in Et. destruct t as [|c t]; [injection Et as <-; now left|].
    destruct (N.eqb c c_lpar) eqn:Ec.
    + eapply (IH (c :: t)); eauto.
    + destruct (token_type (c :: t)); [| |easy].
      * destruct (py_int (c :: t)) eqn:Ei; cbn in Et; [easy|]. injection Et as <-.
        right. eapply py_int_err; eauto.
      * destruct (py_float (c :: t)) eqn:Ei; cbn in Et; [easy|]. injection Et as <-.
        right. eapply py_float_err; eauto.
Qed.

Lemma str2edge_f_benign fuel : forall s e,
  starts_with c_lpar s = true -> (List.length s <= fuel)%nat ->
  str2edge_f fuel s = Err e -> benign e.
Proof.
  induction fuel as [|fuel IH]; intros s e Hs Hl H.
  - destruct s; [easy|cbn in Hl; lia].
  - eapply str2edge_f_step; [|  |exact H].
    + intros t Ht Hlt e' He'. eapply IH; eauto.
    + intros r t Er Ht. destruct (split_edge_str_tok_len _ _ _ Er Ht) as [_ H2].
      specialize (H2 Hs). lia.
Qed.

Lemma str2edge_benign s e : str2edge s = Err e -> benign e.
Proof.
  unfold str2edge. intros H. eapply str2edge_f_step; [| |exact H].
  - intros t Ht Hl e' He'. eapply str2edge_f_benign; eauto.
  - intros r t Er Ht. now destruct (split_edge_str_tok_len _ _ _ Er Ht).
Qed.
