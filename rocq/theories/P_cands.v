(** * P_cands.v -- the candidates of delta, exactly, for trees whose nodes are not shared *)

From Verif Require Import Py P_py M_symbol M_token M_tree M_stages S_tree S_delta P_tree P_treeops P_alpha P_beta P_gamma C_alpha P_stages P_dag C_stages P_delta.
From Coq Require Import String Permutation.
Open Scope list_scope.

Lemma nodes_shape h i l : nodes h i l <->
  (exists ns k, shape h i = Some (ELeaf ns k) /\ l = []) \/ (exists ns c cs ids, shape h i = Some (ENode ns c cs) /\ Forall2 (nodes h) cs ids /\ l = i :: List.concat ids).
Proof.
  split.
  - intros N. inversion N; subst; [left|right].
    + exists ns, k. split; [apply shape_leaf; eauto|reflexivity].
    + exists ns, c, cs, ids. split; [apply shape_node; eauto 10|now split].
  - intros [(ns & k & E & ->)|(ns & c & cs & ids & E & F & ->)].
    + apply shape_leaf in E as (r & T & O). econstructor; eassumption.
    + apply shape_node in E as (r & l & ls & y & T & O & L). econstructor; eassumption.
Qed.

(** nodes below an element, and those at argument positions *)
Inductive inside (h : tree) : Z -> Z -> Prop :=
| in_here x ns c cs : shape h x = Some (ENode ns c cs) -> inside h x x
| in_below x ns c cs k z : shape h x = Some (ENode ns c cs) -> In k cs -> inside h k z -> inside h x z.
Inductive argof (h : tree) : Z -> Z -> Prop :=
| ao_here x ns c cs : shape h x = Some (ENode ns c cs) -> argof h x x
| ao_below x ns c r cs k z : shape h x = Some (ENode ns c (r :: cs)) -> In k cs -> argof h k z -> argof h x z.
Lemma argof_inside h x z : argof h x z -> inside h x z.
Proof. induction 1; [econstructor; eassumption|eapply in_below; [eassumption|right; eassumption|assumption]]. Qed.
Lemma inside_node h x z : inside h x z -> exists ns c cs, shape h z = Some (ENode ns c cs).
Proof. induction 1; eauto. Qed.
Lemma inside_trans h x y z : inside h x y -> inside h y z -> inside h x z.
Proof. induction 1 as [x ns c cs E|x ns c cs k y E Hk _ IH]; intros I; [exact I|]. apply (in_below h x ns c cs k z E Hk). now apply IH. Qed.
Lemma inside_in h x z : inside h x z -> forall l, nodes h x l -> In z l.
Proof.
  induction 1 as [x ns c cs E|x ns c cs k z E Hk _ IH]; intros l N; apply nodes_shape in N as [(n & t & E' & ->)|(n & b & ks & ids & E' & F & ->)]; try congruence; [now left|].
  assert (ks = cs) by congruence. subst ks. right. destruct (Forall2_in_l _ _ _ _ F Hk) as (l & Hl & N). apply in_concat. exists l. split; [exact Hl|now apply IH].
Qed.
Lemma nodes_apart h z cs : forall ids j j', Forall2 (nodes h) cs ids -> NoDup (List.concat ids) -> In j cs -> In j' cs -> inside h j z -> inside h j' z -> j = j'.
Proof.
  induction cs as [|k cs IH]; intros ids j j' F N Hj Hj' I I'; [destruct Hj|]. destruct ids as [|l ids]; [inversion F|]. apply F2_cons in F as [Nk F]. cbn [List.concat] in N.
  assert (Tail : forall q, In q cs -> inside h q z -> In z (List.concat ids)).
  { intros q Hq Iq. destruct (Forall2_in_l _ _ _ _ F Hq) as (lq & Hl & Nq). apply in_concat. exists lq. split; [exact Hl|exact (inside_in h q z Iq lq Nq)]. }
  assert (Clash : In z l -> In z (List.concat ids) -> False).
  { clear - N. induction l as [|y l IHl]; intros H1 H2; [destruct H1|]. cbn in N. inversion N as [|? ? Hn N']; subst. destruct H1 as [->|H1]; [apply Hn, in_app_iff; now right|now apply IHl]. }
  destruct Hj as [<-|Hj], Hj' as [<-|Hj']; [reflexivity| | |].
  - exfalso. apply Clash; [exact (inside_in h k z I l Nk)|now apply (Tail j')].
  - exfalso. apply Clash; [exact (inside_in h k z I' l Nk)|now apply (Tail j)].
  - apply (IH ids j j'); try assumption. clear - N. induction l as [|y l IHl]; [exact N|]. cbn in N. inversion N; subst. now apply IHl.
Qed.
Lemma sub_nodup h cs : forall ids k l, Forall2 (nodes h) cs ids -> NoDup (List.concat ids) -> In k cs -> In l ids -> NoDup l.
Proof.
  intros ids k l _ N _ Hl. induction ids as [|m ids IH]; [destruct Hl|]. cbn [List.concat] in N. destruct Hl as [->|Hl].
  - clear - N. induction l as [|y l IHl]; [constructor|]. cbn in N. inversion N as [|? ? Hn N']; subst. constructor; [|now apply IHl]. intros H. apply Hn, in_app_iff. now left.
  - apply IH; [|exact Hl]. clear - N. induction m as [|y m IHm]; [exact N|]. cbn in N. inversion N; subst. now apply IHm.
Qed.
(** no argument node is below the first child of an argument node *)
Lemma argof_clear h k x : argof h k x -> forall l ns c r cs z, nodes h k l -> NoDup l -> shape h x = Some (ENode ns c (r :: cs)) -> inside h r z -> argof h k z -> False.
Proof.
  induction 1 as [x ns0 c0 cs0 E0|k ns0 c0 r0 cs0 j x E0 Hj Ax IH]; intros l ns c r cs z N Nd E Ir Az; apply nodes_shape in N as [(n & t & E' & ->)|(n & b & ks & ids & E' & F & ->)]; try congruence; inversion Nd as [|? ? Hn Nd']; subst.
  - assert (ks = r :: cs) by congruence. subst ks. clear E0 cs0. inversion Az as [? ? ? ? E1|? n1 c1 r1 cs1 j z' E1 Hj Az']; subst.
    + apply Hn, in_concat. destruct (Forall2_in_l _ _ _ r F ltac:(now left)) as (lr & Hl & Nr). exists lr. split; [exact Hl|exact (inside_in h r z Ir lr Nr)].
    + assert (r1 = r /\ cs1 = cs) as [-> ->] by (rewrite E in E1; now injection E1 as _ _ -> ->).
      destruct ids as [|lr ids]; [inversion F|]. apply F2_cons in F as [Nr F]. cbn [List.concat] in Nd'. assert (H1 : In z lr) by exact (inside_in h r z Ir lr Nr).
      assert (H2 : In z (List.concat ids)). { destruct (Forall2_in_l _ _ _ _ F Hj) as (lj & Hl & Nj). apply in_concat. exists lj. split; [exact Hl|exact (inside_in h j z (argof_inside _ _ _ Az') lj Nj)]. }
      clear - Nd' H1 H2. induction lr as [|y lr IHl]; [destruct H1|]. cbn in Nd'. inversion Nd' as [|? ? Hn N']; subst. destruct H1 as [->|H1]; [apply Hn, in_app_iff; now right|now apply IHl].
  - assert (ks = r0 :: cs0) by congruence. subst ks. assert (Ix : inside h x z) by (apply (in_below h x ns c (r :: cs) r); [exact E|now left|exact Ir]). assert (Ij : inside h j z) by exact (inside_trans h j x z (argof_inside _ _ _ Ax) Ix).
    destruct (Forall2_in_l _ _ _ j F ltac:(now right)) as (lj & Hl & Nj).
    inversion Az as [? ? ? ? E1|? n1 c1 r1 cs1 j' z' E1 Hj' Az']; subst.
    + apply Hn, in_concat. exists lj. split; [exact Hl|exact (inside_in h j z Ij lj Nj)].
    + assert (r1 = r0 /\ cs1 = cs0) as [-> ->] by (rewrite E0 in E1; now injection E1 as _ _ -> ->).
      assert (j = j') by (apply (nodes_apart h z (r0 :: cs0) ids j j' F Nd'); [now right|now right|exact Ij|exact (argof_inside _ _ _ Az')]). subst j'.
      exact (IH lj ns c r cs z Nj (sub_nodup h _ ids j lj F Nd' (or_intror Hj) Hl) E Ir Az').
Qed.
Lemma inside_clear h (Arg : Z -> Prop) : forall t r, unfolds h r t -> (forall z, inside h r z -> ~ Arg z) -> clear Arg h r.
Proof.
  induction t as [ns k|ns c ts IH] using stree_ind'; intros r U H; apply unf_shape in U; [exact (clear_leaf Arg h r ns k U)|]. destruct U as (cs & E & Us). apply (clear_node Arg h r ns c cs E); [apply H; econstructor; exact E|].
  intros j Hj. destruct (Forall2_in_l _ _ _ _ Us Hj) as (u & Hu & Uu). rewrite Forall_forall in IH. apply (IH u Hu j Uu). intros z Iz. apply H. exact (in_below h r ns c cs j z E Hj Iz).
Qed.
Lemma argside_of h (Arg : Z -> Prop) : forall t x, unfolds h x t -> full t -> (forall z, argof h x z -> Arg z) ->
  (forall z ns c r cs, argof h x z -> shape h z = Some (ENode ns c (r :: cs)) -> clear Arg h r) -> argside h Arg t x.
Proof.
  induction t as [ns k|ns c ts IH] using stree_ind'; intros x U Fu HA HC; [apply as_leaf|]. apply unf_shape in U as (cs & E & Us). apply full_node in Fu as [Nn Fu]. destruct ts as [|t0 ts]; [easy|]. destruct cs as [|r cs]; [inversion Us|].
  apply F2_cons in Us as [U0 Us]. apply F_cons in IH as [_ IH]. apply F_cons in Fu as [_ Fu].
  assert (Ax : argof h x x) by (econstructor; exact E).
  apply (as_node h Arg ns c t0 ts x r cs E (HA x Ax) U0 (HC x ns c r cs Ax E)).
  assert (K : forall j, In j cs -> (forall z, argof h j z -> Arg z) /\ (forall z ns c r cs, argof h j z -> shape h z = Some (ENode ns c (r :: cs)) -> clear Arg h r)).
  { intros j Hj. split; [intros z Az; apply HA; exact (ao_below h x ns c r cs j z E Hj Az)|intros z n b q qs Az Ez; apply (HC z n b q qs); [exact (ao_below h x ns c r cs j z E Hj Az)|exact Ez]]. }
  clear - Us IH Fu K. induction Us as [|j t cs ts Hj _ IHu]; [constructor|]. apply F_cons in IH as [IH1 IH2]. apply F_cons in Fu as [Fu1 Fu2]. destruct (K j (or_introl eq_refl)) as [K1 K2].
  constructor; [now apply IH1|]. apply IHu; try assumption. intros q Hq. apply K. now right.
Qed.
Lemma unshared_argside h i T : unfolds h i T -> full T -> unshared h i -> argside h (argof h i) T i /\ forall z, argof h i z -> exists t, unfolds h z t /\ full t.
Proof.
  intros U F (l & N & Nd).
  assert (Sub : forall x z, argof h x z -> forall t, unfolds h x t -> full t -> exists u, unfolds h z u /\ full u).
  { induction 1 as [x ns c cs E|x ns c r cs k z E Hk _ IH]; intros t Ut Ft; [eauto|]. apply unf_shape in Ut. destruct t as [|n b ts]; [congruence|]. destruct Ut as (ks & E' & Us). assert (ks = r :: cs) by congruence. subst ks. apply full_node in Ft as [_ Ft].
    destruct (Forall2_in_l _ _ _ k Us (or_intror Hk)) as (u & Hu & Uu). rewrite Forall_forall in Ft. exact (IH u Uu (Ft u Hu)). }
  split; [|intros z Az; exact (Sub i z Az T U F)]. apply argside_of; try assumption; [easy|]. intros z ns c r cs Az Ez. destruct (Sub i z Az T U F) as (u & Uu & Fu). apply unf_shape in Uu. destruct u as [|n b us]; [congruence|]. destruct Uu as (ks & E' & Us). assert (ks = r :: cs) by congruence. subst ks.
  destruct us as [|t0 us]; [inversion Us|]. apply F2_cons in Us as [U0 _]. apply (inside_clear h (argof h i) t0 r U0). intros w Iw Aw. exact (argof_clear h i z Az l ns c r cs w N Nd Ez Iw Aw).
Qed.

(** find_candidates on such a tree *)
Lemma find_candidates2 fuel h i r T : wf h -> unfolds h i T -> full T -> leafb T = false -> table h i = Some r -> unshared h i -> List.length (labelled T) < fuel ->
  exists h' cands, find_candidates fuel r h = (Ok cands, h') /\ outs h (argof h i) h' (cur_id h) (apart T) cands /\ Inv h h'.
Proof.
  intros Wf U Fu Nl Tr Un Hf. destruct (unshared_argside h i T U Fu Un) as [As HA]. set (Arg := argof h i) in *. clearbody Arg. pose proof (inv_start h Wf) as I. assert (Gi : good h h i) by (left; eauto).
  destruct (obj_of h h i r T I Gi Tr U) as (o & Eo & _ & _ & _ & El). unfold find_candidates. rewrite (run_ok _ _ _ _ _ Eo), El, Nl.
  inversion As as [|ns c t0 ts x r0 cs Sh Ai U0 C0 Fs]; subst; [discriminate|]. pose proof Sh as Sh'. apply shape_node in Sh' as (r' & l & ls & y & T' & O & L). assert (r' = r) by congruence. subst r'.
  rewrite (run_ok _ _ _ _ _ (children_ids_ok _ _ _ _ _ _ _ _ _ O L)). cbn [firstn skipn].
  assert (Uk : Forall2 (unfolds h) cs ts). { apply unf_shape in U as (cs' & E' & Us'). rewrite Sh in E'. injection E' as <-. now apply F2_cons in Us' as [_ Us']. }
  apply full_node in Fu as [_ Fu]. apply F_cons in Fu as [F0 F1].
  assert (Ak : Forall2 (arg1 h Arg) cs ts).
  { clear - Uk F1 Fs. induction Uk as [|z u cs us Hz _ IHk]; [constructor|]. apply F_cons in F1 as [F1 F2]. apply F2_cons in Fs as [Fs1 Fs2]. constructor; [now repeat apply conj|now apply IHk]. }
  assert (Wr : W h h r0 (labelled t0)) by (split; [left; eauto|eauto]).
  assert (Re : forall z, In z (r0 :: cs) -> refd h h z) by (intros z Hz; exists i; split; [exact Gi|now exists ns, c, (r0 :: cs)]).
  destruct (fresh_create h Arg HA Wf [] h h [r0] [labelled t0] I (grow_refl h Arg HA [] h I)) as (h1 & E1 & Fs1 & _ & _); [discriminate|constructor; [apply refd_allowed; [exact I|apply Re; now left]|constructor]|now constructor|].
  rewrite (run_ok _ _ _ _ _ E1). pose proof (fresh_fuel h Arg HA _ _ _ _ _ _ _ _ _ I Fs1) as L1. pose proof (fresh_free h Arg HA _ _ _ _ _ _ _ _ _ I Fs1) as Fe1.
  assert (HC1 : (cur_id h <= cur_id h1)%Z) by apply L1. pose proof (full_words t0 F0) as Nt0.
  destruct (search2 h Arg HA Wf fuel h1 (cur_id h) (n_obj h) r0 [] (labelled t0) [] cs ts [] (cur_id h) (ex_intro _ [] L1) Fe1 (le_clear h Arg _ _ _ L1 r0 (proj1 Wr) C0) Ak ltac:(lia) HC1) as (h2 & new & E2 & L2 & C2).
  { intros z Hz. apply (good_bound h h z Wf I). apply (inv_kids h h I i z Gi). exists ns, c, (r0 :: cs). split; [exact Sh|now right]. }
  { rewrite labelled_concat in Hf. cbn [List.map List.concat] in Hf. rewrite app_length in Hf. destruct (labelled t0); [easy|]. cbn [List.length] in Hf. lia. }
  exists h2, new. split; [exact E2|]. split; [|exact (le_inv h Arg _ _ _ L2)]. refine (outs_iff h Arg _ _ _ _ _ _ C2). intros a b. symmetry. apply apart_iff.
Qed.

(** the trees the stages before delta build are such trees *)
Lemma rep_nodes h : (forall i t F, rep h i t F -> exists l, nodes h i l /\ NoDup l /\ forall z, In z l -> In (CId z) F)
  /\ (forall is_ ts F, reps h is_ ts F -> exists ls, Forall2 (nodes h) is_ ls /\ NoDup (List.concat ls) /\ forall z, In z (List.concat ls) -> In (CId z) F).
Proof.
  apply rep_reps_ind.
  - intros i r ns t Ti O. exists []. split; [econstructor; eassumption|]. split; [constructor|easy].
  - intros i r ns c l cs ts F Ti O L _ (ls & Fn & Nd & Sub) D. exists (i :: List.concat ls). split; [econstructor; eassumption|]. split.
    + constructor; [|exact Nd]. intros H. apply Sub in H. apply (D (CId i)); [now left|exact H].
    + intros z [<-|Hz]; [now left|]. do 3 right. now apply Sub.
  - exists []. split; [constructor|]. split; [constructor|easy].
  - intros i is_ t ts F G _ (l & Nl & Dl & Sl) _ (ls & Fn & Nd & Sub) D. exists (l :: ls). split; [now constructor|]. cbn [List.concat]. split.
    + apply nodup_app; [exact Dl|exact Nd|]. intros z H1 H2. apply (D (CId z)); [now apply Sl|now apply Sub].
    + intros z Hz. apply in_app_iff in Hz as [Hz|Hz]; apply in_app_iff; [left; now apply Sl|right; now apply Sub].
Qed.
Lemma built_unshared h : built h -> exists i, root_id h = Some i /\ unshared h i.
Proof. intros B. destruct (built_rep h B) as (i & T & F & _ & Ri & R & _). destruct (proj1 (rep_nodes h) i T F R) as (l & N & Nd & _). exists i. split; [exact Ri|now exists l]. Qed.
