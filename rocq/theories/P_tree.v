(** * P_tree.v -- the heap of M_tree holds trees: representation predicate, frames,
    and what each method does to it *)

From Verif Require Import Py P_py M_token M_tree S_tree.
From Coq Require Import String Permutation.
Open Scope list_scope.

(** ** Pure trees *)

Section stree_ind.
  Variable P : stree -> Prop.
  Hypothesis HL : forall ns t, P (SLeaf ns t).
  Hypothesis HN : forall ns c ts, Forall P ts -> P (SNode ns c ts).
  Fixpoint stree_ind' (t : stree) : P t.
  Proof.
    destruct t as [ns t|ns c ts]; [apply HL|]. apply HN. induction ts as [|x ts IH]; constructor; [apply stree_ind'|exact IH].
  Defined.
End stree_ind.
Fixpoint depth (t : stree) : nat := match t with SLeaf _ _ => 1 | SNode _ _ ts => S (list_max (List.map depth ts)) end.
Lemma full_node ns c ts : full (SNode ns c ts) <-> ts <> [] /\ Forall full ts.
Proof.
  cbn. assert (E : forall l, (fix go l := match l with [] => True | x :: r => full x /\ go r end) l <-> Forall full l).
  { induction l as [|x l IH]; [now split|]. rewrite IH. split; [now intros [H1 H2]; constructor|]. intros H. inversion H. now split. }
  now rewrite E.
Qed.

(** ** Cells *)

Inductive cell := CId (i : Z) | CObj (r : nat) | CList (l : nat).
Definition agree (h h' : tree) (c : cell) : Prop :=
  match c with
  | CId i => table h' i = table h i
  | CObj r => objs h' r = objs h r
  | CList l => lists h' l = lists h l
  end.
(** allocated *)
Definition old (h : tree) (c : cell) : Prop :=
  match c with
  | CId i => (0 <= i < cur_id h)%Z
  | CObj r => r < n_obj h
  | CList l => l < n_list h
  end.
Record wf (h : tree) : Prop := {
  wf_cur : (0 <= cur_id h)%Z;
  wf_tab : forall i r, table h i = Some r -> (0 <= i < cur_id h)%Z;
  wf_obj : forall r o, objs h r = Some o -> r < n_obj h;
  wf_lst : forall l x, lists h l = Some x -> l < n_list h }.
Lemma wf0 : wf tree0.
Proof. constructor; cbn; solve [discriminate|lia]. Qed.

Definition disj (F G : list cell) : Prop := forall c, In c F -> In c G -> False.

(** [h'] comes from [h] by allocating and writing only cells of [F]. *)
Record frame (h h' : tree) (F : list cell) : Prop := {
  fr_wf : wf h';
  fr_cur : (cur_id h <= cur_id h')%Z;
  fr_obj : n_obj h <= n_obj h';
  fr_lst : n_list h <= n_list h';
  fr_same : forall c, old h c -> ~ In c F -> agree h h' c }.
Definition within (h : tree) (F F' : list cell) : Prop := forall c, In c F' -> In c F \/ ~ old h c.
Definition upd (h h' : tree) (F F' : list cell) : Prop := frame h h' F /\ within h F F'.

Lemma frame_old h h' F c : frame h h' F -> old h c -> old h' c.
Proof. intros [W H1 H2 H3 _] H. destruct c; cbn in *; lia. Qed.
Lemma agree_trans h h1 h2 c : agree h h1 c -> agree h1 h2 c -> agree h h2 c.
Proof. destruct c; cbn; congruence. Qed.
Lemma agree_refl h c : agree h h c.
Proof. now destruct c. Qed.
Lemma frame_refl h F : wf h -> frame h h F.
Proof. intros W. constructor; try lia; try assumption. intros; apply agree_refl. Qed.
Lemma upd_trans h h1 h2 F F1 F2 : upd h h1 F F1 -> upd h1 h2 F1 F2 -> upd h h2 F F2.
Proof.
  intros [A W1] [B W2]. split.
  - constructor.
    + apply B.
    + destruct A, B; lia.
    + destruct A, B; lia.
    + destruct A, B; lia.
    + intros c Ho Hn. apply (agree_trans h h1 h2); [now apply A|]. apply B; [now apply (frame_old h h1 F)|].
      intros H. destruct (W1 c H); [easy|]. easy.
  - intros c Hc. destruct (W2 c Hc) as [H|H]; [now apply W1|]. right. intros Ho. apply H. now apply (frame_old h h1 F).
Qed.
Lemma frame_weaken h h' F G : frame h h' F -> (forall c, In c F -> In c G) -> frame h h' G.
Proof. intros [A B C D E] H. constructor; try assumption. intros c Ho Hn. apply E; [exact Ho|]. intros X. apply Hn, H, X. Qed.
Lemma frame_trans h h1 h2 F : frame h h1 F -> frame h1 h2 F -> frame h h2 F.
Proof.
  intros A B. constructor.
  - apply B.
  - destruct A, B; lia.
  - destruct A, B; lia.
  - destruct A, B; lia.
  - intros c Ho Hn. apply (agree_trans h h1 h2); [now apply A|]. apply B; [now apply (frame_old h h1 F)|exact Hn].
Qed.

(** ** Trees in the heap *)

Inductive rep (h : tree) : Z -> stree -> list cell -> Prop :=
| rep_leaf i r ns t : table h i = Some r -> objs h r = Some (OLeaf i ns t) -> rep h i (SLeaf ns t) [CId i; CObj r]
| rep_node i r ns c l cs ts F :
    table h i = Some r -> objs h r = Some (ONode i ns l [] (-1) c) -> lists h l = Some cs -> reps h cs ts F ->
    disj [CId i; CObj r; CList l] F ->
    rep h i (SNode ns c ts) (CId i :: CObj r :: CList l :: F)
with reps (h : tree) : list Z -> list stree -> list cell -> Prop :=
| reps_nil : reps h [] [] []
| reps_cons i is_ t ts F G : rep h i t F -> reps h is_ ts G -> disj F G -> reps h (i :: is_) (t :: ts) (F ++ G).
Scheme rep_mind := Minimality for rep Sort Prop with reps_mind := Minimality for reps Sort Prop.
Combined Scheme rep_reps_ind from rep_mind, reps_mind.

Lemma rep_frame_both h h' :
  (forall i t F, rep h i t F -> (forall c, In c F -> agree h h' c) -> rep h' i t F)
  /\ (forall is_ ts F, reps h is_ ts F -> (forall c, In c F -> agree h h' c) -> reps h' is_ ts F).
Proof.
  apply rep_reps_ind.
  - intros i r ns t H1 H2 A. constructor.
    + rewrite <- H1. apply (A (CId i)). now left.
    + rewrite <- H2. apply (A (CObj r)). right; now left.
  - intros i r ns c l cs ts F H1 H2 H3 H4 IH D A. apply (rep_node h' i r ns c l cs).
    + rewrite <- H1. apply (A (CId i)). now left.
    + rewrite <- H2. apply (A (CObj r)). right; now left.
    + rewrite <- H3. apply (A (CList l)). right; right; now left.
    + apply IH. intros x Hx. apply A. do 3 right. exact Hx.
    + exact D.
  - intros _. constructor.
  - intros i is_ t ts F G H1 IH1 H2 IH2 D A. constructor; [apply IH1|apply IH2|exact D]; intros x Hx; apply A, in_app_iff; tauto.
Qed.
Lemma rep_agree h h' i t F : rep h i t F -> (forall c, In c F -> agree h h' c) -> rep h' i t F.
Proof. apply rep_frame_both. Qed.
Lemma reps_agree h h' is_ ts F : reps h is_ ts F -> (forall c, In c F -> agree h h' c) -> reps h' is_ ts F.
Proof. apply rep_frame_both. Qed.

Lemma rep_old_both h : wf h ->
  (forall i t F, rep h i t F -> forall c, In c F -> old h c) /\ (forall is_ ts F, reps h is_ ts F -> forall c, In c F -> old h c).
Proof.
  intros W. apply rep_reps_ind.
  - intros i r ns t H1 H2 c [<-|[<-|[]]]; cbn; [now apply (wf_tab h W i r)|now apply (wf_obj h W r _ H2)].
  - intros i r ns c l cs ts F H1 H2 H3 _ IH _ x [<-|[<-|[<-|Hx]]]; cbn.
    + now apply (wf_tab h W i r).
    + now apply (wf_obj h W r _ H2).
    + now apply (wf_lst h W l _ H3).
    + now apply IH.
  - easy.
  - intros i is_ t ts F G _ IH1 _ IH2 _ c Hc. apply in_app_iff in Hc as [Hc|Hc]; auto.
Qed.
Lemma rep_old h i t F : wf h -> rep h i t F -> forall c, In c F -> old h c.
Proof. intros W. apply (rep_old_both h W). Qed.
Lemma reps_old h is_ ts F : wf h -> reps h is_ ts F -> forall c, In c F -> old h c.
Proof. intros W. apply (rep_old_both h W). Qed.

(** the frame rule *)
Lemma rep_frame h h' F i t G : wf h -> frame h h' F -> rep h i t G -> disj F G -> rep h' i t G.
Proof.
  intros W Fr R D. apply (rep_agree h h'); [exact R|]. intros c Hc. apply Fr; [now apply (rep_old h i t G W R)|]. intros X. now apply (D c).
Qed.
Lemma reps_frame h h' F is_ ts G : wf h -> frame h h' F -> reps h is_ ts G -> disj F G -> reps h' is_ ts G.
Proof.
  intros W Fr R D. apply (reps_agree h h'); [exact R|]. intros c Hc. apply Fr; [now apply (reps_old h is_ ts G W R)|]. intros X. now apply (D c).
Qed.
Lemma within_disj h F F' G : within h F F' -> (forall c, In c G -> old h c) -> disj F G -> disj F' G.
Proof. intros W O D c H1 H2. destruct (W c H1) as [H|H]; [now apply (D c)|now apply H, O]. Qed.

Lemma disj_sym F G : disj F G -> disj G F.
Proof. intros H c H1 H2. now apply (H c). Qed.
Lemma disj_app F G H : disj F (G ++ H) <-> disj F G /\ disj F H.
Proof.
  split; [intros D; split; intros c H1 H2; apply (D c); [exact H1|apply in_app_iff; tauto|exact H1|apply in_app_iff; tauto]|].
  intros [A B] c H1 H2. apply in_app_iff in H2 as [H2|H2]; [now apply (A c)|now apply (B c)].
Qed.
Lemma disj_appl F G H : disj (F ++ G) H <-> disj F H /\ disj G H.
Proof.
  split; [intros D; split; intros c H1 H2; apply (D c); try exact H2; apply in_app_iff; tauto|].
  intros [A B] c H1 H2. apply in_app_iff in H1 as [H1|H1]; [now apply (A c)|now apply (B c)].
Qed.
Lemma disj_nil F : disj F [].
Proof. easy. Qed.
Lemma disj_nill F : disj [] F.
Proof. easy. Qed.
Lemma disj_sub F G F' G' : disj F G -> (forall c, In c F' -> In c F) -> (forall c, In c G' -> In c G) -> disj F' G'.
Proof. intros D A B c H1 H2. apply (D c); auto. Qed.

Lemma reps_app h is1 ts1 F1 is2 ts2 F2 : reps h is1 ts1 F1 -> reps h is2 ts2 F2 -> disj F1 F2 -> reps h (is1 ++ is2) (ts1 ++ ts2) (F1 ++ F2).
Proof.
  induction 1 as [|i is_ t ts F G R1 R2 IH D]; intros H2 D2; [exact H2|]. apply disj_appl in D2 as [D3 D4]. cbn.
  rewrite <- app_assoc. constructor; [exact R1|now apply IH|]. apply disj_app. now split.
Qed.
Lemma reps_one h i t F : rep h i t F -> reps h [i] [t] F.
Proof. intros H. rewrite <- (app_nil_r F). constructor; [exact H|constructor|apply disj_nil]. Qed.
Lemma reps_length h is_ ts F : reps h is_ ts F -> List.length is_ = List.length ts.
Proof. induction 1; cbn; congruence. Qed.
Lemma rep_get h i t F : rep h i t F -> exists r, table h i = Some r.
Proof. intros H; inversion H; subst; eauto. Qed.
Lemma rep_id_in h i t F : rep h i t F -> In (CId i) F.
Proof. intros H; inversion H; subst; now left. Qed.
Lemma rep_nonneg h i t F : wf h -> rep h i t F -> (0 <= i)%Z.
Proof. intros W H. destruct (rep_get _ _ _ _ H) as (r & E). now apply (wf_tab h W) in E. Qed.

(** ** Enough fuel *)

Definition objs_in (F : list cell) : list nat := flat_map (fun c => match c with CObj r => [r] | _ => [] end) F.
Lemma objs_in_app F G : objs_in (F ++ G) = objs_in F ++ objs_in G.
Proof. apply flat_map_app. Qed.
Lemma objs_in_iff F r : In r (objs_in F) <-> In (CObj r) F.
Proof.
  unfold objs_in. rewrite in_flat_map. split.
  - intros ([i|s|l] & H & E); try easy. destruct E as [<-|[]]. exact H.
  - intros H. exists (CObj r). split; [exact H|now left].
Qed.
Lemma nodup_app {A} (l1 l2 : list A) : NoDup l1 -> NoDup l2 -> (forall x, In x l1 -> In x l2 -> False) -> NoDup (l1 ++ l2).
Proof.
  induction 1 as [|x l1 Hx _ IH]; intros H2 D; [exact H2|]. cbn. constructor.
  - rewrite in_app_iff. intros [H|H]; [easy|]. apply (D x); [now left|exact H].
  - apply IH; [exact H2|]. intros y H H'. apply (D y); [now right|exact H'].
Qed.
Lemma rep_depth_both h :
  (forall i t F, rep h i t F -> NoDup (objs_in F) /\ depth t <= List.length (objs_in F))
  /\ (forall is_ ts F, reps h is_ ts F -> NoDup (objs_in F) /\ list_max (List.map depth ts) <= List.length (objs_in F)).
Proof.
  apply rep_reps_ind.
  - intros i r ns t _ _. cbn. split; [repeat constructor; easy|lia].
  - intros i r ns c l cs ts F _ _ _ _ [ND L] D.
    assert (E : objs_in (CId i :: CObj r :: CList l :: F) = r :: objs_in F) by reflexivity. rewrite E. clear E.
    assert (E : depth (SNode ns c ts) = S (list_max (List.map depth ts))) by reflexivity. rewrite E. clear E.
    split; [|cbn [List.length]; lia]. constructor; [|exact ND]. intros H. apply objs_in_iff in H. apply (D (CObj r)); [right; now left|exact H].
  - cbn. split; [constructor|lia].
  - intros i is_ t ts F G _ [N1 L1] _ [N2 L2] D. rewrite objs_in_app, app_length. split.
    + apply nodup_app; [exact N1|exact N2|]. intros x H1 H2. apply objs_in_iff in H1, H2. now apply (D (CObj x)).
    + cbn [List.map]. change (list_max (depth t :: List.map depth ts)) with (Nat.max (depth t) (list_max (List.map depth ts))). lia.
Qed.
Lemma bounded_length (l : list nat) n : NoDup l -> (forall x, In x l -> x < n) -> List.length l <= n.
Proof.
  intros N H. rewrite <- (seq_length n 0). apply NoDup_incl_length; [exact N|]. intros x Hx. apply in_seq. specialize (H x Hx). lia.
Qed.
Lemma rep_depth h i t F : wf h -> rep h i t F -> depth t <= n_obj h.
Proof.
  intros W R. destruct (proj1 (rep_depth_both h) i t F R) as [N L]. etransitivity; [exact L|]. apply bounded_length; [exact N|].
  intros x Hx. apply objs_in_iff in Hx. now apply (rep_old h i t F W R) in Hx.
Qed.
Lemma reps_depth h is_ ts F : wf h -> reps h is_ ts F -> list_max (List.map depth ts) <= n_obj h.
Proof.
  intros W R. destruct (proj2 (rep_depth_both h) is_ ts F R) as [N L]. etransitivity; [exact L|]. apply bounded_length; [exact N|].
  intros x Hx. apply objs_in_iff in Hx. now apply (reps_old h is_ ts F W R) in Hx.
Qed.
Lemma depth_pos t : 1 <= depth t.
Proof. destruct t; cbn; lia. Qed.
Lemma list_max_cons x l n : list_max (x :: l) <= n <-> x <= n /\ list_max l <= n.
Proof. change (list_max (x :: l)) with (Nat.max x (list_max l)). lia. Qed.
