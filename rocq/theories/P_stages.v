(** * P_stages.v -- beta, gamma and epsilon against the specification *)

From Verif Require Import Py P_py M_symbol M_token M_tree M_stages S_tree P_tree P_treeops P_alpha P_beta P_gamma C_alpha.
From Coq Require Import String Permutation.
Open Scope list_scope.

Lemma among_in x l : among x l = true <-> In x (List.map lit l).
Proof.
  unfold among. rewrite existsb_exists, in_map_iff. split; intros (s & H1 & H2); exists s.
  - apply str_eqb_eq in H2. now split.
  - split; [assumption|]. now apply str_eqb_eq.
Qed.

(** ** beta *)

Lemma by_entity_spec t ts : by_entity (t :: ts) = true <-> one_entity (t :: ts).
Proof.
  unfold by_entity. split.
  - intros H. destruct t as [ns k|]; [|discriminate]. apply andb_true_iff in H as [H1 H2]. exists (t_ent k). split.
    + intros E. rewrite E in H1. discriminate.
    + rewrite forallb_forall in H2. apply Forall_forall. intros x Hx. specialize (H2 x Hx). destruct x as [n j|]; [|discriminate]. apply str_eqb_eq in H2. eauto.
  - intros (e & He & H). assert (Ht := H). inversion Ht as [|? ? (ns & k & -> & Hk) _]; subst. apply andb_true_iff. split.
    + destruct (t_ent k); [easy|reflexivity].
    + apply forallb_forall. rewrite Forall_forall in H. intros x Hx. destruct (H x Hx) as (n & j & -> & Hj). now apply str_eqb_eq.
Qed.
Lemma compound_label_spec l : forallb (fun k => among (t_dep k) compound_deps) l = true <-> Forall compound_label l.
Proof.
  rewrite forallb_forall, Forall_forall. unfold compound_label. split; intros H x Hx; specialize (H x Hx); [now apply among_in in H|now apply among_in].
Qed.
Lemma compound_kids_spec ns c ts : ts <> [] -> compound_kids ts = true <-> one_entity ts \/ Forall compound_label (leaves (SNode ns c ts)).
Proof.
  intros N. unfold compound_kids. rewrite orb_true_iff. destruct ts as [|t ts]; [easy|]. rewrite by_entity_spec, <- compound_label_spec.
  unfold by_deps. cbn [leaves]. now rewrite forallb_flat.
Qed.
Lemma beta_marked t : full t -> marked t (beta_t t).
Proof.
  induction t as [ns k|ns c ts IH] using stree_ind'; intros F; [constructor|]. apply full_node in F as [N F]. cbn [beta_t]. constructor.
  - clear N. induction IH as [|t ts H _ IH2]; [constructor|]. inversion F; subst. cbn. constructor; auto.
  - now apply compound_kids_spec.
Qed.
Lemma beta_full t : full t -> full (beta_t t).
Proof.
  induction t as [ns k|ns c ts IH] using stree_ind'; intros F; [exact I|]. apply full_node in F as [N F]. cbn [beta_t]. apply full_node. split; [now destruct ts|].
  clear N. induction IH as [|t ts H _ IH2]; [constructor|]. inversion F; subst. cbn. constructor; auto.
Qed.
Lemma marked_leaves t u : marked t u -> leaves u = leaves t.
Proof.
  revert u. induction t as [ns k|ns c ts IH] using stree_ind'; intros u M; inversion M as [|? ? ? b us Hs Hb]; subst; [reflexivity|]. cbn [leaves]. clear - IH Hs.
  revert us Hs. induction IH as [|t ts H _ IH2]; intros us Hs; inversion Hs; subst; [reflexivity|]. cbn. f_equal; auto.
Qed.

(** ** gamma *)

Lemma la_refl l : less_articles l l.
Proof. induction l; now constructor. Qed.
Lemma la_app l m l' m' : less_articles l m -> less_articles l' m' -> less_articles (l ++ l') (m ++ m').
Proof. induction 1; intros H'; cbn; [exact H'|constructor; auto|apply la_drop; auto]. Qed.
Lemma la_trans l m n : less_articles l m -> less_articles m n -> less_articles l n.
Proof.
  intros H. revert n. induction H as [|x l m H IH|ns k l m A H IH]; intros n H2.
  - exact H2.
  - inversion H2; subst; [constructor; auto|apply la_drop; auto].
  - apply la_drop; auto.
Qed.
Lemma setc_labelled b t : labelled (setc b t) = labelled t.
Proof.
  induction t as [ns k|ns c ts IH] using stree_ind'; [reflexivity|]. cbn. induction IH as [|t ts H _ IH2]; [reflexivity|]. cbn. now rewrite H, IH2.
Qed.
Lemma comb_labelled a s : is_snode s = true -> full s -> labelled (comb a s) = labelled a ++ labelled s.
Proof.
  induction s as [ns k|ns c ts IH] using stree_ind'; intros Hn F; [discriminate|]. apply full_node in F as [N F]. destruct ts as [|y ts]; [easy|].
  inversion F; subst. inversion IH as [|? ? Hy _]; subst. cbn [comb]. destruct (terminal y) eqn:E.
  - cbn [labelled flat_map]. rewrite setc_labelled. cbn. rewrite app_nil_r. now rewrite app_assoc.
  - cbn [labelled flat_map]. rewrite Hy; [now rewrite app_assoc|now destruct y|assumption].
Qed.
Lemma article_spec k : article_token k = true -> is_article k.
Proof.
  unfold article_token, is_article. intros H. apply andb_true_iff in H as [H1 H2]. apply str_eqb_eq in H1. split; [exact H1|]. now apply among_in in H2.
Qed.
Lemma pe1_words t : full t -> less_articles (labelled t) (labelled (pe1 t)).
Proof.
  intros F. destruct t as [ns k|ns c ts]; [apply la_refl|]. unfold pe1. destruct (forallb rel_leaf ts); [rewrite setc_labelled; apply la_refl|].
  destruct ts as [|a [|s [|z ts]]]; try apply la_refl. cbn [labelled flat_map]. rewrite app_nil_r.
  apply full_node in F as [_ F]. assert (Fs : full s) by (inversion F as [|? ? _ F1]; now inversion F1).
  destruct (article a) eqn:E.
  - destruct a as [na k|]; [|discriminate]. cbn. apply la_drop; [now apply article_spec|apply la_refl].
  - destruct (terminal s) eqn:Et; cbn [negb andb]; [cbn [labelled flat_map]; rewrite app_nil_r; apply la_refl|].
    destruct (rel_all a && first_rel s); [rewrite comb_labelled; [apply la_refl|now destruct s|exact Fs]|]. cbn [labelled flat_map]. rewrite app_nil_r. apply la_refl.
Qed.
Lemma gamma_words t : full t -> less_articles (labelled t) (labelled (gamma_t t)).
Proof.
  induction t as [ns k|ns c ts IH] using stree_ind'; intros F; [apply la_refl|]. cbn [gamma_t].
  apply (la_trans _ (labelled (SNode ns c (List.map gamma_t ts)))).
  - apply full_node in F as [_ F]. cbn [labelled]. induction IH as [|t ts H _ IH2]; [constructor|]. inversion F; subst. cbn. apply la_app; auto.
  - apply pe1_words. apply full_node in F as [N F]. apply full_node. split; [now destruct ts|]. clear N IH. induction F; cbn; constructor; [now apply gamma_full|assumption].
Qed.

(** ** epsilon *)

Fixpoint edge_res (t : stree) : res value :=
  match t with
  | SLeaf (Some ns) k => Ok (VStr (t_word k ++ lit "/" ++ ns))
  | SLeaf None _ => Err TypeError
  | SNode _ true ts => Ok (VStr (join (lit "_") (List.map t_word (flat_map leaves ts)) ++ lit "/?"))
  | SNode _ false ts =>
      let? vs := (fix go l := match l with [] => Ok [] | x :: r => let? y := edge_res x in let? ys := go r in Ok (y :: ys) end) ts in Ok (VTup vs)
  end.
Lemma edge_res_node ns ts : edge_res (SNode ns false ts) = (let? vs := mapr edge_res ts in Ok (VTup vs)).
Proof. cbn [edge_res]. f_equal. induction ts as [|t ts IH]; [reflexivity|]. cbn [mapr]. now rewrite <- IH. Qed.
Lemma smap_trees {B} h (f : nat -> SM B) (g : stree -> res B) : forall cs ts F rs, reps h cs ts F -> Forall2 (fun i r => table h i = Some r) cs rs ->
  (forall i t F' r, In t ts -> rep h i t F' -> table h i = Some r -> f r h = (g t, h)) -> smap f rs h = (mapr g ts, h).
Proof.
  intros cs ts F rs R. revert rs. induction R as [|i is_ t ts F G R Rs IH D]; intros rs H K; inversion H as [|i' r is' rs' T H']; subst; [reflexivity|].
  rewrite smap_cons. unfold sbind at 1. rewrite (K i t F r (or_introl eq_refl) R T). cbn [mapr]. destruct (g t) as [y|e]; [|reflexivity]. cbn [rbind].
  unfold sbind. rewrite (IH rs' H') by (intros i0 t0 F0 r0 Hi; apply K; now right). now destruct (mapr g ts).
Qed.
Lemma word_of_leaves h rs ks : Forall2 (fun r k => exists j ns, objs h r = Some (OLeaf j ns k)) rs ks -> smap word_of rs h = (Ok (List.map t_word ks), h).
Proof.
  induction 1 as [|r k rs ks (j & ns & O) _ IH]; [reflexivity|]. rewrite smap_cons.
  rewrite (run_ok _ _ _ (t_word k) h); [now rewrite (run_ok _ _ _ _ _ IH)|]. unfold word_of. now rewrite (run_ok _ _ _ _ _ (deref_ok _ _ _ O)).
Qed.
Lemma build_hyperedges_rep : forall f h i t F r, depth t <= f -> rep h i t F -> table h i = Some r -> build_hyperedges f r h = (edge_res t, h).
Proof.
  induction f as [|f IH]; intros h i t F r Hd R T; [pose proof (depth_pos t); lia|]. cbn [build_hyperedges]. destruct t as [ns k|ns c ts].
  - inversion R; subst. assert (r0 = r) by congruence. subst r0.
    match goal with X : objs h r = Some _ |- _ => rewrite (run_ok _ _ _ _ _ (deref_ok _ _ _ X)) end. destruct ns as [n|]; reflexivity.
  - destruct (rep_inv_node _ _ _ _ _ _ _ R T) as (l & cs & F0 & O & L & Rs & D & EF). rewrite (run_ok _ _ _ _ _ (deref_ok _ _ _ O)). destruct c.
    + unfold compound_node_to_hyperedges. destruct (flat_leafs_rep (S f) h i _ F r R T Hd) as (rs & E & H).
      rewrite (run_ok _ _ _ _ _ E), (run_ok _ _ _ _ _ (word_of_leaves _ _ _ H)). reflexivity.
    + destruct (children_ok _ _ _ _ _ _ _ _ _ _ _ O L Rs) as (rs & Ec & Hc). rewrite (run_ok _ _ _ _ _ Ec).
      assert (E : smap (build_hyperedges f) rs h = (mapr edge_res ts, h)).
      { apply (smap_trees h _ edge_res cs ts F0 rs Rs Hc). intros i0 t0 F' r0 Hi R0 T0. apply (IH h i0 t0 F' r0); [|exact R0|exact T0].
        apply depth_node in Hd. now apply (depth_in t0 ts). }
      rewrite edge_res_node. unfold sbind. rewrite E. now destruct (mapr edge_res ts).
Qed.
Lemma edge_res_spec t : match edge_res t with Ok v => hyperedge_of t v /\ ~ nameless t | Err e => e = TypeError /\ nameless t end.
Proof.
  induction t as [ns k|ns c ts IH] using stree_ind'.
  - destruct ns as [n|]; cbn; [split; [constructor|intros H; inversion H]|split; [reflexivity|constructor]].
  - destruct c; [cbn; split; [apply he_compound|intros H; inversion H]|]. rewrite edge_res_node.
    assert (X : match mapr edge_res ts with Ok vs => Forall2 hyperedge_of ts vs /\ Forall (fun t => ~ nameless t) ts | Err e => e = TypeError /\ Exists nameless ts end).
    { induction IH as [|t ts H _ IH2]; [cbn; split; constructor|]. cbn [mapr]. destruct (edge_res t) as [v|e]; cbn [rbind].
      - destruct (mapr edge_res ts) as [vs|e]; cbn [rbind]; [|destruct IH2; split; [assumption|now right]]. destruct H, IH2. now split; constructor.
      - destruct H. split; [assumption|now left]. }
    destruct (mapr edge_res ts) as [vs|e]; cbn [rbind].
    + destruct X as [X1 X2]. split; [now constructor|]. intros H. inversion H as [|? ? t Hi Ht]; subst. rewrite Forall_forall in X2. now apply (X2 t).
    + destruct X as [X1 X2]. split; [exact X1|]. apply Exists_exists in X2 as (t & Hi & Ht). now apply (nl_node ns ts t).
Qed.
