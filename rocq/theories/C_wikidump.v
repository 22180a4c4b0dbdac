(** * C_wikidump.v -- property theorem C51 (wiki dump filter) *)

From Verif Require Import Py M_wikidump P_py.
From Coq Require Import String.
Open Scope list_scope.

(** ** What a dump is *)

(** [s] occurs in [line] *)
Definition occurs (s : string) (line : str) : Prop := exists a b, line = a ++ lit s ++ b.
(** [line] is a title line with title [t]: the first <title> is followed by [t]
    and the last </title>. *)
Definition titled (line t : str) : Prop :=
  exists a b, line = a ++ lit "<title>" ++ t ++ lit "</title>" ++ b
    /\ (forall a' b', line = a' ++ lit "<title>" ++ b' -> (List.length a <= List.length a')%nat)
    /\ (forall a' b', t ++ lit "</title>" ++ b = a' ++ lit "</title>" ++ b' -> (List.length a' <= List.length t)%nat).

Inductive block :=
| Outside (line : str)                                             (* a line outside pages *)
| Page (open : str) (before : list str) (title : str) (name : str) (body : list str) (close : str).
Definition lines_of (b : block) : list str :=
  match b with
  | Outside l => [l]
  | Page o bs t _ body c => o :: bs ++ t :: body ++ [c]
  end.
Definition well_formed (b : block) : Prop :=
  match b with
  | Outside l => ~ occurs "<page>" l
  | Page o bs t n body c =>
      occurs "<page>" o
      /\ (forall l, In l bs -> forall x, ~ titled l x)
      /\ titled t n
      /\ (forall l, In l body -> ~ occurs "<page>" l /\ ~ occurs "</page>" l)
      /\ occurs "</page>" c /\ ~ occurs "<page>" c
  end.
Definition kept (b : block) : Prop :=
  match b with Outside _ => True | Page _ _ _ n _ _ => ~ In c_colon n end.
Definition keptb (b : block) : bool :=
  match b with Outside _ => true | Page _ _ _ n _ _ => check_title n end.

(** ** Searching *)
Lemma prefixb_iff p : forall s, prefixb p s = true <-> exists b, s = p ++ b.
Proof.
  induction p as [|x p IH]; intros s; cbn.
  - split; [intros _; now exists s|reflexivity].
  - destruct s as [|y s]; [split; [discriminate|intros (b & H); discriminate]|].
    rewrite andb_true_iff, N.eqb_eq, IH. split.
    + intros [-> (b & ->)]. now exists b.
    + intros (b & H). injection H as -> ->. split; [reflexivity|now exists b].
Qed.
Lemma containsb_iff p s : containsb p s = true <-> exists a b, s = a ++ p ++ b.
Proof.
  induction s as [|c s IH]; cbn [containsb].
  - rewrite orb_false_r, prefixb_iff. split; [intros (b & ->)|intros (a & b & H)].
    + now exists [], b.
    + symmetry in H. apply app_eq_nil in H as [-> H]. now exists b.
  - rewrite orb_true_iff, prefixb_iff, IH. split.
    + intros [(b & ->)|(a & b & ->)]; [now exists [], b|now exists (c :: a), b].
    + intros ([|x a] & b & H); [left; now exists b|right]. injection H as _ ->. now exists a, b.
Qed.
Lemma page_iff s l : containsb (lit s) l = true <-> occurs s l.
Proof. apply containsb_iff. Qed.
Lemma check_title_iff t : check_title t = true <-> ~ In c_colon t.
Proof.
  unfold check_title. rewrite negb_true_iff, <- not_true_iff_false, containsb_iff. split; intros H X; apply H.
  - apply in_split in X as (a & b & ->). now exists a, b.
  - destruct X as (a & b & ->). apply in_or_app. right. now left.
Qed.
Lemma skipn_app_len {A} (p b : list A) : skipn (List.length p) (p ++ b) = b.
Proof. induction p; cbn; auto. Qed.
Lemma after_first_iff p s r : after_first p s = Some r <->
  exists a, s = a ++ p ++ r /\ forall a' b', s = a' ++ p ++ b' -> (List.length a <= List.length a')%nat.
Proof.
  revert r. induction s as [|c s IH]; intros r; cbn [after_first].
  - destruct (prefixb p []) eqn:P.
    + apply prefixb_iff in P as (b & P). rewrite P, skipn_app_len. symmetry in P. apply app_eq_nil in P as [-> ->]. cbn. split.
      * intros H. injection H as <-. exists []. split; [reflexivity|cbn; lia].
      * intros (a & H & _). symmetry in H. apply app_eq_nil in H as [_ ->]. reflexivity.
    + split; [discriminate|]. intros (a & H & _). symmetry in H. apply app_eq_nil in H as [-> H].
      assert (prefixb p [] = true) by (apply prefixb_iff; now exists r). congruence.
  - destruct (prefixb p (c :: s)) eqn:P.
    + apply prefixb_iff in P as (b & P). rewrite P, skipn_app_len. split.
      * intros H. injection H as <-. exists []. split; [reflexivity|cbn; lia].
      * intros (a & H & M). specialize (M [] b eq_refl). destruct a; [|cbn in M; lia]. cbn in H. apply app_inv_head in H. now subst.
    + rewrite IH. split.
      * intros (a & -> & M). exists (c :: a). split; [reflexivity|]. intros [|x a'] b' H.
        -- assert (prefixb p (c :: a ++ p ++ r) = true) by (apply prefixb_iff; now exists b'). congruence.
        -- injection H as _ H. specialize (M a' b' H). cbn. lia.
      * intros ([|x a] & H & M).
        -- assert (prefixb p (c :: s) = true) by (apply prefixb_iff; now exists r). congruence.
        -- injection H as <- ->. exists a. split; [reflexivity|]. intros a' b' H. specialize (M (c :: a') b'). cbn in M. rewrite H in M. specialize (M eq_refl). lia.
Qed.
Lemma before_last_iff p s t : before_last p s = Some t <->
  exists b, s = t ++ p ++ b /\ forall a' b', s = a' ++ p ++ b' -> (List.length a' <= List.length t)%nat.
Proof.
  revert t. induction s as [|c s IH]; intros t; cbn [before_last].
  - destruct (prefixb p []) eqn:P.
    + apply prefixb_iff in P as (b & P). symmetry in P. apply app_eq_nil in P as [-> ->]. split.
      * intros H. injection H as <-. exists []. split; [reflexivity|]. intros a' b' H. symmetry in H. apply app_eq_nil in H as [-> _]. cbn; lia.
      * intros (b & H & _). symmetry in H. apply app_eq_nil in H as [-> _]. reflexivity.
    + split; [discriminate|]. intros (b & H & _). symmetry in H. apply app_eq_nil in H as [-> H].
      assert (prefixb p [] = true) by (apply prefixb_iff; now exists b). congruence.
  - destruct (before_last p s) as [a|] eqn:B.
    + destruct (proj1 (IH a) eq_refl) as (b & E & M). split.
      * intros H. injection H as <-. exists b. split; [now rewrite E|]. intros [|x a'] b' H; [cbn; lia|]. injection H as _ H. specialize (M a' b' H). cbn. lia.
      * intros (b' & H & M'). destruct t as [|x t].
        -- specialize (M' (c :: a) b). rewrite E in M'. specialize (M' eq_refl). cbn in M'. lia.
        -- injection H as <- H. f_equal. f_equal.
           assert (L : (List.length a = List.length t)%nat).
           { pose proof (M t b' H). specialize (M' (c :: a) b). rewrite E in M'. specialize (M' eq_refl). cbn in M'. lia. }
           rewrite E in H. clear -H L. revert t L H. induction a as [|y a IHa]; intros [|z t] L H; cbn in L; try lia; [reflexivity|].
           injection H as -> H. f_equal. apply IHa; [lia|exact H].
    + assert (N : forall a b, s <> a ++ p ++ b).
      { intros a b E. assert (X : exists a0 b0, s = a0 ++ p ++ b0 /\ forall a' b', s = a' ++ p ++ b' -> (List.length a' <= List.length a0)%nat).
        { clear IH B. assert (K : forall n a b, s = a ++ p ++ b -> (List.length s - List.length a <= n)%nat ->
              exists a0 b0, s = a0 ++ p ++ b0 /\ forall a' b', s = a' ++ p ++ b' -> (List.length a' <= List.length a0)%nat).
          { induction n as [|n IHn]; intros a1 b1 E1 L.
            - exists a1, b1. split; [exact E1|]. intros a' b' E'. assert (List.length a' <= List.length s)%nat by (rewrite E', app_length; lia). lia.
            - destruct (containsb p (skipn (S (List.length a1)) s)) eqn:C.
              + apply containsb_iff in C as (a2 & b2 & C). apply (IHn (firstn (S (List.length a1)) s ++ a2) b2).
                * rewrite <- app_assoc, <- C. symmetry. apply firstn_skipn.
                * rewrite app_length, firstn_length.
                  assert (List.length a1 <= List.length s)%nat by (rewrite E1, app_length; lia).
                  destruct (Nat.le_gt_cases (S (List.length a1)) (List.length s)); [lia|].
                  rewrite skipn_all2 in C by lia. lia.
              + exists a1, b1. split; [exact E1|]. intros a' b' E'. destruct (Nat.le_gt_cases (List.length a') (List.length a1)) as [|G]; [assumption|].
                assert (containsb p (skipn (S (List.length a1)) s) = true); [|congruence]. apply containsb_iff.
                exists (skipn (S (List.length a1)) a'), b'. rewrite E'. rewrite skipn_app.
                replace (S (List.length a1) - List.length a')%nat with O by lia. reflexivity. }
          apply (K (List.length s) a b E). lia. }
        destruct X as (a0 & b0 & X). assert (None = Some a0); [|discriminate]. apply IH. now exists b0. }
      destruct (prefixb p (c :: s)) eqn:P.
      * apply prefixb_iff in P as (b & P). split.
        -- intros H. injection H as <-. exists b. split; [exact P|]. intros [|x a'] b' H; [cbn; lia|]. injection H as _ H. destruct (N a' b' H).
        -- intros (b' & H & _). destruct t as [|x t]; [reflexivity|]. injection H as _ H. destruct (N t b' H).
      * split; [discriminate|]. intros (b & H & _). destruct t as [|x t].
        -- assert (prefixb p (c :: s) = true) by (apply prefixb_iff; now exists b). congruence.
        -- injection H as _ H. destruct (N t b H).
Qed.
Lemma title_iff line t : title_search line = Some t <-> titled line t.
Proof.
  unfold title_search, titled. split.
  - destruct (after_first (lit "<title>") line) as [r|] eqn:A; [|discriminate]. intros B.
    apply after_first_iff in A as (a & E & M). apply before_last_iff in B as (b & E' & M'). exists a, b.
    split; [now rewrite E, E'|]. split; [exact M|]. intros a' b' H. rewrite <- E' in H. now apply (M' a' b').
  - intros (a & b & E & M & M'). assert (A : after_first (lit "<title>") line = Some (t ++ lit "</title>" ++ b)) by (apply after_first_iff; now exists a).
    rewrite A. apply before_last_iff. now exists b.
Qed.

(** ** One block *)
Lemma run_body out buf body : (forall l, In l body -> ~ occurs "<page>" l) ->
  fold_left filter_line body (Filt PageSearch buf out) = Filt PageSearch buf (out ++ List.concat body).
Proof.
  revert out. induction body as [|l body IH]; intros out H; cbn [fold_left List.concat]; [now rewrite app_nil_r|].
  unfold filter_line at 2. cbn [fl_state fl_buffer fl_out]. destruct (page_search l) eqn:P.
  - exfalso. apply (H l); [now left|]. now apply page_iff.
  - rewrite IH; [|intros x Hx; apply H; now right]. now rewrite app_assoc.
Qed.
Lemma run_before out buf bs : (forall l, In l bs -> forall x, ~ titled l x) ->
  fold_left filter_line bs (Filt TitleSearch buf out) = Filt TitleSearch (buf ++ List.concat bs) out.
Proof.
  revert buf. induction bs as [|l bs IH]; intros buf H; cbn [fold_left List.concat]; [now rewrite app_nil_r|].
  unfold filter_line at 2. cbn [fl_state fl_buffer fl_out]. destruct (title_search l) as [t|] eqn:P.
  - exfalso. apply (H l) with t; [now left|]. now apply title_iff.
  - rewrite IH; [|intros x Hx; apply H; now right]. now rewrite app_assoc.
Qed.
Lemma run_drop out buf body : (forall l, In l body -> ~ occurs "</page>" l) ->
  fold_left filter_line body (Filt ClosePageSearch buf out) = Filt ClosePageSearch buf out.
Proof.
  induction body as [|l body IH]; intros H; cbn [fold_left List.concat]; [reflexivity|].
  unfold filter_line at 2. cbn [fl_state fl_buffer fl_out]. destruct (close_page_search l) eqn:P.
  - exfalso. apply (H l); [now left|]. now apply page_iff.
  - apply IH. intros x Hx. apply H. now right.
Qed.
Lemma run_block b out : well_formed b -> exists buf',
  forall buf, fold_left filter_line (lines_of b) (Filt PageSearch buf out) =
    Filt PageSearch (match b with Outside _ => buf | _ => buf' end) (out ++ if keptb b then List.concat (lines_of b) else []).
Proof.
  destruct b as [l|o bs t n body c]; intros W; exists []; intros buf.
  - cbn. unfold filter_line. cbn [fl_state fl_buffer fl_out]. cbn in W. destruct (page_search l) eqn:P; [exfalso; apply W; now apply page_iff|]. now rewrite app_nil_r.
  - cbn [well_formed] in W. destruct W as (Wo & Wb & Wt & Wbody & Wc & Wc'). cbn [lines_of keptb]. cbn [fold_left].
    unfold filter_line at 2. cbn [fl_state fl_buffer fl_out]. apply page_iff in Wo. unfold page_search at 1. rewrite Wo.
    rewrite fold_left_app, run_before by exact Wb. cbn [fold_left]. unfold filter_line at 2. cbn [fl_state fl_buffer fl_out].
    apply title_iff in Wt. rewrite Wt. destruct (check_title n).
    + rewrite run_body.
      * f_equal. cbn [List.concat]. rewrite !concat_app. cbn [List.concat]. rewrite !concat_app. cbn. now rewrite ?app_nil_r, <- ?app_assoc.
      * intros l Hl. apply in_app_or in Hl as [Hl|[<-|[]]]; [now apply Wbody|exact Wc'].
    + rewrite fold_left_app, run_drop by (intros l Hl; now apply Wbody). cbn [fold_left]. unfold filter_line. cbn [fl_state fl_buffer fl_out].
      apply page_iff in Wc. unfold close_page_search. rewrite Wc. now rewrite app_nil_r.
Qed.

(** C51.  [bs]: any dump made of lines outside pages and of pages. *)
Theorem C51_wiki_filter :
  forall bs, Forall well_formed bs ->
    exists ks, wiki_main (flat_map lines_of bs) = List.concat (flat_map lines_of ks)
      /\ ks = filter keptb bs /\ (forall b, keptb b = true <-> kept b).
Proof.
  intros bs H. exists (filter keptb bs). split; [|split; [reflexivity|]].
  - unfold wiki_main. assert (K : forall bs, Forall well_formed bs -> forall buf out,
      fl_out (fold_left filter_line (flat_map lines_of bs) (Filt PageSearch buf out)) = out ++ List.concat (flat_map lines_of (filter keptb bs))).
    { clear. induction 1 as [|b bs Hb Hbs IH]; intros buf out; cbn [flat_map fold_left filter]; [cbn; now rewrite app_nil_r|].
      rewrite fold_left_app. destruct (run_block b out Hb) as (buf' & E). rewrite E, IH. destruct (keptb b).
      - cbn [flat_map]. now rewrite concat_app, app_assoc.
      - now rewrite app_nil_r. }
    now rewrite (K bs H [] []).
  - intros [l|o b t n body c]; cbn; [tauto|]. apply check_title_iff.
Qed.
Print Assumptions C51_wiki_filter.

(** Whatever the input, the output consists of lines of the input, in order. *)
Inductive subseq {A} : list A -> list A -> Prop :=
| sub_nil l : subseq [] l
| sub_take x l m : subseq l m -> subseq (x :: l) (x :: m)
| sub_skip x l m : subseq l m -> subseq l (x :: m).
Lemma subseq_app {A} (a b c d : list A) : subseq a b -> subseq c d -> subseq (a ++ c) (b ++ d).
Proof.
  intros H. revert c d. induction H as [l|x l m H IH|x l m H IH]; intros c d Hc; cbn.
  - induction l as [|y l IHl]; cbn; [exact Hc|now constructor].
  - constructor. now apply IH.
  - constructor. now apply IH.
Qed.
Lemma subseq_refl {A} (l : list A) : subseq l l.
Proof. induction l; constructor; auto. Qed.
Lemma subseq_drop {A} (a b c : list A) : subseq (a ++ b) c -> subseq a c.
Proof.
  revert b c. induction a as [|x a IHa]; intros b c H; [constructor|]. cbn in H. remember (x :: a ++ b) as l eqn:El. revert x a b El IHa.
  induction H as [|y l m H IH|y l m H IH]; intros x a b El IHa; [discriminate| |].
  - injection El as -> ->. constructor. now apply (IHa b).
  - constructor. now apply (IH x a b).
Qed.
Theorem C51_nothing_invented :
  forall lines, exists out, wiki_main lines = List.concat out /\ subseq out lines.
Proof.
  intros lines. unfold wiki_main.
  assert (K : forall rest f written pending done, fl_out f = List.concat written -> fl_buffer f = List.concat pending ->
    (fl_state f <> TitleSearch -> pending = []) -> subseq (written ++ pending) done ->
    exists out, fl_out (fold_left filter_line rest f) = List.concat out /\ subseq out (done ++ rest)).
  { induction rest as [|l rest IH]; intros f written pending done E1 E2 E3 S; cbn [fold_left].
    - exists written. split; [exact E1|]. rewrite app_nil_r. now apply (subseq_drop written pending).
    - replace (done ++ l :: rest) with ((done ++ [l]) ++ rest) by now rewrite <- app_assoc.
      unfold filter_line at 2. destruct f as [st buf out]. cbn [fl_state fl_buffer fl_out] in *.
      assert (S1 : subseq ((written ++ pending) ++ [l]) (done ++ [l])) by (apply subseq_app; [exact S|apply subseq_refl]).
      assert (S0 : subseq (written ++ pending) (done ++ [l])) by (rewrite <- (app_nil_r (written ++ pending)); apply subseq_app; [exact S|constructor]).
      assert (Sw : subseq written (done ++ [l])) by now apply (subseq_drop written pending).
      destruct st.
      + assert (pending = []) as -> by (apply E3; discriminate). rewrite app_nil_r in S1, S0.
        destruct (page_search l).
        * apply (IH _ written [l]); cbn; [exact E1|now rewrite app_nil_r|easy|exact S1].
        * apply (IH _ (written ++ [l]) []); cbn; [rewrite concat_app, E1; cbn; now rewrite app_nil_r|exact E2|reflexivity|now rewrite app_nil_r].
      + destruct (title_search l) as [t|]; [destruct (check_title t)|].
        * apply (IH _ (written ++ pending ++ [l]) []); cbn; [rewrite !concat_app, E1, E2; cbn; now rewrite app_nil_r|reflexivity|reflexivity|].
          now rewrite app_nil_r, app_assoc.
        * apply (IH _ written []); cbn; [exact E1|reflexivity|reflexivity|now rewrite app_nil_r].
        * apply (IH _ written (pending ++ [l])); cbn; [exact E1|rewrite concat_app, E2; cbn; now rewrite app_nil_r|easy|now rewrite app_assoc].
      + assert (pending = []) as -> by (apply E3; discriminate). rewrite app_nil_r in S1, S0.
        destruct (close_page_search l); apply (IH _ written []); cbn; auto; now rewrite app_nil_r. }
  apply (K lines _ [] [] []); cbn; try reflexivity. constructor.
Qed.
Print Assumptions C51_nothing_invented.

(** Why the pages need a title line: a page without one is lost when the next
    page is dropped, and at the end of the file. *)
Definition c51_untitled : list str := [lit "<page>"; lit "</page>"; lit "<page>"; lit "<title>Talk:B</title>"; lit "</page>"].
Definition c51_page (n : string) : block :=
  Page (lit "  <page>") [lit "    <ns>0</ns>"] (lit "    <title>" ++ lit n ++ lit "</title>") (lit n) [lit "text"; lit "more"] (lit "  </page>").
Example C51_untitled_page_is_lost : wiki_main c51_untitled = []
  /\ wiki_main (firstn 2 c51_untitled ++ [lit "x"]) = [].
Proof. split; reflexivity. Qed.
Lemma not_titled l : title_search l = None -> forall x, ~ titled l x.
Proof. intros H x T. apply title_iff in T. congruence. Qed.
Lemma not_occurs s l : containsb (lit s) l = false -> ~ occurs s l.
Proof. intros H T. apply page_iff in T. congruence. Qed.
Lemma c51_page_wf n : title_search (lit "    <title>" ++ lit n ++ lit "</title>") = Some (lit n) -> well_formed (c51_page n).
Proof.
  intros H. cbn [c51_page well_formed]. split; [apply page_iff; reflexivity|]. split; [|split; [now apply title_iff|split; [|split]]].
  - intros l [<-|[]]. now apply not_titled.
  - intros l [<-|[<-|[]]]; split; apply not_occurs; reflexivity.
  - apply page_iff. reflexivity.
  - apply not_occurs. reflexivity.
Qed.
Example C51_nonvacuous :
  Forall well_formed [Outside (lit "<mediawiki>"); c51_page "Porto"; c51_page "Talk:Porto"; c51_page "Lisbon"; Outside (lit "</mediawiki>")]
  /\ filter keptb [Outside (lit "<mediawiki>"); c51_page "Porto"; c51_page "Talk:Porto"; c51_page "Lisbon"; Outside (lit "</mediawiki>")]
     = [Outside (lit "<mediawiki>"); c51_page "Porto"; c51_page "Lisbon"; Outside (lit "</mediawiki>")].
Proof.
  split; [|reflexivity]. repeat (apply Forall_cons || apply Forall_nil).
  - apply not_occurs. reflexivity.
  - apply c51_page_wf. reflexivity.
  - apply c51_page_wf. reflexivity.
  - apply c51_page_wf. reflexivity.
  - apply not_occurs. reflexivity.
Qed.
