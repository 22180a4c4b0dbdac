(** * C_parser.v -- property theorems C73- (from text to tokens) *)

From Verif Require Import Py P_py M_token M_tree M_stages M_parser S_parser P_parser C_token C_stages.
From Coq Require Import String Lia Arith.
Open Scope list_scope.

(** ** Proof *)

Definition ready (s : parser) : Prop := forall e i o, tlook (e, i) (ps_table s) = Some o -> e < ps_docs s.
Definition doc_start (s : parser) : parser := Parser (ps_objs s) (ps_table s) (S (ps_docs s)).
Lemma ready_mine s : ready s -> mine (ps_docs s) (List.length (ps_objs s)) (doc_start s) /\ forall i, T (ps_docs s) (doc_start s) i = None.
Proof.
  intros R. assert (N : forall i, T (ps_docs s) (doc_start s) i = None).
  { intros i. unfold T. cbn [ps_table doc_start]. destruct (tlook (ps_docs s, i) (ps_table s)) as [o|] eqn:E; [|reflexivity]. pose proof (R _ _ _ E). lia. }
  split; [|exact N]. split; cbn [ps_objs doc_start]; [lia|]. intros i o E. specialize (N i). unfold T in N. cbn in *. congruence.
Qed.
Lemma km_spans lower d dc n0 fuel : forall spans s, mine d n0 s ->
  let m := qmap (fun span => qmap (conv lower d dc fuel) (seq (fst span) (snd span - fst span))) spans in
  mine d n0 (snd (m s)) /\ grow d n0 s (snd (m s)) /\ forall a, fst (m s) = Ok a -> True.
Proof.
  induction spans as [|sp spans IH]; intros s M; cbv zeta in *; [cbn; split; [exact M|split; [apply grow_refl|auto]]|].
  match goal with |- mine _ _ (snd (qmap ?f (sp :: spans) s)) /\ _ => change (qmap f (sp :: spans)) with (have y <- f sp; have ys <- qmap f spans; qret (y :: ys)) end.
  apply (km_bind d n0 _ _ (fun _ _ => True) (fun _ _ => True)); [exact M| |].
  - destruct (km_map d n0 (conv lower d dc fuel) (seq (fst sp) (snd sp - fst sp)) s M) as (A & B & _); [intros; now apply km_conv|auto].
  - intros os s1 M1 G1 _. apply (km_bind d n0 _ _ (fun _ _ => True) (fun _ _ => True)); [exact M1|now apply IH|].
    intros oss s2 M2 G2 _. cbn. split; [exact M2|split; [apply grow_refl|auto]].
Qed.
Lemma parse_grow lower fuel dc s : ready s -> ready (snd (parse_text lower fuel dc s))
  /\ grow (ps_docs s) (List.length (ps_objs s)) (doc_start s) (snd (parse_text lower fuel dc s)).
Proof.
  intros R. destruct (ready_mine s R) as [M N].
  destruct (km_spans lower (ps_docs s) dc (List.length (ps_objs s)) fuel (dc_sents dc) (doc_start s) M) as (M1 & G & _).
  change (qmap (fun span => qmap (conv lower (ps_docs s) dc fuel) (seq (fst span) (snd span - fst span))) (dc_sents dc) (doc_start s)) with (parse_text lower fuel dc s) in *.
  split; [|exact G]. intros e i o E. rewrite (gr_docs _ _ _ _ G). cbn [ps_docs doc_start]. destruct (Nat.eq_dec e (ps_docs s)) as [->|Ne]; [lia|].
  rewrite (gr_other _ _ _ _ G e i Ne) in E. cbn [ps_table doc_start] in E. pose proof (R e i o E). lia.
Qed.
Lemma after_ready lower h : ready (after_texts lower h).
Proof.
  unfold after_texts. assert (R0 : ready parser0) by (intros e i o E; discriminate). revert R0. generalize parser0 as s.
  induction h as [|[f dc] h IH]; intros s R; cbn [fold_left]; [exact R|]. apply IH. cbn [fst snd]. now apply parse_grow.
Qed.

(** C73 (a).  Parsing another text changes no token of the texts parsed before -- also
    when it raises. *)
Theorem C73_earlier_tokens_stay :
  forall lower h fuel dc o x, let s := after_texts lower h in
    nth_error (ps_objs s) o = Some x -> nth_error (ps_objs (snd (parse_text lower fuel dc s))) o = Some x.
Proof.
  intros lower h fuel dc o x s E. destruct (parse_grow lower fuel dc s (after_ready lower h)) as [_ G].
  rewrite (gr_old _ _ _ _ G o); [exact E|]. apply nth_error_Some. congruence.
Qed.
Print Assumptions C73_earlier_tokens_stay.

Lemma spans_ok lower d dc n0 fuel : forall spans s, mine d n0 s -> good lower d dc s -> (forall sp i, In sp spans -> In i (range sp) -> deep dc fuel i) ->
  exists oss s', qmap (fun span => qmap (conv lower d dc fuel) (range span)) spans s = (Ok oss, s') /\ good lower d dc s' /\ mine d n0 s'
    /\ ext d (fun j => exists sp i, In sp spans /\ In i (range sp) /\ below dc i j) s s'
    /\ Forall2 (fun sp os => Forall2 (fun c o => T d s' c = Some o) (range sp) os) spans oss.
Proof.
  induction spans as [|sp spans IH]; intros s M I D.
  - exists [], s. split; [reflexivity|]. split; [exact I|]. split; [exact M|]. split; [apply ext_refl|constructor].
  - destruct (map_ok lower d dc n0 fuel (range sp) (conv_ok lower d dc n0 fuel) s M I) as (os & s1 & E1 & I1 & M1 & X1 & F1).
    { apply Forall_forall. intros i Hi. apply (D sp i); [now left|exact Hi]. }
    destruct (IH s1 M1 I1) as (oss & s2 & E2 & I2 & M2 & X2 & F2); [intros sp' i Hs; apply D; now right|]. exists (os :: oss), s2.
    match goal with |- qmap ?f (sp :: spans) s = _ /\ _ => change (qmap f (sp :: spans)) with (have y <- f sp; have ys <- qmap f spans; qret (y :: ys)) end.
    unfold qbind at 1. rewrite E1. unfold qbind. rewrite E2. split; [reflexivity|]. split; [exact I2|]. split; [exact M2|]. split.
    + eapply ext_trans; [exact X1|exact X2|]. cbv beta. intros j [(c & Hc & B)|(sp' & i & Hs & Hi & B)].
      * exists sp, c. split; [now left|now split].
      * exists sp', i. split; [now right|now split].
    + constructor; [|exact F2]. eapply Forall2_weaken; [|exact F1]. intros c o H. now apply (ex_keep _ _ _ _ X2).
Qed.
Lemma map_forall2 {A B} (f : A -> B) (R : A -> B -> Prop) l m : (forall a b, In a l -> R a b -> b = f a) -> Forall2 R l m -> m = List.map f l.
Proof.
  intros K F. induction F as [|a b l m H _ IH]; [reflexivity|]. cbn. rewrite (K a b); [|now left|exact H]. f_equal. apply IH. intros x y Hx. apply K. now right.
Qed.
Lemma parse_ok lower h fuel dc : let s := after_texts lower h in (forall i, in_sents dc i -> deep dc fuel i) ->
  exists oss s', parse_text lower fuel dc s = (Ok oss, s') /\ good lower (ps_docs s) dc s' /\ grow (ps_docs s) (List.length (ps_objs s)) (doc_start s) s'
    /\ mine (ps_docs s) (List.length (ps_objs s)) s' /\ (forall i, in_text dc i <-> exists o, T (ps_docs s) s' i = Some o)
    /\ Forall2 (fun sp os => Forall2 (fun c o => T (ps_docs s) s' c = Some o) (range sp) os) (dc_sents dc) oss.
Proof.
  intros s D. pose proof (after_ready lower h) as R. fold s in R. destruct (ready_mine s R) as [M N]. destruct (parse_grow lower fuel dc s R) as [_ G].
  assert (I : good lower (ps_docs s) dc (doc_start s)) by (split; [intros i o E; rewrite N in E; discriminate|intros i j o E; rewrite N in E; discriminate]).
  destruct (spans_ok lower (ps_docs s) dc _ fuel (dc_sents dc) (doc_start s) M I) as (oss & s' & E & I' & M' & X & F).
  { intros sp i Hs Hi. apply D. now exists sp. }
  change (parse_text lower fuel dc s = (Ok oss, s')) in E. exists oss, s'. split; [exact E|]. split; [exact I'|]. rewrite E in G. split; [exact G|]. split; [exact M'|]. split; [|exact F].
  intros i. split.
  - intros (j & (sp & Hs & Hj) & B). assert (Tj : exists o, T (ps_docs s) s' j = Some o).
    { destruct (Forall2_in_l _ _ _ sp F Hs) as (os & _ & Fo). destruct (Forall2_in_l _ _ _ j Fo Hj) as (o & _ & Ho). now exists o. }
    clear Hs Hj sp. induction B as [|j' k w B IH Ew K]; [exact Tj|]. destruct IH as (o & Ho).
    destruct (go_ok _ _ _ _ I' j' o Ho) as (w' & l & r & p & W & _ & Fl & Fr & _). assert (w' = w) by congruence. subst w'.
    apply in_app_or in K as [K|K]; [destruct (Forall2_in_l _ _ _ k Fl K) as (y & _ & Hy)|destruct (Forall2_in_l _ _ _ k Fr K) as (y & _ & Hy)]; now exists y.
  - intros (o & Ho). destruct (ex_new _ _ _ _ X i o Ho (N i)) as [(sp & j & Hs & Hj & B) _]. exists j. split; [now exists sp|exact B].
Qed.

(** C73 (b).  After any texts, parsing a text whose dependency trees do not nest deeper
    than Python allows returns, for each sentence, one token for each of its positions.
    There is one token object for each position: the tokens in the sentences and the
    children lists of the tokens are these objects, none of them belongs to an earlier
    text, and each has the fields that spaCy gave.  The parent of every token that is
    somebody's child is the parser object -- never a token. *)
Theorem C73_one_object_per_token :
  forall lower h fuel dc, let s := after_texts lower h in (forall i, in_sents dc i -> deep dc fuel i) ->
  exists (obj : nat -> nat) s',
    parse_text lower fuel dc s = (Ok (List.map (fun span => List.map obj (range span)) (dc_sents dc)), s')
    /\ (forall i j, in_text dc i -> in_text dc j -> obj i = obj j -> i = j)
    /\ (forall i, in_text dc i -> nth_error (ps_objs s) (obj i) = None)
    /\ (forall i, in_text dc i -> exists w p, nth_error (dc_toks dc) i = Some w
          /\ nth_error (ps_objs s') (obj i) = Some (TObj i (strip (lower (w_orth w))) (w_lemma w) (w_pos w) (w_dep w) (w_ent w)
                                                         (List.map obj (w_lefts w)) (List.map obj (w_rights w)) p)
          /\ ((exists j wj, in_text dc j /\ nth_error (dc_toks dc) j = Some wj /\ In i (w_lefts wj ++ w_rights wj)) -> p = Some PaParser)
          /\ (~ (exists j wj, in_text dc j /\ nth_error (dc_toks dc) j = Some wj /\ In i (w_lefts wj ++ w_rights wj)) -> p = None)).
Proof.
  intros lower h fuel dc s D. destruct (parse_ok lower h fuel dc D) as (oss & s' & E & I & G & M & Tx & F). fold s in E, I, G, M, Tx, F.
  set (obj := fun i => match T (ps_docs s) s' i with Some o => o | None => 0 end). exists obj, s'.
  assert (Ob : forall i, in_text dc i -> T (ps_docs s) s' i = Some (obj i)).
  { intros i Hi. apply Tx in Hi as (o & Ho). unfold obj. now rewrite Ho. }
  split; [|split; [|split]].
  - rewrite E. f_equal. f_equal. eapply map_forall2; [|exact F]. cbv beta. intros sp os _ Fo. eapply map_forall2; [|exact Fo]. cbv beta. intros i o _ Ho. unfold obj. now rewrite Ho.
  - intros i j Hi Hj Eo. apply (go_inj _ _ _ _ I i j (obj i)); [now apply Ob|rewrite Eo; now apply Ob].
  - intros i Hi. apply nth_error_None. apply (mi_tab _ _ _ M i (obj i) (Ob i Hi)).
  - intros i Hi. destruct (go_ok _ _ _ _ I i (obj i) (Ob i Hi)) as (w & l & r & p & W & O & Fl & Fr & P1 & P2). exists w, p. split; [exact W|]. split; [|split].
    + rewrite O. unfold mk. f_equal. f_equal; (eapply map_forall2; [|eassumption]); cbv beta; intros c o _ Ho; unfold obj; now rewrite Ho.
    + intros (j & wj & Hj & Wj & K). apply P2. exists j, (obj j), wj. split; [now apply Ob|now split].
    + intros N. destruct P1 as [P1|P1]; [exact P1|]. exfalso. apply N. apply P2 in P1 as (j & oj & wj & Hj & Wj & K). exists j, wj. split; [apply Tx; now exists oj|now split].
Qed.
Print Assumptions C73_one_object_per_token.

(** ** Reading a text *)

Lemma mapr_ok {A B} (f : A -> res B) (R : A -> B -> Prop) l : (forall a, In a l -> exists b, f a = Ok b /\ R a b) -> exists m, mapr f l = Ok m /\ Forall2 R l m.
Proof.
  induction l as [|a l IH]; intros K; [exists []; split; [reflexivity|constructor]|]. destruct (K a (or_introl eq_refl)) as (b & E & H).
  destruct IH as (m & Em & Fm); [intros x Hx; apply K; now right|]. exists (b :: m). cbn. rewrite E. cbn. rewrite Em. split; [reflexivity|now constructor].
Qed.
Lemma Forall2_comp {A B C} (R : A -> B -> Prop) (S : A -> C -> Prop) l m : forall n, Forall2 R l m ->
  Forall2 (fun b c => forall a, In a l -> R a b -> S a c) m n -> Forall2 (fun a c => S a c) l n.
Proof.
  intros n F. revert n. assert (K : forall l0, (forall a, In a l -> In a l0) -> forall n, Forall2 (fun b c => forall a, In a l0 -> R a b -> S a c) m n -> Forall2 (fun a c => S a c) l n).
  { induction F as [|a b l m H _ IH]; intros l0 Hl n G; inversion G; subst; constructor.
    - match goal with X : forall a, _ -> _ -> _ |- _ => apply X; [apply Hl; now left|exact H] end.
    - apply (IH l0); [intros x Hx; apply Hl; now right|assumption]. }
  intros n. apply K. auto.
Qed.
Lemma tok_of_ok lower d dc s : good lower d dc s -> forall f i o, deep dc f i -> T d s i = Some o ->
  exists t, tok_of (ps_objs s) f o = Ok t /\ says lower dc i t.
Proof.
  intros I. induction f as [|f IH]; intros i o D Ho; [destruct D|]. destruct D as (w & W & Dk).
  destruct (go_ok _ _ _ _ I i o Ho) as (w' & l & r & p & W' & O & Fl & Fr & _). assert (w' = w) by congruence. subst w'. cbn [tok_of]. rewrite O. cbn [mk o_left o_right].
  apply Forall_app in Dk as [Dl Dr]. rewrite Forall_forall in Dl, Dr.
  assert (K : forall ks os, (forall c, In c ks -> deep dc f c) -> Forall2 (fun c oc => T d s c = Some oc) ks os ->
     exists ts, mapr (tok_of (ps_objs s) f) os = Ok ts /\ Forall2 (says lower dc) ks ts).
  { intros ks os Dk F. induction F as [|c oc ks os H _ IHF]; [exists []; split; [reflexivity|constructor]|].
    destruct (IH c oc (Dk c (or_introl eq_refl)) H) as (t & Et & St). destruct IHF as (ts & Ets & Fts); [intros x Hx; apply Dk; now right|].
    exists (t :: ts). cbn. rewrite Et. cbn. rewrite Ets. split; [reflexivity|now constructor]. }
  destruct (K _ _ Dl Fl) as (tl & El & Sl). destruct (K _ _ Dr Fr) as (tr & Er & Sr). rewrite El. cbn [rbind]. rewrite Er. cbn [rbind].
  eexists. split; [reflexivity|]. unfold mk. cbn. now constructor.
Qed.
Lemma toks_ok lower d dc s fuel : good lower d dc s -> (forall i, in_sents dc i -> deep dc fuel i) ->
  forall oss, Forall2 (fun sp os => Forall2 (fun c o => T d s c = Some o) (range sp) os) (dc_sents dc) oss ->
  exists toks, mapr (mapr (tok_of (ps_objs s) fuel)) oss = Ok toks /\ Forall2 (fun sp ts => Forall2 (says lower dc) (range sp) ts) (dc_sents dc) toks.
Proof.
  intros I D. assert (D' : forall sp i, In sp (dc_sents dc) -> In i (range sp) -> deep dc fuel i) by (intros sp i Hs Hi; apply D; now exists sp). clear D. revert D'.
  induction (dc_sents dc) as [|sp sps IH]; intros D oss F; inversion F as [|? os ? oss' Fo Fs]; subst; [exists []; split; [reflexivity|constructor]|].
  destruct (IH (fun sp' i Hs => D sp' i (or_intror Hs)) oss' Fs) as (tss & Ets & Fts).
  assert (K : exists ts, mapr (tok_of (ps_objs s) fuel) os = Ok ts /\ Forall2 (says lower dc) (range sp) ts).
  { clear -I D Fo. assert (Dk : forall c, In c (range sp) -> deep dc fuel c) by (intros c; apply D; now left). clear D.
    induction Fo as [|c oc ks os H _ IHF]; [exists []; split; [reflexivity|constructor]|].
    destruct (tok_of_ok lower d dc s I fuel c oc (Dk c (or_introl eq_refl)) H) as (t & Et & St). destruct IHF as (ts & Ets & Fts); [intros x Hx; apply Dk; now right|].
    exists (t :: ts). cbn. rewrite Et. cbn. rewrite Ets. split; [reflexivity|now constructor]. }
  destruct K as (ts & Et & Ft). exists (ts :: tss). cbn. rewrite Et. cbn. rewrite Ets. split; [reflexivity|now constructor].
Qed.

(** self.outputs agrees with what M_stages says of a sentence that is read *)
Lemma stage_outs_ok fuel : forall names o outs r, do_stages fuel names o outs = Ok r -> stage_outs fuel names o outs = snd r.
Proof.
  induction names as [|n names IH]; intros o outs r; cbn [do_stages stage_outs]; [intros E; now injection E as <-|].
  destruct (do_stage fuel n o) as [o'|]; cbn [rbind]; [|discriminate]. destruct (out_str o') as [s|]; cbn [rbind]; [apply IH|discriminate].
Qed.
Lemma sentence_outs_ok fuel stages ts r : read_sentence fuel stages ts = Ok r -> sentence_outs fuel stages ts = snd r.
Proof.
  unfold read_sentence, sentence_outs. destruct stages as [|n rest]; [discriminate|]. destruct (str_eqb n (lit "alpha")); [|destruct (known_stage n); discriminate].
  destruct (alpha ts) as [[u|e] h]; [|discriminate]. destruct (out_str (OTree h)) as [s|]; cbn [rbind]; [apply stage_outs_ok|discriminate].
Qed.
Lemma sentences_ok fuel stages : forall toks rs outs, Forall2 (fun ts r => read_sentence fuel stages ts = Ok r) toks rs ->
  read_sentences fuel stages toks outs = (Ok (List.map fst rs), last (List.map snd rs) outs).
Proof.
  induction toks as [|ts toks IH]; intros rs outs F; inversion F as [|? r ? rs' H Fs]; subst; [reflexivity|]. cbn [read_sentences]. rewrite H. destruct r as [o os].
  rewrite (sentence_outs_ok _ _ _ _ H), (IH rs' _ Fs). cbn [List.map fst snd]. f_equal. destruct rs' as [|r' rs']; [reflexivity|]. cbn [List.map].
  change (last (os :: snd r' :: List.map snd rs') outs) with (last (snd r' :: List.map snd rs') outs). generalize (snd r'). induction (List.map snd rs') as [|a l IHl]; [reflexivity|]. intros x. apply (IHl a).
Qed.
Lemma sentences_err fuel stages x : forall before ts later rs outs, Forall2 (fun ts r => read_sentence fuel stages ts = Ok r) before rs ->
  read_sentence fuel stages ts = Err x -> read_sentences fuel stages (before ++ ts :: later) outs = (Err x, sentence_outs fuel stages ts).
Proof.
  induction before as [|b before IH]; intros ts later rs outs F H; cbn [app read_sentences].
  - now rewrite H.
  - inversion F as [|? r ? rs' Hb Fs]; subst. rewrite Hb. destruct r as [o os]. now rewrite (IH ts later rs' _ Fs H).
Qed.

Definition ex_history (h : list (nat * nat * doc)) : list (nat * doc) := List.map (fun x => (fst (fst x), snd x)) h.
Lemma after_reads_parser lower stages h : ex_stages (after_reads lower stages h) = stages
  /\ match ex_parser (after_reads lower stages h) with Some p => p | None => parser0 end = after_texts lower (ex_history h).
Proof.
  unfold after_reads, after_texts. assert (G : forall e s, ex_stages e = stages -> match ex_parser e with Some p => p | None => parser0 end = s ->
    ex_stages (fold_left (fun e x => snd (read_text lower (fst (fst x)) (snd (fst x)) (snd x) e)) h e) = stages
    /\ match ex_parser (fold_left (fun e x => snd (read_text lower (fst (fst x)) (snd (fst x)) (snd x) e)) h e) with Some p => p | None => parser0 end
       = fold_left (fun s fd => snd (parse_text lower (fst fd) (snd fd) s)) (ex_history h) s).
  { induction h as [|[[f n] dc] h IH]; intros e s E1 E2; cbn [fold_left ex_history List.map fst snd]; [now split|]. apply IH; unfold read_text; rewrite E2.
    - destruct (parse_text lower f dc s) as [[ss|x] p1]; [|exact E1]. destruct (mapr _ ss); [|exact E1]. now destruct (read_sentences _ _ _ _).
    - destruct (parse_text lower f dc s) as [[ss|x] p1]; [|reflexivity]. destruct (mapr _ ss); [|reflexivity]. now destruct (read_sentences _ _ _ _). }
  now apply G.
Qed.

(** C74.  Reading a text, after any texts were read, gives for each sentence what reading
    that sentence alone gives -- the tokens being those that spaCy found, whatever was
    read before -- in order; self.outputs are those of the last sentence.  If a sentence
    raises, the whole text raises the exception of the first one that does. *)
Theorem C74_reading_a_text :
  forall lower stages h fuel n dc, let e := after_reads lower stages h in (forall i, in_sents dc i -> deep dc fuel i) ->
  exists toks, Forall2 (fun span ts => Forall2 (says lower dc) (range span) ts) (dc_sents dc) toks
    /\ (forall rs, Forall2 (fun ts r => read_sentence n stages ts = Ok r) toks rs ->
          exists e', read_text lower fuel n dc e = (Ok (List.map fst rs), e') /\ ex_outputs e' = last (List.map snd rs) (ex_outputs e))
    /\ (forall before ts later rs x, toks = before ++ ts :: later -> Forall2 (fun ts r => read_sentence n stages ts = Ok r) before rs ->
          read_sentence n stages ts = Err x -> exists e', read_text lower fuel n dc e = (Err x, e')).
Proof.
  intros lower stages h fuel n dc e D. destruct (after_reads_parser lower stages h) as [Es Ep]. fold e in Es, Ep.
  destruct (parse_ok lower (ex_history h) fuel dc D) as (oss & s' & E & I & G & M & Tx & F).
  destruct (toks_ok lower _ dc s' fuel I D oss F) as (toks & Et & Ft). exists toks. split; [exact Ft|].
  unfold read_text. rewrite Ep, E, Et, Es. split.
  - intros rs Fr. rewrite (sentences_ok n stages toks rs _ Fr). eexists. split; reflexivity.
  - intros before ts later rs x -> Fr Ex. rewrite (sentences_err n stages x before ts later rs _ Fr Ex). eexists. reflexivity.
Qed.
Print Assumptions C74_reading_a_text.

(** what spaCy says of a token is one token: the texts read before cannot matter *)
Lemma says_unique lower dc : forall n i t t', deep dc n i -> says lower dc i t -> says lower dc i t' -> t = t'.
Proof.
  induction n as [|n IH]; intros i t t' D S S'; [destruct D|]. destruct D as (w & W & Dk). inversion S as [? w1 l r W1 Fl Fr]; subst. inversion S' as [? w2 l' r' W2 Fl' Fr']; subst.
  assert (w1 = w) by congruence. assert (w2 = w) by congruence. subst w1 w2. apply Forall_app in Dk as [Dl Dr]. rewrite Forall_forall in Dl, Dr.
  assert (K : forall ks a b, (forall c, In c ks -> deep dc n c) -> Forall2 (says lower dc) ks a -> Forall2 (says lower dc) ks b -> a = b).
  { induction ks as [|c ks IHk]; intros a b Dk A B; inversion A; inversion B; subst; [reflexivity|]. f_equal; [apply (IH c); auto; apply Dk; now left|].
    apply IHk; auto. intros x Hx. apply Dk. now right. }
  f_equal; [apply (K (w_lefts w))|apply (K (w_rights w))]; auto.
Qed.
Theorem C74_history_does_not_matter :
  forall lower stages h h' fuel n dc, (forall i, in_sents dc i -> deep dc fuel i) ->
    fst (read_text lower fuel n dc (after_reads lower stages h)) = fst (read_text lower fuel n dc (after_reads lower stages h')).
Proof.
  intros lower stages h h' fuel n dc D.
  destruct (after_reads_parser lower stages h) as [Es Ep]. destruct (after_reads_parser lower stages h') as [Es' Ep'].
  destruct (parse_ok lower (ex_history h) fuel dc D) as (oss & s1 & E & I & _ & _ & _ & F).
  destruct (toks_ok lower _ dc s1 fuel I D oss F) as (toks & Et & Ft).
  destruct (parse_ok lower (ex_history h') fuel dc D) as (oss' & s1' & E' & I' & _ & _ & _ & F').
  destruct (toks_ok lower _ dc s1' fuel I' D oss' F') as (toks' & Et' & Ft').
  assert (toks' = toks).
  { clear -D Ft Ft'. assert (D' : forall sp i, In sp (dc_sents dc) -> In i (range sp) -> deep dc fuel i) by (intros sp i Hs Hi; apply D; now exists sp). clear D.
    revert toks toks' Ft Ft' D'. induction (dc_sents dc) as [|sp sps IH]; intros a b A B D; inversion A as [|? x ? xs Ax As]; inversion B as [|? y ? ys By Bs]; subst; [reflexivity|]. f_equal.
    - assert (Dk : forall c, In c (range sp) -> deep dc fuel c) by (intros c; apply D; now left). clear -Ax By Dk. revert x y Ax By Dk. induction (range sp) as [|c ks IHk]; intros x y A B Dk; inversion A; inversion B; subst; [reflexivity|].
      f_equal; [apply (says_unique lower dc fuel c); auto; apply Dk; now left|]. apply IHk; auto. intros z Hz. apply Dk. now right.
    - apply IH; auto. intros sp' i Hs. apply D. now right. }
  subst toks'. unfold read_text. rewrite Ep, Ep', E, E', Et, Et', Es, Es'.
  assert (X : forall outs outs', fst (read_sentences n stages toks outs) = fst (read_sentences n stages toks outs')).
  { intros outs outs'. destruct toks as [|ts r]; [reflexivity|]. cbn. destruct (read_sentence n stages ts) as [[o os]|]; reflexivity. }
  specialize (X (ex_outputs (after_reads lower stages h)) (ex_outputs (after_reads lower stages h'))).
  destruct (read_sentences n stages toks _), (read_sentences n stages toks _). exact X.
Qed.
Print Assumptions C74_history_does_not_matter.

(** A text without sentences: self.outputs still show the text before. *)
Definition raw_of (o p de : string) (l r : list nat) : raw := Raw (lit o) (lit o) (lit p) (lit de) [] l r.
Definition hi_doc : doc := Doc [raw_of "Telmo" "PROPN" "nsubj" [] []; raw_of "sleeps" "VERB" "ROOT" [0] [2]; raw_of "." "PUNCT" "punct" [] []] [(0, 3)].
Definition no_doc : doc := Doc [] [].
Theorem C74_outputs_after_an_empty_text_refuted :
  ~ (forall lower stages h fuel n dc, (forall i, in_sents dc i -> deep dc fuel i) ->
       ex_outputs (snd (read_text lower fuel n dc (after_reads lower stages h))) = ex_outputs (snd (read_text lower fuel n dc (extractor0 stages)))).
Proof.
  intros H. specialize (H (fun s => s) default_stages [(20, 20, hi_doc)] 20 20 no_doc).
  assert (D : forall i, in_sents no_doc i -> deep no_doc 20 i) by (intros i (sp & [] & _)). specialize (H D).
  assert (X : Nat.eqb (List.length (ex_outputs (snd (read_text (fun s => s) 20 20 no_doc (after_reads (fun s => s) default_stages [(20, 20, hi_doc)]))))) 5 = true) by (vm_compute; reflexivity).
  rewrite H in X. vm_compute in X. discriminate.
Qed.
Print Assumptions C74_outputs_after_an_empty_text_refuted.

(** *** The hypotheses are met: "Telmo sleeps. Telmo is going to the gym." after a text
    that exceeded the recursion limit and one that did not. *)
Definition two_doc : doc := Doc
  [raw_of "Telmo" "PROPN" "nsubj" [] []; raw_of "sleeps" "VERB" "ROOT" [0] [2]; raw_of "." "PUNCT" "punct" [] [];
   raw_of "Telmo" "PROPN" "nsubj" [] []; raw_of "is" "VERB" "aux" [] []; raw_of "going" "VERB" "ROOT" [3; 4] [6; 9];
   raw_of "to" "ADP" "prep" [] [8]; raw_of "the" "DET" "det" [] []; raw_of "gym" "NOUN" "pobj" [7] []; raw_of "." "PUNCT" "punct" [] []] [(0, 3); (3, 10)].
Definition low (s : str) : str := List.map (fun c => if (65 <=? c)%N && (c <=? 90)%N then (c + 32)%N else c) s.
Fixpoint deepb (dc : doc) (n i : nat) : bool :=
  match n with O => false | S m => match nth_error (dc_toks dc) i with Some w => forallb (deepb dc m) (kids w) | None => false end end.
Lemma deepb_ok dc : forall n i, deepb dc n i = true -> deep dc n i.
Proof.
  induction n as [|n IH]; intros i; [discriminate|]. cbn. destruct (nth_error (dc_toks dc) i) as [w|] eqn:E; [|discriminate]. intros H. exists w. split; [reflexivity|].
  rewrite forallb_forall in H. apply Forall_forall. intros c Hc. now apply IH, H.
Qed.
Lemma two_deep : forall i, in_sents two_doc i -> deep two_doc 4 i.
Proof.
  intros i (sp & [<-|[<-|[]]] & Hi); cbn in Hi; repeat (destruct Hi as [<-|Hi]; [apply deepb_ok; reflexivity|]); destruct Hi.
Qed.
Example C73_nonvacuous :
  (forall i, in_sents two_doc i -> deep two_doc 4 i)
  /\ fst (parse_text low 2 two_doc parser0) = Err RecursionError
  /\ let s := after_texts low [(2, two_doc); (4, hi_doc)] in
     fst (parse_text low 4 two_doc s) = Ok [[10; 11; 12]; [13; 14; 15; 16; 18; 17; 19]]
     /\ nth_error (ps_objs (snd (parse_text low 4 two_doc s))) 16
        = Some (TObj 6 (lit "to") (lit "to") (lit "ADP") (lit "prep") [] [] [17] (Some PaParser)).
Proof. split; [apply two_deep|]. split; [vm_compute; reflexivity|]. cbv zeta. split; vm_compute; reflexivity. Qed.
Example C74_nonvacuous :
  option_map (List.map (fun o => match o with OEdge v => Some v | OTree _ => None end))
    (match fst (read_text low 4 20 two_doc (after_reads low default_stages [(2, 20, two_doc); (4, 20, hi_doc)])) with Ok l => Some l | Err _ => None end)
  = Some [Some (VTup [VStr (lit "sleeps/1"); VStr (lit "telmo/1")]);
          Some (VTup [VStr (lit "is_going_to/?"); VStr (lit "telmo/1"); VStr (lit "gym/1")])].
Proof. vm_compute. reflexivity. Qed.

(** ** The label tree of a sentence *)

Lemma label_is t p : node_label t p = label (t, p).
Proof. unfold node_label, token_str, label. cbn [fst snd List.concat app]. rewrite <- ?app_assoc, ?app_nil_r. reflexivity. Qed.
Lemma tree_eq t p : token2label_tree t p = (label (t, p), ordered_dict (List.map (fun c => token2label_tree (fst c) (snd c)) (kids_of t))).
Proof. destruct t as [i w lm po de en se l r]. cbn [token2label_tree]. rewrite label_is. unfold kids_of. cbn [t_left t_right]. now rewrite map_app, !map_map. Qed.
Lemma od_keys k v d : forall k', In k' (List.map fst (od_set k v d)) <-> k' = k \/ In k' (List.map fst d).
Proof.
  intros k'. induction d as [|[k0 v0] d IH]; cbn [od_set List.map fst In]; [intuition congruence|].
  destruct (str_eqb k k0) eqn:E; cbn [List.map fst In]; [apply str_eqb_eq in E; subst; intuition congruence|]. rewrite IH. tauto.
Qed.
Lemma od_nodup k v d : NoDup (List.map fst d) -> NoDup (List.map fst (od_set k v d)).
Proof.
  induction d as [|[k0 v0] d IH]; cbn [od_set List.map fst]; intros N; [constructor; [intros []|constructor]|].
  inversion N as [|? ? N0 N1]; subst. destruct (str_eqb k k0) eqn:E; cbn [List.map fst].
  - apply str_eqb_eq in E. now subst.
  - constructor; [|now apply IH]. rewrite od_keys. intros [->|H]; [now rewrite str_eqb_refl in E|contradiction].
Qed.
Lemma od_in k v d k' v' : NoDup (List.map fst d) -> In (k', v') (od_set k v d) -> (k' = k /\ v' = v) \/ (k' <> k /\ In (k', v') d).
Proof.
  induction d as [|[k0 v0] d IH]; cbn [od_set List.map fst]; intros N.
  - intros [H|[]]. injection H as <- <-. now left.
  - inversion N as [|? ? N0 N1]; subst. destruct (str_eqb k k0) eqn:E.
    + apply str_eqb_eq in E. subst k0. intros [H|H]; [injection H as <- <-; now left|]. right. split; [|now right].
      intros ->. apply N0. apply in_map_iff. now exists (k, v').
    + intros [H|H].
      * injection H as <- <-. right. split; [|now left]. intros ->. now rewrite str_eqb_refl in E.
      * destruct (IH N1 H) as [X|[X Y]]; [now left|right]. split; [exact X|now right].
Qed.
Lemma od_all_in pairs : forall d, NoDup (List.map fst d) ->
  let r := fold_left (fun d kv => od_set (fst kv) (snd kv) d) pairs d in
  NoDup (List.map fst r) /\ (forall k, In k (List.map fst r) <-> In k (List.map fst pairs) \/ In k (List.map fst d))
  /\ forall k v, In (k, v) r -> (exists l1 l2, pairs = l1 ++ (k, v) :: l2 /\ ~ In k (List.map fst l2)) \/ (~ In k (List.map fst pairs) /\ In (k, v) d).
Proof.
  induction pairs as [|[k0 v0] pairs IH]; intros d N; cbn [fold_left List.map fst snd In]; cbv zeta.
  - split; [exact N|]. split; [tauto|]. intros k v H. right. tauto.
  - destruct (IH (od_set k0 v0 d) (od_nodup k0 v0 d N)) as (A & B & C). split; [exact A|]. split.
    + intros k. rewrite B, od_keys. intuition congruence.
    + intros k v H. destruct (C k v H) as [(l1 & l2 & E & Nk)|[Nk Hd]].
      * left. exists ((k0, v0) :: l1), l2. rewrite E. now split.
      * destruct (od_in _ _ _ _ _ N Hd) as [[-> ->]|[Ne Hd']].
        -- left. exists [], pairs. now split.
        -- right. split; [|exact Hd']. intros [E|E]; [congruence|contradiction].
Qed.
Lemma od_key_list k v d : List.map fst (od_set k v d) = List.map fst d \/ ~ In k (List.map fst d) /\ List.map fst (od_set k v d) = List.map fst d ++ [k].
Proof.
  induction d as [|[k0 v0] d IH]; cbn [od_set List.map fst]; [right; split; [intros []|reflexivity]|].
  destruct (str_eqb k k0) eqn:E; cbn [List.map fst].
  - left. apply str_eqb_eq in E. now subst.
  - destruct IH as [IH|[N IH]]; [left; now rewrite IH|]. right. split; [|now rewrite IH]. intros [->|H]; [now rewrite str_eqb_refl in E|contradiction].
Qed.
Lemma before_tl l m a b : earlier l a b -> earlier (l ++ m) a b.
Proof. intros (l1 & l2 & -> & N & H). exists l1, (l2 ++ m). split; [now rewrite <- app_assoc|]. split; [exact N|]. apply in_or_app. now left. Qed.
Lemma od_order pairs : forall d pre, NoDup (List.map fst d) -> (forall k, In k (List.map fst d) <-> In k pre) ->
  (forall a b, earlier (List.map fst d) a b -> earlier pre a b) ->
  forall a b, earlier (List.map fst (fold_left (fun d kv => od_set (fst kv) (snd kv) d) pairs d)) a b -> earlier (pre ++ List.map fst pairs) a b.
Proof.
  induction pairs as [|[k v] pairs IH]; intros d pre N S B a b; cbn [fold_left List.map fst snd]; [rewrite app_nil_r; apply B|].
  intros H. replace (pre ++ k :: List.map fst pairs) with ((pre ++ [k]) ++ List.map fst pairs) by now rewrite <- app_assoc.
  refine (IH (od_set k v d) (pre ++ [k]) (od_nodup k v d N) _ _ a b H).
  - intros k'. rewrite od_keys, in_app_iff, S. cbn. intuition congruence.
  - clear a b H. intros a b H. destruct (od_key_list k v d) as [E|[Nk E]]; rewrite E in H; [now apply before_tl, B|].
    destruct H as (l1 & l2 & E2 & N1 & N2). destruct (exists_last (l := l2)) as (l2' & z & ->); [intros ->; destruct N2|].
    rewrite app_comm_cons, app_assoc in E2. apply app_inj_tail in E2 as [E2 <-].
    apply in_app_or in N2 as [N2|[<-|[]]].
    + apply before_tl, B. exists l1, l2'. now split.
    + assert (Ia : In a pre) by (apply S; rewrite E2; apply in_or_app; right; now left). apply in_split in Ia as (p1 & p2 & ->).
      exists p1, (p2 ++ [k]). split; [now rewrite <- app_assoc|]. split; [|apply in_or_app; right; now left].
      intros Hb. apply Nk, S. apply in_or_app. now left.
Qed.
Lemma od_distinct pairs : forall d, NoDup (List.map fst (d ++ pairs)) -> fold_left (fun d kv => od_set (fst kv) (snd kv) d) pairs d = d ++ pairs.
Proof.
  induction pairs as [|[k v] pairs IH]; intros d N; cbn [fold_left fst snd]; [now rewrite app_nil_r|].
  assert (E : od_set k v d = d ++ [(k, v)]).
  { rewrite map_app in N. cbn [List.map fst] in N. apply NoDup_remove_2 in N. assert (Nd : ~ In k (List.map fst d)) by (intros H; apply N, in_or_app; now left). clear -Nd.
    induction d as [|[k0 v0] d IH]; [reflexivity|]. cbn [od_set app]. destruct (str_eqb k k0) eqn:E; [apply str_eqb_eq in E; subst; exfalso; apply Nd; now left|]. rewrite IH; [reflexivity|]. intros H. apply Nd. now right. }
  rewrite E, IH; rewrite <- app_assoc; [reflexivity|exact N].
Qed.

Lemma kids_in c t : In c (kids_of t) -> In (fst c) (t_left t) \/ In (fst c) (t_right t).
Proof. unfold kids_of. intros H. apply in_app_or in H as [H|H]; apply in_map_iff in H as (x & <- & Hx); auto. Qed.
Lemma tree_label t p : fst (token2label_tree t p) = label (t, p).
Proof. now rewrite tree_eq. Qed.
Lemma shown_tree : forall t p, shown t (snd (token2label_tree t p)).
Proof.
  induction t as [t IHl IHr] using token_ind'. intros p. rewrite tree_eq. cbn [snd]. unfold ordered_dict. rewrite Forall_forall in IHl, IHr.
  destruct (od_all_in (List.map (fun c => token2label_tree (fst c) (snd c)) (kids_of t)) [] (NoDup_nil _)) as (A & B & C). cbv zeta in *.
  assert (K : List.map fst (List.map (fun c => token2label_tree (fst c) (snd c)) (kids_of t)) = List.map label (kids_of t)).
  { rewrite map_map. apply map_ext. intros [c p0]. apply tree_label. }
  constructor; [exact A| | |].
  - intros a b H. rewrite <- K. refine (od_order _ [] [] (NoDup_nil _) _ _ a b H); [reflexivity|]. clear. intros a b (l1 & l2 & E & _). now destruct l1.
  - intros k. rewrite B, K. cbn. tauto.
  - intros k v H. destruct (C k v H) as [(l1 & l2 & E & N)|[_ []]]. apply map_eq_app in E as (m1 & m & E1 & Em1 & Em). apply map_eq_cons in Em as (c & m2 & Ec & Ev & Em2).
    subst m. exists m1, c, m2. split; [exact E1|]. split; [|split].
    + destruct c as [c0 p0]. cbn [fst snd] in Ev. rewrite <- tree_label, Ev. reflexivity.
    + intros c' Hc' L. apply N. rewrite <- Em2, map_map. apply in_map_iff. exists c'. split; [rewrite tree_label, <- L; now destruct c'|exact Hc'].
    + replace v with (snd (token2label_tree (fst c) (snd c))) by now rewrite Ev. destruct (kids_in c t) as [Hl|Hr]; [rewrite E1; apply in_or_app; right; now left|now apply IHl|now apply IHr].
Qed.
Lemma mirror_tree : forall t p, (forall x, under x t -> NoDup (List.map label (kids_of x))) -> mirrors t (snd (token2label_tree t p)).
Proof.
  induction t as [t IHl IHr] using token_ind'. intros p D. rewrite tree_eq. cbn [snd]. unfold ordered_dict. rewrite Forall_forall in IHl, IHr.
  rewrite od_distinct.
  - cbn [app]. constructor. assert (K : forall c, In c (kids_of t) -> mirrors (fst c) (snd (token2label_tree (fst c) (snd c)))).
    { intros c Hc. destruct (kids_in c t Hc) as [Hl|Hr]; [apply IHl|apply IHr]; auto; intros x Hx; apply D; [apply (under_left x t (fst c))|apply (under_right x t (fst c))]; assumption. }
    revert K. induction (kids_of t) as [|c ks IH]; intros K; cbn [List.map]; constructor; [|apply IH; intros x Hx; apply K; now right].
    split; [rewrite tree_label; now destruct c|]. apply K. now left.
  - cbn [app]. replace (List.map fst (List.map (fun c => token2label_tree (fst c) (snd c)) (kids_of t))) with (List.map label (kids_of t)); [apply D; constructor|].
    rewrite map_map. apply map_ext. intros [c p0]. symmetry. apply tree_label.
Qed.

(** C75 (a).  The label tree of a sentence has the label of its root, and under each
    label what [shown] says: every label of a child once, and under it the tree of the
    last child with that label.  Without a root it is empty. *)
Theorem C75_label_tree :
  forall tokens, match sentence_root tokens with
  | None => label_tree tokens = LT []
  | Some r => exists lt, label_tree tokens = LT [(label (r, lit "*"), lt)] /\ shown r lt
  end.
Proof.
  intros tokens. unfold label_tree. destruct (sentence_root tokens) as [r|]; [|reflexivity]. pose proof (shown_tree r (lit "*")) as S. rewrite tree_eq in *.
  eexists. split; [reflexivity|exact S].
Qed.
Print Assumptions C75_label_tree.

Section ltree_ind.
  Variable P : ltree -> Prop.
  Hypothesis H : forall its, Forall (fun kv => P (snd kv)) its -> P (LT its).
  Fixpoint ltree_ind' (t : ltree) : P t.
  Proof. destruct t as [its]. apply H. induction its as [|[k v] its IH]; constructor; [apply ltree_ind'|exact IH]. Defined.
End ltree_ind.
Definition all_tokens (t : token) : bool := true.
Lemma mirrors_count : forall lt t, mirrors t lt -> S (labels lt) = nodes all_tokens t.
Proof.
  induction lt as [its IH] using ltree_ind'. intros t M. inversion M as [? ? F]; subst.
  rewrite nodes_eq. cbn [all_tokens labels]. cbn [Nat.add]. f_equal. rewrite <- list_sum_app, <- map_app.
  assert (E : List.map (nodes all_tokens) (t_left t ++ t_right t) = List.map (fun c => nodes all_tokens (fst c)) (kids_of t)).
  { unfold kids_of. now rewrite !map_app, !map_map. }
  rewrite E. clear E M. revert IH. induction F as [|c kv ks its [_ Mc] _ IHF]; intros IH; [reflexivity|]. inversion IH as [|? ? I1 I2]; subst.
  change (S (labels (snd kv)) + list_sum (List.map (fun kv => S (labels (snd kv))) its) = nodes all_tokens (fst c) + list_sum (List.map (fun c => nodes all_tokens (fst c)) ks)).
  now rewrite (I1 _ Mc), (IHF I2).
Qed.

(** C75 (b).  When no token has two children with the same label, each child is shown in
    its place with all that is under it, and there are as many labels as tokens. *)
Theorem C75_label_tree_with_distinct_labels :
  forall tokens r, sentence_root tokens = Some r -> (forall x, under x r -> NoDup (List.map label (kids_of x))) ->
  exists lt, label_tree tokens = LT [(label (r, lit "*"), lt)] /\ mirrors r lt /\ labels (label_tree tokens) = List.length (to_list r).
Proof.
  intros tokens r E D. unfold label_tree. rewrite E. pose proof (mirror_tree r (lit "*") D) as M. rewrite tree_eq in *. cbn [snd] in M. eexists. split; [reflexivity|]. split; [exact M|].
  change (List.length (to_list r)) with (List.length (to_list r)). pose proof (mirrors_count _ _ M) as C. cbn [labels List.map list_sum snd fold_right]. rewrite Nat.add_0_r, C.
  rewrite <- (to_list_count all_tokens r). f_equal. clear. induction (to_list r) as [|x l IH]; [reflexivity|]. cbn. now rewrite IH.
Qed.
Print Assumptions C75_label_tree_with_distinct_labels.

(** Without that condition tokens are lost: "very very good", where both words depend on
    the third. *)
Definition very_good : token := tk 2 "good" "ADJ" "ROOT" [tk 0 "very" "ADV" "advmod" [] []; tk 1 "very" "ADV" "advmod" [] []] [].
Theorem C75_label_tree_loses_tokens_refuted :
  ~ (forall tokens r, sentence_root tokens = Some r -> labels (label_tree tokens) = List.length (to_list r)).
Proof. intros H. specialize (H [very_good] very_good eq_refl). vm_compute in H. discriminate. Qed.
Print Assumptions C75_label_tree_loses_tokens_refuted.
Example C75_nonvacuous : sentence_root [telmo] = Some telmo /\ (forall x, under x telmo -> NoDup (List.map label (kids_of x)))
  /\ labels (label_tree [telmo]) = 7.
Proof.
  split; [reflexivity|]. split; [|vm_compute; reflexivity]. intros x Hx. apply to_list_in in Hx. cbn in Hx.
  repeat (destruct Hx as [<-|Hx]; [vm_compute; repeat constructor; cbn; intuition discriminate|]). destruct Hx.
Qed.

(** C75 (c).  str(sentence) separates the words by one blank: splitting it gives the
    words back, when none of them contains a blank. *)
Theorem C75_sentence_text :
  forall tokens, tokens <> [] -> (forall t, In t tokens -> ~ In c_space (strip (t_word t))) ->
  split_char c_space (sentence_str tokens) = List.map (fun t => strip (t_word t)) tokens.
Proof.
  intros tokens N W. unfold sentence_str, split_char. set (ws := List.map (fun t => strip (t_word t)) tokens).
  assert (Hw : forall w, In w ws -> ~ In c_space w) by (intros w Hi; apply in_map_iff in Hi as (t & <- & Ht); now apply W).
  assert (Hn : ws <> []) by (unfold ws; now destruct tokens). clearbody ws. clear W N tokens.
  assert (A : forall w cur, ~ In c_space w -> split_char_aux c_space cur w = [cur ++ w]).
  { induction w as [|c w IH]; intros cur Hc; cbn; [now rewrite app_nil_r|]. destruct (N.eqb_spec c c_space) as [->|Ne]; [exfalso; apply Hc; now left|].
    rewrite IH by (intros H; apply Hc; now right). now rewrite <- app_assoc. }
  assert (B : forall w cur rest, ~ In c_space w -> split_char_aux c_space cur (w ++ c_space :: rest) = (cur ++ w) :: split_char_aux c_space [] rest).
  { induction w as [|c w IH]; intros cur rest Hc; cbn [app split_char_aux]; [rewrite N.eqb_refl, app_nil_r; reflexivity|]. destruct (N.eqb_spec c c_space) as [->|Ne]; [exfalso; apply Hc; now left|].
    rewrite IH by (intros H; apply Hc; now right). now rewrite <- app_assoc. }
  induction ws as [|w [|w2 ws] IH]; [easy| |].
  - cbn [join]. rewrite A by (apply Hw; now left). reflexivity.
  - change (join [c_space] (w :: w2 :: ws)) with (w ++ [c_space] ++ join [c_space] (w2 :: ws)). cbn [app]. rewrite B by (apply Hw; now left).
    cbn [app]. f_equal. apply IH; [intros x Hx; apply Hw; now right|easy].
Qed.
Print Assumptions C75_sentence_text.
