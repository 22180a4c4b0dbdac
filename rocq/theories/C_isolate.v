(** * C_isolate.v -- property theorem C83 (one process writes, others read) *)

From Verif Require Import Py M_symbol M_edge M_sql M_mysql M_hypergraph P_py Spec P_edge P_perm P_range P_query
  S_history M_driver P_ops P_hist P_graph P_answers P_crash P_stuck C_graph C_crash C_within S_steps M_steps P_steps C_steps.
From Coq Require Import Permutation Factorial String.
Open Scope list_scope.

(** Processes that only ask. *)
Definition only_asks (o : op) : Prop := match o with OAsk _ | OReopen => True | _ => False end.
(** The calls [ops] made one after the other by a process that is alone; exceptions
    are caught by the client.  [run_op_on] runs a call on the backend's own engine
    (for SQLite it is [run_op], see P_steps). *)
Fixpoint made (ord : list value -> list value) (ops : list op) (c : conn) : conn :=
  match ops with [] => c | o :: r => made ord r (snd (fst (run_op_on ord o c))) end.
Lemma made_app ord ops o c : made ord (ops ++ [o]) c = snd (fst (run_op_on ord o (made ord ops c))).
Proof. revert c. induction ops as [|x ops IH]; intros c; [reflexivity|]. cbn [app made]. apply IH. Qed.

(** ** programs that change nothing *)

Fixpoint reads_only {A} (p : prog A) : Prop :=
  match p with
  | PRet _ => True
  | PAct a k => match a with AExec _ _ => False | _ => True end /\ forall x, reads_only (k x)
  end.
Lemma ro_bind {A B} (p : prog A) (k : A -> prog B) : reads_only p -> (forall a, reads_only (k a)) -> reads_only (pbind p k).
Proof.
  induction p as [[a|e]|X a f IH]; intros H Hk; cbn [pbind]; [apply Hk|exact I|]. destruct H as [H1 H2]. split; [exact H1|]. intros x. now apply IH.
Qed.
Lemma ro_ret {A} (r : res A) : reads_only (PRet r). Proof. exact I. Qed.
Lemma ro_open b : reads_only (p_open_cursor b).
Proof. split; [exact I|]. intros s. destruct b, s; cbn; auto. Qed.
Lemma ro_close h b : reads_only (p_close_cursor h true b).
Proof. split; [exact I|]. intros s. destruct s, h, b; cbn; auto. Qed.
Lemma ro_close_handle h : reads_only (p_close_handle h).
Proof. destruct h; cbn; auto. Qed.
Lemma ro_query {A} h (q : sel A) : reads_only (pact (AQuery h q)).
Proof. split; [exact I|]. intros x. exact I. Qed.
Lemma ro_pattern v : reads_only (p_pattern2edges v).
Proof.
  apply ro_bind; [exact I|]. intros items. apply ro_bind; [exact I|]. intros e. apply ro_bind; [apply ro_open|]. intros h.
  apply ro_bind; [apply ro_query|]. intros rows. apply ro_bind; [exact I|]. intros es. apply ro_bind; [apply ro_close|]. intros _.
  apply ro_bind; [exact I|]. intros fl. exact I.
Qed.
Lemma ro_ask q : reads_only (p_ask q).
Proof.
  destruct q; cbn [p_ask]; (apply ro_bind; [|intros; exact I]).
  - apply ro_bind; [apply ro_pattern|intros; exact I].
  - apply ro_pattern.
  - apply ro_bind; [exact I|]. intros x. apply ro_bind; [apply ro_open|]. intros h. apply ro_bind; [apply ro_query|]. intros rows.
    apply ro_bind; [exact I|]. intros es. apply ro_bind; [apply ro_close|]. intros; exact I.
  - apply ro_bind; [apply ro_open|]. intros h. apply ro_bind; [apply ro_query|]. intros [[d t]|];
      (apply ro_bind; [first [apply ro_close_handle|apply ro_close]|intros; exact I]).
  - apply ro_bind; [apply ro_open|]. intros h. apply ro_bind; [apply ro_query|]. intros [[d t]|];
      (apply ro_bind; [first [apply ro_close_handle|apply ro_close]|intros; exact I]).
  - apply ro_bind; [apply ro_pattern|]. intros es. apply ro_bind; [exact I|]. intros ss. exact I.
  - apply ro_bind; [exact I|]. intros x. apply ro_bind; [apply ro_open|]. intros h. apply ro_bind; [apply ro_query|]. intros rows.
    apply ro_bind; [exact I|]. intros es. apply ro_bind; [apply ro_close|]. intros; exact I.
  - apply ro_bind; [apply ro_open|]. intros h. apply ro_bind; [apply ro_query|]. intros rows.
    apply ro_bind; [exact I|]. intros es. apply ro_bind; [apply ro_close|]. intros; exact I.
Qed.
Lemma ro_op ord o : only_asks o -> reads_only (p_op ord o).
Proof. destruct o; cbn; try easy. intros _. apply ro_ask. Qed.

(** ** the invariant *)

Record iso (auto : bool) (ord : list value -> list value) (calls : nat -> list op) (d : db) (i : nat) (w : world) : Prop := {
  is_others : forall j, j <> i -> Forall only_asks (pr_todo (wd_procs w j)) /\ forall p, pr_now (wd_procs w j) = Some p -> reads_only p;
  is_own : let p := wd_procs w i in
    match pr_now p with
    | None => exists done, calls i = done ++ pr_todo p
        /\ alone auto i (made ord done (open_db auto d)) w /\ pr_cur p = c_cur (made ord done (open_db auto d))
    | Some q => exists done o c tr, calls i = done ++ o :: pr_todo p /\ o <> OReopen
        /\ alone auto i c w /\ pr_cur p = c_cur c
        /\ (c_comm c = c_comm (made ord done (open_db auto d)) \/ In (c_comm c) tr)
        /\ run_on (p_op ord o) (made ord done (open_db auto d)) = (fst (fst (run_on q c)), snd (fst (run_on q c)), tr ++ snd (run_on q c))
    end }.

Lemma comm_traced {X} (a : act X) c r c1 t1 : run_act_on a c = (r, c1, t1) -> c_comm c1 = c_comm c \/ In (c_comm c1) t1.
Proof.
  destruct a; cbn [run_act_on].
  - unfold execute_on. destruct (negb (usable h c)); [intros E; injection E as _ <- _; now left|].
    destruct (bind_error s); [intros E; injection E as _ <- _; now left|].
    destruct (engine (c_auto c) s (c_work c)) as [[w n]|e]; intros E; injection E as _ <- <-; [right; now left|now left].
  - unfold query. destruct (negb (usable h c)); [intros E; injection E as _ <- _; now left|].
    destruct (negb (forallb bindable (sel_texts q))); intros E; injection E as _ <- _; now left.
  - unfold commit. intros E; injection E as _ <- <-. right. now left.
  - unfold get_cur. intros E; injection E as _ <- _. now left.
  - unfold set_cur. intros E; injection E as _ <- _. now left.
Qed.
(** what readers do touches neither the disk nor the write lock *)
Lemma reader_act {X} auto j w cur (a : act X) r d wr cur' : match a with AExec _ _ => False | _ => True end -> holds j w = false ->
  act_on auto j w cur a = Some (r, d, wr, cur') -> d = wd_disk w /\ wr = wd_writer w.
Proof.
  intros H Hh. destruct a; cbn [act_on]; [easy| | | |].
  - destruct (closed h cur); [now intros [= _ <- <- _]|]. destruct (negb (forallb bindable (sel_texts q))); now intros [= _ <- <- _].
  - rewrite Hh. now intros [= _ <- <- _].
  - now intros [= _ <- <- _].
  - now intros [= _ <- <- _].
Qed.
Lemma alone_holds auto i c w j : alone auto i c w -> j <> i -> holds j w = false.
Proof.
  intros [_ _ _ F _] N. unfold holds, lock_free in *. destruct (wd_writer w) as [[k x]|]; [|reflexivity]. apply Nat.eqb_eq in F as ->. now apply Nat.eqb_neq, not_eq_sym.
Qed.
Lemma alone_same auto i c w w' : alone auto i c w -> wd_disk w' = wd_disk w -> wd_writer w' = wd_writer w -> alone auto i c w'.
Proof.
  intros [A B C D E] H1 H2. constructor; [exact A|now rewrite H1| |unfold lock_free in *; now rewrite H2|intros X; rewrite H2; now apply E].
  unfold view in *. now rewrite H1, H2.
Qed.
Lemma iso_alone auto ord calls d i w : iso auto ord calls d i w -> exists c, alone auto i c w.
Proof. intros [_ O]. cbv zeta in O. destruct (pr_now (wd_procs w i)); [destruct O as (? & ? & c & ? & _ & _ & A & _)|destruct O as (x & _ & A & _)]; eauto. Qed.

Lemma iso_step auto ord calls d i w w' : iso auto ord calls d i w -> step false auto ord w w' -> iso auto ord calls d i w'.
Proof.
  intros I S. destruct (iso_alone _ _ _ _ _ _ I) as (c0 & A0). pose proof I as [Oth Own].
  (* a step of a reader: the shared part and process i stay *)
  assert (Reader : forall j p', j <> i -> Forall only_asks (pr_todo p') -> (forall p, pr_now p' = Some p -> reads_only p) ->
            forall w1, wd_disk w1 = wd_disk w -> wd_writer w1 = wd_writer w -> wd_procs w1 = set_proc j p' (wd_procs w) -> iso auto ord calls d i w1).
  { intros j p' Nj T R w1 H1 H2 H3. constructor.
    - intros k Nk. rewrite H3. destruct (Nat.eq_dec k j) as [->|N]; [rewrite set_same; now split|rewrite set_other by exact N; now apply Oth].
    - cbv zeta. rewrite H3, set_other by (now apply not_eq_sym). cbv zeta in Own.
      destruct (pr_now (wd_procs w i)) as [q|].
      + destruct Own as (dn & o & c & tr & E1 & E2 & E3 & E4 & E5 & E6). exists dn, o, c, tr. repeat (split; [first [exact E1|exact E2|exact E4|exact E5|now apply (alone_same auto i c w)]|]). exact E6.
      + destruct Own as (dn & E1 & E2 & E3). exists dn. split; [exact E1|]. split; [now apply (alone_same auto i _ w)|exact E3]. }
  (* a step of process i: the readers stay *)
  assert (Mine : forall w1 p', wd_procs w1 = set_proc i p' (wd_procs w) -> forall j, j <> i ->
            Forall only_asks (pr_todo (wd_procs w1 j)) /\ forall p, pr_now (wd_procs w1 j) = Some p -> reads_only p).
  { intros w1 p' H3 j Nj. rewrite H3, set_other by exact Nj. now apply Oth. }
  destruct S as [j w p o todo Hp Hn Ht Ho|j w p todo Hp Hn Ht|j w p X a k r dd wr cur Hp Hn Ha|j w p r Hp Hn|j w p X a k Hf|j w p todo' Hf]; try discriminate Hf.
  - destruct (Nat.eq_dec j i) as [->|Nj].
    + constructor; [now apply (Mine _ (Proc (pr_cur p) (Some (p_op ord o)) todo (pr_ok p)))|]. cbv zeta in *. cbn [wd_procs]. rewrite set_same. cbn [pr_now pr_todo pr_cur].
      rewrite Hp, Hn in Own. destruct Own as (dn & E1 & E2 & E3). rewrite Ht in E1.
      exists dn, o, (made ord dn (open_db auto d)), []. split; [exact E1|]. split; [exact Ho|].
      split; [apply (alone_same auto i _ w); [exact E2|reflexivity|reflexivity]|]. split; [exact E3|]. split; [now left|].
      cbn [app]. now destruct (run_on (p_op ord o) (made ord dn (open_db auto d))) as [[r1 c1] t1].
    + destruct (Oth j Nj) as [T R]. rewrite Hp in T. rewrite Ht in T. inversion T as [|? ? T1 T2]; subst.
      apply (Reader j (Proc (pr_cur (wd_procs w j)) (Some (p_op ord o)) todo (pr_ok (wd_procs w j))) Nj); try reflexivity; [exact T2|].
      cbn [pr_now]. intros q [= <-]. now apply ro_op.
  - destruct (Nat.eq_dec j i) as [->|Nj].
    + constructor; [now apply (Mine _ (Proc CNone None todo (pr_ok p)))|]. cbv zeta in *. cbn [wd_procs]. rewrite set_same. cbn [pr_now pr_todo pr_cur].
      rewrite Hp, Hn in Own. destruct Own as (dn & E1 & E2 & E3). rewrite Ht in E1. exists (dn ++ [OReopen]). split; [rewrite E1; now rewrite <- app_assoc|].
      rewrite made_app. cbn [run_op_on reopen_op fst snd]. unfold reopen_op. cbn [fst snd]. split; [|reflexivity].
      assert (Hr : (if holds i w then None else wd_writer w) = None).
      { pose proof (al_free _ _ _ _ E2) as F. unfold holds, lock_free in *. destruct (wd_writer w) as [[k x]|]; [now rewrite F|reflexivity]. }
      rewrite Hr. destruct E2 as [Aa Ac Aw Af An]. constructor; cbn [reopen open_db c_auto c_comm c_work wd_disk wd_writer]; [exact Aa|exact Ac|exact Ac|reflexivity|reflexivity].
    + destruct (Oth j Nj) as [T R]. rewrite Hp in T. rewrite Ht in T. inversion T as [|? ? T1 T2]; subst.
      apply (Reader j (Proc CNone None todo (pr_ok (wd_procs w j))) Nj); try reflexivity; [exact T2|discriminate|].
      cbn [wd_writer]. now rewrite (alone_holds auto i c0 w j A0 Nj).
  - destruct (Nat.eq_dec j i) as [->|Nj].
    + constructor; [now apply (Mine _ (Proc cur (Some (after_act r k)) (pr_todo p) (pr_ok p)))|]. cbv zeta in *. cbn [wd_procs]. rewrite set_same. cbn [pr_now pr_todo pr_cur].
      rewrite Hp, Hn in Own. destruct Own as (dn & o & c & tr & E1 & E2 & E3 & E4 & E5 & E6).
      destruct (run_act_on a c) as [[r1 c1] t1] eqn:Ea. rewrite E4 in Ha.
      destruct (act_alone auto i c w a r1 c1 t1 E3 Ea) as (d2 & wr2 & F1 & F2). rewrite Ha in F1. injection F1 as -> -> -> ->.
      exists dn, o, c1, (tr ++ t1). split; [exact E1|]. split; [exact E2|]. split; [apply F2|]. split; [reflexivity|]. split.
      { destruct (comm_traced a c r1 c1 t1 Ea) as [X1|X1]; [rewrite X1; destruct E5 as [E5|E5]; [now left|right; apply in_or_app; now left]|right; apply in_or_app; now right]. }
      rewrite E6. cbn [run_on]. unfold bind. rewrite Ea. destruct r1 as [x|e]; cbn [after_act].
      * destruct (run_on (k x) c1) as [[r2 c2] t2]. cbn [fst snd]. now rewrite app_assoc.
      * cbn [run_on lift]. unfold raise. cbn [fst snd]. now rewrite app_nil_r.
    + destruct (Oth j Nj) as [T R]. rewrite Hp in *. specialize (R _ Hn). cbn [reads_only] in R. destruct R as [R1 R2].
      destruct (reader_act auto j w _ a r dd wr cur R1 (alone_holds auto i c0 w j A0 Nj) Ha) as [-> ->].
      apply (Reader j (Proc cur (Some (after_act r k)) (pr_todo p) (pr_ok p)) Nj); try reflexivity; [exact T|].
      cbn [pr_now]. intros q [= <-]. destruct r as [x|e]; [apply R2|exact Logic.I].
  - destruct (Nat.eq_dec j i) as [->|Nj].
    + constructor; [eapply Mine; reflexivity|]. cbv zeta in *. cbn [wd_procs]. rewrite set_same. cbn [pr_now pr_todo pr_cur].
      rewrite Hp, Hn in Own. destruct Own as (dn & o & c & tr & E1 & E2 & E3 & E4 & E5 & E6).
      exists (dn ++ [o]). split; [rewrite E1; now rewrite <- app_assoc|]. rewrite made_app.
      assert (Hc : snd (fst (run_op_on ord o (made ord dn (open_db auto d)))) = c).
      { assert (Y : run_op_on ord o = run_on (p_op ord o)) by (destruct o; try reflexivity; now elim E2). rewrite Y, E6. cbn [fst snd]. now destruct r. }
      rewrite Hc. split; [apply (alone_same auto i _ w); [exact E3|reflexivity|reflexivity]|exact E4].
    + destruct (Oth j Nj) as [T R]. rewrite Hp in *.
      apply (Reader j (Proc (pr_cur p) None (pr_todo p) (pr_ok p && match r with Ok _ => true | Err _ => false end)) Nj); try reflexivity; [exact T|discriminate].
Qed.

Lemma iso_start auto ord calls d i : (forall j, j <> i -> Forall only_asks (calls j)) -> iso auto ord calls d i (start_world d calls).
Proof.
  intros H. constructor.
  - intros j N. split; [now apply H|]. cbn. discriminate.
  - cbv zeta. cbn [start_world start_proc wd_procs pr_now pr_todo pr_cur]. exists []. split; [reflexivity|]. split; [|reflexivity].
    constructor; reflexivity || intros _; reflexivity.
Qed.
Lemma iso_steps auto ord calls d i w : (forall j, j <> i -> Forall only_asks (calls j)) ->
  steps false auto ord (start_world d calls) w -> iso auto ord calls d i w.
Proof. intros H S. induction S as [|w w' S IH S1]; [now apply iso_start|now apply (iso_step auto ord calls d i w)]. Qed.

(** C83, both backends: process [i] makes arbitrary calls (they may raise; the
    exception is caught), all other processes only ask questions (or reopen).
    At every point of every interleaving, what every other process sees is the disk,
    and the disk is that of process [i] working alone: what its calls so far have
    left, or, within a call, something it could find after dying in that call. *)
Theorem C83_one_writer :
  forall auto ord d calls i w, (forall j, j <> i -> Forall only_asks (calls j)) ->
    steps false auto ord (start_world d calls) w ->
    (forall j, j <> i -> view j w = wd_disk w)
    /\ exists done, let c := made ord done (open_db auto d) in
         (pr_now (wd_procs w i) = None /\ calls i = done ++ pr_todo (wd_procs w i) /\ wd_disk w = c_comm c /\ view i w = c_work c)
         \/ (exists p o, pr_now (wd_procs w i) = Some p /\ calls i = done ++ o :: pr_todo (wd_procs w i)
              /\ died (run_op_on ord o) c (wd_disk w)).
Proof.
  intros auto ord d calls i w H S. pose proof (iso_steps auto ord calls d i w H S) as I. split.
  - intros j N. destruct (iso_alone _ _ _ _ _ _ I) as (c0 & A0). pose proof (alone_holds auto i c0 w j A0 N) as Hh.
    unfold holds, view in *. destruct (wd_writer w) as [[k x]|]; [now rewrite Hh|reflexivity].
  - destruct I as [_ O]. cbv zeta in O. destruct (pr_now (wd_procs w i)) as [q|].
    + destruct O as (dn & o & c & tr & E1 & E2 & E3 & E4 & E5 & E6). exists dn. cbv zeta. right. exists q, o. split; [reflexivity|]. split; [exact E1|].
      unfold died. rewrite (al_comm _ _ _ _ E3).
      assert (Y : run_op_on ord o = run_on (p_op ord o)) by (destruct o; try reflexivity; now elim E2).
      rewrite Y, E6. cbn [snd]. destruct E5 as [E5|E5]; [left; exact E5|right; apply in_or_app; now left].
    + destruct O as (dn & E1 & E2 & E3). exists dn. cbv zeta. left. split; [reflexivity|]. split; [exact E1|]. split; apply E2.
Qed.
Print Assumptions C83_one_writer.

(** Calls that are on the disk all at once (SQLite): adds of lists of edges, beliefs,
    destroy, batches of adds, and questions. *)
Definition whole (o : op) : Prop :=
  match o with
  | OAddMany _ _ | OAddBelief _ _ _ | OAddBeliefs _ _ _ | ODestroy | OAsk _ | OReopen => True
  | OBatch fs => forall b, In b (List.concat fs) -> match b with BRemove _ | BRemoveMany _ => False | _ => True end
  | _ => False
  end.

Lemma belief_whole s v items t c : add_belief s v t c = bind (add (VTup items) t) (fun _ => ret tt) c ->
  (exists x, index0 (VTup items) = Ok x /\ is_tup x = true) -> c_auto c = false -> c_cur c = CNone ->
  forall c' tr, add_belief s v t c = (Ok tt, c', tr) -> forall d, In d tr -> d = c_comm c \/ d = c_comm c'.
Proof.
  intros Es (x & E & T) Ha Hc c' tr Eb d Hd. rewrite Es in Eb. unfold bind in Eb.
  destruct (add (VTup items) t c) as [[[a|y] c1] t1] eqn:Ea; [|discriminate]. unfold ret in Eb. injection Eb as <- <-. rewrite app_nil_r in Hd.
  destruct (add_many_crash (VTup items) t c x _ _ _ E T Ha Hc Ea) as [K _]. destruct (K d Hd) as [->|[_ ->]]; auto.
Qed.
Lemma whole_call V h ord o c : noalias V -> (forall l, Permutation (ord l) l) -> op_in V o -> ready V c h -> c_auto c = false -> whole o ->
  exists c' tr, run_op ord o c = (Ok tt, c', tr) /\ ready V c' (after h o) /\ c_auto c' = false
    /\ forall d, In d tr -> d = c_comm c \/ d = c_comm c'.
Proof.
  intros HV Hord Hi R Ha Hw. destruct (op_top ord V h o c HV Hord Hi R) as (us & c' & tr & [Er A' R' _ _]).
  exists c', tr. split; [exact Er|]. split; [exact R'|]. split; [now rewrite A'|].
  pose proof (rd_cur _ _ _ R) as Hc.
  destruct o as [e t|es t|e|es| |s e t|s es t|s e|p|fs|q|]; cbn [whole] in Hw; try (now elim Hw); cbn [run_op op_in] in *.
  - destruct Hi as [[Hn Hes] _]. destruct (index0_edges V es Hn Hes) as (x & E & T). unfold bind in Er.
    destruct (add (VTup es) t c) as [[[a|y] c1] t1] eqn:Ea; [|discriminate]. unfold ret in Er. injection Er as <- <-. rewrite app_nil_r.
    destruct (add_many_crash (VTup es) t c x _ _ _ E T Ha Hc Ea) as [K _]. intros d Hd. destruct (K d Hd) as [->|[_ ->]]; auto.
  - destruct c as [au cm wk cu]. cbn in Ha, Hc. subst au cu. unfold destroy, open_cursor, close_cursor, close_handle, execute, bind, get_cur, ret, commit in Er.
    cbn in Er. injection Er as <- <-. intros d [<-|[<-|[<-|[]]]]; cbn; auto.
  - destruct Hi as [[He Hl] _]. destruct (index0_edge e (edge_in_db _ _ He)) as (a & E0 & Ea).
    apply (belief_whole s e [e; link s e] t c); [| |exact Ha|exact Hc|exact Er].
    + unfold add_belief. rewrite E0. unfold lift. rewrite bind_ret_l, Ea. reflexivity.
    + exists e. split; [reflexivity|]. destruct (db_edge_elems e (edge_in_db _ _ He)) as [-> _]. reflexivity.
  - destruct Hi as [[Hn Hes] _]. assert (Fe : Forall (edge_in V) es) by (eapply Forall_impl; [|exact Hes]; now intros x [H _]).
    destruct (index0_edges V es Hn Fe) as (a & E0 & Ea).
    apply (belief_whole s (VTup es) (flat_map (fun edge => [edge; link s edge]) es) t c); [| |exact Ha|exact Hc|exact Er].
    + unfold add_belief. rewrite E0. unfold lift. rewrite bind_ret_l, Ea. cbn [as_seq]. now rewrite bind_ret_l.
    + destruct es as [|e es]; [easy|]. exists e. split; [reflexivity|]. cbn in E0. now injection E0 as ->.
  - assert (S : always Rstuck (mfor (List.map (fun f => mfor f run_bop) fs) (fun f => f))).
    { apply mfor_stuck. intros m Hm. apply in_map_iff in Hm as (f & <- & Hf). apply mfor_stuck. intros b Hb.
      assert (Bb : In b (List.concat fs)) by (apply in_concat; now exists f). rewrite Forall_forall in Hi. specialize (Hi b Bb). specialize (Hw b Bb).
      destruct b as [e t|e|es| |e|p|a|r|]; try (now elim Hw); cbn [run_bop bop_in] in *.
      - pose proof comp_stuck as C. apply al_bind; [exact C| |intros _; now apply al_ret].
        apply (b_add_single Rstuck C stuck_exec (stuck_open true) stuck_close). intros y Ey.
        destruct (index0_edge e (edge_in_db _ _ (proj1 Hi))) as (a & E0 & Ea). rewrite Ey in E0. now injection E0 as ->.
      - apply (keeps_stuck ord ODestroy). right. now left.
      - apply (keeps_stuck ord (OAsk (QExists e))). right. right. now eexists.
      - apply (keeps_stuck ord (OAsk (QPattern p))). right. right. now eexists.
      - apply (keeps_stuck ord (OAsk (QStar a))). right. right. now eexists.
      - apply (keeps_stuck ord (OAsk (QRoot r))). right. right. now eexists.
      - apply (keeps_stuck ord (OAsk QAll)). right. right. now eexists. }
    unfold batch_exec, bind in Er. rewrite (open_false c Hc) in Er. specialize (S (opened c) Ha). unfold st_of, tr_of in S.
    destruct (mfor (List.map (fun f => mfor f run_bop) fs) (fun f => f) (opened c)) as [[[u|y] c1] t1] eqn:L; cbn [fst snd] in S;
      destruct S as (A1 & C1 & D1 & T1); try (cbn; discriminate); cbn [opened c_comm] in D1, T1; try discriminate Er.
    rewrite close_false in Er. destruct (c_cur c1) eqn:Cu; [now elim C1| |]; injection Er as <- <-; cbn [c_comm app];
      intros d Hd; (apply in_app_iff in Hd as [Hd|[<-|[]]]; [left; now apply T1|right; reflexivity]).
  - pose proof (ask_top V h q c HV Hi R) as G. unfold gives in G. rewrite G in Er. injection Er as <- <-. intros d [].
  - unfold reopen_op in Er. injection Er as <- <-. intros d [<-|[]]. now left.
Qed.
Lemma op_on_sqlite ord o c : c_auto c = false -> run_op_on ord o c = run_op ord o c.
Proof.
  intros Ha. assert (D : o = OReopen \/ o <> OReopen) by (destruct o; first [now left|now right]). destruct D as [->|N]; [reflexivity|].
  assert (Y : run_op_on ord o = run_on (p_op ord o)) by (destruct o; try reflexivity; now elim N). rewrite Y, (run_on_sqlite _ c Ha). now apply run_p_op.
Qed.
(** a list of such calls, made alone *)
Lemma whole_calls V ord : noalias V -> (forall l, Permutation (ord l) l) -> forall l h c, ready V c h -> c_auto c = false ->
  Forall (op_in V) l -> exists tr, run_ops ord l c = (Ok tt, made ord l c, tr) /\ ready V (made ord l c) (fold_left after l h) /\ c_auto (made ord l c) = false.
Proof.
  intros HV Hord. induction l as [|o l IH]; intros h c R Ha Hi; [exists []; now split|].
  inversion Hi as [|? ? Hi1 Hi2]; subst.
  destruct (op_top ord V h o c HV Hord Hi1 R) as (us & c' & tr & [Er A' R' _ _]).
  cbn [made fold_left]. rewrite (op_on_sqlite ord o c Ha), Er. cbn [fst snd]. rewrite Ha in A'.
  destruct (IH (after h o) c' R' A' Hi2) as (tr2 & E2 & R2 & A2).
  exists (tr ++ tr2). split; [|now split]. unfold run_ops in *. cbn [mfor]. unfold bind. now rewrite Er, E2.
Qed.

(** C83 on SQLite, when the one writer makes only such calls: every other process
    sees the database exactly as it is between two of the writer's calls -- after all
    it has finished, or, while it is in a call, with or without that call. *)
Theorem C83_readers_see_whole_calls :
  forall V ops c ord calls i w, noalias V -> reached V ops c -> c_auto c = false -> (forall l, Permutation (ord l) l) ->
    Forall (op_in V) (calls i) -> Forall whole (calls i) -> (forall j, j <> i -> Forall only_asks (calls j)) ->
    steps false false ord (start_world (c_comm c) calls) w ->
    let left_ := List.length (pr_todo (wd_procs w i)) in let begun := (List.length (calls i) - left_)%nat in
    forall j, j <> i -> exists k tr, let c' := open_db false (view j w) in
      (k = begun \/ pr_now (wd_procs w i) <> None /\ S k = begun)
      /\ run_ops ord (firstn k (calls i)) c = (Ok tt, c', tr)
      /\ forall e, edge_in V e -> exists b, exists_ e c' = (Ok b, c', []) /\ (b = true <-> present (history (ops ++ firstn k (calls i))) e).
Proof.
  intros V ops c ord calls i w HV Hr Ha Hord Hi Hw Ho S left_ begun j Nj.
  pose proof (reached_ready V ops c HV Hr) as R.
  assert (Sy : forall c0 h0, ready V c0 h0 -> c_auto c0 = false -> open_db false (c_comm c0) = c0).
  { intros c0 h0 R0 A0. rewrite <- A0 at 1. change (reopen (c_auto c0) (c_comm c0) = c0). apply synced_reopen. split; apply R0. }
  pose proof (Sy c _ R Ha) as Oc. destruct (C83_one_writer false ord (c_comm c) calls i w Ho S) as [Vj (dn & D)]. rewrite Oc in D. cbv zeta in D. rewrite (Vj j Nj).
  (* the database after the first calls *)
  assert (K : forall l, Forall (op_in V) l -> firstn (List.length l) (calls i) = l -> wd_disk w = c_comm (made ord l c) ->
    exists tr, run_ops ord (firstn (List.length l) (calls i)) c = (Ok tt, open_db false (wd_disk w), tr)
      /\ forall e, edge_in V e -> exists b, exists_ e (open_db false (wd_disk w)) = (Ok b, open_db false (wd_disk w), [])
           /\ (b = true <-> present (history (ops ++ firstn (List.length l) (calls i))) e)).
  { intros l Hl Fl E. rewrite Fl. destruct (whole_calls V ord HV Hord l (history ops) c R Ha Hl) as (tr & E1 & R1 & A1).
    rewrite E, (Sy _ _ R1 A1). exists tr. split; [exact E1|]. intros e He.
    unfold history. rewrite fold_left_app. exact (ready_exists V (made ord l c) _ e HV R1 He). }
  assert (F : forall a b : list op, firstn (List.length a) (a ++ b) = a) by (intros a b; rewrite firstn_app, Nat.sub_diag, firstn_all; cbn; apply app_nil_r).
  destruct D as [(N & E1 & E2 & _)|(p & o & N & E1 & E2)].
  - assert (B : begun = List.length dn) by (unfold begun, left_; rewrite E1, app_length; lia).
    assert (Hl : Forall (op_in V) dn) by (rewrite E1 in Hi; now apply Forall_app in Hi).
    destruct (K dn Hl) as (tr & K1 & K2); [rewrite E1; apply F|exact E2|]. exists (List.length dn), tr. cbv zeta. split; [now left|]. now split.
  - assert (B : begun = Datatypes.S (List.length dn)) by (unfold begun, left_; rewrite E1, app_length; cbn [List.length]; lia).
    assert (Hl : Forall (op_in V) dn /\ op_in V o) by (rewrite E1 in Hi; apply Forall_app in Hi as [H1 H2]; inversion H2; now split).
    assert (Wo : whole o) by (rewrite E1 in Hw; apply Forall_app in Hw as [_ H2]; now inversion H2). destruct Hl as [Hl Hlo].
    destruct (whole_calls V ord HV Hord dn (history ops) c R Ha Hl) as (tr0 & _ & R1 & A1).
    destruct (whole_call V _ ord o _ HV Hord Hlo R1 A1 Wo) as (c2 & tr2 & E3 & R2 & A2 & T2).
    assert (X : wd_disk w = c_comm (made ord dn c) \/ wd_disk w = c_comm c2).
    { unfold died in E2. rewrite (op_on_sqlite ord o _ A1), E3 in E2. cbn [snd] in E2. destruct E2 as [E2|E2]; [now left|now apply T2]. }
    destruct X as [X|X].
    + destruct (K dn Hl) as (tr & K1 & K2); [rewrite E1; apply F|exact X|]. exists (List.length dn), tr. cbv zeta. split; [right; split; [rewrite N; discriminate|now rewrite B]|]. now split.
    + assert (Ea : calls i = (dn ++ [o]) ++ pr_todo (wd_procs w i)) by (rewrite <- app_assoc; exact E1).
      assert (M2 : made ord (dn ++ [o]) c = c2) by (rewrite made_app, (op_on_sqlite ord o _ A1), E3; reflexivity).
      destruct (K (dn ++ [o])) as (tr & K1 & K2); [apply Forall_app; split; [exact Hl|now repeat constructor]|rewrite Ea; apply F|now rewrite M2|].
      assert (L : List.length (dn ++ [o]) = begun) by (rewrite B, app_length; cbn [List.length]; lia). rewrite L in K1, K2.
      exists begun, tr. cbv zeta. split; [now left|]. now split.
Qed.
Print Assumptions C83_readers_see_whole_calls.

(** two runs: the writer is in its first call (its own working copy holds the edge,
    the reader sees nothing), and later in its second (the reader sees the first) *)
Definition calls83 : nat -> list op := two [OAddMany [c_e; c_e3] 1; OBatch [[BAdd c_e2 2]; [BExists c_e]]] [OAsk (QStar (VStr (lit "blue"))); OAsk (QExists c_e)].
Definition sees83 (w : world) : bool * nat * res bool * res bool :=
  (match pr_now (wd_procs w 0) with Some _ => true | None => false end, List.length (pr_todo (wd_procs w 0)),
   fst (fst (exists_ c_e (open_db false (view 0 w)))), fst (fst (exists_ c_e (open_db false (view 1 w))))).
Example C83_nonvacuous :
  reached plain_values [] (start false)
  /\ Forall (op_in plain_values) (calls83 0) /\ Forall whole (calls83 0) /\ (forall j, j <> O -> Forall only_asks (calls83 j))
  /\ (exists w, steps false false (fun l => l) (start_world db_empty calls83) w /\ sees83 w = (true, 1%nat, Ok true, Ok false))
  /\ (exists w, steps false false (fun l => l) (start_world db_empty calls83) w /\ sees83 w = (true, O, Ok true, Ok true)).
Proof.
  assert (G : forall ms s, forallb (fun m => negb (faulty m)) ms = true ->
            option_map sees83 (performs false (fun l => l) ms (start_world db_empty calls83)) = Some s ->
            exists w, steps false false (fun l => l) (start_world db_empty calls83) w /\ sees83 w = s).
  { intros ms s F E. destruct (performs false (fun l => l) ms (start_world db_empty calls83)) as [w|] eqn:P; [|discriminate E]. cbn [option_map] in E.
    injection E as E. exists w. split; [|exact E]. apply (performs_steps false false _ ms); [now rewrite F|exact P]. }
  split; [exists (fun l => l), false, []; split; [reflexivity|split; [constructor|reflexivity]]|].
  split.
  { cbn [calls83 two]. apply Forall_cons; [|apply Forall_cons; [|apply Forall_nil]]; cbn [op_in List.concat app]; [split; [split; [discriminate|]|reflexivity]|];
      repeat (apply Forall_cons || apply Forall_nil); cbn [bop_in]; edge_ok. }
  split.
  { cbn [calls83 two]. apply Forall_cons; [exact Logic.I|]. apply Forall_cons; [|apply Forall_nil]. cbn. intros b [<-|[<-|[]]]; exact Logic.I. }
  split; [intros [|[|j]] N; [now elim N| |]; cbn; repeat (apply Forall_cons || apply Forall_nil); exact Logic.I|].
  split; [apply (G (goes 0 60 ++ goes 1 3))|apply (G (goes 0 130 ++ goes 1 3))]; vm_compute; reflexivity.
Qed.

(** With a single-edge add it is false: while the writer is in its call, a reader
    finds the edge with exists, and not with star. *)
Definition half83 (auto : bool) (w : world) : res bool * res (list value) :=
  (fst (fst (exists_ c_e (open_db auto (view 1 w)))), fst (fst (star (VStr (lit "blue")) (open_db auto (view 1 w))))).
Theorem C83_single_add_seen_by_half_refuted :
  forall auto, exists w, steps false auto (fun l => l) (start_world db_empty (two [OAdd c_e 1] [])) w
    /\ let c := open_db auto (view 1 w) in exists_ c_e c = (Ok true, c, []) /\ star (VStr (lit "blue")) c = (Ok [], c, []).
Proof.
  intros auto. set (w0 := start_world db_empty (two [OAdd c_e 1] [])).
  assert (E : option_map (half83 auto) (performs auto (fun l => l) (goes 0 45) w0) = Some (Ok true, Ok [])) by (destruct auto; vm_compute; reflexivity).
  destruct (performs auto (fun l => l) (goes 0 45) w0) as [w|] eqn:P; [|discriminate E]. cbn [option_map] in E. unfold half83 in E. injection E as E1 E2.
  exists w. split; [apply (performs_steps false auto _ (goes 0 45)); [vm_compute; discriminate|exact P]|]. cbv zeta. clear P.
  destruct (exists_same c_e (open_db auto (view 1 w))) as (r1 & F1). destruct (star_same (VStr (lit "blue")) (open_db auto (view 1 w))) as (r2 & F2).
  rewrite F1 in E1. rewrite F2 in E2. cbn [fst] in E1, E2. rewrite E1 in F1. rewrite E2 in F2. exact (conj F1 F2).
Qed.
Print Assumptions C83_single_add_seen_by_half_refuted.
