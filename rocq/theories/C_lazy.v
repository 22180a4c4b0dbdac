(** * C_lazy.v -- property theorem C91 (going through the vertices step by step) *)

From Verif Require Import Py M_symbol M_edge M_sql M_mysql M_hypergraph P_py Spec P_edge P_perm P_range P_query
  S_history M_driver P_ops P_hist P_graph P_rows P_answers P_crash S_steps M_steps P_steps P_mysql C_graph M_lazy.
From Coq Require Import String.
Open Scope list_scope.

(** Reading guide.  f_all is a generator.  [play f turns c g events c' g'] (M_lazy):
    starting with the connection [c] and the generator in state [g] ([GNew]: just made
    by f_all(f)), the [turns] - steps of the generator ([Next]) and calls ([Call p]) -
    are taken, giving [events]: [Got (Gives b)]: the step gave the value [b], [Got
    Stops]: it was the end, [Got (Raises e)]; [Did r]: the call returned or raised [r].
    [f_all f c = (Ok l, c, [])] (C33): gone through at once, it gives the list [l]. *)

(** The questions of the API, with any arguments. *)
Inductive question : forall A, prog A -> Prop :=
| AskExists e : question bool (p_exists e)
| AskPattern v : question (list value) (p_pattern2edges v)
| AskStar v : question (list value) (p_star v)
| AskSources e : question (list value) (p_sources e)
| AskSymbols r : question (list str) (p_symbols_with_root r)
| AskAll B (f : value * Z -> B) : question (list B) (p_f_all f)
| AskDegree v : question Z (p_degree v)
| AskTimestamp v : question Z (p_timestamp v).

(** All calls of the turns are questions. *)
Definition only_questions (turns : list turn) : Prop := Forall (fun t => match t with Next => True | Call p => question _ p end) turns.

(** What is expected of turns: the steps give the values of the list one by one and
    then stop; a call answers what it answers when it is made alone. *)
Definition answer {A} (p : prog A) (c : conn) : res A := fst (fst (run_on p c)).
Definition left_by {A} (p : prog A) (c : conn) : conn := snd (fst (run_on p c)).
Fixpoint expected {B} (l : list B) (turns : list turn) (c : conn) : list (event B) :=
  match turns with
  | [] => []
  | Next :: ts => match l with
                  | b :: r => Got (Gives b) :: expected r ts c
                  | [] => Got Stops :: expected [] ts c
                  end
  | Call p :: ts => Did (answer p c) :: expected l ts (left_by p c)
  end.
(** The connection after the calls, made alone. *)
Fixpoint after_calls (turns : list turn) (c : conn) : conn :=
  match turns with
  | [] => c
  | Next :: ts => after_calls ts c
  | Call p :: ts => after_calls ts (left_by p c)
  end.

(** ** calls beside a generator do what they do alone *)

Lemma beside_alone {A} (p : prog A) : forall c g, fst (call_beside p c g) = fst (run_on p c).
Proof.
  induction p as [r|X a k IH]; intros c g; cbn [call_beside run_on].
  - destruct r; reflexivity.
  - unfold bind. destruct (run_act_on a c) as [[[x|e] c1] t1]; [|reflexivity]. rewrite IH. destruct (run_on (k x) c1) as [[r2 c2] t2]. reflexivity.
Qed.
Lemma beside_is {A} (p : prog A) c g r c1 g1 : call_beside p c g = (r, c1, g1) -> r = answer p c /\ c1 = left_by p c.
Proof. intros E. pose proof (beside_alone p c g) as H. rewrite E in H. cbn in H. unfold answer, left_by. rewrite <- H. split; reflexivity. Qed.

(** generators that are not touched by a call *)
Definition quiet {A} (p : prog A) (auto : bool) (c : conn) (g : gen) : Prop := snd (call_beside p c g) = g.

(** programs that, outside a batch, only ask *)
Fixpoint asks_only {A} (p : prog A) : Prop :=
  match p with
  | PRet _ => True
  | PAct a k =>
      match a in act X return (X -> prog A) -> Prop with
      | AQuery h q => fun k => h = HLocal /\ forall x, asks_only (k x)
      | AGetCur => fun k => asks_only (k CNone)
      | _ => fun _ => False
      end k
  end.
Lemma asks_bind {A B} (p : prog A) (k : A -> prog B) : asks_only p -> (forall a, asks_only (k a)) -> asks_only (pbind p k).
Proof.
  induction p as [[a|e]|X a f IH]; intros H Hk; cbn [pbind]; [apply Hk|exact I|].
  destruct a; cbn [asks_only] in *; try easy.
  - destruct H as [-> H]. split; [reflexivity|]. intros x. now apply IH.
  - now apply IH.
Qed.
Lemma asks_open : asks_only (p_open_cursor true). Proof. exact I. Qed.
Lemma asks_opened {B} (k : handle -> prog B) : asks_only (k HLocal) -> asks_only (pbind (p_open_cursor true) k).
Proof. intros H. exact H. Qed.
Lemma asks_closed {B} (k : prog B) : asks_only k -> asks_only (pbind (p_close_cursor HLocal true false) (fun _ => k)).
Proof. intros H. exact H. Qed.
Lemma asks_query {A B} (q : sel A) (k : A -> prog B) : (forall x, asks_only (k x)) -> asks_only (pbind (pact (AQuery HLocal q)) k).
Proof. intros H. split; [reflexivity|exact H]. Qed.
Lemma asks_pure {A B} (r : res A) (k : A -> prog B) : (forall x, asks_only (k x)) -> asks_only (pbind (PRet r) k).
Proof. intros H. destruct r; cbn [pbind]; [apply H|exact I]. Qed.
Lemma asks_pattern v : asks_only (p_pattern2edges v).
Proof.
  unfold p_pattern2edges. apply asks_pure. intros x. cbv zeta. apply asks_pure. intros y. apply asks_opened, asks_query. intros rows. apply asks_pure. intros es.
  apply asks_closed, asks_pure. intros fl. exact I.
Qed.
Lemma question_asks A (p : prog A) : question A p -> asks_only p.
Proof.
  intros [e|v|v|e|r|B f|v|v].
  - apply asks_bind; [apply asks_pattern|]. intros x. exact I.
  - apply asks_pattern.
  - unfold p_star, p_str2perms. cbv zeta. apply asks_pure. intros y. apply asks_opened, asks_query. intros rows. apply asks_pure. intros es. apply asks_closed. exact I.
  - apply asks_bind; [apply asks_pattern|]. intros x. apply asks_pure. intros y. exact I.
  - unfold p_symbols_with_root. cbv zeta. apply asks_pure. intros y. apply asks_opened, asks_query. intros rows. apply asks_pure. intros es. apply asks_closed. exact I.
  - apply asks_opened, asks_query. intros rows. apply asks_pure. intros es. apply asks_closed. exact I.
  - unfold p_degree. cbv zeta. apply asks_opened, asks_query. intros [[d t]|]; exact I.
  - unfold p_timestamp. cbv zeta. apply asks_opened, asks_query. intros [[d t]|]; exact I.
Qed.
Definition waiting (g : gen) : Prop := match g with GNew | GOn HLocal _ | GEnd => True | _ => False end.
Lemma asks_quiet {A} (p : prog A) : asks_only p -> forall c g, c_cur c = CNone -> waiting g -> exists r, call_beside p c g = (r, c, g).
Proof.
  induction p as [r|X a k IH]; intros H c g Hc Hg; cbn [call_beside].
  - exists r. destruct g as [|[|]| | | |]; try easy.
  - destruct a; cbn [asks_only] in H; try easy.
    + destruct H as [-> H]. cbn [run_act_on]. unfold query. unfold usable. cbn [negb].
      assert (Bg : forall ok, beside (AQuery HLocal q) (c_auto c) ok g = g) by (intros ok; destruct g as [|[|]| | | |]; easy).
      destruct (forallb bindable (sel_texts q)); cbn [negb]; rewrite Bg.
      * now apply IH.
      * eexists. unfold upset. destruct g as [|[|]| | | |]; try easy.
    + cbn [run_act_on get_cur]. unfold get_cur. rewrite Hc. assert (Bg : beside AGetCur (c_auto c) true g = g) by (destruct g as [|[|]| | | |]; easy). rewrite Bg. now apply IH.
Qed.

(** ** steps *)

(** the rows that are to come, decoded *)
Definition decoded {B} (f : value * Z -> B) (rows : list (str * Z)) (l : list B) : Prop :=
  mapr (fun '(id, d) => let? v := str2edge id in Ok (f (v, d))) rows = Ok l.
Lemma decoded_cons {B} (f : value * Z -> B) id d rows l : decoded f ((id, d) :: rows) l ->
  exists v r, str2edge id = Ok v /\ l = f (v, d) :: r /\ decoded f rows r.
Proof.
  unfold decoded. cbn [mapr]. destruct (str2edge id) as [v|e]; [|discriminate]. cbn [rbind].
  destruct (mapr _ rows) as [r|e]; [|discriminate]. cbn [rbind]. intros [= <-]. now exists v, r.
Qed.
Lemma close_quiet h c : (h = HLocal \/ c_cur c <> CNone) -> run_on (p_close_cursor h true false) c = (Ok tt, c, []).
Proof. intros H. destruct c as [au cm wk [| |]], h; cbn in *; try reflexivity. destruct H as [H|H]; [discriminate|now elim H]. Qed.
Lemma round_step {B} (f : value * Z -> B) h rows l c : (h = HLocal \/ c_cur c <> CNone) -> decoded f rows l ->
  round f h rows c = match l with
                     | [] => (Stops, c, GEnd)
                     | b :: r => (Gives b, c, GOn h (tl rows))
                     end /\ decoded f (tl rows) (tl l).
Proof.
  intros Hh D. destruct rows as [|[id d] rows].
  - injection D as <-. cbn [round tl]. rewrite (close_quiet h c Hh). split; reflexivity.
  - apply decoded_cons in D as (v & r & E & -> & D). cbn [round tl]. rewrite E. split; [reflexivity|exact D].
Qed.
Lemma f_all_rows {B} (f : value * Z -> B) c l c' tr : f_all f c = (Ok l, c', tr) ->
  decoded f (List.map (fun r => (fst r, fst (snd r))) (vertices (c_work c))) l /\ c_cur c <> CClosed.
Proof.
  unfold f_all. rewrite bind_open. unfold bind at 1. unfold query. cbn [forallb negb].
  destruct (usable (hd_of c) c) eqn:U; [|discriminate]. cbn [negb]. unfold decoded.
  destruct (mapr _ _) as [out|e] eqn:E; cbn [lift]; unfold raise, ret, bind at 1; [|discriminate].
  unfold bind. intros H. split.
  - f_equal. destruct (close_cursor (hd_of c) true false c) as [[[[]|e] c2] t2]; [|discriminate]. cbn in H. congruence.
  - unfold usable, hd_of in U. now destruct (c_cur c).
Qed.
(** the state the generator is in while [l] is to come, on its own cursor *)
Inductive to_come {B} (f : value * Z -> B) (c : conn) : gen -> list B -> Prop :=
| CNew l : decoded f (List.map (fun r => (fst r, fst (snd r))) (vertices (c_work c))) l -> c_cur c = CNone -> to_come f c GNew l
| COn rows l : decoded f rows l -> to_come f c (GOn HLocal rows) l
| CEnd : to_come f c GEnd [].
Lemma come_waiting {B} (f : value * Z -> B) c g l : to_come f c g l -> waiting g.
Proof. intros []; exact I. Qed.
Lemma come_next {B} (f : value * Z -> B) c g l o c1 g1 : to_come f c g l -> next f c g o c1 g1 ->
  c1 = c /\ to_come f c g1 (tl l) /\ g1 <> GNew /\ o = match l with b :: _ => Gives b | [] => Stops end.
Proof.
  intros T N. destruct T as [l D Hc|rows l D|].
  - assert (O : run_on (p_open_cursor true) c = (Ok HLocal, c, [])) by (destruct c as [au cm wk cu]; cbn in *; now rewrite Hc).
    assert (Q : run_on (pact (AQuery HLocal SelAll)) c = (Ok (List.map (fun r => (fst r, fst (snd r))) (vertices (c_work c))), c, [])) by reflexivity.
    inversion N as [h c2 t2 rows c3 t3 o' c4 g' E1 E2 E3|h c2 t2 e c3 t3 E1 E2| | | | | |]; subst; rewrite O in E1; injection E1 as <- <- <-; rewrite Q in E2; [|discriminate E2].
    injection E2 as <- <- <-. destruct (round_step f HLocal _ l c (or_introl eq_refl) D) as [R D']. rewrite R in E3.
    destruct l as [|b l]; injection E3 as <- <- <-; (split; [reflexivity|]; split; [|split; [discriminate|reflexivity]]); [apply CEnd|now apply COn].
  - inversion N as [| |h rows' o' c2 g' E| | | | |]; subst. destruct (round_step f HLocal rows l c (or_introl eq_refl) D) as [R D']. rewrite R in E.
    destruct l as [|b l]; injection E as <- <- <-; (split; [reflexivity|]; split; [|split; [discriminate|reflexivity]]); [apply CEnd|now apply COn].
  - inversion N; subst. split; [reflexivity|]. split; [apply CEnd|]. split; [discriminate|reflexivity].
Qed.

Lemma play_questions {B} (f : value * Z -> B) turns c g events c' g' : play f turns c g events c' g' -> c_cur c = CNone ->
  only_questions turns -> forall l, to_come f c g l -> events = expected l turns c /\ c' = c.
Proof.
  intros P. induction P as [c g|ts c g o c1 g1 es c2 g2 N P IH|A p ts c g r c1 g1 es c2 g2 E P IH]; intros Hc Q l T.
  - split; reflexivity.
  - destruct (come_next f c g l o c1 g1 T N) as (-> & T' & _ & ->). destruct (IH Hc (Forall_inv_tail Q) (tl l) T') as [-> ->].
    destruct l; split; reflexivity.
  - destruct (asks_quiet p (question_asks A p (Forall_inv Q)) c g Hc (come_waiting f c g l T)) as (r' & E'). rewrite E in E'. injection E' as <- -> ->.
    destruct (beside_is p c g r c g E) as [-> El]. cbn [expected]. rewrite <- El.
    destruct (IH Hc (Forall_inv_tail Q) l T) as [-> ->]. split; reflexivity.
Qed.

(** such turns can be taken *)
Lemma can_next {B} (f : value * Z -> B) c g l : to_come f c g l -> exists g1, next f c g (match l with b :: _ => Gives b | [] => Stops end) c g1 /\ to_come f c g1 (tl l).
Proof.
  intros T. assert (X : exists o c1 g1, next f c g o c1 g1).
  { destruct T as [l D Hc|rows l D|].
    - destruct (round f HLocal (List.map (fun r => (fst r, fst (snd r))) (vertices (c_work c))) c) as [[o c1] g1] eqn:E. exists o, c1, g1.
      refine (NStart f c HLocal c [] _ c [] o c1 g1 _ eq_refl E). destruct c as [au cm wk cu]; cbn in *; now rewrite Hc.
    - destruct (round f HLocal rows c) as [[o c1] g1] eqn:E. exists o, c1, g1. now apply NRow.
    - exists Stops, c, GEnd. apply NEnd. }
  destruct X as (o & c1 & g1 & N). destruct (come_next f c g l o c1 g1 T N) as (-> & T' & _ & ->). exists g1. now split.
Qed.
Lemma can_play {B} (f : value * Z -> B) turns c : c_cur c = CNone -> only_questions turns ->
  forall g l, to_come f c g l -> exists g', play f turns c g (expected l turns c) c g'.
Proof.
  intros Hc. induction turns as [|[|A p] ts IH]; intros Q g l T.
  - exists g. apply PlayNil.
  - destruct (can_next f c g l T) as (g1 & N & T1). destruct (IH (Forall_inv_tail Q) g1 (tl l) T1) as (g2 & P). exists g2.
    destruct l; cbn [expected tl] in *; exact (PlayNext f ts c g _ c g1 _ c g2 N P).
  - destruct (asks_quiet p (question_asks A p (Forall_inv Q)) c g Hc (come_waiting f c g l T)) as (r & E).
    destruct (beside_is p c g r c g E) as [-> El]. cbn [expected]. rewrite <- El.
    destruct (IH (Forall_inv_tail Q) g l T) as (g2 & P). exists g2. exact (PlayCall f A p ts c g _ c g _ c g2 E P).
Qed.

(** *** MySQL *)
Lemma auto_act {X} (a : act X) c : c_auto (snd (fst (run_act_on a c))) = c_auto c.
Proof.
  destruct a; cbn [run_act_on]; try reflexivity.
  - unfold execute_on. destruct (negb (usable h c)); [reflexivity|]. destruct (bind_error s); [reflexivity|]. destruct (engine (c_auto c) s (c_work c)) as [[w n]|e]; reflexivity.
  - unfold query. destruct (negb (usable h c)); [reflexivity|]. now destruct (negb (forallb bindable (sel_texts q))).
Qed.
Lemma mysql_quiet {A} (p : prog A) : forall c g, c_auto c = true -> waiting g -> exists r c1, call_beside p c g = (r, c1, g) /\ c_auto c1 = true.
Proof.
  induction p as [r|X a k IH]; intros c g Ha Hg; cbn [call_beside].
  - exists r, c. split; [|exact Ha]. destruct g as [|[|]| | | |]; easy.
  - pose proof (auto_act a c) as K. destruct (run_act_on a c) as [[[x|e] c1] t1]; cbn in K; rewrite Ha in *;
      assert (Bg : forall ok, beside a true ok g = g) by (intros ok; destruct g as [|[|]| | | |]; try easy; destruct a; reflexivity).
    + rewrite Bg. now apply IH.
    + rewrite Bg. exists (Err e), c1. split; [|exact K]. destruct g as [|[|]| | | |]; easy.
Qed.
Lemma come_moves {B} (f : value * Z -> B) c c1 g l : g <> GNew -> to_come f c g l -> to_come f c1 g l.
Proof. intros N T. destruct T as [l D Hc|rows l D|]; [now elim N|now apply COn|apply CEnd]. Qed.
Lemma play_mysql {B} (f : value * Z -> B) turns c g events c' g' : play f turns c g events c' g' -> c_auto c = true -> g <> GNew ->
  forall l, to_come f c g l -> events = expected l turns c /\ c' = after_calls turns c.
Proof.
  intros P. induction P as [c g|ts c g o c1 g1 es c2 g2 N P IH|A p ts c g r c1 g1 es c2 g2 E P IH]; intros Ha Ng l T.
  - split; reflexivity.
  - destruct (come_next f c g l o c1 g1 T N) as (-> & T' & Ng' & ->). destruct (IH Ha Ng' (tl l) T') as [-> ->].
    destruct l; split; reflexivity.
  - destruct (mysql_quiet p c g Ha (come_waiting f c g l T)) as (r' & c1' & E' & Ha'). rewrite E in E'. injection E' as <- <- ->.
    destruct (beside_is p c g r c1 g E) as [-> El]. cbn [expected after_calls]. rewrite <- El.
    destruct (IH Ha' Ng l (come_moves f c c1 g l Ng T)) as [-> ->]. split; reflexivity.
Qed.

(** *** in a batch *)
Definition over (g : gen) : Prop := g = GSpent \/ g = GLost \/ g = GEnd.
Lemma over_act {X} (a : act X) auto g : over g -> over (beside a auto true g).
Proof.
  intros [->|[->| ->]]; [|right; left; reflexivity|right; right; reflexivity].
  destruct a as [[|] s|A [|] q| | |[| |]]; cbn; unfold over; tauto.
Qed.
Lemma over_stays {A} (p : prog A) : forall c g a c1 g1, over g -> call_beside p c g = (Ok a, c1, g1) -> over g1.
Proof.
  induction p as [r|X a k IH]; intros c g b c1 g1 O; cbn [call_beside].
  - intros [= -> <- <-]. destruct O as [->|[->| ->]]; cbn; unfold over; tauto.
  - destruct (run_act_on a c) as [[[x|e] c2] t2]; [|discriminate]. apply IH. now apply over_act.
Qed.
Lemma beside_bind {A B} (p : prog A) (k : A -> prog B) : forall c g, call_beside (pbind p k) c g =
  match call_beside p c g with (Ok a, c1, g1) => call_beside (k a) c1 g1 | (Err e, c1, g1) => (Err e, c1, g1) end.
Proof.
  induction p as [[a|e]|X a f IH]; intros c g; cbn [pbind call_beside is_ok].
  - destruct g; reflexivity.
  - reflexivity.
  - destruct (run_act_on a c) as [[[x|e] c1] t1]; [apply IH|reflexivity].
Qed.
(** a call that puts an end to a generator on the shared cursor *)
Definition spends {A} (p : prog A) : Prop := forall c rows a c1 g1, c_cur c = COpen -> call_beside p c (GOn HShared rows) = (Ok a, c1, g1) -> over g1.
Lemma spends_first {A B} (p : prog A) (k : A -> prog B) : spends p -> spends (pbind p k).
Proof.
  intros H c rows b c1 g1 Hc. rewrite beside_bind. destruct (call_beside p c (GOn HShared rows)) as [[[a|e] c2] g2] eqn:E; [|discriminate].
  apply over_stays. exact (H c rows a c2 g2 Hc E).
Qed.
Lemma spends_pure {A B} (r : res A) (k : A -> prog B) : (forall a, r = Ok a -> spends (k a)) -> spends (pbind (PRet r) k).
Proof. intros H. destruct r as [a|e]; cbn [pbind]; [now apply H|]. intros c rows b c1 g1 _. discriminate. Qed.
Lemma spends_open {B} l (k : handle -> prog B) : spends (k HShared) -> spends (pbind (p_open_cursor l) k).
Proof.
  intros H c rows b c1 g1 Hc. rewrite beside_bind.
  assert (E : call_beside (p_open_cursor l) c (GOn HShared rows) = (Ok HShared, c, GOn HShared rows)) by (unfold p_open_cursor, pact, pret; cbn [pbind call_beside run_act_on]; unfold get_cur; rewrite Hc; now destruct l).
  rewrite E. now apply H.
Qed.
Lemma spends_query {A} (q : sel A) : spends (pact (AQuery HShared q)).
Proof.
  intros c rows b c1 g1 Hc. unfold pact, pret. cbn [call_beside run_act_on]. unfold query. destruct (negb (usable HShared c)); [discriminate|].
  destruct (negb (forallb bindable (sel_texts q))); [discriminate|]. cbn. intros [= _ _ <-]. now left.
Qed.
Lemma spends_exec s : spends (pact (AExec HShared s)).
Proof.
  intros c rows b c1 g1 Hc. unfold pact, pret. cbn [call_beside run_act_on]. destruct (execute_on HShared s c) as [[[n|e] c2] t2]; [|discriminate]. cbn. intros [= _ _ <-]. now left.
Qed.
Lemma spends_pattern v : spends (p_pattern2edges v).
Proof.
  unfold p_pattern2edges. apply spends_pure. intros x _. cbv zeta. apply spends_pure. intros y _. apply spends_open, spends_first, spends_query.
Qed.
Lemma spends_exists e : spends (p_exists e).
Proof. apply spends_first, spends_pattern. Qed.
Lemma spends_question A (p : prog A) : question A p -> spends p.
Proof.
  intros [e|v|v|e|r|B f|v|v].
  - apply spends_exists.
  - apply spends_pattern.
  - unfold p_star, p_str2perms. cbv zeta. apply spends_pure. intros y _. apply spends_open, spends_first, spends_query.
  - apply spends_first, spends_pattern.
  - unfold p_symbols_with_root. cbv zeta. apply spends_pure. intros y _. apply spends_open, spends_first, spends_query.
  - apply spends_open, spends_first, spends_query.
  - unfold p_degree. cbv zeta. apply spends_open, spends_first, spends_query.
  - unfold p_timestamp. cbv zeta. apply spends_open, spends_first, spends_query.
Qed.
Lemma index0_items v x l : index0 v = Ok x -> is_tup x = true -> as_seq v = Ok l -> l <> [].
Proof. unfold index0. intros E0 _ E. rewrite E in E0. cbn [rbind] in E0. destruct l; [discriminate E0|discriminate]. Qed.
Lemma spends_add e t : spends (p_add e t).
Proof.
  unfold p_add. apply spends_pure. intros x E0. apply spends_first. destruct (is_tup x) eqn:Ex.
  - apply spends_open, spends_pure. intros items E1. destruct items as [|y items]; [now elim (index0_items e x [] E0 Ex E1)|].
    cbn [pfor]. apply spends_first, spends_first, spends_first. unfold p_add_raw. apply spends_first, spends_exists.
  - apply spends_first. unfold p_add_raw. apply spends_first, spends_exists.
Qed.
Lemma spends_remove e : spends (p_remove e).
Proof.
  unfold p_remove. apply spends_pure. intros x E0. destruct (is_tup x) eqn:Ex.
  - apply spends_pure. intros items E1. destruct items as [|y items]; [now elim (index0_items e x [] E0 Ex E1)|].
    cbn [pfor]. apply spends_first. unfold p_remove_raw. apply spends_first, spends_exists.
  - unfold p_remove_raw. apply spends_first, spends_exists.
Qed.
(** The calls that a function run by batch_exec makes: questions, add, remove,
    destroy, with any arguments. *)
Inductive batch_call : forall A, prog A -> Prop :=
| BQuestion A p : question A p -> batch_call A p
| BAddCall es t : batch_call value (p_add es t)
| BRemoveCall es : batch_call unit (p_remove es)
| BDestroyCall : batch_call unit p_destroy.
Lemma spends_call A (p : prog A) : batch_call A p -> spends p.
Proof.
  intros [A' p' Q|es t|es|].
  - now apply spends_question.
  - apply spends_add.
  - apply spends_remove.
  - unfold p_destroy. apply spends_open, spends_first, spends_exec.
Qed.
Lemma over_next {B} (f : value * Z -> B) c g o c1 g1 : over g -> next f c g o c1 g1 -> over g1 /\ forall b, o <> Gives b.
Proof.
  intros O N. destruct O as [->|[->| ->]]; inversion N as [| | |o' c2 g2 E| | | |]; subst; try (split; [unfold over; tauto|discriminate]).
  cbn [round] in E. destruct (run_on (p_close_cursor HShared true false) c) as [[[[]|e] c2] t2]; injection E as <- <- <-; (split; [unfold over; tauto|discriminate]).
Qed.
Lemma over_play {B} (f : value * Z -> B) turns c g events c' g' : play f turns c g events c' g' -> over g ->
  (forall A (r : res A), In (Did r) events -> is_ok r = true) -> forall b, ~ In (Got (Gives b)) events.
Proof.
  intros P. induction P as [c g|ts c g o c1 g1 es c2 g2 N P IH|A p ts c g r c1 g1 es c2 g2 E P IH]; intros O H b Hb.
  - destruct Hb.
  - destruct (over_next f c g o c1 g1 O N) as [O' Hn]. destruct Hb as [Hb|Hb]; [injection Hb as Hb; now apply (Hn b)|].
    exact (IH O' (fun A r Hr => H A r (or_intror Hr)) b Hb).
  - pose proof (H A r (or_introl eq_refl)) as Hr. destruct r as [a|e]; [|discriminate Hr].
    destruct Hb as [Hb|Hb]; [discriminate Hb|]. exact (IH (over_stays p c g a c1 g1 O E) (fun A r Hr => H A r (or_intror Hr)) b Hb).
Qed.
(** the first steps, in a batch *)
Lemma shared_next {B} (f : value * Z -> B) c g o c1 g1 : c_cur c = COpen -> (g = GNew \/ (exists rows, g = GOn HShared rows) \/ over g) -> next f c g o c1 g1 ->
  c_cur c1 = COpen /\ ((exists rows, g1 = GOn HShared rows) \/ over g1).
Proof.
  intros Hc Hg N.
  assert (Rd : forall rows, round f HShared rows c = (o, c1, g1) -> c_cur c1 = COpen /\ ((exists rows, g1 = GOn HShared rows) \/ over g1)).
  { intros [|[id d] rows]; cbn [round].
    - rewrite (close_quiet HShared c) by (right; rewrite Hc; discriminate). intros [= _ <- <-]. split; [exact Hc|]. right. unfold over. tauto.
    - destruct (str2edge id); intros [= _ <- <-]; (split; [exact Hc|]); [left; now eexists|right; unfold over; tauto]. }
  assert (O : run_on (p_open_cursor true) c = (Ok HShared, c, [])) by (destruct c as [au cm wk cu]; cbn in *; now rewrite Hc).
  destruct Hg as [->|[(rows & ->)|Ov]].
  - inversion N as [h c2 t2 rows c3 t3 o' c4 g' E1 E2 E3|h c2 t2 e c3 t3 E1 E2| | | | | |]; subst; rewrite O in E1; injection E1 as <- <- <-.
    + assert (c3 = c) as ->; [|now apply (Rd rows)]. revert E2. cbn. unfold bind, query. destruct (negb (usable HShared c)); [discriminate|]. now intros [= _ <- _].
    + assert (c1 = c) as ->; [|split; [exact Hc|right; unfold over; tauto]]. revert E2. cbn. unfold bind, query. destruct (negb (usable HShared c)); [now intros [= _ <- _]|discriminate].
  - inversion N as [| |h rows' o' c2 g' E| | | | |]; subst. now apply (Rd rows).
  - pose proof (over_next f c g o c1 g1 Ov N) as [Ov1 _]. split; [|now right]. destruct Ov as [->|[->| ->]]; inversion N as [| | |o' c2 g' E| | | |]; subst; try exact Hc. now apply (Rd []).
Qed.

(** ** C91 *)

(** Outside a batch, with any number of questions in between, the steps give, one by
    one, what f_all gives at once, and then stop; the questions are answered as
    without the generator; the hypergraph is as before, however far the generator was
    taken. *)
Theorem C91_questions_between_steps :
  forall V ops c B (f : value * Z -> B) l c0 tr turns, noalias V -> reached V ops c -> f_all f c = (Ok l, c0, tr) ->
    only_questions turns ->
    (exists g, play f turns c GNew (expected l turns c) c g)
    /\ forall events c' g, play f turns c GNew events c' g -> events = expected l turns c /\ c' = c.
Proof.
  intros V ops c B f l c0 tr turns HV Hr F Q. pose proof (reached_ready V ops c HV Hr) as R. pose proof (rd_cur _ _ _ R) as Hc.
  destruct (f_all_rows f c l c0 tr F) as [D _]. split; [exact (can_play f turns c Hc Q GNew l (CNew f c l D Hc))|].
  intros events c' g P. exact (play_questions f turns c GNew events c' g P Hc Q l (CNew f c l D Hc)).
Qed.
Print Assumptions C91_questions_between_steps.

(** On MySQL, once the first step has been taken outside a batch, whatever is called
    in between: the steps give what f_all gave then, and the calls do what they do
    alone. *)
Theorem C91_mysql_keeps_the_first_view :
  forall V ops c B (f : value * Z -> B) l c0 tr turns events c' g, noalias V -> reached V ops c -> c_auto c = true -> f_all f c = (Ok l, c0, tr) ->
    play f (Next :: turns) c GNew events c' g -> events = expected l (Next :: turns) c /\ c' = after_calls turns c.
Proof.
  intros V ops c B f l c0 tr turns events c' g HV Hr Ha F P. pose proof (reached_ready V ops c HV Hr) as R. pose proof (rd_cur _ _ _ R) as Hc.
  destruct (f_all_rows f c l c0 tr F) as [D _]. inversion P as [|ts c1 g1 o c2 g2 es c3 g3 N P'|]; subst.
  destruct (come_next f c GNew l o c2 g2 (CNew f c l D Hc) N) as (-> & T & Ng & ->).
  destruct (play_mysql f turns c g2 es c' g P' Ha Ng (tl l) T) as [-> ->]. destruct l; split; reflexivity.
Qed.
Print Assumptions C91_mysql_keeps_the_first_view.

(** In a batch (on both backends) it is otherwise: a generator started there gives
    nothing more after any question, add, remove or destroy made between its steps. *)
Theorem C91_batch_ends_the_steps :
  forall c B (f : value * Z -> B) n A (p : prog A) (a : A) turns firsts events c' g, c_cur c = COpen -> batch_call A p -> (0 < n)%nat ->
    List.length firsts = n -> play f (repeat Next n ++ Call p :: turns) c GNew (firsts ++ Did (Ok a) :: events) c' g ->
    (forall A' (r : res A'), In (Did r) events -> is_ok r = true) ->
    forall b, ~ In (Got (Gives b)) events.
Proof.
  intros c B f n A p a turns firsts events c' g Hc Hp Hn Hl P H b.
  assert (G : forall n firsts c g0, c_cur c = COpen -> ((0 < n)%nat /\ g0 = GNew \/ (exists rows, g0 = GOn HShared rows) \/ over g0) -> List.length firsts = n ->
             play f (repeat Next n ++ Call p :: turns) c g0 (firsts ++ Did (Ok a) :: events) c' g -> ~ In (Got (Gives b)) events).
  { clear n firsts c Hc Hn Hl P. induction n as [|n IH]; intros firsts c g0 Hc Hg Hl P.
    - destruct firsts; [|discriminate Hl]. cbn [repeat app] in P. destruct Hg as [[X _]|Hg]; [lia|].
      remember (Call p :: turns) as ts eqn:Et. remember (Did (Ok a) :: events) as es eqn:Ee.
      destruct P as [c g0|ts c g0 o c1 g1 es c2 g2 N P|A' p' ts c g0 r c1 g1 es c2 g2 E P]; try discriminate Et.
      assert (Et' : existT _ A' p' = existT (fun A => prog A) A p /\ ts = turns) by (split; [exact (f_equal (fun l => match l with Call q :: _ => existT _ _ q | _ => existT (fun A => prog A) A' p' end) Et)|exact (f_equal (@tl turn) Et)]).
      assert (Ee' : existT _ A' r = existT (fun A => res A) A (Ok a) /\ es = events) by (split; [exact (f_equal (fun l => match l with Did q :: _ => existT _ _ q | _ => existT (fun A => res A) A' r end) Ee)|exact (f_equal (@tl (event B)) Ee)]).
      destruct Et' as [X1 ->], Ee' as [X2 ->].
      assert (O1 : over g1).
      { assert (Rk : exists a', r = Ok a').
        { change (match existT (fun A => res A) A' r with existT _ _ r0 => exists a', r0 = Ok a' end). rewrite X2. now exists a. }
        assert (Bc : batch_call A' p').
        { change (match existT (fun A => prog A) A' p' with existT _ A0 p0 => batch_call A0 p0 end). rewrite X1. exact Hp. }
        destruct Rk as [a' ->]. destruct Hg as [(rows & ->)|Ov]; [exact (spends_call A' p' Bc c rows a' c1 g1 Hc E)|exact (over_stays p' c g0 a' c1 g1 Ov E)]. }
      exact (over_play f turns c1 g1 events c2 g2 P O1 H b).
    - destruct firsts as [|ev firsts]; [discriminate Hl|]. cbn [repeat app] in P. injection Hl as Hl.
      inversion P as [|ts c1 g1 o c2 g2 es c3 g3 N P'|]; subst.
      destruct (shared_next f c g0 o c2 g2 Hc) as [Hc2 Hg2]; [destruct Hg as [[_ Hg]|[Hg|Hg]]; auto|exact N|].
      apply (IH firsts c2 g2 Hc2); [|reflexivity|exact P']. now right. }
  exact (G n firsts c GNew Hc (or_introl (conj Hn eq_refl)) Hl P).
Qed.
Print Assumptions C91_batch_ends_the_steps.

(** So a function run by batch_exec that goes through the vertices and asks about an
    edge at the first one never sees the others: the second step is the end, however
    many there are. *)
Theorem C91_batch_misses_the_rest :
  forall V ops c B (f : value * Z -> B) b r e c0 tr, noalias V -> reached V ops c -> edge_in V e ->
    let cb := Conn (c_auto c) (c_comm c) (c_work c) COpen in
    run_on (p_open_cursor false) c = (Ok HShared, cb, [])
    /\ (f_all f cb = (Ok (b :: r), c0, tr) ->
        exists x : bool, play f [Next; Call (p_exists e); Next] cb GNew [Got (Gives b); Did (Ok x); Got Stops] cb GEnd).
Proof.
  intros V ops c B f b r e c0 tr HV Hr He cb. pose proof (reached_ready V ops c HV Hr) as R. pose proof (rd_cur _ _ _ R) as Hc. pose proof (rd_inv _ _ _ R) as I.
  split; [destruct c as [au cm wk cu]; cbn in *; rewrite Hc; reflexivity|]. intros F.
  assert (L : live cb) by discriminate. assert (Ic : Inv V (c_work cb) (history ops)) by exact I.
  assert (Ee : run_on (p_exists e) cb = (Ok (memb e (stored (history ops))), cb, [])) by (rewrite (blind_exists e cb), (ir_exists e cb); exact (Inv_exists V _ _ cb e HV Ic eq_refl L He)).
  destruct (f_all_rows f cb (b :: r) c0 tr F) as [D _].
  set (rows := List.map (fun r => (fst r, fst (snd r))) (vertices (c_work cb))) in *.
  assert (Nc : c_cur cb <> CNone) by discriminate. destruct (round_step f HShared rows (b :: r) cb (or_intror Nc) D) as [Rd _].
  destruct (call_beside (p_exists e) cb (GOn HShared (tl rows))) as [[x c1] g1] eqn:E.
  destruct (beside_is (p_exists e) cb _ x c1 g1 E) as [Ex Ec]. unfold answer, left_by in Ex, Ec. rewrite Ee in Ex, Ec. cbn [fst snd] in Ex, Ec. subst x c1.
  assert (g1 = GSpent) as ->.
  { revert E. unfold p_exists. rewrite beside_bind. unfold p_pattern2edges. destruct (db_edge_elems e (edge_in_db _ _ He)) as (Es & _ & _). rewrite Es. cbn [as_seq pbind].
    cbv zeta. destruct (str_plus_1 (nodes2str (filter not_none (elems e)))) as [hi|y]; cbn [pbind]; [|discriminate].
    cbn [p_open_cursor pact pret pbind call_beside run_act_on]. unfold get_cur. cbn [c_cur cb pbind call_beside beside].
    unfold pret at 1. cbn [pbind]. cbn [call_beside run_act_on]. unfold query. cbn [usable negb c_cur cb]. match goal with |- context [forallb bindable ?t] => destruct (forallb bindable t) end; cbn [negb]; [|discriminate]. cbn [beside].
    match goal with |- context [cur2edges ?t] => destruct (cur2edges t) as [es|y] end; cbn [pbind call_beside]; [|discriminate].
    cbn [p_close_cursor pact pret pbind call_beside run_act_on]. unfold get_cur. cbn [c_cur cb pbind call_beside beside].
    match goal with |- context [mapr ?f es] => destruct (mapr f es) as [fl|y] end; cbn [pbind call_beside is_ok upset]; [|discriminate]. now intros [= _ <-]. }
  exists (memb e (stored (history ops))).
  refine (PlayNext f _ cb GNew (Gives b) cb (GOn HShared (tl rows)) _ cb GEnd _ _).
  - refine (NStart f cb HShared cb [] rows cb [] (Gives b) cb _ eq_refl eq_refl Rd).
  - refine (PlayCall f bool (p_exists e) _ cb _ _ cb GSpent _ cb GEnd E _).
    refine (PlayNext f _ cb GSpent Stops cb GEnd _ cb GEnd _ (PlayNil f cb GEnd)). apply NSpent. reflexivity.
Qed.
Print Assumptions C91_batch_misses_the_rest.

(** The example hypergraph of C_graph has fifteen vertices with a record; going through
    them outside a batch with questions in between, and in a batch with one. *)
Definition ex_turns : list turn := [Next; Call (p_degree (VStr (lit "mary"))); Next; Call (p_exists ex_e1); Call (p_f_all fst); Next].
Example C91_nonvacuous :
  option_map (@List.length _) (match fst (fst (f_all fst ex_c)) with Ok l => Some l | Err _ => None end) = Some 15%nat /\ only_questions ex_turns.
Proof.
  refine (conj _ _); [vm_compute; reflexivity|].
  unfold only_questions, ex_turns. apply Forall_cons; [exact I|]. apply Forall_cons; [apply AskDegree|]. apply Forall_cons; [exact I|].
  apply Forall_cons; [apply AskExists|]. apply Forall_cons; [apply AskAll|]. apply Forall_cons; [exact I|apply Forall_nil].
Qed.
Example C91_batch_nonvacuous :
  (let cb := Conn (c_auto ex_c) (c_comm ex_c) (c_work ex_c) COpen in
      match fst (fst (f_all fst cb)) with Ok (b :: r) => Some (b, List.length r) | _ => None end = Some (VStr (lit "is/1"), 14%nat)).
Proof. vm_compute. reflexivity. Qed.
