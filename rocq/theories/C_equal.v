(** * C_equal.v -- property C94: histories that mix equal numbers (7 and 7.0) *)
From Verif Require Import Py M_symbol M_edge M_sql M_hypergraph P_py Spec P_edge P_perm P_range P_query
  S_history M_driver P_ops P_hist P_graph P_answers P_alias S_equal P_equal P_equal2.
From Coq Require Import Permutation Factorial String.
Open Scope list_scope.

(** Reading guide.  [run_ops ord ops (start auto) = (Ok tt, c, tr)]: the calls [ops] on
    an empty database end in the state [c], none raises; [q c = (Ok r, c, [])]: q
    answers r and changes nothing; [plain_call]: the call adds, removes, wipes or
    reopens, every edge storable -- and nothing else is asked of the edges: unlike in
    C09-C15, the same number may occur as an int and as a float.  [held h]: the edges
    in the hypergraph after the history h; [account h v]: degree and timestamp on
    record (S_equal). *)

(** An edge is held when it was added while nothing that the call finds was held,
    and since then neither it was removed nor everything wiped. *)
Theorem C94_held_in_words h e : In e (held h) <->
  exists later t earlier, h = later ++ EAdd e t :: earlier /\ (forall x, In x (held earlier) -> ~ finds e x)
    /\ ~ In (ERem e) later /\ ~ In EDestroy later.
Proof. exact (held_words h e). Qed.

(** No call raises, and every query answers by the account of a history that the
    calls leave.  [suits p e]: e matches the pattern p, its bound items are spelled in
    e, and [answer E P l]: l holds, up to equality, the edges of E that satisfy P. *)
Definition answers_by (h : list ev) (c : conn) : Prop :=
  (forall q, db_edge q = true -> exists b, exists_ q c = (Ok b, c, [])
        /\ (b = true <-> exists e, In e (held h) /\ finds q e))
  /\ (forall p, any_pattern p -> exists l, pattern2edges (VTup p) c = (Ok l, c, []) /\ answer (held h) (suits p) l)
  /\ (forall a, db_atom a = true -> exists l, star a c = (Ok l, c, []) /\ answer (held h) (fun e => In a (elems e)) l)
  /\ (forall v, db_vertex v = true ->
        degree v c = (Ok (match account h v with Some (d, _) => d | None => 0%Z end), c, [])
        /\ timestamp v c = (Ok (match account h v with Some (_, t) => t | None => (-1)%Z end), c, []))
  /\ (forall e, db_vertex e = true -> exists ss, sources e c = (Ok ss, c, [])
        /\ (ss = [] <-> forall x, In x (held h) -> ~ suits (facts_of e) x))
  /\ (forall r, root_in r -> exists l, symbols_with_root (VStr r) c = (Ok l, c, []) /\ NoDup l
        /\ forall s, In s l <-> (exists e, In e (held h) /\ In (VStr s) (elems e)) /\ exists t, s = r ++ c_slash :: t)
  /\ (exists l, f_all (fun x => x) c = (Ok l, c, []) /\ NoDup (List.map fst l)
        /\ forall v d, In (v, d) l <-> db_vertex v = true /\ exists t, account h v = Some (d, t)).
Lemma rests_answers h c : rests c h -> answers_by h c.
Proof.
  intros R. pose proof (rests_live _ _ R) as L. pose proof (re_tab _ _ R) as I. split; [|split; [|split; [|split; [|split; [|split]]]]].
  - intros q Hq. exists (foundb q (held h)). split; [exact (Tab_exists _ _ c q I eq_refl L Hq)|apply foundb_spec].
  - intros p Hp. exact (Tab_answer _ _ c p I eq_refl L Hp).
  - intros a Ha. destruct (Tab_star _ _ c a I eq_refl L Ha) as (l & G & N & I1 & I2 & I3). exists l. split; [exact G|]. now constructor.
  - intros v Hv. rewrite <- (t_vert _ _ I v Hv). split; [apply degree_gives|apply timestamp_gives]; [exact (re_cur _ _ R)|exact Hv|exact (re_cur _ _ R)|exact Hv].
  - intros e He. exact (Tab_sources _ _ c e I eq_refl L He).
  - intros r Hr. exact (Tab_symbols _ _ c r I eq_refl L Hr).
  - destruct (Tab_all (fun x => x) _ _ c I eq_refl L) as (ps & G & N & P). exists ps. rewrite map_id in G. split; [exact G|]. split; [exact N|exact P].
Qed.
Theorem C94_any_numbers ord auto ops : (forall l, Permutation (ord l) l) -> Forall db_call ops ->
  exists c tr h, run_ops ord ops (start auto) = (Ok tt, c, tr) /\ logs [] ops h /\ answers_by h c.
Proof.
  intros Ho F. destruct (rests_ops ord ops Ho F [] (start auto) (rests_start auto)) as (c & tr & h & E & G & R).
  exists c, tr, h. split; [exact E|]. split; [exact G|exact (rests_answers h c R)].
Qed.
(** Adds, removes, batches of these, destroys and reopens leave one history only. *)
Theorem C94_one_history ops h : Forall plain_call ops -> logs [] ops h -> h = history ops.
Proof. intros F G. exact (logs_plain [] ops h F G). Qed.
(** Removing by a pattern takes out one of each class of equal edges that suit it. *)
Theorem C94_removed_by_pattern h p h' : log h (ORemovePattern p) h' ->
  exists l, answer (held h) (suits p) l /\ forall x, In x (held h') <-> In x (held h) /\ ~ In x l.
Proof.
  intros G. inversion G as [? ? P| ? ? l l' A P| | |]; subst; [contradiction P|]. exists l. split; [exact A|].
  assert (S : forall l h x, In x (held (fold_left (fun h e => ERem e :: h) l h)) <-> In x (held h) /\ ~ In x l).
  { clear. induction l as [|e l IH]; intros h x; cbn [fold_left]; [cbn [In]; tauto|]. rewrite IH, held_rem. cbn [In]. split.
    - intros [[N H] M]. split; [exact H|]. intros [->|K]; [now apply N|now apply M].
    - intros [H M]. split; [split; [intros ->; apply M; now left|exact H]|intros K; apply M; now right]. }
  intros x. rewrite S. split; intros [H N]; (split; [exact H|]); intros K; apply N.
  - now apply (Permutation_in x (Permutation_sym P)).
  - now apply (Permutation_in x P).
Qed.

(** Where no two different numbers are equal this is the account of C09-C15. *)
Theorem C94_agrees V h : noalias V -> Forall (ev_in V) h ->
  held h = stored h
  /\ forall q e, edge_in V q -> edge_in V e -> (finds q e <-> q = e).
Proof.
  intros HV F. split; [exact (proj1 (held_agrees V h HV F))|]. intros q e Hq He. split.
  - intros (E & _). exact (edge_noalias V q e HV Hq He E).
  - intros <-. apply finds_self. exact (edge_in_db _ _ Hq).
Qed.

(** Removing an edge that is found only as an equal one: no edge changes, but the
    degree of everything in it falls and its own record goes. *)
Theorem C94_remove_of_an_equal_edge ord auto ops q : (forall l, Permutation (ord l) l) -> Forall db_call ops -> db_edge q = true ->
  exists c tr h, run_ops ord ops (start auto) = (Ok tt, c, tr) /\ logs [] ops h
  /\ (~ In q (held h) -> (exists e, In e (held h) /\ finds q e) ->
      exists c' tr', remove q c = (Ok tt, c', tr')
      /\ (forall e, db_edge e = true -> exists b, exists_ e c = (Ok b, c, []) /\ exists_ e c' = (Ok b, c', []))
      /\ (forall v, db_vertex v = true -> v <> q -> exists d, degree v c = (Ok d, c, [])
            /\ degree v c' = (Ok (if match account h v with Some _ => true | None => false end
                                  then d - Z.of_nat (count v (elems q)) else d)%Z, c', []))
      /\ degree q c' = (Ok 0%Z, c', []) /\ timestamp q c' = (Ok (-1)%Z, c', [])).
Proof.
  intros Ho F Hq. destruct (rests_ops ord ops Ho F [] (start auto) (rests_start auto)) as (c & tr & h & E & G & R).
  exists c, tr, h. split; [exact E|]. split; [exact G|]. intros Hn Hf.
  destruct (carries_top false h (ERem q :: h) (remove q) tt c (carries_remove h q Hq) R) as (c' & tr' & E' & R').
  destruct (rests_answers _ _ R) as (_ & _ & _ & D & _ & _ & _). destruct (rests_answers _ _ R') as (_ & _ & _ & D' & _ & _ & _).
  pose proof (rests_live _ _ R) as L. pose proof (re_tab _ _ R) as I. pose proof (rests_live _ _ R') as L'. pose proof (re_tab _ _ R') as I'.
  assert (B : foundb q (held h) = true) by (now apply foundb_spec).
  assert (S : held (ERem q :: h) = held h).
  { cbn [held]. revert Hn. generalize (held h). clear. intros l. induction l as [|x l IH]; intros Hn; [reflexivity|]. cbn [filter].
    destruct (veqb q x) eqn:V; [apply veqb_eq in V; exfalso; apply Hn; now left|]. cbn [negb]. f_equal. apply IH. intros K. apply Hn. now right. }
  assert (Aq : account (ERem q :: h) q = None) by (cbn [account]; now rewrite B, veqb_refl).
  pose proof (db_edge_vertex q Hq) as Vq.
  exists c', tr'. split; [exact E'|]. split; [|split].
  - intros e He. exists (foundb e (held h)). split; [exact (Tab_exists _ _ c e I eq_refl L He)|].
    rewrite <- S. exact (Tab_exists _ _ c' e I' eq_refl L' He).
  - intros v Hv Nv. exists (match account h v with Some (d, _) => d | None => 0%Z end). split; [exact (proj1 (D v Hv))|]. rewrite (proj1 (D' v Hv)).
    cbn [account]. rewrite B. destruct (veqb v q) eqn:V; [apply veqb_eq in V; congruence|]. now destruct (account h v) as [[d t]|].
  - rewrite (proj1 (D' q Vq)), (proj2 (D' q Vq)), Aq. split; reflexivity.
Qed.

(** ** Concrete cases *)
Definition i7 : value := VTup [VStr (lit "x"); VInt 7].
Definition f7 : value := VTup [VStr (lit "x"); VFlt (FFin false 7 0)].
Lemma i7_db : db_edge i7 = true /\ db_edge f7 = true /\ py_eq i7 f7 = true.
Proof. vm_compute. tauto. Qed.
(** asking for (x 7) finds (x 7.0), not the other way round *)
Example C94_ex_finds : findsb i7 f7 = true /\ findsb f7 i7 = false /\ findsb i7 i7 = true.
Proof. vm_compute. tauto. Qed.
(** so the order of the adds decides what is held *)
Example C94_ex_order :
  held (history [OAdd i7 1; OAdd f7 2]) = [f7; i7] /\ held (history [OAdd f7 2; OAdd i7 1]) = [f7].
Proof. vm_compute. tauto. Qed.
Example C94_ex_plain : Forall plain_call [OAdd f7 2; ORemove i7; OReopen; OBatch [[BRemove i7]]; OAddMany [i7; f7] 3].
Proof. repeat constructor; try discriminate; vm_compute; reflexivity. Qed.
Lemma plain_run ord auto ops : (forall l, Permutation (ord l) l) -> Forall plain_call ops ->
  exists c tr, run_ops ord ops (start auto) = (Ok tt, c, tr) /\ answers_by (history ops) c.
Proof.
  intros Ho F. destruct (C94_any_numbers ord auto ops Ho) as (c & tr & h & E & G & A).
  { eapply Forall_impl; [|exact F]. intros o P. now left. }
  rewrite (C94_one_history ops h F G) in A. now exists c, tr.
Qed.
(** both are held, and star answers with one of them while the degree is 2 *)
Example C94_ex_one_of_two ord auto : (forall l, Permutation (ord l) l) ->
  exists c tr, run_ops ord [OAdd i7 1; OAdd f7 2] (start auto) = (Ok tt, c, tr)
  /\ degree (VStr (lit "x")) c = (Ok 2%Z, c, [])
  /\ exists e, star (VStr (lit "x")) c = (Ok [e], c, []) /\ In e [i7; f7].
Proof.
  intros Ho. destruct (plain_run ord auto [OAdd i7 1; OAdd f7 2] Ho) as (c & tr & E & _ & _ & S & D & _).
  { repeat constructor; vm_compute; reflexivity. }
  exists c, tr. split; [exact E|]. split; [exact (proj1 (D (VStr (lit "x")) eq_refl))|].
  destruct (S (VStr (lit "x")) eq_refl) as (l & G & [N I1 I2 I3]).
  rewrite (proj1 C94_ex_order) in I1, I2.
  assert (Q : py_eq i7 f7 = true /\ py_eq f7 i7 = true /\ py_eq i7 i7 = true /\ py_eq f7 f7 = true) by (vm_compute; tauto).
  destruct Q as (Q1 & Q2 & Q3 & Q4).
  destruct l as [|a [|b l]].
  - destruct (I2 i7) as (e & [] & _); [right; now left|now left].
  - exists a. split; [exact G|]. destruct (I1 a (or_introl eq_refl)) as [[<-|[<-|[]]] _]; [right; now left|now left].
  - exfalso. inversion N as [|? ? Na _]; subst. apply Na. left. symmetry. apply I3; [now left|right; now left|].
    destruct (I1 a (or_introl eq_refl)) as [[<-|[<-|[]]] _]; destruct (I1 b (or_intror (or_introl eq_refl))) as [[<-|[<-|[]]] _]; assumption.
Qed.
(** removing (x 7) twice where (x 7.0) is held: it stays, the degree of x is -1 *)
Example C94_ex_negative_degree ord auto : (forall l, Permutation (ord l) l) ->
  exists c tr, run_ops ord [OAdd f7 2; ORemove i7; ORemove i7] (start auto) = (Ok tt, c, tr)
  /\ exists_ f7 c = (Ok true, c, []) /\ degree (VStr (lit "x")) c = (Ok (-1)%Z, c, []).
Proof.
  intros Ho. destruct (plain_run ord auto [OAdd f7 2; ORemove i7; ORemove i7] Ho) as (c & tr & E & X & _ & _ & D & _).
  { repeat constructor; vm_compute; reflexivity. }
  exists c, tr. split; [exact E|]. split; [|exact (proj1 (D (VStr (lit "x")) eq_refl))].
  destruct (X f7 eq_refl) as (b & G & B). rewrite G. do 2 f_equal. f_equal. apply B. exists f7. split; [vm_compute; now left|].
  apply finds_self. reflexivity.
Qed.
Example C94_ex_equal_edge : ~ In i7 (held (history [OAdd f7 2])) /\ exists e, In e (held (history [OAdd f7 2])) /\ finds i7 e.
Proof.
  split.
  - vm_compute. intros [H|[]]. discriminate H.
  - exists f7. split; [vm_compute; now left|]. apply findsb_spec. exact (proj1 C94_ex_finds).
Qed.
Example C94_ex_calls : Forall db_call [OAdd i7 1; OAdd f7 2; ORemovePattern [VStr (lit "x"); VNone]; OAsk (QStar (VStr (lit "x"))); ORemoveBelief (VStr (lit "mary")) i7].
Proof.
  assert (P : any_pattern [VStr (lit "x"); VNone]).
  { constructor; [now exists (VStr (lit "x")), []|]. intros x [<-|[<-|[]]] B; [|discriminate B]. split; [reflexivity|exact I]. }
  constructor; [left; split; reflexivity|]. constructor; [left; split; reflexivity|]. constructor; [right; exact P|].
  constructor; [right; reflexivity|]. constructor; [right; split; reflexivity|constructor].
Qed.

Print Assumptions C94_held_in_words.
Print Assumptions C94_any_numbers.
Print Assumptions C94_one_history.
Print Assumptions C94_removed_by_pattern.
Print Assumptions C94_agrees.
Print Assumptions C94_remove_of_an_equal_edge.
