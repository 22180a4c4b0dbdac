(** * C_numtext.v -- property C95: numbers and edges given as their texts *)
From Verif Require Import Py M_symbol M_edge M_sql M_hypergraph P_py Spec P_edge P_perm P_range P_query
  S_history M_driver P_ops P_hist P_graph P_answers M_lists S_numtext P_lists P_numtext.
From Coq Require Import Permutation Factorial String.
Open Scope list_scope.

(** Reading guide.  [spells v w]: v is w, or the string that writes it ("7" for
    7, "(is sky blue)" for the edge), or an edge with parts given so.  A call is
    given v, and w is what is stored ([pair_in V (v, w)]: the elements of v spell
    those of w, and w is storable); [present], [stored], [matches]: S_history;
    [ledger]: S_numtext. *)

Lemma settled_spelled V c m p : noalias V -> settled V c m -> pair_in V p -> gives (exists_ (fst p)) c (exact p && there p m).
Proof. intros HV R Hp. exact (Book_spelled V m c p HV (se_book _ _ _ R) (settled_live _ _ _ R) Hp). Qed.
Lemma star_text v w c : edge2str v = edge2str w -> star v c = star w c.
Proof. intros E. unfold star. now rewrite E. Qed.
Lemma degree_text v w c : edge2str v = edge2str w -> degree v c = degree w c.
Proof. intros E. unfold degree. now rewrite E. Qed.
Lemma timestamp_text v w c : edge2str v = edge2str w -> timestamp v c = timestamp w c.
Proof. intros E. unfold timestamp. now rewrite E. Qed.
Lemma settled_reopen V c m : settled V c m -> reopen (c_auto c) (c_comm c) = c.
Proof. intros [Hc Hs _]. destruct c as [a cm wk cu]. cbn in *. now subst. Qed.

(** After any calls of add, remove, destroy and batches of these whose edges
    give some of their parts as texts: nothing raises and all is on the disk; the hypergraph holds the edges
    MEANT that were added and since neither removed (by a remove with nothing given
    as a text) nor wiped; exists answers that for an edge with nothing given as a
    text, and False for any other; a pattern with something given as a text finds
    nothing; star, degree and timestamp do not tell the text from what it writes;
    degrees and timestamps are those of the ledger. *)
Theorem C95_any_history :
  forall V auto ks, noalias V -> Forall (call_in V) ks ->
  exists c tr, run_calls ks (start auto) = (Ok tt, c, tr) /\ reopen (c_auto c) (c_comm c) = c
    /\ (forall e, edge_in V e -> exists b, exists_ e c = (Ok b, c, []) /\ (b = true <-> present (events (marks ks)) e))
    /\ (forall v w, pair_in V (v, w) -> exists b, exists_ v c = (Ok b, c, [])
          /\ (b = true <-> v = w /\ present (events (marks ks)) w))
    /\ (forall l m, Forall2 spells l m -> pattern_in V m -> exists r, pattern2edges (VTup l) c = (Ok r, c, []) /\ NoDup r
          /\ forall e, In e r <-> l = m /\ present (events (marks ks)) e /\ matches m (elems e))
    /\ (forall v a, spells v a -> db_atom a = true -> exists r, star v c = (Ok r, c, []) /\ NoDup r
          /\ forall e, In e r <-> present (events (marks ks)) e /\ In a (elems e))
    /\ (forall v w, spells v w -> db_vertex w = true ->
          degree v c = (Ok (match ledger (marks ks) w with Some (d, _) => d | None => 0%Z end), c, [])
          /\ timestamp v c = (Ok (match ledger (marks ks) w with Some (_, t) => t | None => (-1)%Z end), c, [])).
Proof.
  intros V auto ks HV F. destruct (calls_settled V ks [] (start auto) HV F (start_settled V auto)) as (c & tr & E & R).
  rewrite app_nil_r in R. exists c, tr. refine (conj E (conj (settled_reopen V c _ R) (conj _ (conj _ (conj _ (conj _ _)))))).
  - intros e He. exact (settled_exists V c _ e HV R He).
  - intros v w Hp. exists (exact (v, w) && there (v, w) (marks ks)). split; [exact (settled_spelled V c _ (v, w) HV R Hp)|].
    rewrite andb_true_iff. unfold exact, there. cbn [fst snd]. rewrite veqb_eq, memb_in, stored_present. reflexivity.
  - intros l m Hs Hp. destruct (veqb (VTup l) (VTup m)) eqn:B.
    + apply veqb_eq in B. injection B as ->. destruct (settled_pattern V c _ _ HV R Hp) as (r & G & N & I). exists r.
      split; [exact G|]. split; [exact N|]. intros e. rewrite I. tauto.
    + apply veqb_neq in B. assert (N : l <> m) by congruence. exists []. split; [|split; [constructor|]].
      * exact (spelled_pattern_run V (c_work c) c l m HV (wf_rows _ _ (b_wf _ _ _ (se_book _ _ _ R))) eq_refl (settled_live _ _ _ R)
          (pattern_in_ok V m Hp) Hs N).
      * intros e. split; [intros []|intros [X _]; now elim N].
  - intros v a Hs Ha. rewrite (star_text v a c (spells_text v a Hs)). exact (settled_star V c _ a HV R Ha).
  - intros v w Hs Hw. rewrite (degree_text v w c (spells_text v w Hs)), (timestamp_text v w c (spells_text v w Hs)).
    split; [exact (settled_degree V c _ w R Hw)|exact (settled_timestamp V c _ w R Hw)].
Qed.
Print Assumptions C95_any_history.

(** An edge with a part given as a text is never found: not after it was added, and
    whether or not the edge it means is there; removing it does nothing; it has no
    sources, and no belief in it can be removed.  A source given as a text
    stays a source: removing its belief removes the fact when nobody believes it
    and else nothing. *)
Theorem C95_a_spelled_number_is_not_found :
  forall V auto ks c tr, noalias V -> Forall (call_in V) ks -> run_calls ks (start auto) = (Ok tt, c, tr) ->
    (forall v w, pair_in V (v, w) -> v <> w -> exists_ v c = (Ok false, c, []) /\ remove v c = (Ok tt, c, []))
    /\ (forall v w, spells v w -> V w -> V (VStr (lit "src/1")) -> db_vertex w = true -> v <> w -> sources v c = (Ok [], c, []))
    /\ (forall s s' v w, spells s s' -> spells v w -> pair_in V (v, w) -> edge_in V (link_edge s' w) -> v <> w ->
          remove_belief s v c = (Ok tt, c, []))
    /\ (forall s s' w, spells s s' -> s <> s' -> edge_in V (link_edge s' w) -> edge_in V w ->
          exists ss, sources w c = (Ok ss, c, []) /\ (ss <> [] -> remove_belief s w c = (Ok tt, c, []))
            /\ (ss = [] -> remove_belief s w c = remove w c))
    /\ (forall ord l m, Forall2 spells l m -> pattern_in V m -> l <> m -> (forall r, Permutation (ord r) r) ->
          remove_by_pattern ord (VTup l) c = (Ok tt, c, [])).
Proof.
  intros V auto ks c tr HV F Run. destruct (calls_settled V ks [] (start auto) HV F (start_settled V auto)) as (c1 & tr1 & E & R).
  rewrite app_nil_r in R. rewrite Run in E. injection E as <- <-. clear tr Run.
  assert (A : forall v w, pair_in V (v, w) -> v <> w -> exists_ v c = (Ok false, c, [])).
  { intros v w Hp N. pose proof (settled_spelled V c _ (v, w) HV R Hp) as G. unfold exact in G. cbn [fst snd] in G.
    apply veqb_neq in N. rewrite N in G. exact G. }
  assert (B : forall v w, pair_in V (v, w) -> v <> w -> remove v c = (Ok tt, c, [])).
  { intros v w Hp N. pose proof Hp as [Hs He]. cbn [fst snd] in Hs, He. destruct (spells_edge _ _ Hs (edge_in_db _ _ He)) as (a & l & Ev & Na & _). unfold remove.
    assert (index0 v = Ok a) as -> by (now rewrite Ev). cbn [lift]. rewrite (bind_gives _ _ c a eq_refl), Na.
    unfold remove_raw. now rewrite (bind_gives _ _ c false (A v w Hp N)). }
  assert (P : forall v w, spells v w -> V w -> V (VStr (lit "src/1")) -> db_vertex w = true -> v <> w -> sources v c = (Ok [], c, [])).
  { intros v w Hs Vw Vs Dw N. unfold sources. rewrite (bind_gives _ _ c []); [reflexivity|].
    apply (spelled_pattern_run V (c_work c) c [const_source; v; VNone] [const_source; w; VNone] HV (wf_rows _ _ (b_wf _ _ _ (se_book _ _ _ R))) eq_refl (settled_live _ _ _ R)).
    - exact (pattern_in_ok V _ (sources_pattern_in V w Dw Vw Vs)).
    - constructor; [apply spells_refl; reflexivity|]. constructor; [exact Hs|]. constructor; [split; [reflexivity|]; split; reflexivity|constructor].
    - intros X. apply N. now injection X. }
  refine (conj _ (conj P (conj _ (conj _ _)))).
  - intros v w Hp N. split; [now apply (A v w)|now apply (B v w)].
  - intros s s' v w Hss Hs Hp Hl N. pose proof Hp as [_ He]. cbn [snd] in He. unfold remove_belief.
    assert (Sl : pair_in V (link s v, link_edge s' w)) by (split; [exists [const_source; v; s]; split; [reflexivity|]; constructor; [apply spells_refl; reflexivity|]; constructor; [exact Hs|]; constructor; [exact Hss|constructor]|exact Hl]).
    assert (Nl : link s v <> link_edge s' w) by (intros X; apply N; now injection X).
    rewrite (bind_gives _ _ c tt (B (link s v) (link_edge s' w) Sl Nl)).
    rewrite (bind_gives _ _ c [] (P v w Hs (proj2 Hl w (or_intror (or_introl eq_refl))) (proj2 Hl _ (or_introl eq_refl)) (db_edge_vertex _ (edge_in_db _ _ He)) N)).
    cbn [List.length Nat.eqb]. now apply (B v w).
  - intros s s' w Hss N Hl He.
    assert (Sl : pair_in V (link s w, link_edge s' w)).
    { split; [exists [const_source; w; s]; split; [reflexivity|]; constructor; [apply spells_refl; reflexivity|]; constructor;
        [exact (spells_refl w (db_edge_vertex _ (edge_in_db _ _ He)))|]; constructor; [exact Hss|constructor]|exact Hl]. }
    assert (Nl : link s w <> link_edge s' w) by (intros X; apply N; now injection X).
    destruct (settled_pattern V c _ _ HV R (sources_pattern_in V w (db_edge_vertex _ (edge_in_db _ _ He)) (proj2 Hl w (or_intror (or_introl eq_refl))) (proj2 Hl _ (or_introl eq_refl)))) as (r & G & _ & Ir).
    assert (X : exists ss, mapr (fun e => let? l := as_seq e in nth_res l 2) r = Ok ss).
    { assert (Y : forall e, In e r -> exists y, (let? l := as_seq e in nth_res l 2) = Ok y).
      { intros e Ie. apply Ir in Ie as (Pe & M). apply matches_length in M. apply stored_present in Pe.
        pose proof (b_edges _ _ _ (se_book _ _ _ R) e Pe) as Ee. destruct (db_edge_elems e (edge_in_db _ _ Ee)) as (Ev & _ & _).
        rewrite Ev. cbn [as_seq rbind]. destruct (elems e) as [|a0 [|a1 [|a2 k]]]; try discriminate M. now exists a2. }
      clear G Ir. induction r as [|e r IH]; [now exists []|]. destruct (Y e (or_introl eq_refl)) as (y & Ey).
      destruct IH as (ys & Eys); [intros x Hx; apply Y; now right|]. exists (y :: ys). cbn [mapr]. rewrite Ey. cbn [rbind]. now rewrite Eys. }
    destruct X as (ss & Ess). exists (py_set ss).
    assert (Es : sources w c = (Ok (py_set ss), c, [])) by (unfold sources; rewrite (bind_gives _ _ c r G), Ess; reflexivity).
    assert (Er : remove_belief s w c = (if Nat.eqb (List.length (py_set ss)) 0 then remove w c else (Ok tt, c, []))).
    { unfold remove_belief. rewrite (bind_gives _ _ c tt (B (link s w) (link_edge s' w) Sl Nl)), (bind_gives _ _ c _ Es).
      now destruct (Nat.eqb _ 0). }
    rewrite Er. split; [exact Es|]. split.
    + intros Hn. destruct (py_set ss); [easy|reflexivity].
    + intros ->. reflexivity.
  - intros ord l m Hs Hp N Ho. unfold remove_by_pattern.
    rewrite (bind_gives _ _ c []); [|exact (spelled_pattern_run V (c_work c) c l m HV (wf_rows _ _ (b_wf _ _ _ (se_book _ _ _ R))) eq_refl (settled_live _ _ _ R)
          (pattern_in_ok V m Hp) Hs N)]. now rewrite (Permutation_nil (Permutation_sym (Ho []))).
Qed.
Print Assumptions C95_a_spelled_number_is_not_found.

(** Adding it again and again: the edge meant is there once, but each add counts
    all its elements anew and resets its own record. *)
Theorem C95_adds_pile_up :
  forall V auto ks c tr v w t n, noalias V -> Forall (call_in V) ks -> run_calls ks (start auto) = (Ok tt, c, tr) ->
  pair_in V (v, w) -> v <> w -> int64 t = true ->
  exists c' tr', run_calls (List.repeat (CAdd v w t) (S n)) c = (Ok tt, c', tr')
    /\ exists_ w c' = (Ok true, c', []) /\ exists_ v c' = (Ok false, c', [])
    /\ degree w c' = (Ok 0%Z, c', []) /\ timestamp w c' = (Ok t, c', [])
    /\ forall x d, db_vertex x = true -> x <> w -> degree x c = (Ok d, c, []) ->
         degree x c' = (Ok (d + Z.of_nat (S n * count x (elems w)))%Z, c', []).
Proof.
  intros V auto ks c tr v w t n HV F Run Hp N T. pose proof Hp as [_ He]. cbn [snd] in He. destruct (calls_settled V ks [] (start auto) HV F (start_settled V auto)) as (c1 & tr1 & E & R).
  rewrite app_nil_r in R. rewrite Run in E. injection E as <- <-. clear tr Run. set (m := marks ks) in *.
  assert (Fk : Forall (call_in V) (List.repeat (CAdd v w t) (S n))).
  { apply Forall_forall. intros k Hk. apply repeat_spec in Hk as ->. split; [exact Hp|exact T]. }
  destruct (calls_settled V _ m c HV Fk R) as (c' & tr' & E' & R').
  assert (Em : marks (List.repeat (CAdd v w t) (S n)) = List.repeat (MAdd (v, w) t) (S n)).
  { assert (Ef : forall k, flat_map marks_of (List.repeat (CAdd v w t) k) = List.repeat (MAdd (v, w) t) k).
    { induction k as [|k IH]; [reflexivity|]. cbn [List.repeat flat_map marks_of]. rewrite IH. reflexivity. }
    unfold marks. rewrite (Ef (S n)).
    assert (Er : forall k, rev (List.repeat (MAdd (v, w) t) k) = List.repeat (MAdd (v, w) t) k).
    { induction k as [|k IH]; [reflexivity|]. cbn [List.repeat rev]. rewrite IH. clear. induction k as [|k IH]; [reflexivity|]. cbn [List.repeat app]. now rewrite IH. }
    apply Er. }
  rewrite Em in R'. clear Em Fk.
  assert (Sp : exact (v, w) = false) by (unfold exact; cbn [fst snd]; now apply veqb_neq).
  exists c', tr'. refine (conj E' (conj _ (conj _ (conj _ (conj _ _))))).
  - destruct (settled_exists V c' _ _ HV R' He) as (b & G & Hb). assert (b = true) as ->; [|exact G]. apply Hb.
    exists [], t, (events (List.repeat (MAdd (v, w) t) n ++ m)). split; [reflexivity|]. split; intros [].
  - pose proof (settled_spelled V c' _ (v, w) HV R' Hp) as G. rewrite Sp in G. exact G.
  - rewrite (settled_degree V c' _ _ R' (db_edge_vertex _ (edge_in_db _ _ He))). cbn [List.repeat app ledger snd]. rewrite Sp. cbn [andb].
    assert (veqb w w = true) as -> by (now apply veqb_eq). reflexivity.
  - rewrite (settled_timestamp V c' _ _ R' (db_edge_vertex _ (edge_in_db _ _ He))). cbn [List.repeat app ledger snd]. rewrite Sp. cbn [andb].
    assert (veqb w w = true) as -> by (now apply veqb_eq). reflexivity.
  - intros x d Hv Nv D. rewrite (settled_degree V c m x R Hv) in D. injection D as <-. rewrite (settled_degree V c' _ x R' Hv).
    f_equal. f_equal. f_equal. clear E' R'. assert (Nb : veqb x w = false) by (now apply veqb_neq).
    assert (G : forall k, match ledger (List.repeat (MAdd (v, w) t) k ++ m) x with Some (d, _) => d | None => 0%Z end
      = (match ledger m x with Some (d, _) => d | None => 0%Z end + Z.of_nat (k * count x (elems w)))%Z).
    { induction k as [|k IH]; [cbn [List.repeat app Nat.mul]; lia|]. cbn [List.repeat app ledger snd]. rewrite Sp, Nb. cbn [andb].
      destruct (count x (elems w)) as [|q].
      - rewrite IH. lia.
      - destruct (ledger (List.repeat (MAdd (v, w) t) k ++ m) x) as [[d s]|]; rewrite Nat.mul_succ_l; lia. }
    apply G.
Qed.
Print Assumptions C95_adds_pile_up.

(** add_belief is one of the calls above: it adds what is meant, and the source
    meant is linked to it. *)
Theorem C95_beliefs :
  forall V s s' v w t c, spells s s' -> spells v w -> pair_in V (v, w) -> edge_in V (link_edge s' w) -> int64 t = true ->
    add_belief s v t c = run_call (CAddAll [(v, w); (link_edge s v, link_edge s' w)] t) c
    /\ call_in V (CAddAll [(v, w); (link_edge s v, link_edge s' w)] t).
Proof.
  intros V s s' v w t c Hss Hv Hp Hl T. assert (Sl : pair_in V (link_edge s v, link_edge s' w)).
  { split; [exists [VStr (lit "src/1"); v; s]; split; [reflexivity|]; constructor; [apply spells_refl; reflexivity|]; constructor; [exact Hv|];
      constructor; [exact Hss|constructor]|exact Hl]. }
  split.
  - destruct Hp as [Hs He]. cbn [fst snd] in *. destruct (spells_edge _ _ Hs (edge_in_db _ _ He)) as (a & l & Ev & Na & _).
    unfold add_belief. assert (index0 v = Ok a) as -> by (now rewrite Ev). cbn [lift]. rewrite (bind_gives _ _ c a eq_refl), Na. reflexivity.
  - split; [discriminate|]. split; [|exact T]. constructor; [exact Hp|]. constructor; [exact Sl|constructor].
Qed.
Print Assumptions C95_beliefs.

(** *** concrete cases *)
Definition nt_edge (x : value) : value := VTup [VStr (lit "age"); VStr (lit "mary"); x].
Definition nt_text : value := nt_edge (VStr (lit "7")).
Definition nt_num : value := nt_edge (VInt 7).
Definition nt_calls : list call :=
  [CAdd nt_text nt_num 5; CAdd nt_text nt_num 6; CRemove nt_text nt_num; CAddAll [(nt_edge (VStr (lit "8")), nt_edge (VInt 8)); (nt_num, nt_num)] 9;
   CBatch [BAdd (nt_edge (VStr (lit "9"))) (nt_edge (VInt 9)) 9; BRemove (nt_edge (VStr (lit "8"))) (nt_edge (VInt 8)); BRemoveAll [(nt_num, nt_num); (nt_text, nt_num)]]].
Definition nt_c : conn := snd (fst (run_calls nt_calls (start false))).
Lemma nt_in s x : edge2str (VStr s) = edge2str x -> edge_inb (nt_edge x) = true -> pair_in plain_values (nt_edge (VStr s), nt_edge x).
Proof.
  intros E H. pose proof (edge_inb_ok _ H) as He. split; [|exact He]. exists [VStr (lit "age"); VStr (lit "mary"); VStr s]. split; [reflexivity|].
  cbn [snd nt_edge elems]. constructor; [apply spells_refl; reflexivity|]. constructor; [apply spells_refl; reflexivity|]. constructor; [|constructor].
  split; [exact E|]. split; [reflexivity|]. apply edge_in_db in He. unfold nt_edge in He. apply db_edge_elems in He as (_ & A & _).
  cbn [elems] in A. inversion A as [|? ? _ A1]; subst. inversion A1 as [|? ? _ A2]; subst. inversion A2 as [|? ? Dx _]; subst. now destruct x.
Qed.
Lemma nt_calls_in : Forall (call_in plain_values) nt_calls.
Proof.
  assert (P7 : pair_in plain_values (nt_text, nt_num)) by (apply nt_in; reflexivity).
  assert (P8 : pair_in plain_values (nt_edge (VStr (lit "8")), nt_edge (VInt 8))) by (apply nt_in; reflexivity).
  assert (Pn : pair_in plain_values (nt_num, nt_num)) by (split; [exists (elems nt_num); split; [reflexivity|]; repeat (constructor; [apply spells_refl; reflexivity|]); constructor|apply edge_inb_ok; reflexivity]).
  unfold nt_calls. constructor; [exact (conj P7 eq_refl)|]. constructor; [exact (conj P7 eq_refl)|]. constructor; [exact P7|].
  constructor; [split; [discriminate|]; split; [|reflexivity]; constructor; [exact P8|]; constructor; [exact Pn|constructor]|].
  assert (P9 : pair_in plain_values (nt_edge (VStr (lit "9")), nt_edge (VInt 9))) by (apply nt_in; reflexivity).
  constructor; [|constructor]. cbn [call_in]. constructor; [exact (conj P9 eq_refl)|]. constructor; [exact P8|]. constructor; [|constructor].
  split; [discriminate|]. constructor; [exact Pn|]. constructor; [exact P7|constructor].
Qed.
Example C95_nonvacuous :
  noalias plain_values /\ Forall (call_in plain_values) nt_calls /\ nt_text <> nt_num
  /\ exists_ nt_text nt_c = (Ok false, nt_c, []) /\ exists_ nt_num nt_c = (Ok false, nt_c, [])
  /\ exists_ (nt_edge (VInt 8)) nt_c = (Ok true, nt_c, []) /\ exists_ (nt_edge (VInt 9)) nt_c = (Ok true, nt_c, [])
  /\ degree (VStr (lit "mary")) nt_c = (Ok 3%Z, nt_c, []) /\ degree (VStr (lit "7")) nt_c = (Ok 1%Z, nt_c, [])
  /\ star (VStr (lit "8")) nt_c = (Ok [nt_edge (VInt 8)], nt_c, []).
Proof.
  refine (conj plain_noalias (conj nt_calls_in (conj _ _))); [discriminate|].
  split; [vm_compute; reflexivity|]. split; [vm_compute; reflexivity|]. split; [vm_compute; reflexivity|]. split; [vm_compute; reflexivity|].
  split; [vm_compute; reflexivity|]. split; [vm_compute; reflexivity|]. vm_compute. reflexivity.
Qed.
Example C95_beliefs_nonvacuous :
  pair_in plain_values (nt_text, nt_num) /\ edge_in plain_values (link_edge (VInt 3) nt_num) /\ int64 5 = true
  /\ spells (VStr (lit "3")) (VInt 3) /\ spells nt_text nt_num
  /\ (let c := snd (fst (add_belief (VStr (lit "3")) nt_text 5 (start false))) in
      sources nt_num c = (Ok [VInt 3], c, []) /\ sources nt_text c = (Ok [], c, [])).
Proof.
  split; [apply nt_in; reflexivity|]. split; [apply edge_inb_ok; reflexivity|]. split; [reflexivity|]. split; [split; [reflexivity|split; reflexivity]|]. split; [split; [reflexivity|split; reflexivity]|].
  cbv zeta. split; vm_compute; reflexivity.
Qed.
Example C95_pile_nonvacuous : exists tr, run_calls nt_calls (start false) = (Ok tt, nt_c, tr).
Proof.
  destruct (C95_any_history plain_values false nt_calls plain_noalias nt_calls_in) as (c & tr & E & _). exists tr. unfold nt_c. now rewrite E.
Qed.
Example C95_source_nonvacuous :
  spells (VStr (lit "3")) (VInt 3) /\ VStr (lit "3") <> VInt 3 /\ edge_in plain_values (link_edge (VInt 3) nt_num) /\ edge_in plain_values nt_num
  /\ (let c := snd (fst (run_calls [CAddAll [(nt_text, nt_num); (link_edge (VStr (lit "3")) nt_text, link_edge (VInt 3) nt_num)] 5] (start false))) in
      sources nt_num c = (Ok [VInt 3], c, []) /\ remove_belief (VStr (lit "3")) nt_num c = (Ok tt, c, [])).
Proof.
  split; [split; [reflexivity|split; reflexivity]|]. split; [discriminate|]. split; [apply edge_inb_ok; reflexivity|]. split; [apply edge_inb_ok; reflexivity|].
  cbv zeta. split; vm_compute; reflexivity.
Qed.
(** an edge given as a string: ("age", "mary", "(is sky blue)") stores the edge *)
Definition st_text : value := nt_edge (VStr (lit "(is sky blue)")).
Definition st_edge : value := nt_edge (VTup [VStr (lit "is"); VStr (lit "sky"); VStr (lit "blue")]).
Example C95_edge_text_nonvacuous :
  pair_in plain_values (st_text, st_edge) /\ st_text <> st_edge
  /\ (let c := snd (fst (run_calls [CAdd st_text st_edge 5] (start false))) in
      exists_ st_text c = (Ok false, c, []) /\ exists_ st_edge c = (Ok true, c, [])
      /\ degree (VStr (lit "(is sky blue)")) c = (Ok 1%Z, c, [])).
Proof. split; [apply nt_in; reflexivity|]. split; [discriminate|]. cbv zeta. split; [|split]; vm_compute; reflexivity. Qed.
