(** * C_lists.v -- property C93: edges given as lists *)
From Verif Require Import Py M_symbol M_edge M_sql M_hypergraph P_py Spec P_edge P_perm P_range P_query
  S_history M_driver P_ops P_hist P_graph P_answers M_lists S_lists P_lists P_lists2.
From Coq Require Import Permutation Factorial String.
Open Scope list_scope.

(** Reading guide.  [pv]: Python values in which lists ([PLst]) and tuples
    ([PTup]) differ; [tuples p]: p with tuples for lists, a value of the rest of
    the model; [shallow p]: no list inside p (p itself may be one); [padd],
    [pexists], ... : the API called with p; [settled V c m]: c is the state after
    the calls that left the marks m (P_lists2); [answering b r]: the run r with b as
    its result. *)

(** A list in place of the edge itself changes nothing: on any connection the call
    does what it does with the tuple. *)
Theorem C93_outer_list_is_a_tuple :
  (forall p c, shallow p = true -> pexists p c = exists_ (tuples p) c)
  /\ (forall p c, shallow p = true -> ppattern2edges p c = pattern2edges (tuples p) c)
  /\ (forall p t c, Forall (fun q => shallow q = true) (edges_of p) -> padd p t c = answering p (add (tuples p) t c))
  /\ (forall p c, Forall (fun q => shallow q = true) (edges_of p) -> premove p c = remove (tuples p) c)
  /\ (forall ord p c, shallow p = true -> premove_by_pattern ord p c = remove_by_pattern ord (tuples p) c)
  /\ (forall p c, no_lists p = true -> psources p c = sources (tuples p) c)
  /\ (forall s p c, no_lists s = true -> no_lists p = true -> db_edge (tuples p) = true ->
        premove_belief s p c = remove_belief (tuples s) (tuples p) c).
Proof.
  assert (PS : forall p c, no_lists p = true -> psources p c = sources (tuples p) c).
  { intros p c H. unfold psources, sources. apply bind_ext_l.
    rewrite (ppattern_shallow (PTup [PStr (lit "src/1"); p; PNone]) c); [reflexivity|]. cbn [shallow forallb no_lists]. now rewrite H. }
  assert (PR : forall p c, Forall (fun q => shallow q = true) (edges_of p) -> premove p c = remove (tuples p) c).
  { intros p c H. apply premove_shallow. apply forallb_forall. now apply Forall_forall. }
  refine (conj pexists_shallow (conj ppattern_shallow (conj _ (conj PR (conj _ (conj PS _)))))).
  - intros p t c H. apply padd_shallow. apply forallb_forall. now apply Forall_forall.
  - intros ord p c H. unfold premove_by_pattern, remove_by_pattern. apply bind_ext_l. now apply ppattern_shallow.
  - intros s p c Hs Hp De. unfold premove_belief, remove_belief.
    transitivity (bind (remove (link (tuples s) (tuples p))) (fun _ => do ss <- psources p; if Nat.eqb (List.length ss) 0 then premove p else ret tt) c).
    + apply bind_ext_l. apply (PR (plink s p)). constructor; [|constructor]. cbn [plink shallow forallb no_lists]. now rewrite Hs, Hp.
    + apply bind_ext. intros u c1.
      transitivity (bind (sources (tuples p)) (fun ss => if Nat.eqb (List.length ss) 0 then premove p else ret tt) c1); [apply bind_ext_l; now apply PS|].
      apply bind_ext. intros ss c2. destruct (Nat.eqb (List.length ss) 0); [|reflexivity]. apply PR.
      destruct p as [| | | |l|l]; try discriminate. cbn [no_lists] in Hp. apply db_edge_inv in De as (a & b & l' & E & Ha & _).
      cbn [tuples] in E. destruct l as [|x l]; [discriminate|]. injection E as Ea _.
      assert (edges_of (PTup (x :: l)) = [PTup (x :: l)]) as ->.
      { destruct x; try reflexivity; cbn in Ea; subst a; discriminate. }
      constructor; [exact Hp|constructor].
Qed.
Print Assumptions C93_outer_list_is_a_tuple.

Lemma settled_reopen V c m : settled V c m -> reopen (c_auto c) (c_comm c) = c.
Proof. intros [Hc Hs _]. destruct c as [a cm wk cu]. cbn in *. now subst. Qed.

(** After any calls of add, remove, destroy and batches of these on storable edges, written with
    lists and tuples in any mixture: nothing raises and all is on the disk; the hypergraph holds the
    edges added and since neither removed (by a remove with no list inside it) nor
    wiped; exists answers that for an edge with no list inside, and False for any
    other; patterns and stars find them; degrees and timestamps are those of the
    ledger. *)
Theorem C93_any_mixture :
  forall V auto ks, noalias V -> Forall (call_in V) ks ->
  exists c tr, run_calls ks (start auto) = (Ok tt, c, tr) /\ reopen (c_auto c) (c_comm c) = c
    /\ (forall e, edge_in V e -> exists b, exists_ e c = (Ok b, c, []) /\ (b = true <-> present (events (marks ks)) e))
    /\ (forall p, edge_in V (tuples p) -> exists b, pexists p c = (Ok b, c, [])
          /\ (b = true <-> shallow p = true /\ present (events (marks ks)) (tuples p)))
    /\ (forall l, pattern_in V (List.map tuples l) -> forall p, p = PTup l \/ p = PLst l ->
          exists r, ppattern2edges p c = (Ok r, c, []) /\ NoDup r
          /\ forall e, In e r <-> forallb no_lists l = true /\ present (events (marks ks)) e /\ matches (List.map tuples l) (elems e))
    /\ (forall a, db_atom a = true -> exists r, star a c = (Ok r, c, []) /\ NoDup r
          /\ forall e, In e r <-> present (events (marks ks)) e /\ In a (elems e))
    /\ (forall v, db_vertex v = true ->
          degree v c = (Ok (match ledger (marks ks) v with Some (d, _) => d | None => 0%Z end), c, [])
          /\ timestamp v c = (Ok (match ledger (marks ks) v with Some (_, t) => t | None => (-1)%Z end), c, [])).
Proof.
  intros V auto ks HV F. destruct (calls_settled V ks [] (start auto) HV F (start_settled V auto)) as (c & tr & E & R).
  rewrite app_nil_r in R. exists c, tr. refine (conj E (conj (settled_reopen V c _ R) (conj _ (conj _ (conj _ (conj _ _)))))).
  - intros e He. exact (settled_exists V c _ e HV R He).
  - intros p He. exists (shallow p && there p (marks ks)).
    split; [exact (Book_pexists V _ c p HV (se_book _ _ _ R) (settled_live _ _ _ R) He)|].
    rewrite andb_true_iff. unfold there. rewrite memb_in, stored_present. reflexivity.
  - intros l Hp p Hl. destruct (settled_pattern V c _ _ HV R Hp) as (r & G & N & I).
    assert (T : tuples p = VTup (List.map tuples l)) by (destruct Hl as [->| ->]; reflexivity).
    assert (S : shallow p = forallb no_lists l) by (destruct Hl as [->| ->]; reflexivity).
    destruct (forallb no_lists l) eqn:B.
    + exists r. split; [rewrite (ppattern_shallow p c S), T; exact G|]. split; [exact N|]. intros e. rewrite I. tauto.
    + exists []. rewrite <- T in G. split; [exact (ppattern_lists p r c c [] S G)|]. split; [constructor|]. intros e. split; [intros []|intros [X _]; discriminate].
  - intros a Ha. exact (settled_star V c _ a HV R Ha).
  - intros v Hv. split; [exact (settled_degree V c _ v R Hv)|exact (settled_timestamp V c _ v R Hv)].
Qed.
Print Assumptions C93_any_mixture.

(** With a list inside: the edge is never found, removing it or what matches it does nothing, it has
    no sources, and removing a belief in it removes the fact alone (for a list)
    or nothing (for an edge with a list inside), whoever believes it. *)
Theorem C93_a_list_inside_is_not_found :
  forall V auto ks c tr, noalias V -> Forall (call_in V) ks -> run_calls ks (start auto) = (Ok tt, c, tr) ->
    (forall p, edge_in V (tuples p) -> shallow p = false -> pexists p c = (Ok false, c, []) /\ premove p c = (Ok tt, c, []))
    /\ (forall p, V (tuples p) -> V (VStr (lit "src/1")) -> db_vertex (tuples p) = true -> no_lists p = false -> psources p c = (Ok [], c, []))
    /\ (forall s p, edge_in V (link_edge (tuples s) (tuples p)) -> edge_in V (tuples p) -> no_lists p = false ->
          premove_belief s p c = (if shallow p then remove (tuples p) c else (Ok tt, c, [])))
    /\ (forall ord l, pattern_in V (List.map tuples l) -> forallb no_lists l = false -> (forall r, Permutation (ord r) r) ->
          premove_by_pattern ord (PTup l) c = (Ok tt, c, [])).
Proof.
  intros V auto ks c tr HV F Run. destruct (calls_settled V ks [] (start auto) HV F (start_settled V auto)) as (c1 & tr1 & E & R).
  rewrite app_nil_r in R. rewrite Run in E. injection E as <- <-. clear tr Run.
  assert (A : forall p, edge_in V (tuples p) -> shallow p = false -> pexists p c = (Ok false, c, [])).
  { intros p He S. pose proof (Book_pexists V _ c p HV (se_book _ _ _ R) (settled_live _ _ _ R) He) as G. now rewrite S in G. }
  assert (B : forall p, edge_in V (tuples p) -> shallow p = false -> premove p c = (Ok tt, c, [])).
  { intros p He S. destruct (pindex0_edge p (edge_in_db _ _ He)) as (x & Ex & Sx). rewrite (premove_one p x c Ex Sx).
    unfold premove_raw. now rewrite (bind_gives _ _ c false (A p He S)). }
  assert (P : forall p, V (tuples p) -> V (VStr (lit "src/1")) -> db_vertex (tuples p) = true -> no_lists p = false -> psources p c = (Ok [], c, [])).
  { intros p Vp Vs Dp Hp. destruct (settled_pattern V c _ _ HV R (sources_pattern_in V (tuples p) Dp Vp Vs)) as (r & G & _ & _).
    unfold psources. rewrite (bind_gives _ _ c []); [reflexivity|].
    apply (ppattern_lists (PTup [PStr (lit "src/1"); p; PNone]) r c c []); [|exact G]. cbn [shallow forallb no_lists]. now rewrite Hp. }
  refine (conj _ (conj P (conj _ _))).
  - intros p He S. split; [now apply A|now apply B].
  - intros s p Hl He Hp. unfold premove_belief.
    assert (Sl : shallow (plink s p) = false) by (cbn [plink shallow forallb no_lists]; now rewrite Hp).
    rewrite (bind_gives _ _ c tt (B (plink s p) Hl Sl)).
    rewrite (bind_gives _ _ c [] (P p (proj2 Hl (tuples p) (or_intror (or_introl eq_refl))) (proj2 Hl _ (or_introl eq_refl)) (db_edge_vertex _ (edge_in_db _ _ He)) Hp)).
    cbn [List.length Nat.eqb]. destruct (shallow p) eqn:S; [|now apply B].
    destruct (pindex0_edge p (edge_in_db _ _ He)) as (x & Ex & Sx). rewrite (premove_one p x c Ex Sx), (premove_raw_shallow p c S).
    unfold remove. rewrite (pindex0_tuples p), Ex. cbn [lift]. rewrite (bind_gives _ _ c (tuples x) eq_refl), (is_seq_tuples x), Sx. reflexivity.
  - intros ord l Hp Hl Ho. destruct (settled_pattern V c _ _ HV R Hp) as (r & G & _). unfold premove_by_pattern.
    rewrite (bind_gives _ _ c []); [|exact (ppattern_lists (PTup l) r c c [] Hl G)]. now rewrite (Permutation_nil (Permutation_sym (Ho []))).
Qed.
Print Assumptions C93_a_list_inside_is_not_found.

(** Adding it again and again: the edge is there once, but each add counts all its
    elements anew and resets its own record. *)
Theorem C93_adds_pile_up :
  forall V auto ks c tr p t n, noalias V -> Forall (call_in V) ks -> run_calls ks (start auto) = (Ok tt, c, tr) ->
  edge_in V (tuples p) -> int64 t = true -> shallow p = false ->
  exists c' tr', run_calls (List.repeat (CAdd p t) (S n)) c = (Ok tt, c', tr')
    /\ exists_ (tuples p) c' = (Ok true, c', [])
    /\ degree (tuples p) c' = (Ok 0%Z, c', []) /\ timestamp (tuples p) c' = (Ok t, c', [])
    /\ forall v d, db_vertex v = true -> v <> tuples p -> degree v c = (Ok d, c, []) ->
         degree v c' = (Ok (d + Z.of_nat (S n * count v (elems (tuples p))))%Z, c', []).
Proof.
  intros V auto ks c tr p t n HV F Run He T Sp. destruct (calls_settled V ks [] (start auto) HV F (start_settled V auto)) as (c1 & tr1 & E & R).
  rewrite app_nil_r in R. rewrite Run in E. injection E as <- <-. clear tr Run. set (m := marks ks) in *.
  assert (Eo : edges_of p = [p]).
  { destruct (pindex0_edge p (edge_in_db _ _ He)) as (x & Ex & Sx). destruct (pitems_edge p (edge_in_db _ _ He)) as (l & I & _).
    now rewrite (edges_of_items p x l Ex I), Sx. }
  assert (Fk : Forall (call_in V) (List.repeat (CAdd p t) (S n))).
  { apply Forall_forall. intros k Hk. apply repeat_spec in Hk as ->. split; [|exact T]. rewrite Eo. constructor; [exact He|constructor]. }
  destruct (calls_settled V _ m c HV Fk R) as (c' & tr' & E' & R').
  assert (Em : marks (List.repeat (CAdd p t) (S n)) = List.repeat (MAdd p t) (S n)).
  { assert (Ef : forall k, flat_map marks_of (List.repeat (CAdd p t) k) = List.repeat (MAdd p t) k).
    { induction k as [|k IH]; [reflexivity|]. cbn [List.repeat flat_map marks_of]. rewrite Eo, IH. reflexivity. }
    unfold marks. rewrite (Ef (S n)).
    assert (Er : forall k, rev (List.repeat (MAdd p t) k) = List.repeat (MAdd p t) k).
    { induction k as [|k IH]; [reflexivity|]. cbn [List.repeat rev]. rewrite IH. clear. induction k as [|k IH]; [reflexivity|]. cbn [List.repeat app]. now rewrite IH. }
    apply Er. }
  rewrite Em in R'. clear Em Fk.
  exists c', tr'. refine (conj E' (conj _ (conj _ (conj _ _)))).
  - destruct (settled_exists V c' _ _ HV R' He) as (b & G & Hb). assert (b = true) as ->; [|exact G]. apply Hb.
    exists [], t, (events (List.repeat (MAdd p t) n ++ m)). split; [reflexivity|]. split; intros [].
  - rewrite (settled_degree V c' _ _ R' (db_edge_vertex _ (edge_in_db _ _ He))). cbn [List.repeat app ledger]. rewrite Sp. cbn [andb].
    assert (veqb (tuples p) (tuples p) = true) as -> by (now apply veqb_eq). reflexivity.
  - rewrite (settled_timestamp V c' _ _ R' (db_edge_vertex _ (edge_in_db _ _ He))). cbn [List.repeat app ledger]. rewrite Sp. cbn [andb].
    assert (veqb (tuples p) (tuples p) = true) as -> by (now apply veqb_eq). reflexivity.
  - intros v d Hv Nv D. rewrite (settled_degree V c m v R Hv) in D. injection D as <-. rewrite (settled_degree V c' _ v R' Hv).
    f_equal. f_equal. f_equal. clear E' R'. assert (Nb : veqb v (tuples p) = false) by (now apply veqb_neq).
    assert (G : forall k, match ledger (List.repeat (MAdd p t) k ++ m) v with Some (d, _) => d | None => 0%Z end
      = (match ledger m v with Some (d, _) => d | None => 0%Z end + Z.of_nat (k * count v (elems (tuples p))))%Z).
    { induction k as [|k IH]; [cbn [List.repeat app Nat.mul]; lia|]. cbn [List.repeat app ledger]. rewrite Sp, Nb. cbn [andb].
      destruct (count v (elems (tuples p))) as [|q].
      - rewrite IH. lia.
      - destruct (ledger (List.repeat (MAdd p t) k ++ m) v) as [[d s]|]; rewrite Nat.mul_succ_l; lia. }
    apply G.
Qed.
Print Assumptions C93_adds_pile_up.

(** add_belief is an add of the fact and of the link, which holds the fact as it
    was given: a fact given as a list is linked anew by each call. *)
Theorem C93_beliefs :
  (forall s p t c x, pindex0 p = Ok x -> is_seq x = false ->
     padd_belief s p t c = (padd (PTup [p; plink s p]) t;; ret tt) c)
  /\ forall s l, shallow (plink s (PLst l)) = false.
Proof.
  split.
  - intros s p t c x E S. unfold padd_belief. rewrite E. cbn [lift]. now rewrite (bind_gives _ _ c x eq_refl), S.
  - reflexivity.
Qed.
Print Assumptions C93_beliefs.

(** [negative] raises TypeError when the edge is a list. *)
Theorem C93_negative_of_a_list :
  forall s l, s <> [] -> pedge_negative (PLst (PStr s :: l)) = Err TypeError
    /\ pedge_negative (PTup (PStr s :: l)) = edge_negative (tuples (PTup (PStr s :: l))).
Proof.
  intros s l Hs. split; [|reflexivity]. destruct s as [|a s]; [easy|]. cbn [pedge_negative tuples List.map].
  unfold edge_negative. cbn [index0 as_seq rbind]. unfold M_symbol.negative, is_negative. cbn [index0 as_seq rbind List.map].
  destruct (py_eq _ _); reflexivity.
Qed.
Print Assumptions C93_negative_of_a_list.

(** *** concrete cases *)
Definition l_fact (mk : list pv -> pv) : pv := mk [PStr (lit "blue/1"); PStr (lit "sky/1")].
(** ("says", "mary", ["blue/1", "sky/1"]) and the same with a tuple *)
Definition l_nested : pv := PTup [PStr (lit "says"); PStr (lit "mary"); l_fact PLst].
Definition l_tuple : pv := PLst [PStr (lit "says"); PStr (lit "mary"); l_fact PTup].
Definition l_calls : list call :=
  [CAdd l_nested 5; CAdd l_nested 6; CAdd (l_fact PLst) 7; CRemove l_nested;
   CAdd (PTup [l_fact PLst; plink (PStr (lit "wiki")) (l_fact PLst)]) 9;
   CAdd (PTup [l_fact PTup; plink (PStr (lit "blog")) (l_fact PTup)]) 9;
   CBatch [BAdd (PLst [PStr (lit "is"); PStr (lit "rome"); l_fact PLst]) 3; BRemove (PTup [l_nested; l_tuple]); BAdd l_nested 8]].
Definition l_c : conn := snd (fst (run_calls l_calls (start false))).
Lemma l_calls_in : Forall (call_in plain_values) l_calls.
Proof.
  apply Forall_forall. intros k Hk. cbn [l_calls In] in Hk.
  repeat (destruct Hk as [<-|Hk]; [first [split; [|reflexivity]|idtac]; cbn [call_in]; repeat constructor; apply edge_inb_ok; reflexivity|]). destruct Hk.
Qed.
Example C93_nonvacuous :
  noalias plain_values /\ Forall (call_in plain_values) l_calls /\ shallow l_nested = false /\ shallow l_tuple = true
  /\ tuples l_nested = tuples l_tuple
  /\ pexists l_nested l_c = (Ok false, l_c, []) /\ pexists l_tuple l_c = (Ok true, l_c, [])
  /\ degree (VStr (lit "mary")) l_c = (Ok 2%Z, l_c, [])
  /\ sources (tuples (l_fact PTup)) l_c = (Ok [VStr (lit "wiki"); VStr (lit "blog")], l_c, [])
  /\ psources (l_fact PLst) l_c = (Ok [], l_c, []).
Proof. refine (conj plain_noalias (conj l_calls_in _)). repeat (split; [vm_compute; reflexivity|]). vm_compute. reflexivity. Qed.
(** remove_belief of a list: the fact goes, both sources stay *)
Example C93_belief_removed_for_all :
  let c := snd (fst (premove_belief (PStr (lit "wiki")) (l_fact PLst) l_c)) in
  exists_ (tuples (l_fact PTup)) l_c = (Ok true, l_c, []) /\ exists_ (tuples (l_fact PTup)) c = (Ok false, c, [])
  /\ sources (tuples (l_fact PTup)) c = (Ok [VStr (lit "wiki"); VStr (lit "blog")], c, []).
Proof. cbv zeta. split; [|split]; vm_compute; reflexivity. Qed.
Example C93_pile_nonvacuous : edge_in plain_values (tuples l_nested) /\ int64 5 = true
  /\ exists tr, run_calls l_calls (start false) = (Ok tt, l_c, tr).
Proof.
  split; [apply edge_inb_ok; reflexivity|]. split; [reflexivity|].
  destruct (C93_any_mixture plain_values false l_calls plain_noalias l_calls_in) as (c & tr & E & _). exists tr. unfold l_c. now rewrite E.
Qed.
