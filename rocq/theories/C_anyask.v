(** * C_anyask.v -- property C96: questions with any argument at all *)
From Verif Require Import Py M_symbol M_edge M_sql M_hypergraph P_py Spec P_edge P_perm P_range P_query
  S_history M_driver P_ops P_hist P_graph P_answers S_equal P_alias S_anyask P_nested C_numtext C_graph.
From Coq Require Import Permutation Factorial String.
Open Scope list_scope.

Lemma match_any items : forall l, List.length l = List.length items -> matches_loop l items = true <-> equal_match items l.
Proof.
  induction items as [|p items IH]; intros [|x l] L; try discriminate.
  - split; [constructor|reflexivity].
  - cbn [matches_loop]. injection L as L. specialize (IH l L).
    change (match p with VNone => false | _ => true end) with (not_none p).
    destruct (not_none p) eqn:Np; cbn [andb].
    + destruct (py_eq p x) eqn:E; cbn [negb].
      * rewrite IH. split; [intros M; constructor; [now right|exact M]|intros M; now inversion M].
      * split; [discriminate|]. intros M. inversion M as [|? ? ? ? [->|F] _]; subst; [discriminate|congruence].
    + rewrite IH. split; [intros M; constructor; [left; now destruct p|exact M]|intros M; now inversion M].
Qed.
Lemma flags_any items es flags : mapr (fun e => edge_matches_pattern e items) es = Ok flags ->
  forall e, In e (List.map fst (filter snd (combine es flags))) <-> In e es /\ edge_matches_pattern e items = Ok true.
Proof.
  revert flags. induction es as [|e es IH]; intros flags Em v; cbn [mapr] in Em.
  - injection Em as <-. cbn. tauto.
  - destruct (edge_matches_pattern e items) as [b|] eqn:Eb; [|discriminate]. cbn [rbind] in Em.
    destruct (mapr _ es) as [fl|] eqn:E2; [|discriminate]. cbn in Em. injection Em as <-. specialize (IH fl eq_refl v).
    cbn [combine filter snd]. destruct b; cbn [List.map fst In]; rewrite IH.
    + split; [intros [<-|[H1 H2]]; tauto|]. intros [[<-|H1] H2]; tauto.
    + split; [tauto|]. intros [[<-|H1] H2]; [congruence|tauto].
Qed.
Lemma matches_edge e items : db_edge e = true -> exists b, edge_matches_pattern e items = Ok b /\ (b = true <-> equal_match items (elems e)).
Proof.
  intros He. destruct (db_edge_elems e He) as (Ee & Ae & Le).
  assert (X : edge_matches_pattern e items = edge_matches_pattern (VTup (elems e)) items) by (now rewrite <- Ee).
  rewrite X. unfold edge_matches_pattern. cbn [as_seq rbind].
  destruct (Nat.eqb_spec (List.length (elems e)) (List.length items)) as [El|El]; cbn [negb].
  - eexists. split; [reflexivity|]. now apply match_any.
  - exists false. split; [reflexivity|]. split; [easy|]. intros M. apply F2_len in M. congruence.
Qed.
Lemma mapr_total {A B} (f : A -> res B) l : (forall x, In x l -> exists y, f x = Ok y) -> exists r, mapr f l = Ok r.
Proof.
  induction l as [|x l IH]; intros H; [now exists []|]. destruct (H x (or_introl eq_refl)) as (y & E).
  destruct IH as (r & Er); [intros z Hz; apply H; now right|]. exists (y :: r). cbn [mapr]. rewrite E. cbn [rbind]. now rewrite Er.
Qed.

(** what the two kinds of query compute *)
Definition looked (s : str) (w : db) : res (list value) := cur2edges (filter (prefixb s) (perms w)).
Definition in_index (c : conn) (s : str) : res (list value) :=
  let? hi := str_plus_1 s in
  if bindable s && (bindable hi && true) then looked s (c_work c) else Err UnicodeEncodeError.
Lemma star_any v c : live c -> star v c = ((let? es := in_index c (edge2str v ++ [c_space]) in Ok (py_set es)), c, []).
Proof.
  intros L. unfold star, str2perms, in_index. set (s := edge2str v ++ [c_space]). cbv zeta.
  destruct (str_plus_1 s) as [hi|x] eqn:Hhi; [|reflexivity].
  rewrite (bind_gives _ _ c hi eq_refl). cbn [rbind].
  assert (Hn : s <> []) by (intros E; rewrite E in Hhi; discriminate).
  destruct (bindable s && (bindable hi && true))%bool eqn:B.
  - apply query_shape; [exact L|exact B|]. intros h Hh.
    rewrite (filter_ext (in_range s hi) (prefixb s)) by (intros r; now apply in_range_prefix).
    unfold looked. destruct (cur2edges _) as [es|x]; [|reflexivity]. cbn [rbind].
    rewrite (bind_gives _ _ c es eq_refl). rewrite (bind_gives _ _ c tt) by (now apply close_query). reflexivity.
  - cbn [rbind]. unfold bind, open_cursor, get_cur, bind, query, ret. unfold live in L.
    destruct c as [au cm wk [| |]]; cbn [c_cur] in *; [| |easy]; unfold usable; cbn [c_cur negb forallb]; rewrite B; reflexivity.
Qed.
Lemma pattern_any_run v items c : live c -> as_seq v = Ok items ->
  pattern2edges v c = ((let? es := in_index c (nodes2str (filter not_none items)) in
     let? flags := mapr (fun e => edge_matches_pattern e items) es in
     Ok (py_set (List.map fst (filter snd (combine es flags))))), c, []).
Proof.
  intros L Es. unfold pattern2edges, in_index. rewrite Es, (bind_gives _ _ c items eq_refl). set (s := nodes2str (filter not_none items)). cbv zeta.
  destruct (str_plus_1 s) as [hi|x] eqn:Hhi; [|reflexivity].
  rewrite (bind_gives _ _ c hi eq_refl). cbn [rbind].
  assert (Hn : s <> []) by (intros E; rewrite E in Hhi; discriminate).
  destruct (bindable s && (bindable hi && true))%bool eqn:B.
  - apply query_shape; [exact L|exact B|]. intros h Hh.
    rewrite (filter_ext (in_range s hi) (prefixb s)) by (intros r; now apply in_range_prefix).
    unfold looked. destruct (cur2edges _) as [es|x]; [|reflexivity]. cbn [rbind].
    rewrite (bind_gives _ _ c es eq_refl). rewrite (bind_gives _ _ c tt) by (now apply close_query).
    cbn [rbind]. destruct (mapr _ es) as [flags|x]; reflexivity.
  - cbn [rbind]. unfold bind, open_cursor, get_cur, bind, query, ret. unfold live in L.
    destruct c as [au cm wk [| |]]; cbn [c_cur] in *; [| |easy]; unfold usable; cbn [c_cur negb forallb]; rewrite B; reflexivity.
Qed.

Lemma plus_nonnil s hi : str_plus_1 s = Ok hi -> s <> [].
Proof. now intros H ->. Qed.
Lemma in_index_text c s : s <> [] -> db_text s = true -> in_index c s = looked s (c_work c).
Proof.
  intros Hn Ht. destruct (db_text_plus_1 s Hn Ht) as (hi & Hhi & B1 & B2). unfold in_index. rewrite Hhi. cbn [rbind].
  now rewrite B1, B2.
Qed.
Lemma in_index_looked c s es : in_index c s = Ok es -> s <> [] /\ looked s (c_work c) = Ok es.
Proof.
  unfold in_index. destruct (str_plus_1 s) as [hi|] eqn:H; [|discriminate]. cbn [rbind]. destruct (_ && _)%bool; [|discriminate].
  intros E. split; [exact (plus_nonnil s hi H)|exact E].
Qed.

Lemma begins_row s e : begins s e <-> exists r, is_row (elems e) r /\ prefixb s r = true.
Proof.
  assert (L : forall p k, nodes2str (p ++ [VInt k]) = line p k) by (intros p k; unfold nodes2str, line; now rewrite map_app).
  split.
  - intros (k & p & t & Hk & Ep & E). exists (line p k). split.
    + exists k, p. rewrite L. repeat split; [apply Hk|apply Hk|exact Ep].
    + apply prefixb_spec. now exists t.
  - intros (r & (k & p & Hk & Ep & ->) & P). apply prefixb_spec in P as [t P]. exists k, p, t. rewrite L in P. now repeat split.
Qed.
Lemma not_opens s : ~ opens s -> starts_with c_lpar s = false.
Proof.
  intros H. destruct s as [|a s]; [reflexivity|]. destruct (starts_with c_lpar (a :: s)) eqn:E; [|reflexivity].
  exfalso. apply H. unfold starts_with in E. apply N.eqb_eq in E. exists s. now rewrite E.
Qed.

(** the edges that the index gives for a text *)
Lemma looked_plain V h c s : noalias V -> Inv V (c_work c) h -> s <> [] -> ~ opens s ->
  exists es, looked s (c_work c) = Ok es /\ NoDup es /\ forall e, In e es <-> present h e /\ begins s e.
Proof.
  intros HV I Hn Ho. pose proof (wf_rows _ _ (i_wf _ _ _ I)) as Hw.
  destruct (cur2edges_gen V (c_work c) (prefixb s) HV Hw) as (es & Ec & Nes & Ies).
  { intros r _ Hp. apply (prefix_no_lpar s); [exact Hn|now apply not_opens|exact Hp]. }
  exists es. split; [exact Ec|]. split; [exact Nes|]. intros e. rewrite Ies, begins_row, <- stored_present. split.
  - intros (He & r & Hr & Rr & P). split; [now apply (i_rows _ _ _ I e r He Rr)|]. now exists r.
  - intros (Hs & r & Rr & P). pose proof (i_edges _ _ _ I e Hs) as He. split; [exact He|]. exists r.
    split; [now apply (i_rows _ _ _ I e r He Rr)|]. now split.
Qed.
Lemma looked_open V h c s es : Inv V (c_work c) h -> opens s -> looked s (c_work c) = Ok es -> forall v, In v es -> piece h v.
Proof.
  intros I (t & ->) E v Hv. unfold looked, cur2edges in E.
  destruct (mapr row2edge _) as [es0|] eqn:Em; [|discriminate]. cbn in E. injection E as <-. apply py_set_in in Hv.
  destruct (mapr_in _ _ _ _ Em Hv) as (row & Hrow & Erow).
  destruct (paren_row V h _ (c_lpar :: t) row v I eq_refl Hrow Erow) as (e & y & p & k & Hst & Pp & Ty & _ & _ & _ & Hlt).
  destruct y as [| | | |l]; try discriminate. exists e, l. split; [now apply stored_present|]. split; [|exact Hlt].
  eapply Permutation_in; [symmetry; exact Pp|now left].
Qed.

Lemma exists_of v c r : pattern2edges v c = (r, c, []) ->
  exists_ v c = (match r with Ok l => Ok (match l with [] => false | _ => true end) | Err x => Err x end, c, []).
Proof.
  intros E. unfold exists_, bind. rewrite E. destruct r as [[|x l]|x]; reflexivity.
Qed.
Lemma begins_literal items e : matches items (elems e) -> filter not_none items <> [] -> begins (nodes2str (filter not_none items)) e.
Proof.
  intros M Hn. destruct (matches_split _ _ M) as (rest & P). apply begins_row. destruct (nthperm_complete _ _ P) as (k & Hk & Ek).
  exists (nodes2str ((filter not_none items ++ rest) ++ [VInt k])). split.
  - exists k, (filter not_none items ++ rest). now repeat split.
  - rewrite <- app_assoc, nodes2str_app; [|exact Hn|intros F; now apply app_eq_nil in F]. apply prefixb_spec. now eexists.
Qed.
Lemma edge_items e : db_edge e = true -> as_seq e = Ok (elems e).
Proof. intros H. now destruct (db_edge_elems e H) as (-> & _). Qed.
Lemma matches_seq e items : edge_matches_pattern e items = Ok true -> exists m, as_seq e = Ok m /\ equal_match items m.
Proof.
  unfold edge_matches_pattern. destruct (as_seq e) as [m|]; [|discriminate]. cbn [rbind].
  destruct (Nat.eqb_spec (List.length m) (List.length items)) as [L|L]; cbn [negb]; [|discriminate].
  intros [= E]. exists m. split; [reflexivity|]. now apply match_any.
Qed.

(** Whatever value is given as a pattern, or to exists: nothing changes; a value
    that cannot be iterated raises TypeError.  Otherwise, with
    s the texts of the items that are no wildcards: if s is empty (no such items),
    IndexError.  If s does not begin with a parenthesis, and can be written to
    SQLite and has a successor (db_text), there is an answer; every answer is
    exactly the set of the edges in the hypergraph whose elements equal the items
    (as Python values), position by position, and that can be ordered so that
    their texts begin with s; among them all those whose elements are literally the
    items.  If s begins with a parenthesis, an answer consists of pieces of stored
    edges that match the items.  exists says whether the answer is not empty. *)
Theorem C96_patterns :
  forall V ops c v, noalias V -> reached V ops c ->
    (forall x, as_seq v = Err x -> x = TypeError /\ pattern2edges v c = (Err x, c, []) /\ exists_ v c = (Err x, c, []))
    /\ (forall items, as_seq v = Ok items ->
          exists r, pattern2edges v c = (r, c, [])
            /\ exists_ v c = (match r with Ok l => Ok (match l with [] => false | _ => true end) | Err x => Err x end, c, [])
            /\ (wanted items = [] -> r = Err IndexError)
            /\ (wanted items <> [] -> db_text (wanted items) = true -> ~ opens (wanted items) -> exists l, r = Ok l)
            /\ (forall l, r = Ok l -> ~ opens (wanted items) -> NoDup l
                  /\ (forall e, In e l <-> present (history ops) e /\ equal_match items (elems e) /\ begins (wanted items) e)
                  /\ (forall e, present (history ops) e -> matches items (elems e) -> In e l))
            /\ (forall l, r = Ok l -> opens (wanted items) -> forall e, In e l ->
                  piece (history ops) e /\ exists m, as_seq e = Ok m /\ equal_match items m)).
Proof.
  intros V ops c v HV Hr. pose proof (reached_ready V ops c HV Hr) as R. pose proof (ready_live _ _ _ R) as L. pose proof (rd_inv _ _ _ R) as I.
  split.
  - intros x E. assert (P : pattern2edges v c = (Err x, c, [])) by (unfold pattern2edges; now rewrite E).
    split; [destruct v; cbn in E; congruence|]. split; [exact P|exact (exists_of v c _ P)].
  - intros items E. eexists. split; [exact (pattern_any_run v items c L E)|]. split; [exact (exists_of v c _ (pattern_any_run v items c L E))|].
    change (wanted items) with (nodes2str (filter not_none items)). set (s := nodes2str (filter not_none items)).
    refine (conj _ (conj _ (conj _ _))).
    + intros ->. reflexivity.
    + intros Hn Ht Ho. rewrite (in_index_text c s Hn Ht). destruct (looked_plain V _ c s HV I Hn Ho) as (es & Ec & _ & Ies). rewrite Ec. cbn [rbind].
      destruct (mapr_total (fun e => edge_matches_pattern e items) es) as (fl & Ef).
      { intros x Hx. apply Ies in Hx as [Hx _]. destruct (matches_edge x items) as (b & Eb & _); [|now exists b].
        apply (edge_in_db V), (i_edges _ _ _ I). now apply stored_present. }
      rewrite Ef. cbn [rbind]. eexists. reflexivity.
    + intros l El Ho. destruct (in_index c s) as [es|] eqn:Ei; [|discriminate]. cbn [rbind] in El.
      destruct (mapr _ es) as [fl|] eqn:Ef; [|discriminate]. injection El as <-.
      destruct (in_index_looked c s es Ei) as [Hn El].
      destruct (looked_plain V _ c s HV I Hn Ho) as (es' & Ec & _ & Ies). rewrite El in Ec. injection Ec as <-.
      assert (Hes : forall e, In e es -> edge_in V e) by (intros e He; apply Ies in He as [He _]; apply (i_edges _ _ _ I); now apply stored_present).
      pose proof (flags_any items es fl Ef) as If.
      destruct (py_set_edges V (List.map fst (filter snd (combine es fl))) HV) as [N Io].
      { intros e He. apply If in He as [He _]. now apply Hes. }
      assert (S : forall e, In e (py_set (List.map fst (filter snd (combine es fl)))) <-> present (history ops) e /\ equal_match items (elems e) /\ begins s e).
      { intros e. rewrite Io, If. split.
        - intros [He M]. pose proof (Hes e He) as Hv. apply Ies in He as [Hp B]. split; [exact Hp|]. split; [|exact B].
          destruct (matches_edge e items (edge_in_db _ _ Hv)) as (b & Eb & Hb). apply Hb. congruence.
        - intros (Hp & M & B). assert (He : In e es) by (now apply Ies). split; [exact He|].
          destruct (matches_edge e items (edge_in_db _ _ (Hes e He))) as (b & Eb & Hb). rewrite Eb. f_equal. now apply Hb. }
      split; [exact N|]. split; [exact S|]. intros e Hp M. apply S. split; [exact Hp|].
      assert (He : edge_in V e) by (apply (i_edges _ _ _ I); now apply stored_present).
      assert (Bn : filter not_none items <> []) by (intros F; apply Hn; unfold s; now rewrite F).
      split; [|now apply begins_literal].
      destruct (db_edge_elems e (edge_in_db _ _ He)) as (_ & Ae & _). clear - M Ae. induction M as [|p x items l Hp M IH]; [constructor|].
      inversion Ae; subst. constructor; [|now apply IH]. destruct Hp as [->| ->]; [now left|right; now apply py_eq_refl_db].
    + intros l El Ho e He. destruct (in_index c s) as [es|] eqn:Ei; [|discriminate]. cbn [rbind] in El.
      destruct (mapr _ es) as [fl|] eqn:Ef; [|discriminate]. injection El as <-.
      destruct (in_index_looked c s es Ei) as [Hn El]. apply py_set_in in He. apply (flags_any items es fl Ef) in He as [He M].
      split; [exact (looked_open V _ c s es I Ho El e He)|]. now apply matches_seq.
Qed.
Print Assumptions C96_patterns.

(** star of any value at all: with s its text followed by a space.  If that text
    does not begin with a parenthesis, an answer is exactly the set of the edges in
    the hypergraph that can be ordered so that their texts begin with s: a text of
    several words asks for the edges that have them all.  Else it consists of pieces
    of stored edges. *)
Theorem C96_star :
  forall V ops c v, noalias V -> reached V ops c -> let s := edge2str v ++ [c_space] in
    exists r, star v c = (r, c, [])
      /\ (db_text s = true -> ~ opens s -> exists l, r = Ok l)
      /\ (forall l, r = Ok l -> ~ opens s -> NoDup l /\ forall e, In e l <-> present (history ops) e /\ begins s e)
      /\ (forall l, r = Ok l -> opens s -> forall e, In e l -> piece (history ops) e).
Proof.
  intros V ops c v HV Hr s. pose proof (reached_ready V ops c HV Hr) as R. pose proof (ready_live _ _ _ R) as L. pose proof (rd_inv _ _ _ R) as I.
  assert (Hn : s <> []) by (unfold s; intros E; now apply app_eq_nil in E).
  eexists. split; [exact (star_any v c L)|]. fold s. refine (conj _ (conj _ _)).
  - intros Ht Ho. rewrite (in_index_text c s Hn Ht). destruct (looked_plain V _ c s HV I Hn Ho) as (es & -> & _). eexists. reflexivity.
  - intros l El Ho. destruct (in_index c s) as [es|] eqn:Ei; [|discriminate]. injection El as <-.
    destruct (in_index_looked c s es Ei) as [_ El]. destruct (looked_plain V _ c s HV I Hn Ho) as (es' & Ec & _ & Ies). rewrite El in Ec. injection Ec as <-.
    destruct (py_set_edges V es HV) as [N Io]; [intros e He; apply Ies in He as [He _]; apply (i_edges _ _ _ I); now apply stored_present|].
    split; [exact N|]. intros e. now rewrite Io, Ies.
  - intros l El Ho e He. destruct (in_index c s) as [es|] eqn:Ei; [|discriminate]. injection El as <-.
    destruct (in_index_looked c s es Ei) as [_ El]. apply py_set_in in He. exact (looked_open V _ c s es I Ho El e He).
Qed.
Print Assumptions C96_star.

(** sources of any value: an answer is exactly the set of the sources x of the
    beliefs (src/1, e, x) in the hypergraph whose e equals the value and that can be
    ordered so that their texts begin with those of src/1 and the value; without a
    value (None) the sources of all beliefs. *)
Theorem C96_sources :
  forall V ops c v, noalias V -> reached V ops c -> let s := wanted [VStr (lit "src/1"); v; VNone] in
    exists r, sources v c = (r, c, [])
      /\ (db_text s = true -> exists l, r = Ok l)
      /\ (forall l, r = Ok l -> NoDup l /\ forall x, In x l <-> exists e, let b := VTup [VStr (lit "src/1"); e; x] in
            present (history ops) b /\ (v = VNone \/ py_eq v e = true) /\ begins s b).
Proof.
  intros V ops c v HV Hr s. set (items := [VStr (lit "src/1"); v; VNone]) in *.
  destruct (proj2 (C96_patterns V ops c (VTup items) HV Hr) items eq_refl) as (r & E & _ & _ & Tot & Exact & _). fold s in Tot, Exact.
  assert (Hs : exists t, s = lit "src/1" ++ t).
  { unfold s, wanted, items. cbn [filter bound]. destruct (bound v); cbn [List.map join filter bound]; [eexists; reflexivity|exists []; reflexivity]. }
  assert (Hn : s <> []) by (destruct Hs as (t & ->); discriminate).
  assert (Ho : ~ opens s) by (destruct Hs as (t & ->); intros (u & X); discriminate).
  pose proof (reached_ready V ops c HV Hr) as R. pose proof (rd_inv _ _ _ R) as I.
  assert (Shape : forall e, present (history ops) e -> equal_match items (elems e) ->
            exists y x, e = VTup [VStr (lit "src/1"); y; x] /\ (v = VNone \/ py_eq v y = true) /\ V x /\ db_vertex x = true).
  { intros e Hp M. assert (He : edge_in V e) by (apply (i_edges _ _ _ I); now apply stored_present).
    destruct (db_edge_elems e (edge_in_db _ _ He)) as (Ee & Ae & _). pose proof (proj2 He) as Ve.
    unfold items in M. inversion M as [|? a ? m1 H1 M1 E0 E1]; subst. inversion M1 as [|? y ? m2 H2 M2]; subst.
    inversion M2 as [|? x ? m3 _ M3]; subst. inversion M3; subst. rewrite <- E1 in *.
    destruct H1 as [H1|H1]; [discriminate|]. destruct a as [|a| | |]; try discriminate.
    assert (VStr a = VStr (lit "src/1")) as <-.
    { f_equal. symmetry. change (str_eqb (lit "src/1") a = true) in H1. now apply str_eqb_eq. }
    exists y, x. split; [exact Ee|]. split; [exact H2|]. split; [apply Ve; right; right; now left|].
    unfold all_db in Ae. rewrite Forall_forall in Ae. apply Ae. right; right; now left. }
  assert (Src : forall l, r = Ok l -> exists xs, mapr (fun e => let? l := as_seq e in nth_res l 2) l = Ok xs
      /\ forall x, In x xs <-> exists y, In (VTup [VStr (lit "src/1"); y; x]) l).
  { intros l El. destruct (Exact l El Ho) as (_ & S & _). assert (Hl : forall e, In e l -> exists y x, e = VTup [VStr (lit "src/1"); y; x]).
    { intros e He. apply S in He as (Hp & M & _). destruct (Shape e Hp M) as (y & x & Ee & _). now exists y, x. }
    clear - Hl. induction l as [|e l IH].
    - exists []. split; [reflexivity|]. intros x. split; [intros []|intros (y & [])].
    - destruct (Hl e (or_introl eq_refl)) as (y & x & ->). destruct IH as (xs & Exs & Ixs); [intros z Hz; apply Hl; now right|].
      exists (x :: xs). cbn [mapr as_seq rbind nth_res nth_error]. split; [cbn [mapr] in Exs |- *; rewrite Exs; reflexivity|].
      intros z. cbn [In]. rewrite Ixs. split.
      + intros [<-|(u & Hu)]; [exists y; now left|exists u; now right].
      + intros (u & [Hu|Hu]); [left; congruence|right; now exists u]. }
  exists (match r with Ok l => (let? ss := mapr (fun e => let? l := as_seq e in nth_res l 2) l in Ok (py_set ss)) | Err x => Err x end).
  split.
  { unfold sources. change const_source with (VStr (lit "src/1")). fold items. unfold bind. rewrite E. destruct r as [l|x]; [|reflexivity].
    destruct (mapr _ l) as [ss|x]; reflexivity. }
  split.
  - intros Ht. destruct (Tot Hn Ht Ho) as (l & ->). destruct (Src l eq_refl) as (xs & -> & _). eexists. reflexivity.
  - intros l0 El0. destruct r as [l|x]; [|discriminate]. destruct (Src l eq_refl) as (xs & Exs & Ixs). rewrite Exs in El0. injection El0 as <-.
    destruct (Exact l eq_refl Ho) as (_ & S & _).
    assert (Hx : forall x, In x xs -> V x /\ db_vertex x = true).
    { intros x Hx. apply Ixs in Hx as (y & Hy). apply S in Hy as (Hp & M & _). destruct (Shape _ Hp M) as (y' & x' & Ee & _ & Vx & Dx). injection Ee as <- <-. now split. }
    destruct (py_set_spec xs) as [N Io].
    + intros y z Hy Hz. apply HV; [now apply Hx|now apply Hx].
    + intros y Hy. apply py_eq_refl_db. now apply Hx.
    + split; [exact N|]. intros x. rewrite Io, Ixs. split.
      * intros (y & Hy). apply S in Hy as (Hp & M & B). destruct (Shape _ Hp M) as (y' & x' & Ee & Hv & _). injection Ee as <- <-. exists y. now repeat split.
      * intros (y & Hp & Hv & B). exists y. apply S. split; [exact Hp|]. split; [|exact B].
        constructor; [right; reflexivity|]. constructor; [exact Hv|]. constructor; [now left|constructor].
Qed.
Print Assumptions C96_sources.

(** degree and timestamp of any value are those of the vertex that has its text; of
    a text (that SQLite takes) that no vertex has, 0 and -1. *)
Theorem C96_numbers :
  forall V ops c v, noalias V -> reached V ops c ->
    (forall w, db_vertex w = true -> edge2str v = edge2str w -> degree v c = degree w c /\ timestamp v c = timestamp w c)
    /\ ((forall w, db_vertex w = true -> edge2str v <> edge2str w) ->
          if bindable (edge2str v) then degree v c = (Ok 0%Z, c, []) /\ timestamp v c = (Ok (-1)%Z, c, [])
          else degree v c = (Err UnicodeEncodeError, c, []) /\ timestamp v c = (Err UnicodeEncodeError, c, [])).
Proof.
  intros V ops c v HV Hr. pose proof (reached_ready V ops c HV Hr) as R. pose proof (rd_inv _ _ _ R) as I. pose proof (rd_cur _ _ _ R) as Hc. split.
  - intros w _ E. split; [now apply degree_text|now apply timestamp_text].
  - intros H.
    assert (N : vlook (edge2str v) (c_work c) = None).
    { apply vlook_none. destruct (existsb _ _) eqn:X; [|reflexivity]. exfalso. apply existsb_exists in X as (r & Hin & K).
      destruct (wf_ids _ _ (i_wf _ _ _ I) (fst r)) as (w & Dw & Ew); [apply in_map; exact Hin|].
      apply (H w Dw). rewrite <- Ew. unfold vkey in K. apply str_eqb_eq in K. congruence. }
    unfold degree, timestamp, bind, open_cursor, get_cur, bind, query, ret, close_cursor, bind, get_cur, close_handle, ret. rewrite Hc. unfold usable.
    cbn [negb forallb]. destruct (bindable (edge2str v)); cbn [andb negb]; [|split; reflexivity].
    rewrite N. split; cbv beta iota; rewrite ?Hc; reflexivity.
Qed.
Print Assumptions C96_numbers.

Lemma fold_after_app a b : history (a ++ b) = fold_left after b (history a).
Proof. unfold history. now rewrite fold_left_app. Qed.
Lemma reached_removes V ops c l : noalias V -> reached V ops c -> Forall (edge_in V) l ->
  exists c' tr, mfor l remove c = (Ok tt, c', tr) /\ reached V (ops ++ List.map ORemove l) c'.
Proof.
  intros HV (ord & auto & tr0 & Ho & Hi & E) F.
  assert (Hi2 : Forall (op_in V) (ops ++ List.map ORemove l)).
  { apply Forall_app. split; [exact Hi|]. apply Forall_map. exact F. }
  destruct (reachable_ready ord V auto _ HV Ho Hi2) as (c' & tr' & E' & _ & _).
  assert (M : forall c0, mfor l remove c0 = mfor (List.map ORemove l) (run_op ord) c0).
  { clear. induction l as [|e l IH]; intros c0; [reflexivity|]. cbn [List.map mfor run_op]. apply bind_ext. intros a c1. apply IH. }
  pose proof E' as E2. unfold run_ops in E', E. rewrite mfor_app in E'. unfold bind in E'. rewrite E in E'. rewrite <- M in E'.
  destruct (mfor l remove c) as [[r c1] t1] eqn:El. injection E' as -> -> _. exists c', t1.
  split; [reflexivity|]. exists ord, auto, tr'. split; [exact Ho|]. split; [exact Hi2|exact E2].
Qed.
Lemma stored_removes l : forall ops e, In e (stored (history (ops ++ List.map ORemove l))) <-> In e (stored (history ops)) /\ ~ In e l.
Proof.
  induction l as [|x l IH]; intros ops e.
  - cbn [List.map]. rewrite app_nil_r. cbn. tauto.
  - cbn [List.map]. replace (ops ++ ORemove x :: List.map ORemove l) with ((ops ++ [ORemove x]) ++ List.map ORemove l) by (now rewrite <- app_assoc).
    rewrite IH, fold_after_app. cbn [fold_left after]. rewrite stored_rem. cbn [In]. intuition congruence.
Qed.

(** remove_by_pattern of any value whose text does not begin with a parenthesis:
    when the query raises, the same is raised and nothing happens; else exactly the
    edges found are removed, one by one, in whatever order. *)
Theorem C96_remove_by_pattern :
  forall V ops c v items ord, noalias V -> reached V ops c -> (forall l, Permutation (ord l) l) ->
    as_seq v = Ok items -> ~ opens (wanted items) ->
    (forall x, pattern2edges v c = (Err x, c, []) -> remove_by_pattern ord v c = (Err x, c, []))
    /\ (forall l, pattern2edges v c = (Ok l, c, []) -> exists c' tr, remove_by_pattern ord v c = (Ok tt, c', tr)
          /\ reached V (ops ++ List.map ORemove (ord l)) c'
          /\ forall e, edge_in V e -> exists b, exists_ e c' = (Ok b, c', []) /\ (b = true <-> present (history ops) e /\ ~ In e l)).
Proof.
  intros V ops c v items ord HV Hr Ho Es Hs. split.
  - intros x E. unfold remove_by_pattern, bind. now rewrite E.
  - intros l E. destruct (proj2 (C96_patterns V ops c v HV Hr) items Es) as (r & E2 & _ & _ & _ & S & _). rewrite E in E2. injection E2 as <-.
    destruct (S l eq_refl Hs) as (_ & S1 & _). pose proof (rd_inv _ _ _ (reached_ready V ops c HV Hr)) as I.
    assert (F : Forall (edge_in V) (ord l)).
    { apply Forall_forall. intros e He. apply (Permutation_in _ (Ho l)) in He. apply S1 in He as [He _]. apply (i_edges _ _ _ I). now apply stored_present. }
    destruct (reached_removes V ops c (ord l) HV Hr F) as (c' & tr & Er & R'). exists c', tr. split; [|split; [exact R'|]].
    + unfold remove_by_pattern. rewrite (bind_gives _ _ c l E). exact Er.
    + intros e He. destruct (ready_exists V c' _ e HV (reached_ready V _ c' HV R') He) as (b & Eb & Hb). exists b. split; [exact Eb|].
      rewrite Hb, <- !stored_present, stored_removes. split; intros [H1 H2]; (split; [exact H1|]); intros X; apply H2.
      * eapply Permutation_in; [apply Permutation_sym, Ho|exact X].
      * eapply Permutation_in; [apply Ho|exact X].
Qed.
Print Assumptions C96_remove_by_pattern.

(** *** concrete cases (the history of C_graph): a text of two words, no value, no
    items, the characters of a string, a nested edge, a text that is no vertex *)
Example C96_nonvacuous :
  star (VStr (lit "mary likes")) ex_c = (Ok [ex_e4], ex_c, [])
  /\ star ex_e1 ex_c = (Err ValueError, ex_c, [])
  /\ pattern2edges (VStr []) ex_c = (Err IndexError, ex_c, [])
  /\ pattern2edges (VInt 7) ex_c = (Err TypeError, ex_c, [])
  /\ exists_ (VStr (lit "abc")) ex_c = (Ok false, ex_c, [])
  /\ pattern2edges (VTup [VStr (lit "born"); VNone; VFlt (FFin false 197 1)]) ex_c = (Ok [], ex_c, [])
  /\ pattern2edges (VTup [VStr (lit "born"); VNone; VInt 1970]) ex_c = (Ok [ex_e3], ex_c, [])
  /\ sources VNone ex_c = (Ok [ex_s], ex_c, [])
  /\ degree (VStr (lit "a b")) ex_c = (Ok 0%Z, ex_c, []).
Proof. repeat apply conj; vm_compute; reflexivity. Qed.
Example C96_nonvacuous_texts :
  reached plain_values ex_ops ex_c
  /\ (let s := edge2str (VStr (lit "mary likes")) ++ [c_space] in db_text s = true /\ ~ opens s /\ begins s ex_e4)
  /\ py_eq (VFlt (FFin false 197 1)) (VInt 1970) = true.
Proof.
  split; [exact ex_reached|]. split; [|vm_compute; reflexivity]. split; [vm_compute; reflexivity|]. split.
  - intros (t & E). discriminate.
  - exists 2%Z, [VStr (lit "mary"); VStr (lit "likes"); VStr (lit "mary")], (lit "mary 2").
    split; [cbn; lia|]. split; vm_compute; reflexivity.
Qed.
Example C96_remove_nonvacuous :
  remove_by_pattern (fun l => l) (VStr []) ex_c = (Err IndexError, ex_c, [])
  /\ exists c' tr, remove_by_pattern (fun l => l) (VTup [VNone; VNone; VStr (lit "mary")]) ex_c = (Ok tt, c', tr)
       /\ exists_ ex_e4 c' = (Ok false, c', []) /\ exists_ ex_e2 c' = (Ok true, c', []).
Proof.
  split; [vm_compute; reflexivity|].
  ran (remove_by_pattern (fun l => l) (VTup [VNone; VNone; VStr (lit "mary")])) ex_c. repeat apply conj; vm_compute; reflexivity.
Qed.
