(** * C_collate.v -- property theorem C88 (MySQL compares texts by a collation) *)

From Verif Require Import Py M_symbol M_edge M_sql M_mysql M_hypergraph P_py Spec P_edge P_perm P_range P_query
  S_history M_driver P_ops P_hist P_graph P_rows P_answers P_crash S_steps M_steps P_steps P_mysql C_mysql M_collate S_collate P_collate.
From Coq Require Import Permutation Factorial String.
Open Scope list_scope.

(** Reading guide.  [run_ops_ci wt ord ops c]: the calls [ops] on MySQL, where texts
    compare by the weights [wt] of their characters; [run_ci wt p c]: one query.
    [general_ci] (M_collate): the weights of utf8_general_ci.  [tells_apart], 
    [written_in], [op_written] (S_collate): the collation keeps the characters of a
    set apart, a vertex is written with them.  [my_fine] (S_steps, C69): every add
    that puts an edge in is of an edge with texts of less than 250 characters, and
    does not repeat a vertex record. *)

(** C88.  If all vertices are written with characters that the collation tells
    apart, the calls return normally, keep what they wrote, and all queries then
    answer what the history of the calls says. *)
Theorem C88_texts_that_stay_apart :
  forall wt K V ord ops, tells_apart wt K -> noalias V -> (forall x, V x -> written_in K x) -> (forall l, Permutation (ord l) l) ->
    Forall (op_in V) ops -> Forall (op_written K) ops -> my_fine (history ops) ->
    exists c tr, run_ops_ci wt ord ops (start true) = (Ok tt, c, tr) /\ c_comm c = c_work c
      /\ (forall e, edge_in V e -> exists b, run_ci wt (p_exists e) c = (Ok b, c, []) /\ (b = true <-> present (history ops) e))
      /\ (forall p, pattern_in V p -> exists l, run_ci wt (p_pattern2edges (VTup p)) c = (Ok l, c, []) /\ NoDup l
            /\ forall e, In e l <-> present (history ops) e /\ matches p (elems e))
      /\ (forall a, db_atom a = true -> written_in K a -> exists l, run_ci wt (p_star a) c = (Ok l, c, []) /\ NoDup l
            /\ forall e, In e l <-> present (history ops) e /\ In a (elems e))
      /\ (forall e, db_vertex e = true -> V e -> V (VStr (lit "src/1")) -> exists l, run_ci wt (p_sources e) c = (Ok l, c, []) /\ NoDup l
            /\ forall s, In s l <-> present (history ops) (link_edge s e))
      /\ (forall c0 v, reached V ops c0 -> db_vertex v = true -> written_in K v -> exists d t,
            run_ci wt (p_degree v) c = (Ok d, c, []) /\ degree v c0 = (Ok d, c0, [])
            /\ run_ci wt (p_timestamp v) c = (Ok t, c, []) /\ timestamp v c0 = (Ok t, c0, []))
      /\ (forall r, root_in r -> root_written K r -> exists l, run_ci wt (p_symbols_with_root (VStr r)) c = (Ok l, c, []) /\ NoDup l
            /\ forall s, In s l <-> (exists e, present (history ops) e /\ In (VStr s) (elems e)) /\ exists t, s = r ++ c_slash :: t)
      /\ (forall B (f : value * Z -> B), run_ci wt (p_f_all f) c = f_all f c /\ exists l, f_all f c = (Ok (List.map f l), c, []) /\ NoDup (List.map fst l)
            /\ forall c0 v d, reached V ops c0 -> (In (v, d) l <-> exists l0, f_all (fun x => x) c0 = (Ok l0, c0, []) /\ In (v, d) l0)).
Proof.
  intros wt K V ord ops T HV VK Ho Hi Hw Hf.
  assert (R0 : ready V (start true) []) by (constructor; [reflexivity|reflexivity|apply Inv_empty]).
  destruct (ops_ci wt K T V HV VK ord ops [] (start true) Ho Hi Hw (Forall_nil _) R0 Hf (conj eq_refl (over_empty K))) as (c & tr & E & R & G).
  change (fold_left after ops []) with (history ops) in R. pose proof (rd_inv _ _ _ R) as I. pose proof (ready_live _ _ _ R) as L.
  exists c, tr. split; [exact E|]. split; [apply R|]. split; [|split; [|split; [|split; [|split; [|split]]]]].
  - intros e He. exists (memb e (stored (history ops))). split; [|now rewrite memb_in, stored_present].
    destruct (sim_exists wt K T V HV VK _ e c I L G He) as [X _]. rewrite X, (blind_exists e c), (ir_exists e c).
    apply (Inv_exists V _ _ c e HV I eq_refl L He).
  - intros p Hp. destruct (pattern_ci wt K T V HV VK _ p c I L G Hp) as (l & El & N & Il). exists l. split; [exact El|]. split; [exact N|].
    intros e. now rewrite Il, stored_present.
  - intros a Ha Wa. rewrite (star_ci wt K T V HV VK _ a c I L G Ha Wa), (blind_star a c), (ir_star a c). apply (ready_star V c _ a HV R Ha).
  - intros e He Ve Vs. destruct (sources_ci wt K T V HV VK _ e c I L G He Ve Vs) as (l & El & N & Il). exists l. split; [exact El|]. split; [exact N|].
    intros s. rewrite Il. apply stored_present.
  - intros c0 v Hr Hv Wv. pose proof (reached_ready V ops c0 HV Hr) as Rc.
    destruct (sim_degree wt K T v c Hv Wv G) as [D _]. destruct (sim_timestamp wt K T v c Hv Wv G) as [S _].
    rewrite D, (blind_degree v c), (ir_degree v c), S, (blind_timestamp v c), (ir_timestamp v c).
    rewrite (ready_degree V c _ v R Hv), (ready_degree V c0 _ v Rc Hv), (ready_timestamp V c _ v R Hv), (ready_timestamp V c0 _ v Rc Hv).
    eexists. eexists. exact (conj eq_refl (conj eq_refl (conj eq_refl eq_refl))).
  - intros r Hr Wr. destruct (root_ci wt K T V _ r c I L G Hr Wr) as (Er & l & El & N & Il). exists l. rewrite Er. split; [exact El|]. split; [exact N|].
    intros s. rewrite Il. apply and_iff_compat_r. split; intros (e & He & Hs); exists e; (split; [now apply stored_present|exact Hs]).
  - intros B f. rewrite (all_ci wt V f _ c I L), (blind_f_all f c), (ir_f_all f c). split; [reflexivity|].
    destruct (Inv_f_all f V _ c I L) as (l & El & N & Il). exists l. split; [exact El|]. split; [exact N|].
    intros c0 v d Hr. pose proof (reached_ready V ops c0 HV Hr) as Rc. destruct (Inv_f_all (fun x : value * Z => x) V _ c0 (rd_inv _ _ _ Rc) (ready_live _ _ _ Rc)) as (l0 & E0 & _ & I0).
    rewrite List.map_id in E0. rewrite Il, <- I0. unfold gives in E0. rewrite E0. split; [intros H; exists l0; now split|]. intros (l1 & E1 & H). now injection E1 as <-.
Qed.
Print Assumptions C88_texts_that_stay_apart.

(** The printable ASCII characters except the capital letters and the backquote. *)
Definition uncased (c : char) : bool := (32 <=? c)%N && (c <=? 126)%N && negb ((65 <=? c)%N && (c <=? 90)%N) && negb (c =? 96)%N.
Lemma uncased_all (P : char -> bool) : forallb (fun k => implb (uncased k) (P k)) (List.map N.of_nat (seq 0 127)) = true -> forall c, uncased c = true -> P c = true.
Proof.
  intros H c Hc. rewrite forallb_forall in H. assert (L : (c < 127)%N).
  { unfold uncased in Hc. rewrite !andb_true_iff in Hc. destruct Hc as [[[_ Hc] _] _]. apply N.leb_le in Hc. lia. }
  specialize (H c). rewrite Hc in H. apply H. apply in_map_iff. exists (N.to_nat c). split; [apply N2Nat.id|]. apply in_seq. lia.
Qed.
Theorem C88_uncased_texts_stay_apart : tells_apart general_ci uncased.
Proof.
  constructor.
  - intros c d Hc Hd E. apply N.eqb_eq. apply N.eqb_eq in E.
    assert (X : forallb (fun c => implb (uncased c) (forallb (fun d => implb (uncased d) (implb (general_ci c =? general_ci d)%N (c =? d)%N)) (List.map N.of_nat (seq 0 127)))) (List.map N.of_nat (seq 0 127)) = true)
      by (vm_compute; reflexivity).
    pose proof (uncased_all _ (uncased_all _ X c Hc) d Hd) as Y. cbn beta in Y. rewrite E in Y. exact Y.
  - intros c Hc. apply N.ltb_lt. revert c Hc. apply uncased_all. vm_compute. reflexivity.
  - intros c Hc Hn. apply N.ltb_lt. assert (Y : implb (negb (c =? c_space)%N) (general_ci c_space <? general_ci c)%N = true).
    { revert c Hc Hn. intros c Hc _. revert c Hc. apply uncased_all. vm_compute. reflexivity. }
    apply N.eqb_neq in Hn. rewrite Hn in Y. exact Y.
  - reflexivity.
  - intros c Hc Hl. apply N.leb_le. apply N.ltb_lt in Hl. assert (Y : implb (general_ci c <? general_ci c_lpar)%N (general_ci (c + 1) <=? general_ci c_lpar)%N = true).
    { clear Hl. revert c Hc. apply uncased_all. vm_compute. reflexivity. }
    rewrite Hl in Y. exact Y.
  - intros _ c Hc Hl. apply N.leb_le. apply N.ltb_lt in Hl. assert (Y : implb (general_ci c_slash <? general_ci c)%N (general_ci (c_slash + 1) <=? general_ci c)%N = true).
    { clear Hl. revert c Hc. apply uncased_all. vm_compute. reflexivity. }
    rewrite Hl in Y. exact Y.
  - split; [reflexivity|]. split; [reflexivity|]. split; [reflexivity|]. intros c Hd. unfold is_digit, c_0, c_9 in Hd. rewrite andb_true_iff, !N.leb_le in Hd.
    unfold uncased. rewrite !andb_true_iff, !negb_true_iff, andb_false_iff, !N.leb_le, N.leb_gt, N.eqb_neq. lia.
Qed.
Print Assumptions C88_uncased_texts_stay_apart.

(** The weights are those of a comparison without case and accents: among ASCII and
    Latin-1, two characters weigh the same exactly if they are one letter.  [letters]:
    the letters that have more than one form. *)
Definition letters : list str :=
  List.map (fun k => [k; k + 32]%N) [66; 68; 70; 71; 72; 74; 75; 76; 77; 80; 81; 82; 84; 86; 87; 88; 90; 198; 208; 216; 222]%N
  ++ [ [65; 97; 192; 193; 194; 195; 196; 197; 224; 225; 226; 227; 228; 229]; [67; 99; 199; 231];
       [69; 101; 200; 201; 202; 203; 232; 233; 234; 235]; [73; 105; 204; 205; 206; 207; 236; 237; 238; 239];
       [78; 110; 209; 241]; [79; 111; 210; 211; 212; 213; 214; 242; 243; 244; 245; 246]; [83; 115; 223];
       [85; 117; 217; 218; 219; 220; 249; 250; 251; 252]; [89; 121; 221; 253; 255] ]%N.
Theorem C88_case_and_accents_weigh_nothing :
  forall c d, (c < 256)%N -> (d < 256)%N ->
    (general_ci c = general_ci d <-> c = d \/ exists l, In l letters /\ In c l /\ In d l).
Proof.
  assert (X : forallb (fun c => forallb (fun d => Bool.eqb (general_ci c =? general_ci d)%N
      ((c =? d)%N || existsb (fun l => existsb (N.eqb c) l && existsb (N.eqb d) l) letters)) (List.map N.of_nat (seq 0 256))) (List.map N.of_nat (seq 0 256)) = true)
    by (vm_compute; reflexivity).
  assert (R : forall c, (c < 256)%N -> In c (List.map N.of_nat (seq 0 256))).
  { intros c H. apply in_map_iff. exists (N.to_nat c). split; [apply N2Nat.id|]. apply in_seq. lia. }
  intros c d Hc Hd. rewrite forallb_forall in X. specialize (X c (R c Hc)). rewrite forallb_forall in X. specialize (X d (R d Hd)).
  apply Bool.eqb_prop in X. rewrite <- N.eqb_eq, X, orb_true_iff, N.eqb_eq. apply or_iff_compat_l. rewrite existsb_exists. split.
  - intros (l & Hl & E). rewrite andb_true_iff in E. destruct E as [E1 E2]. apply existsb_exists in E1 as (x & Hx & Ex), E2 as (y & Hy & Ey). apply N.eqb_eq in Ex, Ey. subst. now exists l.
  - intros (l & Hl & H1 & H2). exists l. split; [exact Hl|]. apply andb_true_iff. split; apply existsb_exists; [exists c|exists d]; (split; [assumption|apply N.eqb_refl]).
Qed.
Print Assumptions C88_case_and_accents_weigh_nothing.

(** *** What goes wrong otherwise *)

Lemma pad_weights wt s t : List.map wt s = List.map wt t -> pad_cmp wt s = pad_cmp wt t.
Proof.
  revert t. induction s as [|c s IH]; intros [|d t] E; try discriminate; [reflexivity|]. cbn [List.map] in E. injection E as E1 E2. cbn [pad_cmp]. now rewrite E1, (IH _ E2).
Qed.
Lemma cmp_weights wt s t r : List.map wt s = List.map wt t -> ci_cmp wt s r = ci_cmp wt t r /\ ci_cmp wt r s = ci_cmp wt r t.
Proof.
  revert t r. induction s as [|c s IH]; intros [|d t] r E; try discriminate; [split; reflexivity|]. pose proof (pad_weights wt _ _ E) as P. cbn [List.map] in E. injection E as E1 E2.
  destruct r as [|x r].
  - split; [cbn [ci_cmp]; now rewrite P|exact P].
  - destruct (IH t r E2) as [I1 I2]. cbn [ci_cmp]. now rewrite E1, I1, I2.
Qed.
(** Vertices whose texts have the same weights are not told apart: in every state,
    degree, timestamp and star answer the same for both. *)
Theorem C88_equal_weights_are_confused :
  forall wt v v', db_vertex v = true -> db_vertex v' = true -> List.map wt (edge2str v) = List.map wt (edge2str v') ->
    forall c, run_ci wt (p_degree v) c = run_ci wt (p_degree v') c /\ run_ci wt (p_timestamp v) c = run_ci wt (p_timestamp v') c
      /\ run_ci wt (p_star v) c = run_ci wt (p_star v') c.
Proof.
  intros wt v v' Hv Hv' E c.
  assert (Q : forall h c0, run_ci wt (pact (AQuery h (SelRow (edge2str v)))) c0 = run_ci wt (pact (AQuery h (SelRow (edge2str v')))) c0).
  { intros h c0. cbn [pact run_ci run_act_ci]. unfold bind, query. cbn [sel_texts sel_ci forallb]. rewrite (vertex_bindable v Hv), (vertex_bindable v' Hv').
    destruct (usable h c0); [|reflexivity]. cbn [negb andb].
    assert (Ef : find (fun r => ci_eq wt (edge2str v) (fst r)) (vertices (c_work c0)) = find (fun r => ci_eq wt (edge2str v') (fst r)) (vertices (c_work c0))).
    { induction (vertices (c_work c0)) as [|r rs IH]; [reflexivity|]. cbn [find]. rewrite IH. unfold ci_eq. now rewrite (proj1 (cmp_weights wt _ _ (fst r) E)). }
    now rewrite Ef. }
  assert (X : forall B (k : option (Z * Z) -> handle -> prog B),
            run_ci wt (pbind (p_open_cursor true) (fun h => pbind (pact (AQuery h (SelRow (edge2str v)))) (fun r => k r h))) c
            = run_ci wt (pbind (p_open_cursor true) (fun h => pbind (pact (AQuery h (SelRow (edge2str v')))) (fun r => k r h))) c).
  { intros B k. rewrite (on_gives wt _ _ c _ (open_ci wt c)), (on_gives wt _ _ c _ (open_ci wt c)). rewrite !run_ci_bind. unfold bind. now rewrite Q. }
  split; [|split].
  - apply (X Z (fun row cur => match row with Some (d, _) => pbind (p_close_handle cur) (fun _ => pret d) | None => pbind (p_close_cursor cur true false) (fun _ => pret 0%Z) end)).
  - apply (X Z (fun row cur => match row with Some (_, t) => pbind (p_close_handle cur) (fun _ => pret t) | None => pbind (p_close_cursor cur true false) (fun _ => pret (-1)%Z) end)).
  - unfold p_star, p_str2perms. cbv zeta.
    assert (Ep : forall v, str_plus_1 (edge2str v ++ [c_space]) = Ok (edge2str v ++ [33%N])) by (intros x; now rewrite str_plus_1_app).
    rewrite (on_pure wt _ _ _ c (Ep v)), (on_pure wt _ _ _ c (Ep v')), (on_gives wt _ _ c _ (open_ci wt c)), (on_gives wt _ _ c _ (open_ci wt c)). rewrite !run_ci_bind. unfold bind at 1 2.
    assert (B : forall x, db_vertex x = true -> forallb bindable (sel_texts (SelRange (edge2str x ++ [c_space]) (edge2str x ++ [33%N]))) = true).
    { intros x Hx. cbn [sel_texts forallb]. unfold bindable. rewrite !forallb_app. pose proof (vertex_bindable x Hx) as Bx. unfold bindable in Bx. rewrite Bx. reflexivity. }
    assert (Q2 : run_ci wt (pact (AQuery (hd_of c) (SelRange (edge2str v ++ [c_space]) (edge2str v ++ [33%N])))) c
               = run_ci wt (pact (AQuery (hd_of c) (SelRange (edge2str v' ++ [c_space]) (edge2str v' ++ [33%N])))) c).
    { cbn [pact run_ci run_act_ci]. unfold bind, query. rewrite (B v Hv), (B v' Hv'). destruct (usable (hd_of c) c); [|reflexivity]. cbn [negb sel_ci].
      assert (Ef : filter (ci_range wt (edge2str v ++ [c_space]) (edge2str v ++ [33%N])) (perms (c_work c)) = filter (ci_range wt (edge2str v' ++ [c_space]) (edge2str v' ++ [33%N])) (perms (c_work c))).
      { apply filter_ext. intros r. unfold ci_range. rewrite (proj1 (cmp_weights wt (edge2str v ++ [c_space]) (edge2str v' ++ [c_space]) r ltac:(now rewrite !map_app, E))).
        now rewrite (proj2 (cmp_weights wt (edge2str v ++ [33%N]) (edge2str v' ++ [33%N]) r ltac:(now rewrite !map_app, E))). }
      now rewrite Ef. }
    now rewrite Q2.
Qed.
Print Assumptions C88_equal_weights_are_confused.

(** A search for a text whose last character does not come before its successor
    finds nothing. *)
Lemma range_empty wt p c d r : (wt d <= wt c)%N -> ci_range wt (p ++ [c]) (p ++ [d]) r = false.
Proof.
  intros W. unfold ci_range. revert r. induction p as [|y p IH]; intros r; cbn [app].
  - destruct r as [|x r]; cbn [ci_cmp pad_cmp].
    + destruct (N.compare_spec (wt c_space) (wt c)), (N.compare_spec (wt c_space) (wt d)); try reflexivity; lia.
    + rewrite cmp_nil. change (ci_cmp wt [] r) with (pad_cmp wt r). destruct (N.compare_spec (wt c) (wt x)), (N.compare_spec (wt x) (wt d)); try reflexivity; try lia.
      now destruct (pad_cmp wt r).
  - destruct r as [|x r]; cbn [ci_cmp].
    + specialize (IH []). rewrite cmp_nil in IH. change (ci_cmp wt [] (p ++ [d])) with (pad_cmp wt (p ++ [d])) in IH. cbn [pad_cmp]. destruct (wt c_space ?= wt y)%N; [exact IH|reflexivity|reflexivity].
    + rewrite (N.compare_antisym (wt y) (wt x)). destruct (wt y ?= wt x)%N; [apply IH|reflexivity|reflexivity].
Qed.
(** An edge whose last element ends in such a character is never there, whatever
    was added. *)
Theorem C88_last_character_refuted :
  forall wt e s (ch : char), db_edge e = true -> edge2str (List.last (elems e) VNone) = s ++ [ch] -> (wt (ch + 1) <= wt ch)%N ->
    forall c, c_cur c = CNone -> run_ci wt (p_exists e) c = (Ok false, c, []).
Proof.
  intros wt e s ch He Es W c Hc. destruct (db_edge_elems e He) as (Ee & Ae & Le).
  assert (Hn : elems e <> []) by (intros X; rewrite X in Le; cbn in Le; lia).
  destruct (nodes2str_text (elems e) Hn Ae) as [Tn Tt]. destruct (db_text_plus_1 _ Tn Tt) as (hi & Hh & B1 & B2).
  assert (En : exists q, nodes2str (elems e) = q ++ [ch]).
  { destruct (@exists_last _ (elems e) Hn) as (l & x & El). rewrite El in *. rewrite last_last in Es. destruct l as [|y l].
    - exists s. exact Es.
    - rewrite nodes2str_app by easy. exists (nodes2str (y :: l) ++ c_space :: s). change (nodes2str [x]) with (edge2str x). rewrite Es, <- app_assoc. reflexivity. }
  destruct En as (q & En).
  assert (Eh : hi = q ++ [(ch + 1)%N]).
  { rewrite En, str_plus_1_app in Hh. destruct (ch + 1 <=? max_cp)%N; [|easy]. now injection Hh. }
  assert (Ef : filter (ci_range wt (nodes2str (elems e)) hi) (perms (c_work c)) = []).
  { rewrite En, Eh. induction (perms (c_work c)) as [|r rs IH]; [reflexivity|]. cbn [filter]. rewrite IH. destruct (ci_range wt _ _ r) eqn:X; [|reflexivity]. exact (False_ind _ (Bool.diff_true_false (eq_trans (eq_sym X) (range_empty wt q ch (ch + 1)%N r W)))). }
  assert (Fn : filter not_none (elems e) = elems e).
  { clear - Ae. induction Ae as [|x l Hx _ IH]; [reflexivity|]. cbn [filter]. rewrite IH. destruct x; easy. }
  unfold p_exists. rewrite (on_gives wt _ _ c []); [reflexivity|]. unfold p_pattern2edges. rewrite (on_pure wt _ (elems e)) by (now rewrite Ee at 1).
  cbv zeta. rewrite Fn. rewrite (on_pure wt _ hi) by exact Hh. rewrite (on_gives wt _ _ c _ (open_ci wt c)).
  rewrite (on_gives wt _ _ c []) by (rewrite <- Ef; apply query_ci; [unfold live; now rewrite Hc|cbn [sel_texts forallb]; now rewrite B1, B2]).
  rewrite (on_pure wt _ []) by reflexivity. rewrite (on_gives wt _ _ c _ (close_ci wt c)). reflexivity.
Qed.
Print Assumptions C88_last_character_refuted.

(** ** concrete cases, on utf8_general_ci *)

Definition state_ci (ops : list op) : conn := snd (fst (run_ops_ci general_ci (fun l => l) ops (start true))).
Definition k_upper : value := VTup [VStr (lit "is"); VStr (lit "Paris"); VStr (lit "city")].
Definition k_lower : value := VTup [VStr (lit "is"); VStr (lit "paris"); VStr (lit "city")].
Lemma fine_two e e' t t' : short_texts e -> short_texts e' -> t <> t' -> my_fine (history [OAdd e t; OAdd e' t']).
Proof.
  intros H H' N. apply C69_different_times_are_fine.
  - intros x u [X|[X|[]]]; injection X as <- _; assumption.
  - intros later x u mid x' earlier E. change (history [OAdd e t; OAdd e' t']) with [EAdd e' t'; EAdd e t] in E.
    destruct later as [|a [|b later]], mid as [|m mid]; cbn [app] in E; try discriminate E.
    + injection E as -> -> -> -> _. now apply N.
    + injection E as _ _ _ E. now destruct mid.
    + injection E as _ _ E. destruct later; discriminate E.
    + injection E as _ _ E. destruct later; discriminate E.
Qed.
(** Adding the edge in small letters takes the one with the capital away: one edge
    is there, "is" has degree 2, and star does not tell the spellings apart. *)
Theorem C88_case_refuted :
  let ops := [OAdd k_upper 1; OAdd k_lower 2] in
  Forall (op_in plain_values) ops /\ my_fine (history ops)
  /\ outcome (run_ops_ci general_ci (fun l => l) ops (start true)) = Ok tt
  /\ outcome (run_ci general_ci (p_exists k_upper) (state_ci ops)) = Ok false
  /\ outcome (run_ci general_ci (p_exists k_lower) (state_ci ops)) = Ok true
  /\ outcome (run_ci general_ci (p_degree (VStr (lit "is"))) (state_ci ops)) = Ok 2%Z
  /\ outcome (run_ci general_ci (p_star (VStr (lit "is"))) (state_ci ops)) = Ok [k_lower]
  /\ outcome (run_ci general_ci (p_star (VStr (lit "PARIS"))) (state_ci ops)) = Ok [k_lower].
Proof.
  intros ops. split; [repeat apply Forall_cons; try apply Forall_nil; cbn; edge_ok|]. split.
  { apply fine_two; [apply short3; reflexivity|apply short3; reflexivity|discriminate]. }
  split; [vm_compute; reflexivity|]. split; [vm_compute; reflexivity|]. split; [vm_compute; reflexivity|].
  split; [vm_compute; reflexivity|]. split; [vm_compute; reflexivity|vm_compute; reflexivity].
Qed.
Print Assumptions C88_case_refuted.
(** An edge that ends in a with a grave accent: it can be added once, is then not
    found, and adding it again raises. *)
Definition k_accent : value := VTup [VStr (lit "lives"); VStr (lit "mary"); VStr [108; 224]%N].
Theorem C88_accent_refuted :
  edge_in plain_values k_accent
  /\ outcome (run_ops_ci general_ci (fun l => l) [OAdd k_accent 1] (start true)) = Ok tt
  /\ outcome (run_ci general_ci (p_exists k_accent) (state_ci [OAdd k_accent 1])) = Ok false
  /\ outcome (run_ops_ci general_ci (fun l => l) [OAdd k_accent 1; OAdd k_accent 2] (start true)) = Err IntegrityError.
Proof. split; [apply edge_inb_ok; vm_compute; reflexivity|]. split; [vm_compute; reflexivity|]. split; [vm_compute; reflexivity|vm_compute; reflexivity]. Qed.
Print Assumptions C88_accent_refuted.

(** The hypotheses of the theorems are met: a history of adds, a removal and a star
    on uncased ASCII texts; "Paris" and "paris"; the accented a. *)
Definition uncased_plain (x : value) : Prop := plain_values x /\ written_in uncased x.
Example C88_nonvacuous :
  let ops := [OAdd m_in 1; OAdd m_out 2; OAsk (QStar (VStr (lit "sky"))); ORemove m_out] in
  noalias uncased_plain /\ (forall x, uncased_plain x -> written_in uncased x)
  /\ Forall (op_in uncased_plain) ops /\ Forall (op_written uncased) ops /\ my_fine (history ops)
  /\ outcome (run_ci general_ci (p_exists m_in) (state_ci ops)) = Ok true
  /\ outcome (run_ci general_ci (p_exists m_out) (state_ci ops)) = Ok false
  /\ db_vertex (VStr (lit "Paris")) = true /\ List.map general_ci (lit "Paris") = List.map general_ci (lit "paris")
  /\ db_edge k_accent = true /\ edge2str (List.last (elems k_accent) VNone) = [108%N] ++ [224%N] /\ (general_ci (224 + 1) <= general_ci 224)%N.
Proof.
  intros ops. split; [|split; [now intros x [_ H]|]].
  - intros x y [Hx _] [Hy _]. now apply plain_noalias.
  - assert (E1 : edge_in uncased_plain m_in).
    { split; [reflexivity|]. intros x [<-|[<-|[<-|[]]]]; (split; [reflexivity|reflexivity]). }
    assert (E2 : edge_in uncased_plain m_out).
    { split; [reflexivity|]. intros x [<-|[<-|[<-|[]]]]; (split; [reflexivity|reflexivity]). }
    split; [|split; [|split]].
    + apply Forall_cons; [split; [exact E1|reflexivity]|]. apply Forall_cons; [split; [exact E2|reflexivity]|]. apply Forall_cons; [reflexivity|]. apply Forall_cons; [exact E2|apply Forall_nil].
    + apply Forall_cons; [exact I|]. apply Forall_cons; [exact I|]. apply Forall_cons; [reflexivity|]. apply Forall_cons; [exact I|apply Forall_nil].
    + apply C69_different_times_are_fine.
      * intros e t [H|[H|[H|[]]]]; [discriminate H|injection H as <- _|injection H as <- _]; apply short3; reflexivity.
      * intros later x u mid x' earlier E. change (history ops) with [ERem m_out; EAdd m_out 2; EAdd m_in 1] in E.
        destruct later as [|a [|b [|d later]]], mid as [|m [|m2 mid]]; cbn [app] in E; try discriminate E; try (injection E as; discriminate); try (injection E as; subst; discriminate);
          apply (f_equal (@List.length ev)) in E; cbn [List.length] in E; rewrite ?app_length in E; cbn [List.length] in E; lia.
    + split; [vm_compute; reflexivity|]. split; [vm_compute; reflexivity|]. split; [reflexivity|]. split; [reflexivity|]. split; [reflexivity|]. split; [reflexivity|]. vm_compute. discriminate.
Qed.
