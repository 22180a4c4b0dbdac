(** * C_index.v -- property theorems C06-C10 (permutation index, range scans, patterns) *)

From Verif Require Import Py M_symbol M_edge M_sql P_py Spec P_edge P_perm P_range P_query.
From Coq Require Import String Permutation Factorial.
Open Scope list_scope.

(** C06: nthperm enumerates the permutations.
    Positions: every reordering of the positions 0..n-1 is produced by exactly one
    k in [0, n!); every list is reordered by exactly that position list. *)
Theorem C06_nthperm_enumerates :
  (forall A (li : list A), nthperm li 0 = Ok li)
  /\ (forall A (li : list A) k, (0 <= k < Z.of_nat (fact (List.length li)))%Z ->
        exists q, nthperm (seq 0 (List.length li)) k = Ok q
          /\ Permutation (seq 0 (List.length li)) q
          /\ (forall d, nthperm li k = Ok (List.map (fun i => nth i li d) q))
          /\ exists p, nthperm li k = Ok p /\ Permutation li p)
  /\ (forall n q, Permutation (seq 0 n) q ->
        exists k, ((0 <= k < Z.of_nat (fact n))%Z /\ nthperm (seq 0 n) k = Ok q)
          /\ forall j, (0 <= j < Z.of_nat (fact n))%Z -> nthperm (seq 0 n) j = Ok q -> j = k)
  /\ (forall A (li : list A) k, li <> [] -> (Z.of_nat (fact (List.length li)) <= k)%Z ->
        nthperm li k = Err TypeError).
Proof.
  split; [intros; apply nthperm_0|]. split.
  { intros A li k H. destruct (nthperm_positions li k H) as (q & E & P & M).
    destruct (nthperm_ok li k H) as (p & _ & Ep & Pp).
    exists q. split; [exact E|]. split; [exact P|]. split; [exact M|]. now exists p. }
  split; [|intros; now apply nthperm_out].
  intros n q P. destruct (nthperm_complete _ _ P) as (k & Hk & Ek). rewrite seq_length in Hk.
  exists k. split; [now split|]. intros j Hj Ej.
  apply (nthperm_unique (seq 0 n) q); try assumption; try (rewrite seq_length; assumption).
  apply seq_NoDup.
Qed.
Print Assumptions C06_nthperm_enumerates.
Example C06_nonvacuous :
  nthperm [10; 20; 30]%nat 4 = Ok [30; 10; 20]%nat /\ nthperm [10; 20; 30]%nat 6 = Err TypeError
  /\ nthperm ([] : list nat) 3 = Ok [].
Proof. vm_compute. repeat split. Qed.

(** C07 *)
Theorem C07_unpermutate_inverts_nthperm :
  forall A (li : list A) k, (0 <= k < Z.of_nat (fact (List.length li)))%Z ->
    exists p, nthperm li k = Ok p /\ unpermutate p k = Ok li.
Proof.
  intros A li k H. destruct (nthperm_ok li k H) as (p & _ & E & _). exists p.
  split; [exact E|]. now apply unpermutate_nthperm.
Qed.
Print Assumptions C07_unpermutate_inverts_nthperm.
Example C07_nonvacuous :
  (0 <= 4 < Z.of_nat (fact (List.length [7; 8; 9]%nat)))%Z /\ unpermutate [9; 7; 8]%nat 4 = Ok [7; 8; 9]%nat.
Proof. vm_compute. repeat split; discriminate. Qed.

(** C08: [perm_str] is the text the writer stores for the k-th permutation. *)
Theorem C08_index_rows_decode :
  forall l k, db_edge (VTup l) = true -> (k < fact (List.length l))%nat ->
    exists r, perm_str l k = Ok r
      /\ (starts_with c_lpar r = false -> row2edge r = Ok (VTup l)).
Proof.
  intros l k He Hk.
  assert (Hn : l <> []) by (intros ->; easy).
  destruct (perm_str_row l k Hn Hk) as (p & Ep & _ & Er). eexists. split; [exact Er|].
  intros Hs. apply row2edge_ok; [exact He| |exact Hs].
  exists (Z.of_nat k), p. cbn [elems]. repeat split; [lia|lia|exact Ep].
Qed.
Print Assumptions C08_index_rows_decode.
(** A row starts with '(' exactly when the permutation puts an edge first; such
    rows are not decoded to the edge that wrote them. *)
Theorem C08_rows_of_nested_heads_refuted :
  exists l k r, db_edge (VTup l) = true /\ (k < fact (List.length l))%nat
    /\ perm_str l k = Ok r /\ row2edge r = Err ValueError.
Proof.
  exists [VStr (lit "says"); VStr (lit "mary"); VTup [VStr (lit "is"); VStr (lit "a"); VStr (lit "b")]], 4%nat.
  eexists. split; [reflexivity|]. split; [cbn; lia|]. split; [vm_compute; reflexivity|vm_compute; reflexivity].
Qed.
Print Assumptions C08_rows_of_nested_heads_refuted.
Example C08_nonvacuous :
  let l := [VStr (lit "says"); VInt 7; VTup [VStr (lit "is"); VStr (lit "a")]] in
  db_edge (VTup l) = true /\ perm_str l 3 = Ok (lit "7 (is a) says 3")
  /\ row2edge (lit "7 (is a) says 3") = Ok (VTup l).
Proof. vm_compute. repeat split. Qed.

(** C09: [in_range lo hi] is SQLite's lo <= id AND id < hi on UTF-8 bytes. *)
Theorem C09_range_is_prefix :
  forall s hi t, str_plus_1 s = Ok hi ->
    (lex_leb (utf8 s) (utf8 t) = true /\ lex_leb (utf8 hi) (utf8 t) = false) <-> exists r, t = s ++ r.
Proof.
  intros s hi t H. rewrite <- prefixb_spec, <- (in_range_prefix s hi t H).
  unfold in_range, lex_ltb. destruct (lex_leb (utf8 s) (utf8 t)), (lex_leb (utf8 hi) (utf8 t)); cbn; intuition.
Qed.
Print Assumptions C09_range_is_prefix.
(** where [str_plus_1] is undefined *)
Theorem C09_str_plus_1_domain :
  forall s, (exists hi, str_plus_1 s = Ok hi) <-> (exists r c, s = r ++ [c] /\ (c < 1114111)%N).
Proof.
  intros s. destruct s as [|c r _] using rev_ind.
  - split; [intros [hi H]; easy|]. intros (r & c & E & _). symmetry in E. now apply app_eq_nil in E.
  - rewrite str_plus_1_app. destruct (N.leb_spec (c + 1) max_cp) as [H|H]; unfold max_cp in H.
    + split; [intros _; exists r, c; split; [reflexivity|lia]|]. eauto.
    + split; [intros [hi E]; easy|]. intros (r' & c' & E & Hc). apply app_inj_tail in E as [_ ->]. lia.
Qed.
Print Assumptions C09_str_plus_1_domain.
Example C09_nonvacuous : str_plus_1 (lit "is a ") = Ok (lit "is a!")
  /\ str_plus_1 [120; 8364]%N = Ok [120; 8365]%N.
Proof. vm_compute. split; reflexivity. Qed.

(** C10 *)
Theorem C10_pattern_matching :
  forall l p,
    exists b, edge_matches_pattern (VTup l) p = Ok b
      /\ (b = true <-> Forall2 (fun q x => q = VNone \/ py_eq q x = true) p l).
Proof.
  intros l p. unfold edge_matches_pattern. cbn [as_seq rbind].
  destruct (Nat.eqb_spec (List.length l) (List.length p)) as [L|L]; cbn [negb].
  - eexists. split; [reflexivity|]. revert l L. induction p as [|q p IH]; intros [|x l] L; try discriminate L.
    + cbn. split; [constructor|reflexivity].
    + cbn [matches_loop]. specialize (IH l ltac:(cbn in L; lia)).
      destruct ((match q with VNone => false | _ => true end) && negb (py_eq q x)) eqn:E.
      * split; [easy|]. intros F. inversion F as [|? ? ? ? [->|H] _]; subst; [easy|].
        rewrite H in E. cbn in E. now rewrite andb_false_r in E.
      * rewrite IH. split; intros F.
        -- constructor; [|exact F]. apply andb_false_iff in E as [E|E].
           ++ left. now destruct q.
           ++ right. now destruct (py_eq q x).
        -- now inversion F.
  - exists false. split; [reflexivity|]. split; [easy|]. intros F.
    exfalso. apply L. clear L. induction F; cbn; congruence.
Qed.
Print Assumptions C10_pattern_matching.
Example C10_nonvacuous :
  edge_matches_pattern (VTup [VStr (lit "is"); VStr (lit "a"); VInt 7]) [VNone; VStr (lit "a"); VNone] = Ok true
  /\ edge_matches_pattern (VTup [VStr (lit "is"); VStr (lit "a")]) [VNone; VStr (lit "b")] = Ok false.
Proof. vm_compute. split; reflexivity. Qed.
