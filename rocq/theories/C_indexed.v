(** * C_indexed.v -- property theorems C85-C86 (patterns of wildcards only, size of the index) *)

From Verif Require Import Py M_symbol M_edge M_sql M_hypergraph P_py Spec P_edge P_perm P_range P_query
  S_history M_driver P_ops P_hist P_graph P_answers P_rows P_crash P_mysql C_graph.
From Coq Require Import Permutation Factorial String.
Open Scope list_scope.

(** ** C85

    In every state whatsoever (no history, no invariant): a pattern without a bound
    item, and the edge without elements, raise IndexError and touch nothing. *)
Theorem C85_nothing_bound :
  forall p t s ord c, Forall (fun x => x = VNone) p ->
    pattern2edges (VTup p) c = (Err IndexError, c, []) /\ exists_ (VTup p) c = (Err IndexError, c, [])
    /\ remove_by_pattern ord (VTup p) c = (Err IndexError, c, [])
    /\ add (VTup []) t c = (Err IndexError, c, []) /\ remove (VTup []) c = (Err IndexError, c, [])
    /\ add_belief s (VTup []) t c = (Err IndexError, c, []).
Proof.
  intros p t s ord c H.
  assert (E : pattern2edges (VTup p) c = (Err IndexError, c, [])).
  { assert (F : filter not_none p = []) by (clear - H; induction H as [|x p -> _ IH]; [reflexivity|exact IH]).
    unfold pattern2edges, bind, lift, ret. cbn [as_seq]. rewrite F. reflexivity. }
  split; [exact E|]. split; [unfold exists_, bind; now rewrite E|]. split; [unfold remove_by_pattern, bind; now rewrite E|].
  split; [reflexivity|]. split; reflexivity.
Qed.
Print Assumptions C85_nothing_bound.
(** ... on a database with edges, which one bound item is enough to find *)
Example C85_nonvacuous : Forall (fun x => x = VNone) [VNone; VNone; VNone]
  /\ pattern2edges (VTup [VNone; VNone; VNone]) ex_c = (Err IndexError, ex_c, [])
  /\ exists l, pattern2edges (VTup [VNone; VStr (lit "mary"); VNone]) ex_c = (Ok l, ex_c, []) /\ l <> [].
Proof.
  split; [now repeat constructor|]. split; [vm_compute; reflexivity|]. eexists. split; [vm_compute; reflexivity|discriminate].
Qed.

(** ** C86

    The row under which the [k]-th order of the elements of [e] is indexed. *)
Definition index_row (e : value) (k : Z) (r : str) : Prop :=
  exists p, nthperm (elems e) k = Ok p /\ r = join [c_space] (List.map edge2str (p ++ [VInt k])).
(** n! for each of the edges *)
Definition rows_needed (es : list value) : nat := fold_right (fun e n => (fact (List.length (elems e)) + n)%nat) O es.

Lemma nodup_flat {A B} (f : A -> list B) l : NoDup l -> (forall x, In x l -> NoDup (f x)) ->
  (forall x y b, In x l -> In y l -> In b (f x) -> In b (f y) -> x = y) -> NoDup (flat_map f l).
Proof.
  induction l as [|a l IH]; intros N F D; cbn [flat_map]; [constructor|]. inversion N as [|? ? Na Nl]; subst.
  assert (K : forall l1 l2 : list B, NoDup l1 -> NoDup l2 -> (forall b, In b l1 -> ~ In b l2) -> NoDup (l1 ++ l2)).
  { induction l1 as [|b l1 IH1]; intros l2 H1 H2 H3; [exact H2|]. inversion H1; subst. cbn. constructor.
    - intros Hi. apply in_app_iff in Hi as [Hi|Hi]; [easy|]. apply (H3 b); [now left|exact Hi].
    - apply IH1; [assumption|exact H2|]. intros x Hx. apply H3. now right. }
  apply K.
  - apply F. now left.
  - apply IH; [exact Nl|intros x Hx; apply F; now right|]. intros x y b Hx Hy. apply D; now right.
  - intros b Hb Hi. apply in_flat_map in Hi as (y & Hy & Hb'). apply Na. rewrite (D a y b); [exact Hy|now left|now right|exact Hb|exact Hb'].
Qed.

Theorem C86_index_is_exact :
  forall V ops c, noalias V -> reached V ops c ->
    (forall r, In r (perms (c_comm c)) <-> exists e k, present (history ops) e /\ (0 <= k < Z.of_nat (fact (List.length (elems e))))%Z /\ index_row e k r)
    /\ NoDup (perms (c_comm c))
    /\ forall es, NoDup es -> (forall e, In e es <-> present (history ops) e) -> List.length (perms (c_comm c)) = rows_needed es.
Proof.
  intros V ops c HV Hr. pose proof (reached_ready V ops c HV Hr) as R. rewrite (rd_sync _ _ _ R). pose proof (rd_inv _ _ _ R) as I.
  assert (Ed : forall e, present (history ops) e -> edge_in V e) by (intros e He; apply (i_edges _ _ _ I); now apply stored_present).
  assert (X : forall r, In r (perms (c_work c)) <-> exists e, present (history ops) e /\ is_row (elems e) r).
  { intros r. split.
    - intros Hi. destruct (wf_rows _ _ (i_wf _ _ _ I) r Hi) as (e & He & Hw). exists e. split; [|exact Hw]. apply stored_present. now apply (i_rows _ _ _ I e r He Hw).
    - intros (e & He & Hw). apply (i_rows _ _ _ I e r (Ed e He) Hw). now apply stored_present. }
  split; [|split].
  - intros r. rewrite X. split.
    + intros (e & He & k & p & Hk & Hp & Hrr). exists e, k. split; [exact He|]. split; [exact Hk|]. now exists p.
    + intros (e & k & He & Hk & p & Hp & Hrr). exists e. split; [exact He|]. now exists k, p.
  - apply (wf_ndp _ _ (i_wf _ _ _ I)).
  - intros es Ne Hes.
    assert (P : Permutation (perms (c_work c)) (flat_map (fun e => rows_of (elems e)) es)).
    { apply NoDup_Permutation; [apply (wf_ndp _ _ (i_wf _ _ _ I))| |].
      - apply nodup_flat; [exact Ne|intros e He; apply rows_nodup, (edge_in_db V), Ed, Hes, He|].
        intros x y r Hx Hy Rx Ry. apply Hes in Hx, Hy. apply (row_other V x y r (Ed x Hx) (Ed y Hy)); [apply rows_of_spec|apply rows_of_spec]; try assumption; apply (elems_nonnil V); auto.
      - intros r. rewrite X, in_flat_map. split; intros (e & He & Hw); exists e.
        + split; [now apply Hes|]. apply rows_of_spec; [apply (elems_nonnil V); auto|exact Hw].
        + apply Hes in He. split; [exact He|]. apply rows_of_spec in Hw; [exact Hw|apply (elems_nonnil V); auto]. }
    rewrite (Permutation_length P). clear. induction es as [|e es IH]; [reflexivity|]. cbn [flat_map rows_needed fold_right]. rewrite app_length, IH. f_equal.
    unfold rows_of. now rewrite map_length, seq_length.
Qed.
Print Assumptions C86_index_is_exact.
(** a history with additions, removals, a belief and a batch *)
Example C86_nonvacuous : reached plain_values ex_ops ex_c
  /\ (exists es, (forall e, In e es <-> present (history ex_ops) e) /\ NoDup es /\ es <> [] /\ List.length (perms (c_comm ex_c)) = rows_needed es).
Proof.
  split; [exact ex_reached|]. exists (stored (history ex_ops)). split; [intros e; apply stored_present|]. split; [apply stored_nodup|]. split; [vm_compute; discriminate|].
  vm_compute. reflexivity.
Qed.
