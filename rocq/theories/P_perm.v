(** * P_perm.v -- proofs about the permutation model (nthperm, unpermutate) *)

From Verif Require Import Py M_edge M_sql P_py.
From Coq Require Import Permutation Factorial Zify ZifyBool ZifyNat.
Open Scope list_scope.

(** ** selects / perms_n *)

Lemma selects_map {A B} (f : A -> B) l :
  selects (List.map f l) = List.map (fun '(x, r) => (f x, List.map f r)) (selects l).
Proof.
  induction l as [|x l IH]; [reflexivity|]. cbn. rewrite IH, !map_map. f_equal.
  apply map_ext. now intros [y s].
Qed.

Lemma perms_n_map {A B} (f : A -> B) n : forall l,
  perms_n n (List.map f l) = List.map (List.map f) (perms_n n l).
Proof.
  induction n as [|n IH]; intros l; [reflexivity|]. cbn. rewrite selects_map.
  rewrite flat_map_concat_map, map_map, <- flat_map_concat_map.
  rewrite !flat_map_concat_map, concat_map, map_map. f_equal.
  apply map_ext. intros [x r]. rewrite IH, !map_map. reflexivity.
Qed.

Lemma selects_length {A} (l : list A) : List.length (selects l) = List.length l.
Proof. induction l as [|x l IH]; cbn; [reflexivity|]. now rewrite map_length, IH. Qed.

Lemma selects_perm {A} (l : list A) x r : In (x, r) (selects l) -> Permutation l (x :: r).
Proof.
  revert x r; induction l as [|a l IH]; intros x r; cbn; [easy|].
  intros [[= <- <-]|H]; [reflexivity|].
  apply in_map_iff in H as ([y s] & [= <- <-] & H). apply IH in H.
  rewrite H. apply perm_swap.
Qed.

Lemma selects_in {A} (l : list A) x : In x l -> exists r, In (x, r) (selects l).
Proof.
  induction l as [|a l IH]; [easy|]. intros [<-|H].
  - exists l. now left.
  - destruct (IH H) as [r Hr]. exists (a :: r). right. apply in_map_iff. now exists (x, r).
Qed.

Lemma selects_fst {A} (l : list A) : List.map fst (selects l) = l.
Proof.
  induction l as [|a l IH]; [reflexivity|]. cbn. f_equal. rewrite map_map.
  rewrite <- IH at 2. apply map_ext. now intros [y s].
Qed.

Lemma perms_n_length {A} n : forall (l : list A), List.length l = n ->
  List.length (perms_n n l) = fact n.
Proof.
  induction n as [|n IH]; intros l Hl; [reflexivity|]. cbn [perms_n fact].
  assert (G : forall s : list (A * list A), (forall x r, In (x, r) s -> List.length r = n) ->
     List.length (flat_map (fun '(x, r) => List.map (cons x) (perms_n n r)) s) = (List.length s * fact n)%nat).
  { induction s as [|[x r] s IHs]; intros Hs; [reflexivity|]. cbn.
    rewrite app_length, map_length, IH by (eapply Hs; now left).
    rewrite IHs; [lia|]. intros y t Ht. eapply Hs. right. exact Ht. }
  rewrite G.
  - rewrite selects_length, Hl. lia.
  - intros x r Hx. apply selects_perm, Permutation_length in Hx. cbn in Hx. lia.
Qed.
Lemma permutations_length {A} (l : list A) : List.length (permutations l) = fact (List.length l).
Proof. now apply perms_n_length. Qed.

Lemma perms_n_sound {A} n : forall (l p : list A), List.length l = n ->
  In p (perms_n n l) -> Permutation l p.
Proof.
  induction n as [|n IH]; intros l p Hl Hp.
  - destruct l; [|easy]. cbn in Hp. destruct Hp as [<-|[]]. constructor.
  - cbn in Hp. apply in_flat_map in Hp as ([x r] & Hx & Hp).
    apply in_map_iff in Hp as (q & <- & Hq). pose proof (selects_perm _ _ _ Hx) as P.
    rewrite P. constructor. apply IH; [|exact Hq].
    apply Permutation_length in P. cbn in P. lia.
Qed.
Lemma permutations_sound {A} (l p : list A) : In p (permutations l) -> Permutation l p.
Proof. now apply perms_n_sound. Qed.

Lemma perms_n_complete {A} n : forall (l p : list A), List.length l = n ->
  Permutation l p -> In p (perms_n n l).
Proof.
  induction n as [|n IH]; intros l p Hl Hp.
  - destruct l; [|easy]. apply Permutation_nil in Hp. subst. now left.
  - destruct p as [|x p].
    { apply Permutation_sym, Permutation_nil in Hp. now subst. }
    assert (Hx : In x l) by (eapply Permutation_in; [symmetry; exact Hp|now left]).
    apply selects_in in Hx as [r Hr]. cbn. apply in_flat_map. exists (x, r). split; [exact Hr|].
    apply in_map. pose proof (selects_perm _ _ _ Hr) as P. apply IH.
    + apply Permutation_length in P. cbn in P. lia.
    + rewrite P in Hp. now apply Permutation_cons_inv in Hp.
Qed.
Lemma permutations_complete {A} (l p : list A) : Permutation l p -> In p (permutations l).
Proof. now apply perms_n_complete. Qed.

Lemma NoDup_app {A} (a b : list A) : NoDup a -> NoDup b ->
  (forall x, In x a -> In x b -> False) -> NoDup (a ++ b).
Proof.
  induction 1 as [|x a Hx Ha IH]; intros Hb Hd; [exact Hb|]. cbn. constructor.
  - rewrite in_app_iff. intros [H|H]; [easy|]. apply (Hd x); [now left|easy].
  - apply IH; [exact Hb|]. intros y Hy. apply Hd. now right.
Qed.

Lemma perms_n_nodup {A} n : forall (l : list A), List.length l = n -> NoDup l -> NoDup (perms_n n l).
Proof.
  induction n as [|n IH]; intros l Hl Hn.
  - cbn. repeat constructor. easy.
  - cbn.
    assert (G : forall s : list (A * list A),
      (forall x r, In (x, r) s -> List.length r = n /\ NoDup r) -> NoDup (List.map fst s) ->
      NoDup (flat_map (fun '(x, r) => List.map (cons x) (perms_n n r)) s)).
    { induction s as [|[x r] s IHs]; intros Hs Hf; [constructor|]. cbn in *.
      inversion Hf as [|? ? Hx Hf']; subst. apply NoDup_app.
      - destruct (Hs x r ltac:(now left)) as [H1 H2].
        apply FinFun.Injective_map_NoDup; [now intros ? ? [= ->]|]. now apply IH.
      - apply IHs; [|exact Hf']. intros y t Ht. apply (Hs y t). now right.
      - intros p Hp1 Hp2. apply in_map_iff in Hp1 as (q & <- & _).
        apply in_flat_map in Hp2 as ([y t] & Hy & Hq).
        apply in_map_iff in Hq as (q2 & [= <- <-] & _). apply Hx.
        apply in_map_iff. now exists (y, t). }
    apply G.
    + intros x r Hx. apply selects_perm in Hx. split.
      * apply Permutation_length in Hx. cbn in Hx. lia.
      * rewrite Hx in Hn. now inversion Hn.
    + now rewrite selects_fst.
Qed.
Lemma permutations_nodup {A} (l : list A) : NoDup l -> NoDup (permutations l).
Proof. now apply perms_n_nodup. Qed.

Lemma perms_n_hd {A} n : forall (l : list A), List.length l = n ->
  exists ps, perms_n n l = l :: ps.
Proof.
  induction n as [|n IH]; intros l Hl.
  - destruct l; [|easy]. now eexists.
  - destruct l as [|x l]; [easy|]. cbn [perms_n selects flat_map]. cbn in Hl.
    destruct (IH l ltac:(lia)) as [ps ->]. cbn. now eexists.
Qed.

(** ** nthperm *)

Lemma perm_loop_spec ps : forall pos n, (pos <= n)%Z ->
  perm_loop pos n ps = nth_error ps (Z.to_nat (n - pos)).
Proof.
  induction ps as [|p ps IH]; intros pos n H; cbn [perm_loop].
  - now destruct (Z.to_nat (n - pos)).
  - destruct (Z.leb_spec n pos).
    + replace (n - pos)%Z with 0%Z by lia. reflexivity.
    + rewrite IH by lia. replace (Z.to_nat (n - pos)) with (S (Z.to_nat (n - (pos + 1)))) by lia.
      reflexivity.
Qed.

Lemma mapr_seq_nth {A} (l : list A) (f : nat -> res A) :
  (forall i x, nth_error l i = Some x -> f i = Ok x) ->
  mapr f (seq 0 (List.length l)) = Ok l.
Proof.
  intros H. enough (G : forall k (m : list A), (forall i x, nth_error m i = Some x -> f (k + i)%nat = Ok x) ->
     mapr f (seq k (List.length m)) = Ok m).
  { now apply G. }
  intros k m; revert k. induction m as [|y m IH]; intros k Hm; [reflexivity|]. cbn.
  rewrite <- (Nat.add_0_r k) at 1. rewrite (Hm 0%nat y eq_refl). cbn [rbind].
  rewrite IH; [reflexivity|]. intros i x Hi. replace (S k + i)%nat with (k + S i)%nat by lia.
  now apply Hm.
Qed.

Lemma seq_nth_map {A} (l : list A) d : List.map (fun i => nth i l d) (seq 0 (List.length l)) = l.
Proof.
  enough (G : forall pre, List.map (fun i => nth i (pre ++ l) d) (seq (List.length pre) (List.length l)) = l).
  { apply (G []). }
  induction l as [|x l IH]; intros pre; [reflexivity|]. cbn. f_equal.
  - rewrite app_nth2 by lia. now rewrite Nat.sub_diag.
  - specialize (IH (pre ++ [x])). rewrite app_length in IH. cbn in IH.
    replace (List.length pre + 1)%nat with (S (List.length pre)) in IH by lia.
    rewrite <- IH at 2. apply map_ext. intros i. now rewrite <- app_assoc.
Qed.

(** the k-th permutation of any list is the k-th entry of [permutations] *)
Lemma nthperm_spec {A} (li : list A) k p : (0 <= k)%Z ->
  nth_error (permutations li) (Z.to_nat k) = Some p -> nthperm li k = Ok p.
Proof.
  intros Hk Hp. unfold nthperm.
  rewrite perm_loop_spec by lia. rewrite Z.sub_0_r.
  destruct li as [|d li0].
  { cbn in *. destruct (Z.to_nat k) as [|k']; [|now destruct k'].
    now injection Hp as <-. }
  set (li := d :: li0) in *.
  assert (E : permutations li = List.map (List.map (fun i => nth i li d)) (permutations (seq 0 (List.length li)))).
  { unfold permutations. rewrite seq_length. rewrite <- perms_n_map, seq_nth_map. reflexivity. }
  clearbody li. rewrite E, nth_error_map in Hp.
  destruct (nth_error (permutations (seq 0 (List.length li))) (Z.to_nat k)) as [q|] eqn:Eq; [|easy].
  cbn in Hp. injection Hp as <-.
  assert (Pq : Permutation (seq 0 (List.length li)) q).
  { apply permutations_sound. eapply nth_error_In; eauto. }
  assert (Lq : List.length q = List.length li).
  { rewrite <- (Permutation_length Pq). apply seq_length. }
  replace (List.length li) with (List.length (List.map (fun i => nth i li d) q)) at 1
    by (rewrite map_length; exact Lq).
  apply mapr_seq_nth. intros i x Hi.
  rewrite nth_error_map in Hi. unfold nth_res.
  destruct (nth_error q i) as [j|] eqn:Ej; [|easy]. cbn in Hi. injection Hi as <-.
  cbn [rbind]. rewrite (nth_error_nth' li d); [reflexivity|].
  apply nth_error_In in Ej. eapply Permutation_in in Ej; [|symmetry; exact Pq].
  apply in_seq in Ej. lia.
Qed.

Lemma nthperm_ok {A} (li : list A) k : (0 <= k < Z.of_nat (fact (List.length li)))%Z ->
  exists p, nth_error (permutations li) (Z.to_nat k) = Some p /\ nthperm li k = Ok p /\ Permutation li p.
Proof.
  intros H. destruct (nth_error (permutations li) (Z.to_nat k)) as [p|] eqn:E.
  - exists p. split; [reflexivity|]. split; [apply nthperm_spec; [lia|exact E]|].
    apply permutations_sound. eapply nth_error_In; eauto.
  - apply nth_error_None in E. rewrite permutations_length in E. lia.
Qed.

Lemma nthperm_0 {A} (li : list A) : nthperm li 0 = Ok li.
Proof.
  apply nthperm_spec; [lia|]. destruct (perms_n_hd (List.length li) li eq_refl) as [ps E].
  unfold permutations. now rewrite E.
Qed.

Lemma nthperm_out {A} (li : list A) k : li <> [] -> (Z.of_nat (fact (List.length li)) <= k)%Z ->
  nthperm li k = Err TypeError.
Proof.
  intros Hn Hk. unfold nthperm. pose proof (lt_O_fact (List.length li)).
  rewrite perm_loop_spec by lia.
  replace (nth_error _ _) with (@None (list nat)).
  - now destruct li.
  - symmetry. apply nth_error_None. rewrite permutations_length, seq_length. lia.
Qed.

Lemma nthperm_complete {A} (li p : list A) : Permutation li p ->
  exists k, (0 <= k < Z.of_nat (fact (List.length li)))%Z /\ nthperm li k = Ok p.
Proof.
  intros H. apply permutations_complete in H. apply In_nth_error in H as [n Hn].
  exists (Z.of_nat n). split.
  - assert (n < List.length (permutations li))%nat by (apply nth_error_Some; congruence).
    rewrite permutations_length in *. lia.
  - apply nthperm_spec; [lia|]. now rewrite Nat2Z.id.
Qed.

Lemma nthperm_unique {A} (li p : list A) j k : NoDup li ->
  (0 <= j < Z.of_nat (fact (List.length li)))%Z -> (0 <= k < Z.of_nat (fact (List.length li)))%Z ->
  nthperm li j = Ok p -> nthperm li k = Ok p -> j = k.
Proof.
  intros Hn Hj Hk Ej Ek.
  destruct (nthperm_ok li j Hj) as (p1 & N1 & E1 & _).
  destruct (nthperm_ok li k Hk) as (p2 & N2 & E2 & _).
  assert (p1 = p) by congruence. assert (p2 = p) by congruence. subst.
  assert (Z.to_nat j = Z.to_nat k); [|lia].
  apply (proj1 (NoDup_nth_error (permutations li))).
  - now apply permutations_nodup.
  - apply nth_error_Some. congruence.
  - congruence.
Qed.

(** positions determine the result for every list *)
Lemma nthperm_positions {A} (li : list A) k : (0 <= k < Z.of_nat (fact (List.length li)))%Z ->
  exists q, nthperm (seq 0 (List.length li)) k = Ok q /\ Permutation (seq 0 (List.length li)) q
    /\ forall d, nthperm li k = Ok (List.map (fun i => nth i li d) q).
Proof.
  intros H. destruct (nthperm_ok (seq 0 (List.length li)) k) as (q & N & E & P).
  { now rewrite seq_length. }
  exists q. split; [exact E|]. split; [exact P|]. intros d.
  apply nthperm_spec; [lia|].
  assert (E2 : permutations li = List.map (List.map (fun i => nth i li d)) (permutations (seq 0 (List.length li)))).
  { unfold permutations. rewrite seq_length. rewrite <- perms_n_map, seq_nth_map. reflexivity. }
  rewrite E2, nth_error_map, N. reflexivity.
Qed.

Lemma nthperm_map {A B} (f : A -> B) (li : list A) k p :
  (0 <= k < Z.of_nat (fact (List.length li)))%Z ->
  nthperm li k = Ok p -> nthperm (List.map f li) k = Ok (List.map f p).
Proof.
  intros H E. destruct (nthperm_ok li k H) as (p' & N & E' & _).
  assert (p' = p) by congruence. subst. apply nthperm_spec; [lia|].
  unfold permutations. rewrite map_length, perms_n_map, nth_error_map.
  unfold permutations in N. now rewrite N.
Qed.

(** ** unpermutate *)

Lemma set_nth_ok {A} (l : list A) i x : (i < List.length l)%nat ->
  exists l', set_nth l i x = Ok l' /\ List.length l' = List.length l
    /\ nth_error l' i = Some x /\ forall j, j <> i -> nth_error l' j = nth_error l j.
Proof.
  revert i; induction l as [|y l IH]; intros i Hi; [cbn in Hi; lia|].
  destruct i as [|i].
  - exists (x :: l). repeat split. intros [|j] Hj; [easy|reflexivity].
  - destruct (IH i ltac:(cbn in Hi; lia)) as (l' & E & L & N & O).
    exists (y :: l'). cbn. rewrite E. cbn. repeat split; [lia|exact N|].
    intros [|j] Hj; [reflexivity|]. cbn. apply O. lia.
Qed.

Lemma unperm_loop_ok {A} (tokens : list A) : forall is pos r,
  (pos + List.length is <= List.length tokens)%nat -> NoDup is ->
  Forall (fun i => (i < List.length r)%nat) is ->
  exists r', unperm_loop tokens pos is r = Ok r' /\ List.length r' = List.length r
    /\ (forall j i, nth_error is j = Some i -> nth_error r' i = Some (nth_error tokens (pos + j)))
    /\ (forall i, ~ In i is -> nth_error r' i = nth_error r i).
Proof.
  induction is as [|i is IH]; intros pos r Hl Hn Hf.
  - exists r. repeat split. intros [|j] i H; easy.
  - cbn in Hl. inversion Hn as [|? ? Hi Hn']; subst. inversion Hf as [|? ? Hb Hf']; subst.
    cbn [unperm_loop]. unfold nth_res.
    destruct (nth_error tokens pos) as [t|] eqn:Et.
    2:{ apply nth_error_None in Et. lia. }
    cbn [rbind]. destruct (set_nth_ok r i (Some t) Hb) as (r1 & E1 & L1 & N1 & O1).
    rewrite E1. cbn [rbind].
    destruct (IH (S pos) r1) as (r' & E' & L' & N' & O').
    + lia.
    + exact Hn'.
    + eapply Forall_impl; [|exact Hf']. cbn. intros. lia.
    + exists r'. split; [exact E'|]. split; [lia|]. split.
      * intros [|j] i' Hj; cbn in Hj.
        -- injection Hj as <-. rewrite O' by exact Hi. rewrite N1, Nat.add_0_r. now rewrite Et.
        -- rewrite (N' _ _ Hj). do 2 f_equal. lia.
      * intros i' Hi'. rewrite O' by (intros H; apply Hi'; now right).
        apply O1. intros ->. apply Hi'. now left.
Qed.

Lemma nth_error_ext {A} (a b : list A) : List.length a = List.length b ->
  (forall i, (i < List.length a)%nat -> nth_error a i = nth_error b i) -> a = b.
Proof.
  revert b; induction a as [|x a IH]; intros [|y b] Hl H; try easy.
  pose proof (H 0%nat ltac:(cbn; lia)) as H0. cbn in H0. injection H0 as ->. f_equal.
  apply IH; [cbn in Hl; lia|]. intros i Hi. apply (H (S i)). cbn. lia.
Qed.

Lemma mapr_some {A} (l : list A) :
  mapr (fun o => match o with Some t => Ok t | None => Err TypeError end) (List.map Some l) = Ok l.
Proof. induction l as [|x l IH]; cbn; [reflexivity|]. now rewrite IH. Qed.

Lemma unpermutate_nthperm {A} (li p : list A) k :
  (0 <= k < Z.of_nat (fact (List.length li)))%Z ->
  nthperm li k = Ok p -> unpermutate p k = Ok li.
Proof.
  intros Hk Hp. destruct (nthperm_positions li k Hk) as (q & Eq & Pq & Em).
  destruct (nthperm_ok li k Hk) as (p' & _ & Ep' & Pp). assert (p' = p) by congruence. subst p'.
  assert (Lp : List.length p = List.length li) by (symmetry; now apply Permutation_length).
  unfold unpermutate. rewrite Lp, Eq. cbn [rbind].
  assert (Lq : List.length q = List.length li).
  { rewrite <- (Permutation_length Pq). apply seq_length. }
  destruct (unperm_loop_ok p q 0 (repeat None (List.length li))) as (r & E & L & N & _).
  - lia.
  - eapply Permutation_NoDup; [exact Pq|]. apply seq_NoDup.
  - rewrite repeat_length. apply Forall_forall. intros i Hi.
    eapply Permutation_in in Hi; [|symmetry; exact Pq]. apply in_seq in Hi. lia.
  - rewrite E. cbn [rbind]. rewrite repeat_length in L.
    assert (Er : r = List.map Some li).
    { apply nth_error_ext; [now rewrite map_length|]. intros i Hi.
      assert (Hq : In i q).
      { eapply Permutation_in; [exact Pq|]. apply in_seq. lia. }
      apply In_nth_error in Hq as [j Hj]. rewrite (N _ _ Hj). cbn [Nat.add].
      rewrite nth_error_map.
      destruct (nth_error li i) as [x|] eqn:Ex.
      2:{ apply nth_error_None in Ex. lia. }
      cbn. f_equal. specialize (Em x). rewrite Hp in Em. injection Em as ->.
      rewrite nth_error_map, Hj. cbn. f_equal. now apply nth_error_nth. }
    rewrite Er. apply mapr_some.
Qed.
