(** * C_queries.v -- property theorems C48, C49, C58, C59 (queries.py) *)

From Verif Require Import Py M_symbol M_edge M_sql M_hypergraph M_queries P_py Spec P_edge P_perm P_range P_query
  S_history M_driver P_ops P_hist P_graph P_answers P_crash C_graph.
From Coq Require Import Permutation Factorial String.
Open Scope list_scope.

(** Vertices on which Python's == is equality. *)
Definition names (V : value -> Prop) : Prop := noalias V /\ forall x, V x -> db_vertex x = true.
Definition steps_in (V : value -> Prop) (ws : list (list value)) : Prop := forall w x, In w ws -> In x w -> V x.

Lemma names_eq V x y : names V -> V x -> V y -> py_eq x y = true <-> x = y.
Proof.
  intros [H1 H2] Hx Hy. split; [now apply H1|]. intros <-. now apply py_eq_refl_db, H2.
Qed.
Lemma isin_in V x l : names V -> V x -> (forall y, In y l -> V y) -> isin x l = true <-> In x l.
Proof.
  intros HV Hx Hl. unfold isin. rewrite existsb_exists. split.
  - intros (y & Hy & E). apply (names_eq V y x HV) in E; [now subst|now apply Hl|exact Hx].
  - intros H. exists x. split; [exact H|]. now apply (names_eq V x x HV).
Qed.

(** ** C48: the map of shortest walks *)

(** [n] is the length of the shortest walk of [ws] through [v] *)
Definition shortest_through (ws : list (list value)) (v : value) (n : Z) : Prop :=
  (exists w, In w ws /\ In v w /\ Z.of_nat (List.length w) = n)
  /\ forall w, In w ws -> In v w -> (n <= Z.of_nat (List.length w))%Z.

Definition keys_in (V : value -> Prop) (m : wmap) : Prop := forall p, In p m -> V (fst p).
Lemma w_get_app m v k n : w_get m v = None -> w_get (m ++ [(k, n)]) v = if py_eq k v then Some n else None.
Proof.
  unfold w_get. induction m as [|[a b] m IH]; cbn.
  - intros _. now destruct (py_eq k v).
  - destruct (py_eq a v); [discriminate|]. exact IH.
Qed.
Lemma w_get_app_some m v r x : w_get m v = Some x -> w_get (m ++ r) v = Some x.
Proof.
  unfold w_get. induction m as [|[a b] m IH]; cbn; [discriminate|]. destruct (py_eq a v); [auto|exact IH].
Qed.
Lemma w_get_none_app m v k n : w_get m v = None -> py_eq k v = false -> w_get (m ++ [(k, n)]) v = None.
Proof. intros H E. rewrite w_get_app by exact H. now rewrite E. Qed.
Lemma w_get_map V m v k n : names V -> keys_in V m -> V v -> V k ->
  w_get (List.map (fun p => if py_eq (fst p) k then (fst p, n) else p) m) v =
  match w_get m v with None => None | Some x => if py_eq k v then Some n else Some x end.
Proof.
  intros HV Hm Hv Hk. unfold w_get. induction m as [|[a b] m IH]; cbn; [reflexivity|].
  assert (Ha : V a) by (apply (Hm (a, b)); now left).
  assert (Hm' : keys_in V m) by (intros p Hp; apply Hm; now right). specialize (IH Hm').
  destruct (py_eq a k) eqn:E; cbn.
  - apply (names_eq V a k HV Ha Hk) in E. subst a. destruct (py_eq k v) eqn:F; [reflexivity|exact IH].
  - destruct (py_eq a v) eqn:F; [|exact IH]. cbn. apply (names_eq V a v HV Ha Hv) in F. subst a.
    destruct (py_eq k v) eqn:G; [|reflexivity]. apply (names_eq V k v HV Hk Hv) in G. subst k.
    rewrite (proj2 (names_eq V v v HV Hv Hv) eq_refl) in E. discriminate.
Qed.
Lemma w_get_set V m v k n : names V -> keys_in V m -> V v -> V k ->
  w_get (w_set m k n) v = if py_eq k v then Some n else w_get m v.
Proof.
  intros HV Hm Hv Hk. unfold w_set. destruct (w_get m k) as [x|] eqn:G.
  - rewrite (w_get_map V) by assumption. destruct (py_eq k v) eqn:E.
    + apply (names_eq V k v HV Hk Hv) in E. subst v. now rewrite G.
    + now destruct (w_get m v).
  - destruct (w_get m v) as [x|] eqn:F.
    + rewrite (w_get_app_some _ _ _ _ F). destruct (py_eq k v) eqn:E; [|reflexivity].
      apply (names_eq V k v HV Hk Hv) in E. subst v. congruence.
    + now apply w_get_app.
Qed.
Lemma keys_set V m k n : keys_in V m -> V k -> keys_in V (w_set m k n).
Proof.
  intros Hm Hk. unfold w_set. destruct (w_get m k).
  - intros p Hp. apply in_map_iff in Hp as ([a b] & <- & Hp). cbn. destruct (py_eq a k); now apply (Hm _ Hp).
  - intros p Hp. apply in_app_or in Hp as [Hp|[<-|[]]]; [now apply Hm|exact Hk].
Qed.
Lemma keys_step V m n k : keys_in V m -> V k -> keys_in V (walk_step2wmap m n k).
Proof.
  intros Hm Hk. unfold walk_step2wmap. destruct (w_get m k) as [x|]; [destruct (n <? x)%Z|]; auto using keys_set.
Qed.
Lemma step_get V m n k v : names V -> keys_in V m -> V v -> V k ->
  w_get (walk_step2wmap m n k) v =
  if py_eq k v then Some (match w_get m v with None => n | Some x => Z.min n x end) else w_get m v.
Proof.
  intros HV Hm Hv Hk. unfold walk_step2wmap. destruct (w_get m k) as [x|] eqn:G.
  - destruct (Z.ltb_spec n x) as [L|L].
    + rewrite (w_get_set V) by assumption. destruct (py_eq k v) eqn:E; [|reflexivity].
      apply (names_eq V k v HV Hk Hv) in E. subst v. rewrite G. f_equal. lia.
    + destruct (py_eq k v) eqn:E; [|reflexivity]. apply (names_eq V k v HV Hk Hv) in E. subst v. rewrite G. f_equal. lia.
  - rewrite (w_get_set V) by assumption. destruct (py_eq k v) eqn:E; [|reflexivity].
    apply (names_eq V k v HV Hk Hv) in E. subst v. now rewrite G.
Qed.
Lemma walk_get V n w : names V -> forall m v, keys_in V m -> V v -> (forall x, In x w -> V x) ->
  let m' := fold_left (fun m step => walk_step2wmap m n step) w m in
  keys_in V m' /\
  w_get m' v = if isin v w then Some (match w_get m v with None => n | Some x => Z.min n x end) else w_get m v.
Proof.
  intros HV. induction w as [|k w IH]; intros m v Hm Hv Hw; cbn [fold_left]; [now split|].
  assert (Hk : V k) by (apply Hw; now left).
  destruct (IH (walk_step2wmap m n k) v) as [K G]; [now apply keys_step|exact Hv|intros x Hx; apply Hw; now right|].
  split; [exact K|]. rewrite G. rewrite (step_get V) by assumption. cbn [isin existsb]. fold (isin v w).
  destruct (py_eq k v); cbn [orb]; [|reflexivity]. destruct (isin v w); [|reflexivity].
  destruct (w_get m v); f_equal; lia.
Qed.

(** what the map says about [v] is right for the walks [ws] *)
Definition right (ws : list (list value)) (v : value) (o : option Z) : Prop :=
  match o with
  | Some n => shortest_through ws v n
  | None => forall w, In w ws -> ~ In v w
  end.
Lemma right_snoc V ws w v o : names V -> V v -> (forall x, In x w -> V x) -> right ws v o ->
  right (ws ++ [w]) v
    (if isin v w then Some (match o with None => Z.of_nat (List.length w) | Some x => Z.min (Z.of_nat (List.length w)) x end) else o).
Proof.
  intros HV Hv Hw Ho. destruct (isin v w) eqn:I.
  - apply (isin_in V v w HV Hv Hw) in I. destruct o as [x|]; cbn in *.
    + destruct Ho as [(w0 & H1 & H2 & H3) Hmin]. split.
      * destruct (Z.leb_spec x (Z.of_nat (List.length w))).
        -- exists w0. rewrite in_app_iff. split; [tauto|]. split; [exact H2|lia].
        -- exists w. rewrite in_app_iff. split; [cbn; tauto|]. split; [exact I|lia].
      * intros w1 Hw1 Hv1. apply in_app_or in Hw1 as [Hw1|[<-|[]]]; [specialize (Hmin w1 Hw1 Hv1); lia|lia].
    + split.
      * exists w. rewrite in_app_iff. cbn. tauto.
      * intros w1 Hw1 Hv1. apply in_app_or in Hw1 as [Hw1|[<-|[]]]; [destruct (Ho w1 Hw1 Hv1)|lia].
  - assert (NI : ~ In v w) by (intros X; apply (isin_in V v w HV Hv Hw) in X; congruence).
    destruct o as [x|]; cbn in *.
    + destruct Ho as [(w0 & H1 & H2 & H3) Hmin]. split; [exists w0; rewrite in_app_iff; tauto|].
      intros w1 Hw1 Hv1. apply in_app_or in Hw1 as [Hw1|[<-|[]]]; [now apply Hmin|easy].
    + intros w1 Hw1. apply in_app_or in Hw1 as [Hw1|[<-|[]]]; [now apply Ho|exact NI].
Qed.
Lemma walks2wmap_right V ws v : names V -> steps_in V ws -> V v -> right ws v (w_get (walks2wmap ws) v).
Proof.
  intros HV Hs Hv. unfold walks2wmap.
  assert (K : forall ws done m, steps_in V ws -> keys_in V m -> right done v (w_get m v) ->
    right (done ++ ws) v (w_get (fold_left walk2wmap ws m) v)).
  { clear ws Hs. induction ws as [|w ws IH]; intros done m Hs Hm R; cbn [fold_left]; [now rewrite app_nil_r|].
    assert (Hw : forall x, In x w -> V x) by (intros x Hx; apply (Hs w x); [now left|exact Hx]).
    destruct (walk_get V (Z.of_nat (List.length w)) w HV m v Hm Hv Hw) as [K G].
    replace (done ++ w :: ws) with ((done ++ [w]) ++ ws) by now rewrite <- app_assoc.
    apply IH; [intros w' x H1 H2; apply (Hs w' x); [now right|exact H2]|exact K|].
    unfold walk2wmap. rewrite G. now apply (right_snoc V). }
  apply (K ws [] []); [exact Hs|intros p []|]. cbn. auto.
Qed.
Lemma shortest_unique ws v n n' : shortest_through ws v n -> shortest_through ws v n' -> n = n'.
Proof.
  intros [(w & A & B & C) M] [(w' & A' & B' & C') M']. specialize (M w' A' B'). specialize (M' w A B). lia.
Qed.

(** every step that is not a seed lies on no shorter walk *)
Definition all_shortest (ws : list (list value)) (seeds w : list value) : Prop :=
  forall x, In x w -> In x seeds \/ shortest_through ws x (Z.of_nat (List.length w)).

Lemma valid_walk_ok V ws seeds w : names V -> steps_in V ws -> (forall x, In x seeds -> V x) -> In w ws ->
  exists b, valid_walk (walks2wmap ws) seeds w = Ok b /\ (b = true <-> all_shortest ws seeds w).
Proof.
  intros HV Hs Hse Hw. unfold valid_walk, all_shortest. set (n := Z.of_nat (List.length w)).
  assert (K : forall r, incl r w -> exists b, valid_walk_loop (walks2wmap ws) seeds n r = Ok b
     /\ (b = true <-> forall x, In x r -> In x seeds \/ shortest_through ws x n)).
  { induction r as [|x r IH]; intros Hr; cbn [valid_walk_loop].
    - exists true. split; [reflexivity|]. split; [intros _ x []|reflexivity].
    - assert (Hx : In x w) by (apply Hr; now left). assert (Vx : V x) by now apply (Hs w x).
      destruct IH as (b & E & Hb); [intros y Hy; apply Hr; now right|].
      unfold valid_step. destruct (isin x seeds) eqn:I; cbn [rbind].
      + apply (isin_in V x seeds HV Vx Hse) in I. exists b. split; [exact E|]. rewrite Hb. split; intros H y Hy; [|apply H; now right].
        destruct Hy as [<-|Hy]; [now left|now apply H].
      + assert (NI : ~ In x seeds) by (intros X; apply (isin_in V x seeds HV Vx Hse) in X; congruence).
        pose proof (walks2wmap_right V ws x HV Hs Vx) as R. destruct (w_get (walks2wmap ws) x) as [k|]; cbn in R; [|destruct (R w Hw Hx)].
        cbn [rbind]. destruct (Z.eqb_spec n k) as [->|D].
        * exists b. split; [exact E|]. rewrite Hb. split; intros H y Hy; [|apply H; now right].
          destruct Hy as [<-|Hy]; [now right|now apply H].
        * exists false. split; [reflexivity|]. split; [discriminate|]. intros H. exfalso.
          destruct (H x) as [X|X]; [now left|easy|]. apply D. exact (shortest_unique _ _ _ _ X R). }
  apply K. apply incl_refl.
Qed.

(** C48.  [ws]: any collection of walks; [v]: any vertex. *)
Theorem C48_shortest_walk_map :
  forall V ws seeds, names V -> steps_in V ws -> (forall x, In x seeds -> V x) ->
    (forall v n, V v -> w_get (walks2wmap ws) v = Some n <-> shortest_through ws v n)
    /\ (forall v, V v -> w_get (walks2wmap ws) v = None <-> forall w, In w ws -> ~ In v w)
    /\ exists kept, filterr (valid_walk (walks2wmap ws) seeds) ws = Ok kept
         /\ (forall w, In w kept <-> In w ws /\ all_shortest ws seeds w)
         /\ forall v w, V v -> ~ In v seeds -> (forall u, In u ws -> ~ In v u) ->
              valid_walk (walks2wmap ws) seeds (v :: w) = Err KeyError.
Proof.
  intros V ws seeds HV Hs Hse. split; [|split].
  - intros v n Hv. pose proof (walks2wmap_right V ws v HV Hs Hv) as R. destruct (w_get (walks2wmap ws) v) as [k|]; cbn in R.
    + split; [intros E; injection E as <-; exact R|]. intros H. f_equal. exact (shortest_unique _ _ _ _ R H).
    + split; [discriminate|]. intros [(w & A & B & _) _]. destruct (R w A B).
  - intros v Hv. pose proof (walks2wmap_right V ws v HV Hs Hv) as R. destruct (w_get (walks2wmap ws) v) as [k|]; cbn in R.
    + split; [discriminate|]. destruct R as [(w & A & B & _) _]. intros H. destruct (H w A B).
    + split; [intros _; exact R|reflexivity].
  - assert (K : forall l, incl l ws -> exists kept, filterr (valid_walk (walks2wmap ws) seeds) l = Ok kept
         /\ (forall w, In w kept <-> In w l /\ all_shortest ws seeds w)).
    { induction l as [|w l IH]; intros Hl; cbn [filterr].
      - exists []. split; [reflexivity|]. cbn. tauto.
      - destruct IH as (k & E & Hk); [intros y Hy; apply Hl; now right|].
        destruct (valid_walk_ok V ws seeds w HV Hs Hse) as (b & F & Hb); [apply Hl; now left|].
        rewrite F, E. cbn [rbind]. exists (if b then w :: k else k). split; [reflexivity|]. intros x. destruct b; cbn; rewrite Hk.
        + split; [|tauto]. intros [<-|H]; [|tauto]. split; [now left|]. now apply Hb.
        + split; [tauto|]. intros [[<-|H] A]; [|tauto]. apply Hb in A. discriminate. }
    destruct (K ws (incl_refl ws)) as (kept & E & H). exists kept. split; [exact E|]. split; [exact H|].
    intros v w Hv Hns Hnw. unfold valid_walk. cbn [valid_walk_loop]. unfold valid_step.
    pose proof (walks2wmap_right V ws v HV Hs Hv) as R. destruct (isin v seeds) eqn:I.
    + destruct Hns. now apply (isin_in V v seeds HV Hv Hse).
    + destruct (w_get (walks2wmap ws) v) as [k|]; cbn in R; [|reflexivity]. destruct R as [(u & A & B & _) _]. now destruct (Hnw u A).
Qed.
Print Assumptions C48_shortest_walk_map.
Definition wk (l : list string) : list value := List.map (fun s => VStr (lit s)) l.
Lemma plain_names : names (fun v => no_float v = true /\ db_vertex v = true).
Proof. split; [|tauto]. intros x y [H _] [H' _]. now apply no_float_eq. Qed.
Example C48_nonvacuous : let ws := [wk ["a"; "x"; "b"]; wk ["a"; "y"; "z"; "b"]; wk ["a"; "x"; "y"; "b"]]%string in
  steps_in (fun v => no_float v = true /\ db_vertex v = true) ws
  /\ w_get (walks2wmap ws) (VStr (lit "x")) = Some 3%Z /\ w_get (walks2wmap ws) (VStr (lit "y")) = Some 4%Z
  /\ filterr (valid_walk (walks2wmap ws) (wk ["a"; "b"]%string)) ws = Ok [wk ["a"; "x"; "b"]; wk ["a"; "y"; "z"; "b"]]%string.
Proof.
  split; [|repeat apply conj; vm_compute; reflexivity].
  intros w x Hw Hx. cbn in Hw. repeat (destruct Hw as [<-|Hw]; [cbn in Hx; repeat (destruct Hx as [<-|Hx]; [now split|]); easy|]). easy.
Qed.

(** ** C49: ego and intersect *)

(** every vertex of a map of neighbourhoods is a name *)
Theorem C49_ego_intersect_never_answer :
  (forall center depth c, (0 < depth)%Z -> exists x c', ego center depth c = (Err x, c', []) /\ c_work c' = c_work c /\ c_comm c' = c_comm c)
  /\ (forall V ops c a depth, noalias V -> reached V ops c -> db_atom a = true -> (0 < depth)%Z -> ego a depth c = (Err TypeError, c, []))
  /\ (forall center depth c, (depth <= 0)%Z -> ego center depth c = (Ok VNone, c, []))
  /\ (forall ord seeds c, exists x c', intersect ord seeds c = (Err x, c', []) /\ c_work c' = c_work c /\ c_comm c' = c_comm c).
Proof.
  assert (S : forall center c, exists r c', star center c = (r, c', []) /\ c_work c' = c_work c /\ c_comm c' = c_comm c).
  { intros center c. unfold star, str2perms. destruct (str_plus_1 (edge2str center ++ [c_space])) as [e|x]; cbn [lift]; [|now exists (Err x), c].
    rewrite bind_ret_l. rewrite bind_open. unfold bind at 1. unfold query at 1. destruct (negb (usable (hd_of c) c)); [now exists (Err ProgrammingError), c|].
    destruct (negb (forallb bindable [edge2str center ++ [c_space]; e])); [now exists (Err UnicodeEncodeError), c|].
    destruct (cur2edges _) as [l|x]; cbn [lift]; [|now exists (Err x), c]. rewrite bind_ret_l.
    unfold close_cursor, bind, get_cur, close_handle, ret, set_cur. unfold hd_of. destruct (c_cur c) eqn:E; cbn; now exists (Ok (py_set l)), c. }
  assert (E : forall center depth c, (0 < depth)%Z -> exists x c', ego center depth c = (Err x, c', []) /\ c_work c' = c_work c /\ c_comm c' = c_comm c).
  { intros center depth c Hd. unfold ego. apply Z.ltb_lt in Hd as ->. unfold bind. destruct (S center c) as (r & c' & G & Hc). rewrite G.
    destruct r as [l|x]; [exists TypeError|exists x]; now exists c'. }
  split; [exact E|]. split; [|split].
  - intros V ops c a depth HV Hr Ha Hd. destruct (ready_star V c _ a HV (reached_ready V ops c HV Hr) Ha) as (l & G & _).
    unfold ego. apply Z.ltb_lt in Hd as ->. unfold bind. now rewrite G.
  - intros center depth c Hd. unfold ego. apply Z.ltb_ge in Hd as ->. reflexivity.
  - intros ord seeds c. destruct seeds as [|s seeds].
    + exists IndexError, c. split; [reflexivity|now split].
    + destruct (E s 2%Z c) as (x & c' & G & Hc); [lia|]. exists x, c'. split; [|exact Hc].
      unfold intersect. cbn [mmap]. unfold bind at 1. unfold bind at 1. unfold node2edges at 1. unfold bind at 1. now rewrite G.
Qed.
Print Assumptions C49_ego_intersect_never_answer.
(** a hypergraph in which the neighbourhood is not empty *)
Example C49_nonvacuous : reached plain_values ex_ops ex_c /\ db_atom (VStr (lit "mary")) = true
  /\ fst (fst (star (VStr (lit "mary")) ex_c)) = Ok [ex_e2; ex_e4; ex_e3].
Proof. split; [exact ex_reached|]. split; vm_compute; reflexivity. Qed.

(** ** C58: the walk search *)

(** The walks the search visits: extend, by a neighbour of the last node that is
    not on the walk yet, walks that do not cover the seeds yet. *)
Definition covers (nodes w : list value) : Prop := incl nodes w.
Inductive visited (m : vemap) (nodes start : list value) : list value -> Prop :=
| vis_start : visited m nodes start start
| vis_step w x ns v : visited m nodes start (w ++ [x]) -> ~ covers nodes (w ++ [x]) ->
    ve_neighbours m x = Ok ns -> In v ns -> ~ In v (w ++ [x]) -> visited m nodes start ((w ++ [x]) ++ [v]).
Definition map_in (V : value -> Prop) (m : vemap) : Prop :=
  forall k es ns x, In (k, (es, ns)) m -> In x ns -> V x.

Lemma visited_trans m nodes a b c : visited m nodes a b -> visited m nodes b c -> visited m nodes a c.
Proof. intros H. induction 1; [exact H|]. econstructor; eassumption. Qed.
Lemma visited_extends m nodes a b : visited m nodes a b -> exists r, b = a ++ r.
Proof.
  induction 1 as [|w x ns v _ (r & E) _ _ _ _]; [exists []; now rewrite app_nil_r|]. exists (r ++ [v]). rewrite E. now rewrite <- app_assoc.
Qed.
(** the first step of a longer walk *)
Lemma visited_first m nodes w x b : visited m nodes (w ++ [x]) b -> b = w ++ [x] \/
  (~ covers nodes (w ++ [x]) /\ exists ns v, ve_neighbours m x = Ok ns /\ In v ns /\ ~ In v (w ++ [x])
     /\ visited m nodes ((w ++ [x]) ++ [v]) b).
Proof.
  induction 1 as [|w' x' ns v H IH Hc Hn Hv Hi]; [now left|]. right. destruct IH as [E|(C & ns' & v' & A1 & A2 & A3 & A4)].
  - apply app_inj_tail in E as [-> ->]. split; [exact Hc|]. exists ns, v. split; [exact Hn|]. split; [exact Hv|]. split; [exact Hi|]. constructor.
  - split; [exact C|]. exists ns', v'. split; [exact A1|]. split; [exact A2|]. split; [exact A3|]. econstructor; eassumption.
Qed.

Lemma ve_in m v ns : ve_neighbours m v = Ok ns -> exists k es, In (k, (es, ns)) m.
Proof.
  unfold ve_neighbours, ve_get. destruct (find _ m) as [[k [es ns']]|] eqn:F; cbn; [|discriminate]. intros E. injection E as <-.
  apply find_some in F as [F _]. eauto.
Qed.
Definition room (m : vemap) (walk : list value) : nat :=
  List.length (filter (fun x => negb (isin x walk)) (flat_map (fun p => snd (snd p)) m)).
Lemma filter_le {A} (f g : A -> bool) l : (forall x, f x = true -> g x = true) -> (List.length (filter f l) <= List.length (filter g l))%nat.
Proof.
  intros H. induction l as [|a l IH]; cbn; [lia|]. destruct (f a) eqn:E.
  - rewrite (H a E). cbn. lia.
  - destruct (g a); cbn; lia.
Qed.
Lemma filter_lt {A} (f g : A -> bool) l a : (forall x, f x = true -> g x = true) -> In a l -> f a = false -> g a = true ->
  (List.length (filter f l) < List.length (filter g l))%nat.
Proof.
  intros H Ha F G. induction l as [|b l IH]; [easy|]. cbn. destruct Ha as [->|Ha].
  - rewrite F, G. cbn. pose proof (filter_le f g l H). lia.
  - specialize (IH Ha). destruct (f b) eqn:E.
    + rewrite (H b E). cbn. lia.
    + destruct (g b); cbn; lia.
Qed.
Lemma room_step V m walk v : names V -> V v -> (exists k es ns, In (k, (es, ns)) m /\ In v ns) ->
  isin v walk = false -> (room m (walk ++ [v]) < room m walk)%nat.
Proof.
  intros HV Hv (k & es & ns & Hm & Hn) Hi. unfold room. apply (filter_lt _ _ _ v).
  - intros x. rewrite !negb_true_iff. unfold isin. rewrite existsb_app. now intros [H _]%orb_false_iff.
  - apply in_flat_map. exists (k, (es, ns)). now split.
  - rewrite negb_false_iff. unfold isin. rewrite existsb_app. cbn. rewrite (proj2 (names_eq V v v HV Hv Hv) eq_refl). now rewrite orb_true_r.
  - now rewrite negb_true_iff.
Qed.
Lemma mapr_ok_unit {A} (f : A -> res unit) l : (exists r, mapr f l = Ok r) <-> forall x, In x l -> f x = Ok tt.
Proof.
  induction l as [|a l IH]; cbn.
  - split; [intros _ x []|intros _; now exists []].
  - split.
    + intros (r & E). destruct (f a) as [[]|e] eqn:F; [|discriminate]. cbn in E. destruct (mapr f l) as [r'|e]; [|discriminate].
      intros x [<-|Hx]; [exact F|]. apply IH; [now exists r'|exact Hx].
    + intros H. rewrite (H a) by now left. cbn. destruct (proj2 IH) as (r & ->); [intros x Hx; apply H; now right|]. now eexists.
Qed.
Lemma mapr_err_unit {A} (f : A -> res unit) l e : mapr f l = Err e -> exists x, In x l /\ f x = Err e.
Proof.
  induction l as [|a l IH]; cbn; [discriminate|]. destruct (f a) as [[]|e'] eqn:F; cbn.
  - destruct (mapr f l) as [r'|e']; [discriminate|]. intros E. injection E as ->. destruct (IH eq_refl) as (x & H1 & H2). exists x. split; [now right|exact H2].
  - intros E. injection E as ->. exists a. split; [now left|exact F].
Qed.

(** what the search finds *)
Definition found (m : vemap) (nodes start : list value) : Prop := exists b, visited m nodes start b /\ covers nodes b.
Definition stuck (m : vemap) (nodes start : list value) : Prop :=
  exists w x, visited m nodes start (w ++ [x]) /\ ~ covers nodes (w ++ [x]) /\ ve_neighbours m x = Err KeyError.

Lemma walks_f_ok V ord m nodes : names V -> map_in V m -> (forall x, In x nodes -> V x) -> (forall l, Permutation (ord l) l) ->
  forall fuel w x, (forall y, In y (w ++ [x]) -> V y) -> (room m (w ++ [x]) < fuel)%nat ->
  match walks_f ord fuel m nodes (w ++ [x]) with
  | Ok _ => ~ found m nodes (w ++ [x]) /\ ~ stuck m nodes (w ++ [x])
  | Err TypeError => found m nodes (w ++ [x])
  | Err KeyError => stuck m nodes (w ++ [x])
  | Err _ => False
  end.
Proof.
  intros HV Hm Hn Ho. induction fuel as [|fuel IH]; intros w x Hw Hf; [lia|]. cbn [walks_f].
  destruct (forallb (fun n => isin n (w ++ [x])) nodes) eqn:C.
  - exists (w ++ [x]). split; [constructor|]. intros n Hin. rewrite forallb_forall in C. now apply (isin_in V n _ HV (Hn n Hin) Hw), C.
  - assert (NC : ~ covers nodes (w ++ [x])).
    { intros X. assert (forallb (fun n => isin n (w ++ [x])) nodes = true); [|congruence]. apply forallb_forall. intros n Hin.
      apply (isin_in V n _ HV (Hn n Hin) Hw). now apply X. }
    rewrite rev_app_distr. cbn [rev app].
    destruct (ve_neighbours m x) as [ns|e] eqn:E; cbn [rbind].
    2:{ assert (e = KeyError) as -> by (unfold ve_neighbours in E; destruct (ve_get m x) as [[? ?]|]; congruence).
        exists w, x. split; [constructor|]. now split. }
    destruct (ve_in _ _ _ E) as (k & es & Hk).
    assert (St : forall v, In v (filter (fun n => negb (isin n (w ++ [x]))) (ord ns)) <-> In v ns /\ ~ In v (w ++ [x])).
    { intros v. rewrite filter_In, negb_true_iff. split.
      - intros [H1 H2]. apply (Permutation_in _ (Ho ns)) in H1. split; [exact H1|]. intros X.
        apply (isin_in V v _ HV (Hm _ _ _ _ Hk H1) Hw) in X. congruence.
      - intros [H1 H2]. split; [apply (Permutation_in _ (Permutation_sym (Ho ns))), H1|]. apply not_true_iff_false. intros X.
        apply H2. apply (isin_in V v _ HV (Hm _ _ _ _ Hk H1) Hw), X. }
    assert (R : forall v, In v ns /\ ~ In v (w ++ [x]) ->
      match walks_f ord fuel m nodes ((w ++ [x]) ++ [v]) with
      | Ok _ => ~ found m nodes ((w ++ [x]) ++ [v]) /\ ~ stuck m nodes ((w ++ [x]) ++ [v])
      | Err TypeError => found m nodes ((w ++ [x]) ++ [v])
      | Err KeyError => stuck m nodes ((w ++ [x]) ++ [v])
      | Err _ => False
      end).
    { intros v [Hv Hi]. assert (Vv : V v) by exact (Hm _ _ _ _ Hk Hv). apply IH.
      - intros y Hy. apply in_app_or in Hy as [Hy|[<-|[]]]; [now apply Hw|exact Vv].
      - assert (isin v (w ++ [x]) = false) by (apply not_true_iff_false; intros X; apply Hi, (isin_in V v _ HV Vv Hw), X).
        pose proof (room_step V m (w ++ [x]) v HV Vv) as L. specialize (L ltac:(exists k, es, ns; now split) H). lia. }
    assert (Ext : forall v b, In v ns -> ~ In v (w ++ [x]) -> visited m nodes ((w ++ [x]) ++ [v]) b -> visited m nodes (w ++ [x]) b).
    { intros v b Hv Hi Hb. eapply visited_trans; [|exact Hb]. apply (vis_step _ _ _ w x ns v); [constructor|exact NC|exact E|exact Hv|exact Hi]. }
    destruct (mapr _ _) as [r|e] eqn:F; cbn [rbind].
    + assert (A : forall v, In v ns /\ ~ In v (w ++ [x]) -> walks_f ord fuel m nodes ((w ++ [x]) ++ [v]) = Ok tt).
      { intros v Hv. apply St in Hv. exact (proj1 (mapr_ok_unit _ _) (ex_intro _ r F) v Hv). }
      split.
      * intros (b & Hb & Cb). destruct (visited_first _ _ _ _ _ Hb) as [->|(_ & ns' & v & A1 & A2 & A3 & A4)]; [easy|].
        assert (ns' = ns) as -> by congruence. specialize (R v (conj A2 A3)). rewrite (A v (conj A2 A3)) in R. apply (proj1 R). now exists b.
      * intros (w' & x' & Hb & Cb & Kb). destruct (visited_first _ _ _ _ _ Hb) as [Eb|(_ & ns' & v & A1 & A2 & A3 & A4)].
        -- apply app_inj_tail in Eb as [-> ->]. congruence.
        -- assert (ns' = ns) as -> by congruence. specialize (R v (conj A2 A3)). rewrite (A v (conj A2 A3)) in R. apply (proj2 R). now exists w', x'.
    + apply mapr_err_unit in F as (v & Hv & F). apply St in Hv. specialize (R v Hv). rewrite F in R.
      destruct e; try easy.
      * destruct R as (b & Hb & Cb). exists b. split; [exact (Ext v b (proj1 Hv) (proj2 Hv) Hb)|exact Cb].
      * destruct R as (w' & x' & Hb & Cb & Kb). exists w', x'. split; [exact (Ext v _ (proj1 Hv) (proj2 Hv) Hb)|now split].
Qed.

(** C58.  The search always ends; it raises TypeError only if a walk covering the
    seeds is there, KeyError only if it meets a vertex without an entry, and returns
    normally (having found nothing) only if neither is there; so a covering walk,
    if there is one, is never missed silently. *)
Theorem C58_walk_search :
  forall V ord m nodes x, names V -> map_in V m -> (forall y, In y nodes -> V y) -> V x -> (forall l, Permutation (ord l) l) ->
    match walks ord m nodes [x] with
    | Ok _ => ~ found m nodes [x] /\ ~ stuck m nodes [x]
    | Err TypeError => found m nodes [x]
    | Err KeyError => stuck m nodes [x]
    | Err _ => False
    end.
Proof.
  intros V ord m nodes x HV Hm Hn Hx Ho. unfold walks. apply (walks_f_ok V ord m nodes HV Hm Hn Ho _ [] x).
  - intros y [<-|[]]. exact Hx.
  - unfold walk_budget, room. apply Nat.lt_succ_r.
    assert (F : forall (f : value -> bool) l, (List.length (filter f l) <= List.length l)%nat).
    { intros f. induction l as [|a l IH]; cbn; [lia|]. destruct (f a); cbn; lia. }
    apply F.
Qed.
Print Assumptions C58_walk_search.
(** started from nothing it raises IndexError, unless there is nothing to find *)
Theorem C58_walk_search_from_nothing :
  forall ord m nodes, walks ord m nodes [] = Err (match nodes with [] => TypeError | _ => IndexError end).
Proof. intros ord m [|n nodes]; reflexivity. Qed.
Print Assumptions C58_walk_search_from_nothing.
Definition c58_map : vemap :=
  let v s := VStr (lit s) in
  [(v "a", ([], [v "b"; v "c"])); (v "b", ([], [v "a"; v "d"])); (v "c", ([], [v "a"])); (v "d", ([], [v "b"]))]%string.
Example C58_nonvacuous :
  map_in (fun v => no_float v = true /\ db_vertex v = true) c58_map
  /\ walks (fun l => l) c58_map (wk ["a"; "d"]%string) [VStr (lit "a")] = Err TypeError
  /\ walks (fun l => l) c58_map (wk ["c"; "d"]%string) [VStr (lit "a")] = Ok tt.
Proof.
  split; [|split; vm_compute; reflexivity]. intros k es ns x Hp Hx. cbn in Hp.
  repeat (destruct Hp as [Hp|Hp]; [injection Hp as <- <- <-; cbn in Hx; repeat (destruct Hx as [<-|Hx]; [now split|]); easy|]). easy.
Qed.

(** ** C59: hubs are left out *)

(** include_edge answers False exactly when an element after the first has more
    than 250 incidences. *)
Theorem C59_include_edge :
  forall V ops c e rest E, noalias V -> reached V ops c -> Forall (fun v => db_atom v = true) rest ->
    NoDup E -> (forall x, In x E <-> present (history ops) x) ->
    exists b, include_edge (e :: rest) c = (Ok b, c, [])
      /\ (b = false <-> exists v, In v rest /\ (250 < occurrences v E)%nat).
Proof.
  intros V ops c e rest E HV Hr Hrest HE HEi. unfold include_edge, exclude_edge. cbn [tl].
  assert (K : exists b, exclude_loop rest c = (Ok b, c, []) /\ (b = true <-> exists v, In v rest /\ (250 < occurrences v E)%nat)).
  { induction Hrest as [|v rest Hv Hrest IH]; cbn [exclude_loop].
    - exists false. split; [reflexivity|]. split; [discriminate|]. intros (v & [] & _).
    - destruct IH as (b & G & Hb). unfold bind. rewrite (C18_degree_of_atom V ops c v E HV Hr Hv HE HEi).
      destruct (Z.ltb_spec 250 (Z.of_nat (occurrences v E))) as [L|L].
      + exists true. split; [reflexivity|]. split; [intros _|reflexivity]. exists v. split; [now left|lia].
      + rewrite G. exists b. split; [reflexivity|]. rewrite Hb. split.
        * intros (u & Hu & X). exists u. split; [now right|exact X].
        * intros (u & [<-|Hu] & X); [lia|]. now exists u. }
  destruct K as (b & G & Hb). exists (negb b). unfold bind. rewrite G. split; [reflexivity|]. rewrite <- Hb. destruct b; easy.
Qed.
Print Assumptions C59_include_edge.
Definition c59_es : list value := List.map (fun i => VTup [VInt (Z.of_nat i); VStr (lit "hub")]) (seq 0 251).
Definition c59_ops : list op := [OAddMany c59_es 1; OAdd ex_e1 2].
(** [stored], evaluated once per event *)
Fixpoint stored1 (h : list ev) : list value :=
  match h with
  | [] => []
  | EAdd e _ :: h' => let s := stored1 h' in if memb e s then s else e :: s
  | ERem e :: h' => filter (fun x => negb (veqb e x)) (stored1 h')
  | EDestroy :: _ => []
  end.
Lemma stored1_eq h : stored1 h = stored h.
Proof. induction h as [|[e t|e|] h IH]; cbn; rewrite ?IH; reflexivity. Qed.
Example C59_nonvacuous : exists c, reached plain_values c59_ops c /\ NoDup (stored (history c59_ops))
  /\ occurrences (VStr (lit "hub")) (stored (history c59_ops)) = 251%nat
  /\ (exists b, include_edge [VInt 5; VStr (lit "hub")] c = (b, c, []) /\ b = Ok false)
  /\ (exists b, include_edge (elems ex_e1) c = (b, c, []) /\ b = Ok true).
Proof.
  assert (Hin : Forall (op_in plain_values) c59_ops).
  { apply Forall_cons; [|apply Forall_cons; [|apply Forall_nil]].
    - split; [|reflexivity]. split; [discriminate|]. apply Forall_forall. intros e He. apply edge_inb_ok. revert e He. apply forallb_forall. vm_compute. reflexivity.
    - edge_ok. }
  destruct (reachable_ready (fun l => l) plain_values false c59_ops plain_noalias (fun l => Permutation_refl l) Hin) as (c & tr & H & _).
  assert (Hr : reached plain_values c59_ops c).
  { exists (fun l => l), false, tr. split; [intros l; apply Permutation_refl|]. split; [exact Hin|exact H]. }
  exists c. split; [exact Hr|]. split; [apply stored_nodup|].
  assert (O : occurrences (VStr (lit "hub")) (stored (history c59_ops)) = 251%nat) by (rewrite <- stored1_eq; vm_compute; reflexivity).
  split; [exact O|]. split.
  - destruct (C59_include_edge plain_values c59_ops c (VInt 5) [VStr (lit "hub")] (stored (history c59_ops)) plain_noalias Hr) as (b & E & Hb).
    + apply Forall_cons; [reflexivity|apply Forall_nil].
    + apply stored_nodup.
    + intros x. apply stored_present.
    + exists (Ok b). split; [exact E|]. f_equal. apply Hb. exists (VStr (lit "hub")). split; [now left|]. rewrite O. lia.
  - destruct (C59_include_edge plain_values c59_ops c (VStr (lit "is/1")) [VStr (lit "graphbrain/1"); VStr (lit "great/1")] (stored (history c59_ops)) plain_noalias Hr) as (b & E & Hb).
    + apply Forall_cons; [reflexivity|apply Forall_cons; [reflexivity|apply Forall_nil]].
    + apply stored_nodup.
    + intros x. apply stored_present.
    + exists (Ok b). split; [exact E|]. f_equal. destruct b; [reflexivity|]. exfalso. destruct (proj1 Hb eq_refl) as (v & [<-|[<-|[]]] & L).
      * assert (X : occurrences (VStr (lit "graphbrain/1")) (stored (history c59_ops)) = 1%nat) by (rewrite <- stored1_eq; vm_compute; reflexivity). rewrite X in L. lia.
      * assert (X : occurrences (VStr (lit "great/1")) (stored (history c59_ops)) = 1%nat) by (rewrite <- stored1_eq; vm_compute; reflexivity). rewrite X in L. lia.
Qed.

(** ** C63: the neighbour map and the edges between *)

(** edges2vemap looks the neighbours up under the built-in function id: with a
    non-empty edge in the list it raises KeyError, otherwise it returns its map. *)
Theorem C63_neighbour_map m edges :
  ((exists e, In e edges /\ e <> []) -> edges2vemap m edges = Err KeyError)
  /\ ((forall e, In e edges -> e = []) -> edges2vemap m edges = Ok m).
Proof.
  induction edges as [|e edges [IH1 IH2]]; split.
  - intros (e & [] & _).
  - reflexivity.
  - intros (e' & Hi & Hn). destruct e as [|v e]; [|reflexivity]. unfold edges2vemap in *. cbn. apply IH1. destruct Hi as [<-|Hi]; [easy|]. now exists e'.
  - intros H. rewrite (H e (or_introl eq_refl)). unfold edges2vemap in *. cbn. apply IH2. intros e' Hi. apply H. now right.
Qed.
(** interedge keeps exactly the edges all of whose elements after the first are in the set. *)
Theorem C63_interedge V c rest s : names V -> (forall x, In x rest -> V x) -> (forall x, In x s -> V x) ->
  interedge (c :: rest) s = true <-> (forall x, In x rest -> In x s).
Proof.
  intros HV Hr Hs. unfold interedge. cbn [tl]. rewrite forallb_forall. split; intros H x Hx.
  - apply (isin_in V x s HV (Hr x Hx) Hs). now apply H.
  - apply (isin_in V x s HV (Hr x Hx) Hs). now apply H.
Qed.
Example C63_nonvacuous :
  edges2vemap [] [[]; wk ["is"; "a"; "b"]%string] = Err KeyError /\ edges2vemap c58_map [[]; []] = Ok c58_map
  /\ interedge (wk ["is"; "a"; "b"]%string) (wk ["b"; "a"]%string) = true /\ interedge (wk ["is"; "a"; "b"]%string) (wk ["is"; "a"]%string) = false.
Proof. now repeat split. Qed.
