(** * P_ops.v -- writing operations as sequences of table updates *)

From Verif Require Import Py M_symbol M_edge M_sql P_py Spec P_edge P_perm P_range P_query S_history.
From Coq Require Import Permutation Factorial String.
Open Scope list_scope.

(** ** structural equality *)

Lemma feqb_eq f g : feqb f g = true <-> f = g.
Proof.
  destruct f as [n m e|n|], g as [n' m' e'|n'|]; cbn; try (split; [easy|discriminate]).
  - rewrite !andb_true_iff, Bool.eqb_true_iff, N.eqb_eq, Z.eqb_eq.
    split; [intros [[-> ->] ->]; reflexivity|intros [= -> -> ->]; auto].
  - rewrite Bool.eqb_true_iff. split; [now intros ->|now intros [= ->]].
  - now split.
Qed.
Lemma veqb_eq a : forall b, veqb a b = true <-> a = b.
Proof.
  induction a as [|s|z|f|l IH] using value_nested_ind; intros b; destruct b as [|s'|z'|f'|m]; cbn [veqb];
    try (split; [easy|discriminate]).
  - now split.
  - rewrite str_eqb_eq. split; [now intros ->|now intros [= ->]].
  - rewrite Z.eqb_eq. split; [now intros ->|now intros [= ->]].
  - rewrite feqb_eq. split; [now intros ->|now intros [= ->]].
  - revert m. induction IH as [|x l Hx _ IHl]; intros [|y m]; try (split; [easy|discriminate]).
    + now split.
    + rewrite andb_true_iff, Hx, IHl. split; [intros [-> E]; congruence|intros [= -> ->]; auto].
Qed.
Lemma veqb_refl a : veqb a a = true.
Proof. now apply veqb_eq. Qed.
Lemma veqb_neq a b : veqb a b = false <-> a <> b.
Proof. rewrite <- veqb_eq. destruct (veqb a b); split; congruence. Qed.
Lemma veqb_sym a b : veqb a b = veqb b a.
Proof.
  destruct (veqb a b) eqn:E.
  - apply veqb_eq in E as ->. now rewrite veqb_refl.
  - symmetry. apply veqb_neq. apply veqb_neq in E. congruence.
Qed.
Lemma memb_in v l : memb v l = true <-> In v l.
Proof.
  unfold memb. rewrite existsb_exists. split.
  - intros (x & H & E). now apply veqb_eq in E as ->.
  - intros H. exists v. split; [exact H|apply veqb_refl].
Qed.
Lemma memb_nin v l : memb v l = false <-> ~ In v l.
Proof. rewrite <- memb_in. destruct (memb v l); split; congruence. Qed.

Lemma count_0 v l : ~ In v l -> count v l = O.
Proof.
  induction l as [|x l IH]; intros H; [reflexivity|]. cbn.
  destruct (veqb v x) eqn:E; [apply veqb_eq in E as ->; exfalso; apply H; now left|].
  apply IH. intros Hl. apply H. now right.
Qed.
Lemma count_pos v l : In v l -> (0 < count v l)%nat.
Proof.
  induction l as [|x l IH]; [easy|]. intros [->|H]; cbn; [rewrite veqb_refl; lia|].
  apply IH in H. lia.
Qed.

(** ** the stored set *)

Lemma stored_nodup h : NoDup (stored h).
Proof.
  induction h as [|[e t|e|] h IH]; cbn.
  - constructor.
  - destruct (memb e (stored h)) eqn:E; [exact IH|]. constructor; [now apply memb_nin|exact IH].
  - now apply NoDup_filter.
  - constructor.
Qed.
Lemma stored_add e t h x : In x (stored (EAdd e t :: h)) <-> x = e \/ In x (stored h).
Proof.
  cbn. destruct (memb e (stored h)) eqn:E.
  - apply memb_in in E. split; [tauto|]. now intros [->|H].
  - cbn. split; [intros [->|H]; tauto|]. intros [->|H]; tauto.
Qed.
Lemma stored_rem e h x : In x (stored (ERem e :: h)) <-> x <> e /\ In x (stored h).
Proof.
  cbn. rewrite filter_In, negb_true_iff, veqb_neq. split; intros [A B]; split; auto.
Qed.
Lemma filter_id {A} (f : A -> bool) l : (forall x, In x l -> f x = true) -> filter f l = l.
Proof.
  induction l as [|x l IH]; intros H; [reflexivity|]. cbn. rewrite (H x ltac:(now left)).
  f_equal. apply IH. intros y Hy. apply H. now right.
Qed.
Lemma stored_rem_absent e h : ~ In e (stored h) -> stored (ERem e :: h) = stored h.
Proof.
  intros H. cbn. apply filter_id. intros x Hx. apply negb_true_iff, veqb_neq. intros ->. easy.
Qed.

(** ** table updates *)

Definition set_row (id : str) (x : Z * Z) (w : db) : db :=
  if existsb (vkey id) (vertices w)
  then Db (List.map (fun r => if vkey id r then (id, x) else r) (vertices w)) (perms w)
  else Db (vertices w ++ [(id, x)]) (perms w).
Definition inc_row (id : str) (k : Z) (w : db) : db :=
  Db (List.map (fun r => if vkey id r then (fst r, (fst (snd r) + k, snd (snd r))%Z) else r) (vertices w))
     (perms w).
Definition del_row (id : str) (w : db) : db :=
  Db (filter (fun r => negb (vkey id r)) (vertices w)) (perms w).
Definition ins_perm (r : str) (w : db) : db :=
  if existsb (str_eqb r) (perms w) then w else Db (vertices w) (perms w ++ [r]).
Definition del_perm (r : str) (w : db) : db :=
  Db (vertices w) (filter (fun x => negb (str_eqb r x)) (perms w)).
Definition touch (id : str) (t : Z) (w : db) : db :=
  match vlook id w with Some _ => inc_row id 1 w | None => set_row id (1%Z, t) w end.

Lemma vkey_eq id r : vkey id r = true <-> fst r = id.
Proof. unfold vkey. rewrite str_eqb_eq. split; congruence. Qed.

Lemma vlook_some id w : existsb (vkey id) (vertices w) = true <-> vlook id w <> None.
Proof.
  unfold vlook. induction (vertices w) as [|r l IH]; cbn; [easy|].
  destruct (vkey id r); cbn; [easy|exact IH].
Qed.
Lemma vlook_none id w : existsb (vkey id) (vertices w) = false <-> vlook id w = None.
Proof.
  destruct (existsb (vkey id) (vertices w)) eqn:E.
  - apply vlook_some in E. split; congruence.
  - split; [|easy]. intros _. destruct (vlook id w) eqn:L; [|reflexivity].
    assert (H : vlook id w <> None) by congruence. apply vlook_some in H. congruence.
Qed.
Lemma vlook_in id w : vlook id w <> None <-> In id (List.map fst (vertices w)).
Proof.
  rewrite <- vlook_some, existsb_exists, in_map_iff. split.
  - intros (r & H & E). apply vkey_eq in E. now exists r.
  - intros (r & E & H). exists r. split; [exact H|now apply vkey_eq].
Qed.

Lemma vlook_set id x w id' : vlook id' (set_row id x w) = if str_eqb id' id then Some x else vlook id' w.
Proof.
  unfold set_row. destruct (existsb (vkey id) (vertices w)) eqn:E; unfold vlook in *; cbn [vertices].
  - induction (vertices w) as [|r l IH]; [easy|]. cbn in E. cbn [List.map find].
    destruct (vkey id r) eqn:K; cbn [orb] in E.
    + cbn [vkey fst]. unfold vkey at 1. cbn [fst]. rewrite (str_eqb_sym id' id), (str_eqb_sym id id').
      destruct (str_eqb id' id) eqn:I; [reflexivity|].
      apply vkey_eq in K. assert (K' : vkey id' r = false).
      { unfold vkey. now rewrite K. }
      rewrite K'. clear IH E. induction l as [|r2 l IH]; [reflexivity|]. cbn [List.map find].
      destruct (vkey id r2) eqn:K2.
      * unfold vkey at 1. cbn [fst]. rewrite I. apply vkey_eq in K2.
        assert (K2' : vkey id' r2 = false) by (unfold vkey; now rewrite K2). rewrite K2'. exact IH.
      * destruct (vkey id' r2); [reflexivity|exact IH].
    + destruct (vkey id' r) eqn:K'.
      * destruct (str_eqb id' id) eqn:I; [|reflexivity]. apply str_eqb_eq in I as ->. congruence.
      * now apply IH.
  - induction (vertices w) as [|r l IH]; cbn [app find].
    + unfold vkey. cbn [fst]. destruct (str_eqb id' id); reflexivity.
    + cbn in E. apply orb_false_iff in E as [E1 E2]. destruct (vkey id' r) eqn:K'.
      * destruct (str_eqb id' id) eqn:I; [|reflexivity]. apply str_eqb_eq in I as ->. congruence.
      * now apply IH.
Qed.

Lemma vlook_inc id k w id' : vlook id' (inc_row id k w) =
  if str_eqb id' id then option_map (fun x => (fst x + k, snd x)%Z) (vlook id' w) else vlook id' w.
Proof.
  unfold inc_row, vlook. cbn [vertices]. induction (vertices w) as [|r l IH]; cbn [List.map find].
  - now destruct (str_eqb id' id).
  - destruct (vkey id r) eqn:K.
    + assert (F : vkey id' (fst r, (fst (snd r) + k, snd (snd r))%Z) = vkey id' r) by reflexivity.
      rewrite F. apply vkey_eq in K.
      assert (G : vkey id' r = str_eqb id' id) by (unfold vkey; now rewrite K). rewrite G.
      destruct (str_eqb id' id) eqn:I; [reflexivity|exact IH].
    + destruct (vkey id' r) eqn:K'.
      * destruct (str_eqb id' id) eqn:I; [|reflexivity]. apply str_eqb_eq in I as ->. congruence.
      * exact IH.
Qed.

Lemma vlook_del id w id' : vlook id' (del_row id w) = if str_eqb id' id then None else vlook id' w.
Proof.
  unfold del_row, vlook. cbn [vertices]. induction (vertices w) as [|r l IH]; cbn [filter find].
  - now destruct (str_eqb id' id).
  - destruct (vkey id r) eqn:K; cbn [negb].
    + rewrite IH. apply vkey_eq in K. unfold vkey at 2. rewrite K. destruct (str_eqb id' id); reflexivity.
    + cbn [find]. destruct (vkey id' r) eqn:K'.
      * destruct (str_eqb id' id) eqn:I; [|reflexivity]. apply str_eqb_eq in I as ->. congruence.
      * exact IH.
Qed.

Lemma vlook_touch id t w id' : vlook id' (touch id t w) =
  if str_eqb id' id then match vlook id w with Some (d, s) => Some (d + 1, s)%Z | None => Some (1%Z, t) end
  else vlook id' w.
Proof.
  unfold touch. destruct (vlook id w) as [[d s]|] eqn:L.
  - rewrite vlook_inc. destruct (str_eqb id' id) eqn:I; [|reflexivity].
    apply str_eqb_eq in I as ->. now rewrite L.
  - apply vlook_set.
Qed.

Lemma vlook_ins_perm r w id : vlook id (ins_perm r w) = vlook id w.
Proof. unfold ins_perm. now destruct (existsb _ _). Qed.
Lemma vlook_del_perm r w id : vlook id (del_perm r w) = vlook id w.
Proof. reflexivity. Qed.

Lemma perms_set id x w : perms (set_row id x w) = perms w.
Proof. unfold set_row. now destruct (existsb _ _). Qed.
Lemma perms_inc id k w : perms (inc_row id k w) = perms w.
Proof. reflexivity. Qed.
Lemma perms_del id w : perms (del_row id w) = perms w.
Proof. reflexivity. Qed.
Lemma perms_touch id t w : perms (touch id t w) = perms w.
Proof. unfold touch. destruct (vlook id w); [reflexivity|apply perms_set]. Qed.

Lemma in_ins_perm r w x : In x (perms (ins_perm r w)) <-> x = r \/ In x (perms w).
Proof.
  unfold ins_perm. destruct (existsb (str_eqb r) (perms w)) eqn:E.
  - apply existsb_exists in E as (y & Hy & E). apply str_eqb_eq in E as ->.
    split; [tauto|]. now intros [->|H].
  - cbn. rewrite in_app_iff. cbn. split; [intros [H|[H|[]]]; auto|intros [->|H]; tauto].
Qed.
Lemma nodup_ins_perm r w : NoDup (perms w) -> NoDup (perms (ins_perm r w)).
Proof.
  unfold ins_perm. intros N. destruct (existsb (str_eqb r) (perms w)) eqn:E; [exact N|]. cbn.
  apply NoDup_app; [exact N|repeat constructor; easy|].
  intros x Hx [<-|[]]. assert (existsb (str_eqb r) (perms w) = true); [|congruence].
  apply existsb_exists. exists r. split; [exact Hx|apply str_eqb_refl].
Qed.
Lemma in_del_perm r w x : In x (perms (del_perm r w)) <-> x <> r /\ In x (perms w).
Proof.
  cbn. rewrite filter_In, negb_true_iff, str_eqb_neq. split; intros [A B]; split; auto.
Qed.

Definition keys (w : db) : list str := List.map fst (vertices w).
Lemma keys_set id x w : keys (set_row id x w) =
  if existsb (vkey id) (vertices w) then keys w else keys w ++ [id].
Proof.
  unfold set_row, keys. destruct (existsb (vkey id) (vertices w)); cbn [vertices].
  - rewrite map_map. apply map_ext. intros r. destruct (vkey id r) eqn:K; [|reflexivity].
    apply vkey_eq in K. now rewrite K.
  - now rewrite map_app.
Qed.
Lemma nodup_set id x w : NoDup (keys w) -> NoDup (keys (set_row id x w)).
Proof.
  intros N. rewrite keys_set. destruct (existsb (vkey id) (vertices w)) eqn:E; [exact N|].
  apply NoDup_app; [exact N|repeat constructor; easy|].
  intros y Hy [<-|[]]. apply vlook_none in E. apply vlook_in in Hy. easy.
Qed.
Lemma keys_inc id k w : keys (inc_row id k w) = keys w.
Proof.
  unfold keys, inc_row. cbn. rewrite map_map. apply map_ext. intros r. now destruct (vkey id r).
Qed.
Lemma nodup_del id w : NoDup (keys w) -> NoDup (keys (del_row id w)).
Proof.
  unfold keys, del_row. cbn. induction (vertices w) as [|r l IH]; intros N; [constructor|].
  cbn in N. inversion N as [|? ? Hn N']; subst. cbn. destruct (vkey id r); cbn; [now apply IH|].
  constructor; [|now apply IH]. intros H. apply Hn. apply in_map_iff in H as (y & E & H).
  apply filter_In in H as [H _]. apply in_map_iff. now exists y.
Qed.
Lemma nodup_touch id t w : NoDup (keys w) -> NoDup (keys (touch id t w)).
Proof.
  unfold touch. destruct (vlook id w); intros N; [now rewrite keys_inc|now apply nodup_set].
Qed.
Lemma keys_ins_perm r w : keys (ins_perm r w) = keys w.
Proof. unfold ins_perm. now destruct (existsb _ _). Qed.

(** ** sequences of updates *)

Definition upd := db -> db.
Definition runs (fs : list upd) (w : db) : db := fold_left (fun w f => f w) fs w.
Fixpoint states (fs : list upd) (w : db) : list db :=
  w :: match fs with [] => [] | f :: fs' => states fs' (f w) end.

Lemma runs_app fs gs w : runs (fs ++ gs) w = runs gs (runs fs w).
Proof. apply fold_left_app. Qed.
Lemma states_hd fs w : In w (states fs w).
Proof. destruct fs; now left. Qed.
Lemma states_last fs w : In (runs fs w) (states fs w).
Proof. revert w; induction fs as [|f fs IH]; intros w; cbn; [now left|]. right. apply IH. Qed.
Lemma states_app fs gs w d :
  In d (states (fs ++ gs) w) <-> In d (states fs w) \/ In d (states gs (runs fs w)).
Proof.
  revert w; induction fs as [|f fs IH]; intros w.
  - cbn. split; [tauto|]. intros [[->|[]]|H]; [|exact H]. apply states_hd.
  - cbn. rewrite IH. tauto.
Qed.

(** [step strict c fs c' tr]: the connection went from [c] to [c'] performing
    the updates [fs]; [tr] are the disk contents on the way.  [strict]: no
    commit while the shared cursor is open. *)
Record step (strict : bool) (c : conn) (fs : list upd) (c' : conn) (tr : list db) : Prop := {
  st_auto : c_auto c' = c_auto c;
  st_cur : c_cur c' = c_cur c;
  st_work : c_work c' = runs fs (c_work c);
  st_sync : c_cur c = CNone \/ c_auto c = true -> c_comm c = c_work c ->
      c_comm c' = c_work c' /\ forall d, In d tr -> In d (states fs (c_work c));
  st_open : strict = true -> c_cur c = COpen -> c_auto c = false ->
      c_comm c' = c_comm c /\ forall d, In d tr -> d = c_comm c;
  st_weak : forall d, In d (c_comm c' :: tr) -> d = c_comm c \/ In d (states fs (c_work c)) }.

Lemma step_nil b c : step b c [] c [].
Proof. constructor; try easy. intros d [<-|[]]. now left. Qed.

Lemma step_weaken c fs c' tr : step true c fs c' tr -> step false c fs c' tr.
Proof. intros [H1 H2 H3 H4 H5 H6]. now constructor. Qed.

Lemma step_app b c fs c1 t1 gs c2 t2 : step b c fs c1 t1 -> step b c1 gs c2 t2 ->
  step b c (fs ++ gs) c2 (t1 ++ t2).
Proof.
  intros [A1 A2 A3 A4 A5 A6] [B1 B2 B3 B4 B5 B6]. constructor.
  - congruence.
  - congruence.
  - rewrite runs_app. congruence.
  - intros Hs Hc. destruct (A4 Hs Hc) as [E1 I1]. rewrite A1, A2 in B4. destruct (B4 Hs E1) as [E2 I2].
    split; [exact E2|]. intros d Hd. apply states_app. apply in_app_iff in Hd as [Hd|Hd].
    + left. now apply I1.
    + right. rewrite <- A3. now apply I2.
  - intros Hb Ho Ha. destruct (A5 Hb Ho Ha) as [E1 I1]. rewrite A1, A2 in B5. destruct (B5 Hb Ho Ha) as [E2 I2].
    split; [congruence|]. intros d Hd. apply in_app_iff in Hd as [Hd|Hd]; [now apply I1|].
    rewrite <- E1. now apply I2.
  - intros d Hd. rewrite states_app, <- A3.
    assert (C : d = c_comm c1 \/ In d (states gs (c_work c1)) \/ In d t1).
    { destruct Hd as [Hd|Hd]; [|apply in_app_iff in Hd as [Hd|Hd]; [tauto|]].
      - destruct (B6 d) as [X|X]; [now left|tauto|tauto].
      - destruct (B6 d) as [X|X]; [now right|tauto|tauto]. }
    destruct C as [->|[C|C]].
    + destruct (A6 (c_comm c1)) as [X|X]; [now left|tauto|tauto].
    + tauto.
    + destruct (A6 d) as [X|X]; [now right|tauto|tauto].
Qed.

(** [does b m c a fs]: running [m] returns [a] and performs [fs] *)
Definition does {A} (b : bool) (m : M A) (c : conn) (a : A) (fs : list upd) : Prop :=
  exists c' tr, m c = (Ok a, c', tr) /\ step b c fs c' tr.

Lemma does_gives {A} b (m : M A) c a : gives m c a -> does b m c a [].
Proof. intros H. exists c, []. split; [exact H|apply step_nil]. Qed.
Lemma does_ret {A} b (a : A) c : does b (ret a) c a [].
Proof. now apply does_gives. Qed.
Lemma does_weaken {A} (m : M A) c a fs : does true m c a fs -> does false m c a fs.
Proof. intros (c' & tr & E & S). exists c', tr. split; [exact E|now apply step_weaken]. Qed.

(** what the continuation may rely on *)
Record next (c : conn) (fs : list upd) (c' : conn) : Prop := {
  nx_auto : c_auto c' = c_auto c; nx_cur : c_cur c' = c_cur c; nx_work : c_work c' = runs fs (c_work c) }.

Lemma does_bind {A B} b (m : M A) (k : A -> M B) c a fs b' gs :
  does b m c a fs ->
  (forall c', next c fs c' -> does b (k a) c' b' gs) ->
  does b (bind m k) c b' (fs ++ gs).
Proof.
  intros (c1 & t1 & E1 & S1) H. destruct (H c1) as (c2 & t2 & E2 & S2).
  { constructor; apply S1. }
  exists c2, (t1 ++ t2). split; [|now apply (step_app b c fs c1)].
  unfold bind. now rewrite E1, E2.
Qed.
Lemma does_bind0 {A B} b (m : M A) (k : A -> M B) c a b' gs :
  gives m c a -> does b (k a) c b' gs -> does b (bind m k) c b' gs.
Proof. intros H K. unfold does. now rewrite (bind_gives _ _ _ _ H). Qed.

Lemma next_live c fs c' : next c fs c' -> live c -> live c'.
Proof. unfold live. now intros [_ -> _]. Qed.

(** ** statements with their own commit *)

Definition stmt_block (s : stmt) : M nat :=
  do cur <- open_cursor true;
  do n <- execute cur s;
  close_cursor cur true true;; ret n.

Lemma block_does (s : stmt) (f : upd) c n w' :
  live c -> bind_error s = None ->
  sql_run s (c_work c) = Ok (w', n) -> w' = f (c_work c) ->
  does true (stmt_block s) c n [f].
Proof.
  intros L B R E. unfold does, stmt_block, bind, open_cursor, get_cur, bind, execute, close_cursor, close_handle,
    commit, get_cur, bind, ret. unfold live in L.
  destruct c as [au cm wk [| |]]; cbn [c_cur c_work c_auto c_comm] in *; [| |easy];
  unfold usable; cbn [c_cur negb]; rewrite B; cbn [negb c_work]; rewrite R; cbn [c_cur c_auto c_work c_comm app];
  eexists; eexists; (split; [reflexivity|]); subst w'; constructor; cbn [c_cur c_work c_auto c_comm runs fold_left]; try easy.
  - intros _ ->. split; [reflexivity|]. intros d [<-|[<-|[]]]; destruct au; cbn; tauto.
  - intros d [<-|[<-|[<-|[]]]]; cbn; [tauto| |tauto]. destruct au; tauto.
  - intros [H|H]; [easy|]. subst au. intros ->. split; [reflexivity|]. intros d [<-|[]]; cbn; tauto.
  - intros _ _ ->. split; [reflexivity|]. intros d [<-|[]]; reflexivity.
  - intros d [<-|[<-|[]]]; destruct au; cbn; tauto.
Qed.

Lemma binds_text s : bindable (bound_text s) = true -> match s with UpdVertex _ _ _ | InsVertex _ _ _ => False | _ => True end -> bind_error s = None.
Proof. intros B. unfold bind_error. rewrite B. now destruct s. Qed.
Lemma binds_upd id d t : bindable id = true -> int64 t = true -> bind_error (UpdVertex id d t) = None.
Proof. intros B T. unfold bind_error. cbn [bound_text]. rewrite B. cbn [negb]. now rewrite T. Qed.
Lemma binds_ins id d t : bindable id = true -> int64 t = true -> bind_error (InsVertex id d t) = None.
Proof. intros B T. unfold bind_error. cbn [bound_text]. rewrite B. cbn [negb]. now rewrite T. Qed.

Lemma bindable_scalars s : scalars s = true -> bindable s = true.
Proof. apply scalar_bindable. Qed.

Lemma existsb_filter {A} (f : A -> bool) l : existsb f l = negb (Nat.eqb (List.length (filter f l)) 0).
Proof. induction l as [|x l IH]; cbn; [reflexivity|]. destruct (f x); cbn; [reflexivity|exact IH]. Qed.

(** update_or_insert when the update finds the row or changes nothing *)
Lemma uoi_does (upd_ ins : stmt) (f : upd) c w1 n :
  live c -> bind_error upd_ = None -> bind_error ins = None ->
  sql_run upd_ (c_work c) = Ok (w1, n) ->
  (if Nat.eqb n 0 then w1 = c_work c /\ exists n2, sql_run ins w1 = Ok (f (c_work c), n2)
   else w1 = f (c_work c)) ->
  does true (update_or_insert upd_ ins) c tt [f].
Proof.
  intros L B1 B2 R H. unfold does, update_or_insert, bind, open_cursor, get_cur, bind, execute, close_cursor,
    close_handle, commit, get_cur, bind, ret. unfold live in L.
  destruct c as [au cm wk [| |]]; cbn [c_cur c_work c_auto c_comm] in *; [| |easy];
  unfold usable; cbn [c_cur negb]; rewrite B1; cbn [negb c_work]; rewrite R; cbn [c_cur c_auto c_work c_comm app];
  destruct (Nat.eqb n 0).
  - destruct H as [-> [n2 R2]]. cbn [c_cur negb]. rewrite B2. cbn [negb c_work]. rewrite R2.
    cbn [c_cur c_auto c_work c_comm app].
    eexists; eexists; (split; [reflexivity|]); constructor; cbn [c_cur c_work c_auto c_comm runs fold_left]; try easy.
    + intros _ ->. split; [reflexivity|]. intros d [<-|[<-|[<-|[]]]]; destruct au; cbn; tauto.
    + intros d [<-|[<-|[<-|[<-|[]]]]]; destruct au; cbn; tauto.
  - subst w1. cbn [c_cur c_auto c_work c_comm app].
    eexists; eexists; (split; [reflexivity|]); constructor; cbn [c_cur c_work c_auto c_comm runs fold_left]; try easy.
    + intros _ ->. split; [reflexivity|]. intros d [<-|[<-|[]]]; destruct au; cbn; tauto.
    + intros d [<-|[<-|[<-|[]]]]; destruct au; cbn; tauto.
  - destruct H as [-> [n2 R2]]. cbn [c_cur negb]. rewrite B2. cbn [negb c_work]. rewrite R2.
    cbn [c_cur c_auto c_work c_comm app].
    eexists; eexists; (split; [reflexivity|]); constructor; cbn [c_cur c_work c_auto c_comm runs fold_left]; try easy.
    + intros [H|H]; [easy|]. subst au. intros ->. split; [reflexivity|]. intros d [<-|[<-|[]]]; cbn; tauto.
    + intros _ _ ->. split; [reflexivity|]. intros d [<-|[<-|[]]]; reflexivity.
    + intros d [<-|[<-|[<-|[]]]]; destruct au; cbn; tauto.
  - subst w1. cbn [c_cur c_auto c_work c_comm app].
    eexists; eexists; (split; [reflexivity|]); constructor; cbn [c_cur c_work c_auto c_comm runs fold_left]; try easy.
    + intros [H|H]; [easy|]. subst au. intros ->. split; [reflexivity|]. intros d [<-|[]]; cbn; tauto.
    + intros _ _ ->. split; [reflexivity|]. intros d [<-|[]]; reflexivity.
    + intros d [<-|[<-|[]]]; destruct au; cbn; tauto.
Qed.

Lemma map_nokey {B} (f : str * B -> str * B) (k : str * B -> bool) l : existsb k l = false ->
  List.map (fun r => if k r then f r else r) l = l.
Proof.
  induction l as [|r l IH]; cbn; [reflexivity|]. intros H. apply orb_false_iff in H as [-> H].
  now rewrite IH.
Qed.

Lemma db_eta w : Db (vertices w) (perms w) = w.
Proof. now destruct w. Qed.

Lemma add_str_does id d t c : live c -> bindable id = true -> int64 t = true ->
  does true (add_str id d t) c tt [set_row id (d, t)].
Proof.
  intros L B T. unfold add_str. eapply uoi_does; [exact L|now apply binds_upd|now apply binds_ins|reflexivity|].
  pose proof (existsb_filter (vkey id) (vertices (c_work c))) as E.
  unfold set_row. destruct (existsb (vkey id) (vertices (c_work c))) eqn:K;
    destruct (Nat.eqb (List.length (filter (vkey id) (vertices (c_work c)))) 0); try discriminate E.
  - reflexivity.
  - cbn [sql_run]. rewrite (map_nokey (fun _ => (id, (d, t)))) by exact K. rewrite db_eta, K.
    split; [reflexivity|]. eexists. reflexivity.
Qed.

Lemma write_perm_does r c : live c -> bindable r = true ->
  does true (write_edge_permutation r) c tt [ins_perm r].
Proof.
  intros L B. unfold write_edge_permutation. eapply uoi_does; [exact L|now apply binds_text|now apply binds_text|reflexivity|].
  pose proof (existsb_filter (str_eqb r) (perms (c_work c))) as E. unfold ins_perm.
  cbn [sql_run]. destruct (existsb (str_eqb r) (perms (c_work c))) eqn:K;
    destruct (Nat.eqb (List.length (filter (str_eqb r) (perms (c_work c)))) 0); try discriminate E.
  - reflexivity.
  - split; [reflexivity|]. eexists. reflexivity.
Qed.

Lemma change_degree_does id k c : live c -> bindable id = true ->
  does true (change_degree id k) c (match vlook id (c_work c) with Some _ => true | None => false end) [inc_row id k].
Proof.
  intros L B.
  assert (D : does true (stmt_block (IncDegree id k)) c
                (List.length (filter (vkey id) (vertices (c_work c)))) [inc_row id k]).
  { eapply block_does; [exact L|now apply binds_text|reflexivity|reflexivity]. }
  destruct D as (c' & tr & E & S). exists c', tr. split; [|exact S].
  unfold change_degree. unfold stmt_block, bind in *. revert E.
  destruct (open_cursor true c) as [[[h|] c1] t1]; [|easy].
  destruct (execute h (IncDegree id k) c1) as [[[n|] c2] t2]; [|easy].
  destruct (close_cursor h true true c2) as [[[u|] c3] t3]; [|easy].
  unfold ret. intros [= -> -> <-]. repeat f_equal.
  pose proof (existsb_filter (vkey id) (vertices (c_work c))) as F.
  destruct (vlook id (c_work c)) eqn:Lk.
  - assert (X : existsb (vkey id) (vertices (c_work c)) = true) by (apply vlook_some; congruence).
    rewrite X in F. destruct (List.length _); [easy|reflexivity].
  - apply vlook_none in Lk. rewrite Lk in F. destruct (List.length _); [reflexivity|easy].
Qed.

(** [remove_edge_permutation] commits by itself *)
Lemma remove_perm_does r c : live c -> bindable r = true ->
  does false (remove_edge_permutation r) c tt [del_perm r].
Proof.
  intros L B. unfold does, remove_edge_permutation, bind, execute, commit, usable.
  cbn [negb]. rewrite (binds_text (DelPerm r)) by easy. cbn [sql_run]. fold (del_perm r (c_work c)).
  destruct c as [au cm wk cu]; cbn [c_cur c_work c_auto c_comm app].
  eexists; eexists; (split; [reflexivity|]); constructor; cbn [c_cur c_work c_auto c_comm runs fold_left]; try easy.
  - intros _ ->. split; [reflexivity|]. intros d [<-|[<-|[]]]; destruct au; cbn; tauto.
  - intros d [<-|[<-|[<-|[]]]]; destruct au; cbn; tauto.
Qed.

Lemma remove_str_does id c : live c -> bindable id = true ->
  does true (remove_str id) c tt [del_row id].
Proof.
  intros L B.
  assert (D : does true (stmt_block (DelVertex id)) c
                (List.length (filter (vkey id) (vertices (c_work c)))) [del_row id]).
  { eapply block_does; [exact L|now apply binds_text|reflexivity|reflexivity]. }
  destruct D as (c' & tr & E & S). exists c', tr. split; [|exact S].
  unfold remove_str. unfold stmt_block, bind in *. revert E.
  destruct (open_cursor true c) as [[[h|] c1] t1]; [|easy].
  destruct (execute h (DelVertex id) c1) as [[[n|] c2] t2]; [|easy].
  destruct (close_cursor h true true c2) as [[[[]|] c3] t3]; [|easy].
  unfold ret. intros [= -> -> <-]. now rewrite app_nil_r.
Qed.

Definition wipe_v (w : db) : db := Db [] (perms w).
Definition wipe_p (w : db) : db := Db (vertices w) [].
Lemma destroy_does c : live c -> does true destroy c tt [wipe_v; wipe_p].
Proof.
  intros L. unfold does, destroy, bind, open_cursor, get_cur, bind, execute, close_cursor,
    close_handle, commit, get_cur, bind, ret. unfold live in L.
  destruct c as [au cm wk [| |]]; cbn [c_cur c_work c_auto c_comm] in *; [| |easy];
  unfold usable; cbn [c_cur c_auto c_comm c_work negb bind_error bound_text bindable forallb sql_run app];
  eexists; eexists; (split; [reflexivity|]); constructor; cbn [c_cur c_work c_auto c_comm runs fold_left]; try easy;
  unfold wipe_v, wipe_p; cbn [states vertices perms].
  - intros _ ->. split; [reflexivity|]. intros d [<-|[<-|[<-|[]]]]; destruct au; cbn; tauto.
  - intros d [<-|[<-|[<-|[<-|[]]]]]; destruct au; cbn; tauto.
  - intros [H|H]; [easy|]. subst au. intros ->. split; [reflexivity|]. intros d [<-|[<-|[]]]; cbn; tauto.
  - intros _ _ ->. split; [reflexivity|]. intros d [<-|[<-|[]]]; reflexivity.
  - intros d [<-|[<-|[<-|[]]]]; destruct au; cbn; tauto.
Qed.

(** ** loops *)

Lemma mfor_does {A} b (l : list A) (f : A -> M unit) (u : A -> list upd) c :
  live c -> (forall x c', In x l -> live c' -> does b (f x) c' tt (u x)) ->
  does b (mfor l f) c tt (flat_map u l).
Proof.
  revert c. induction l as [|x l IH]; intros c L H; cbn [mfor flat_map].
  - apply does_ret.
  - eapply does_bind; [apply H; [now left|exact L]|]. intros c' N. apply IH; [now apply (next_live c (u x))|].
    intros y c2 Hy. apply H. now right.
Qed.

(** the rows of an edge, in the order they are written *)
Definition rows_of (l : list value) : list str :=
  List.map (fun k => match perm_str l k with Ok s => s | Err _ => [] end) (seq 0 (fact (List.length l))).

Lemma perm_str_ok l k : (k < fact (List.length l))%nat ->
  perm_str l k = Ok (match perm_str l k with Ok s => s | Err _ => [] end).
Proof.
  intros Hk. unfold perm_str.
  destruct (nthperm_ok l (Z.of_nat k)) as (p & _ & E & _); [lia|]. now rewrite E.
Qed.

Lemma rows_of_spec l r : l <> [] -> In r (rows_of l) <-> is_row l r.
Proof.
  intros Hn. unfold rows_of. rewrite in_map_iff. split.
  - intros (k & <- & Hk). apply in_seq in Hk. destruct (perm_str_row l k Hn ltac:(lia)) as (p & E & _ & R).
    rewrite R. exists (Z.of_nat k), p. repeat split; [lia|lia|exact E].
  - intros (k & p & Hk & E & ->). exists (Z.to_nat k).
    destruct (perm_str_row l (Z.to_nat k) Hn ltac:(lia)) as (p' & E' & _ & R). rewrite Z2Nat.id in * by lia.
    rewrite R. assert (p' = p) by congruence. subst p'. split; [reflexivity|]. apply in_seq. lia.
Qed.

Lemma row_bindable l r : all_db l -> is_row l r -> bindable r = true.
Proof.
  intros Hl (k & p & Hk & E & ->).
  destruct (nthperm_ok l k Hk) as (p' & _ & E' & P). assert (p' = p) by congruence. subst p'.
  apply bindable_scalars, nodes2str_scalar. apply Forall_app. split; [now apply (all_db_perm l)|now repeat constructor].
Qed.

Lemma do_with_does b l (f : str -> M unit) (u : str -> list upd) c : l <> [] ->
  live c -> (forall r c', is_row l r -> live c' -> does b (f r) c' tt (u r)) ->
  does b (do_with_edge_permutations l f) c tt (flat_map u (rows_of l)).
Proof.
  intros Hn L H. unfold do_with_edge_permutations, rows_of. rewrite flat_map_concat_map, map_map, <- flat_map_concat_map.
  apply (mfor_does b _ _ (fun k => u (match perm_str l k with Ok s => s | Err _ => [] end))); [exact L|].
  intros k c' Hk L'. apply in_seq in Hk. eapply does_bind0; [apply gives_lift, perm_str_ok; lia|].
  apply H; [|exact L']. apply rows_of_spec; [exact Hn|]. unfold rows_of. apply in_map_iff. exists k.
  split; [reflexivity|]. apply in_seq. lia.
Qed.

(** ** add_raw and remove_raw on storable edges *)

Definition add_upds (e : value) (t : Z) : list upd :=
  List.map (fun x => touch (edge2str x) t) (elems e)
  ++ [set_row (edge2str e) (0%Z, t)]
  ++ List.map ins_perm (rows_of (elems e)).
Definition rem_upds (e : value) : list upd :=
  List.map (fun x => inc_row (edge2str x) (-1)) (elems e)
  ++ List.map del_perm (rows_of (elems e))
  ++ [del_row (edge2str e)].

Lemma vertex_bindable v : db_vertex v = true -> bindable (edge2str v) = true.
Proof. intros H. now apply bindable_scalars, db_vertex_scalar. Qed.

Lemma flat_map_single {A B} (f : A -> B) l : flat_map (fun x => [f x]) l = List.map f l.
Proof. induction l; cbn; congruence. Qed.

(** one round of the loop in add_raw.  A row that is not found costs an update
    that changes nothing. *)
Lemma inc_row_absent id k w : vlook id w = None -> inc_row id k w = w.
Proof.
  intros H. apply vlook_none in H. unfold inc_row.
  rewrite (map_nokey (fun r => (fst r, (fst (snd r) + k, snd (snd r))%Z))) by exact H. apply db_eta.
Qed.

(** merging a no-op update *)
Lemma step_skip b c f g c' tr h : f (c_work c) = c_work c -> g (c_work c) = h (c_work c) ->
  step b c [f; g] c' tr -> step b c [h] c' tr.
Proof.
  intros F G [H1 H2 H3 H4 H5 H6].
  assert (Q : forall d, In d (states [f; g] (c_work c)) -> In d (states [h] (c_work c))).
  { cbn. rewrite F, G. tauto. }
  constructor; try assumption.
  - rewrite H3. cbn. now rewrite F, G.
  - intros A B. destruct (H4 A B) as [X Y]. split; [exact X|]. intros d Hd. apply Q. now apply Y.
  - intros d Hd. destruct (H6 d Hd); [tauto|]. right. now apply Q.
Qed.
Lemma step_ext b c f c' tr h : f (c_work c) = h (c_work c) ->
  step b c [f] c' tr -> step b c [h] c' tr.
Proof.
  intros G [H1 H2 H3 H4 H5 H6].
  assert (Q : forall d, In d (states [f] (c_work c)) -> In d (states [h] (c_work c))).
  { cbn. rewrite G. tauto. }
  constructor; try assumption.
  - rewrite H3. exact G.
  - intros A B. destruct (H4 A B) as [X Y]. split; [exact X|]. intros d Hd. apply Q. now apply Y.
  - intros d Hd. destruct (H6 d Hd); [tauto|]. right. now apply Q.
Qed.

Lemma touch_does x t c : live c -> db_vertex x = true -> int64 t = true ->
  does true (do found <- inc_degree (edge2str x);
             if found then ret tt else add_str (edge2str x) 1 t) c tt [touch (edge2str x) t].
Proof.
  intros L Hx T. pose proof (vertex_bindable x Hx) as B. set (id := edge2str x) in *.
  pose proof (change_degree_does id 1 c L B) as D. fold (inc_degree id) in D.
  destruct (vlook id (c_work c)) as [q|] eqn:Lk.
  - assert (E : does true (do found <- inc_degree id; if found then ret tt else add_str id 1 t) c tt
                 ([inc_row id 1] ++ [])).
    { eapply does_bind; [exact D|]. intros c' N. apply does_ret. }
    destruct E as (c' & tr & E & S). exists c', tr. split; [exact E|].
    eapply step_ext; [|exact S]. unfold touch. now rewrite Lk.
  - assert (E : does true (do found <- inc_degree id; if found then ret tt else add_str id 1 t) c tt
                 ([inc_row id 1] ++ [set_row id (1%Z, t)])).
    { eapply does_bind; [exact D|]. intros c' N. apply add_str_does; [now apply (next_live c _ c' N)|exact B|exact T]. }
    destruct E as (c' & tr & E & S). exists c', tr. split; [exact E|].
    eapply step_skip; [| |exact S].
    + now apply inc_row_absent.
    + unfold touch. now rewrite Lk.
Qed.

Lemma as_seq_edge e : db_edge e = true -> as_seq e = Ok (elems e).
Proof. intros H. apply db_edge_inv in H as (a & b & l & -> & _). reflexivity. Qed.

Lemma add_new_does e t c : live c -> db_edge e = true -> int64 t = true ->
  gives (exists_ e) c false -> does true (add_raw e t) c e (add_upds e t).
Proof.
  intros L He T Hf. destruct (db_edge_elems e He) as (Ee & Ae & Le).
  assert (Hn : elems e <> []) by (intros E; rewrite E in Le; cbn in Le; lia).
  unfold add_raw. eapply does_bind0; [exact Hf|]. cbn iota beta.
  rewrite <- (app_nil_r (add_upds e t)). eapply does_bind; [|intros c' N; apply does_ret].
  eapply does_bind0; [apply gives_lift, as_seq_edge, He|].
  unfold add_upds. rewrite <- flat_map_single. eapply does_bind.
  { apply (mfor_does true _ _ (fun x => [touch (edge2str x) t])); [exact L|].
    intros x c' Hx L'. apply touch_does; [exact L'| |exact T]. unfold all_db in Ae. rewrite Forall_forall in Ae. now apply Ae. }
  intros c1 N1. pose proof (next_live _ _ _ N1 L) as L1. eapply does_bind.
  { apply add_str_does; [exact L1| |exact T]. now apply vertex_bindable, db_edge_vertex. }
  intros c2 N2. pose proof (next_live _ _ _ N2 L1) as L2.
  unfold write_edge_permutations. rewrite <- flat_map_single. apply do_with_does; [exact Hn|exact L2|].
  intros r c' Hr L'. apply write_perm_does; [exact L'|]. now apply (row_bindable (elems e)).
Qed.

Lemma add_old_does e t c : gives (exists_ e) c true -> gives (add_raw e t) c e.
Proof.
  intros H. unfold gives, add_raw. rewrite (bind_gives _ _ _ _ H). reflexivity.
Qed.

Lemma remove_old_does e c : live c -> db_edge e = true ->
  gives (exists_ e) c true -> does false (remove_raw e) c tt (rem_upds e).
Proof.
  intros L He Hf. destruct (db_edge_elems e He) as (Ee & Ae & Le).
  assert (Hn : elems e <> []) by (intros E; rewrite E in Le; cbn in Le; lia).
  unfold remove_raw. eapply does_bind0; [exact Hf|]. cbn iota beta.
  eapply does_bind0; [apply gives_lift, as_seq_edge, He|].
  unfold rem_upds. rewrite <- !flat_map_single. eapply does_bind.
  { apply (mfor_does false _ _ (fun x => [inc_row (edge2str x) (-1)])); [exact L|].
    intros x c' Hx L'. rewrite <- (app_nil_r [_]). eapply does_bind; [|intros c2 N2; apply does_ret].
    apply does_weaken. apply change_degree_does; [exact L'|].
    apply vertex_bindable. unfold all_db in Ae. rewrite Forall_forall in Ae. now apply Ae. }
  intros c1 N1. pose proof (next_live _ _ _ N1 L) as L1. eapply does_bind.
  { unfold remove_edge_permutations. apply do_with_does; [exact Hn|exact L1|].
    intros r c' Hr L'. apply remove_perm_does; [exact L'|]. now apply (row_bindable (elems e)). }
  intros c2 N2. pose proof (next_live _ _ _ N2 L1) as L2.
  apply does_weaken. apply remove_str_does; [exact L2|]. now apply vertex_bindable, db_edge_vertex.
Qed.

Lemma remove_absent_does e c : gives (exists_ e) c false -> gives (remove_raw e) c tt.
Proof. intros H. unfold gives, remove_raw. rewrite (bind_gives _ _ _ _ H). reflexivity. Qed.
