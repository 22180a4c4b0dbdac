(** * P_collate.v -- on MySQL's collation the calls run as in M_mysql, as long as
    the texts are written with characters that the collation tells apart *)

From Verif Require Import Py M_symbol M_edge M_sql M_mysql M_hypergraph P_py Spec P_edge P_perm P_range P_query
  S_history M_driver P_ops P_hist P_graph P_rows P_answers P_crash S_steps M_steps P_steps P_mysql M_collate S_collate.
From Coq Require Import Permutation Factorial String.
Open Scope list_scope.

Section apart.
Variables (wt : char -> N) (K : char -> bool).
Hypothesis T : tells_apart wt K.
Notation inK s := (forallb K s = true).

(** ** comparison *)

(** a text that can stand in a table *)
Definition good_text (s : str) : Prop := inK s /\ ends_with c_space s = false.
Lemma wt_eq c d : K c = true -> K d = true -> (wt c ?= wt d)%N = Eq -> c = d.
Proof. intros Hc Hd E. apply N.compare_eq_iff in E. now apply (ta_apart _ _ T). Qed.
Lemma pad_in s : inK s -> pad_cmp wt s <> Gt.
Proof.
  induction s as [|c s IH]; [discriminate|]. cbn [forallb pad_cmp]. intros [Hc Hs]%andb_true_iff. destruct (N.compare_spec (wt c_space) (wt c)) as [E|E|E]; [now apply IH|discriminate|].
  destruct (N.eq_dec c c_space) as [->|N]; [lia|]. pose proof (ta_space _ _ T c Hc N). lia.
Qed.
Lemma pad_eq s : inK s -> pad_cmp wt s = Eq -> s <> [] -> ends_with c_space s = true.
Proof.
  induction s as [|c s IH]; [intros _ _ H; now elim H|]. cbn [forallb pad_cmp]. intros [Hc Hs]%andb_true_iff. destruct (N.compare_spec (wt c_space) (wt c)) as [E|E|E]; try discriminate.
  assert (c = c_space) as -> by (apply (ta_apart _ _ T); [exact Hc|exact (proj1 (ta_in _ _ T))|now symmetry]). intros P _. destruct s as [|d s]; [reflexivity|].
  specialize (IH Hs P ltac:(easy)). change (c_space :: d :: s) with ([c_space] ++ (d :: s)). now rewrite ends_with_app_r.
Qed.
Lemma cmp_refl s : ci_cmp wt s s = Eq.
Proof. induction s as [|c s IH]; [reflexivity|]. cbn. now rewrite N.compare_refl. Qed.
Lemma ends_cons c x y s : ends_with c (x :: y :: s) = ends_with c (y :: s).
Proof. change (x :: y :: s) with ([x] ++ (y :: s)). now rewrite ends_with_app_r. Qed.
Lemma cmp_eq s t : good_text s -> good_text t -> ci_cmp wt s t = Eq -> s = t.
Proof.
  revert t. induction s as [|c s IH]; intros [|d t] [Ks Es] [Kt Et]; cbn [ci_cmp]; intros E.
  - reflexivity.
  - rewrite (pad_eq _ Kt E) in Et by easy. discriminate.
  - assert (pad_cmp wt (c :: s) = Eq) as E' by (destruct (pad_cmp wt (c :: s)); easy). rewrite (pad_eq _ Ks E') in Es by easy. discriminate.
  - cbn [forallb] in Ks, Kt. apply andb_true_iff in Ks as [Kc Ks], Kt as [Kd Kt]. destruct (wt c ?= wt d)%N eqn:W; try easy.
    apply wt_eq in W; [|exact Kc|exact Kd]. subst d. f_equal. apply IH; [split; [exact Ks|]|split; [exact Kt|]|exact E].
    + destruct s as [|x s]; [reflexivity|]. now rewrite ends_cons in Es.
    + destruct t as [|x t]; [reflexivity|]. now rewrite ends_cons in Et.
Qed.
Lemma eq_same s t : good_text s -> good_text t -> ci_eq wt s t = str_eqb s t.
Proof.
  intros Hs Ht. unfold ci_eq. destruct (str_eqb s t) eqn:E.
  - apply str_eqb_eq in E as ->. now rewrite cmp_refl.
  - destruct (ci_cmp wt s t) eqn:C; [|reflexivity|reflexivity]. apply cmp_eq in C; [|exact Hs|exact Ht]. subst t. now rewrite str_eqb_refl in E.
Qed.

(** ** ranges *)

Lemma cmp_app p a b : ci_cmp wt (p ++ a) (p ++ b) = ci_cmp wt a b.
Proof. induction p as [|c p IH]; [reflexivity|]. cbn. now rewrite N.compare_refl. Qed.
Lemma cmp_nil a : ci_cmp wt a [] = CompOpp (pad_cmp wt a).
Proof. now destruct a. Qed.
(** all rows with the prefix are found *)
Lemma range_prefix s hi r : inK s -> inK r -> str_plus_1 s = Ok hi -> prefixb s r = true -> ci_range wt s hi r = true.
Proof.
  intros Ks Kr Eh P. apply prefixb_spec in P as [t ->]. destruct s as [|c s _] using rev_ind; [easy|]. rewrite str_plus_1_app in Eh.
  destruct (c + 1 <=? max_cp)%N; [|easy]. injection Eh as <-. unfold ci_range. rewrite <- !app_assoc, !cmp_app.
  rewrite !forallb_app in Kr. apply andb_true_iff in Kr as [Kr Kt]. rewrite forallb_app in Ks. apply andb_true_iff in Ks as [Ks Kc]. cbn in Kc. rewrite andb_true_r in Kc.
  cbn [app ci_cmp]. rewrite N.compare_refl. pose proof (ta_next _ _ T c Kc) as W. apply N.compare_lt_iff in W. rewrite W.
  change (ci_cmp wt [] t) with (pad_cmp wt t). pose proof (pad_in t Kt) as Pt. destruct (pad_cmp wt t); easy.
Qed.
(** ... and none that starts with a parenthesis *)
Lemma range_no_par s hi r : inK s -> inK r -> s <> [] -> starts_with c_lpar s = false -> str_plus_1 s = Ok hi -> ci_range wt s hi r = true ->
  starts_with c_lpar r = false.
Proof.
  intros Ks Kr Hn Hs Eh R. destruct r as [|d r]; [reflexivity|]. cbn [starts_with]. destruct (N.eqb_spec c_lpar d) as [<-|]; [|now rewrite N.eqb_sym; apply N.eqb_neq].
  exfalso. destruct s as [|x s]; [easy|]. cbn [starts_with] in Hs. cbn [forallb] in Ks, Kr. apply andb_true_iff in Ks as [Kx Ks], Kr as [Kp Kr].
  assert (Nx : wt x <> wt c_lpar) by (intros E; apply (ta_apart _ _ T) in E; [subst x; now rewrite N.eqb_refl in Hs|exact Kx|exact Kp]).
  unfold ci_range in R. apply andb_true_iff in R as [R1 R2]. cbn [ci_cmp] in R1. destruct (N.compare_spec (wt x) (wt c_lpar)) as [E|E|E]; [now apply Nx| |discriminate].
  destruct s as [|y s].
  - change [x] with ([] ++ [x]) in Eh. rewrite str_plus_1_app in Eh. destruct (x + 1 <=? max_cp)%N; [|easy]. injection Eh as <-. cbn [app ci_cmp] in R2.
    pose proof (ta_par _ _ T x Kx E) as P. destruct (N.compare_spec (wt c_lpar) (wt (x + 1)%N)) as [E2|E2|E2]; [|lia|discriminate].
    rewrite cmp_nil in R2. pose proof (pad_in r Kr) as Pr. destruct (pad_cmp wt r); easy.
  - destruct (@exists_last _ (y :: s)) as (m & c & Em); [discriminate|]. rewrite Em in Eh. change (x :: m ++ [c]) with ((x :: m) ++ [c]) in Eh. rewrite str_plus_1_app in Eh.
    destruct (c + 1 <=? max_cp)%N; [|easy]. injection Eh as <-. cbn [app ci_cmp] in R2. destruct (N.compare_spec (wt c_lpar) (wt x)) as [E2|E2|E2]; [lia|lia|discriminate].
Qed.
(** the range of star: texts that have a space *)
Lemma range_star a r : inK a -> inK r -> ~ In c_space a -> In c_space r -> ci_range wt (a ++ [c_space]) (a ++ [(c_space + 1)%N]) r = prefixb (a ++ [c_space]) r.
Proof.
  revert r. induction a as [|c a IH]; intros r Ka Kr Na Nr.
  - destruct r as [|d r]; [destruct Nr|]. cbn [app prefixb]. cbn [forallb] in Kr. apply andb_true_iff in Kr as [Kd Kr]. unfold ci_range. cbn [ci_cmp].
    rewrite (ta_gap _ _ T). change (ci_cmp wt [] r) with (pad_cmp wt r). rewrite cmp_nil.
    destruct (N.eqb_spec c_space d) as [<-|N].
    + rewrite N.compare_refl. assert (wt c_space ?= wt c_space + 1 = Lt)%N as -> by (apply N.compare_lt_iff; lia). pose proof (pad_in r Kr) as P. now destruct (pad_cmp wt r).
    + pose proof (ta_space _ _ T d Kd (fun E => N (eq_sym E))) as W. assert (wt c_space ?= wt d = Lt)%N as -> by (now apply N.compare_lt_iff).
      destruct (N.compare_spec (wt d) (wt c_space + 1)) as [E|E|E]; [|lia|reflexivity]. pose proof (pad_in r Kr) as P. now destruct (pad_cmp wt r).
  - destruct r as [|d r]; [destruct Nr|]. cbn [app prefixb]. cbn [forallb] in Ka, Kr. apply andb_true_iff in Ka as [Kc Ka], Kr as [Kd Kr].
    unfold ci_range. cbn [ci_cmp]. destruct (N.eqb_spec c d) as [<-|N].
    + rewrite N.compare_refl. apply IH; [exact Ka|exact Kr|intros H; apply Na; now right|]. destruct Nr as [E|H]; [|exact H]. exfalso. apply Na. now left.
    + destruct (N.compare_spec (wt c) (wt d)) as [E|E|E]; [apply (ta_apart _ _ T) in E; [now subst|exact Kc|exact Kd]| |reflexivity].
      assert (wt d ?= wt c = Gt)%N as -> by (now apply N.compare_gt_iff). reflexivity.
Qed.

(** the range of a root *)
Lemma range_root a r : inK (a ++ [c_slash]) -> inK r -> ~ In c_space a -> ci_range wt (a ++ [c_slash]) (a ++ [(c_slash + 1)%N]) r = prefixb (a ++ [c_slash]) r.
Proof.
  revert r. induction a as [|c a IH]; intros r Ka Kr Na.
  - cbn [app forallb] in Ka. rewrite andb_true_r in Ka. pose proof (ta_space _ _ T c_slash Ka ltac:(discriminate)) as W0. pose proof (ta_next _ _ T c_slash Ka) as W1.
    destruct r as [|d r].
    + unfold ci_range. cbn [app ci_cmp pad_cmp prefixb]. assert (wt c_space ?= wt c_slash = Lt)%N as -> by (now apply N.compare_lt_iff). reflexivity.
    + cbn [app prefixb]. cbn [forallb] in Kr. apply andb_true_iff in Kr as [Kd Kr]. unfold ci_range. cbn [ci_cmp].
      change (ci_cmp wt [] r) with (pad_cmp wt r). rewrite cmp_nil. pose proof (pad_in r Kr) as P.
      destruct (N.eqb_spec c_slash d) as [<-|N].
      * rewrite N.compare_refl. assert (wt c_slash ?= wt (c_slash + 1) = Lt)%N as -> by (now apply N.compare_lt_iff). now destruct (pad_cmp wt r).
      * destruct (N.compare_spec (wt c_slash) (wt d)) as [E|E|E]; [apply (ta_apart _ _ T) in E; [elim N; exact E|exact Ka|exact Kd]| |reflexivity].
        pose proof (ta_slash _ _ T Ka d Kd E) as W. destruct (N.compare_spec (wt d) (wt (c_slash + 1)%N)) as [F|F|F]; [|lia|reflexivity]. now destruct (pad_cmp wt r).
  - cbn [app forallb] in Ka. apply andb_true_iff in Ka as [Kc Ka]. assert (Nc : c <> c_space) by (intros ->; apply Na; now left).
    pose proof (ta_space _ _ T c Kc Nc) as W. destruct r as [|d r].
    + unfold ci_range. cbn [app ci_cmp pad_cmp prefixb]. assert (wt c_space ?= wt c = Lt)%N as -> by (now apply N.compare_lt_iff). reflexivity.
    + cbn [app prefixb]. cbn [forallb] in Kr. apply andb_true_iff in Kr as [Kd Kr]. unfold ci_range. cbn [ci_cmp]. destruct (N.eqb_spec c d) as [<-|N].
      * rewrite N.compare_refl. apply IH; [exact Ka|exact Kr|intros H; apply Na; now right].
      * destruct (N.compare_spec (wt c) (wt d)) as [E|E|E]; [apply (ta_apart _ _ T) in E; [now subst|exact Kc|exact Kd]| |reflexivity].
        assert (wt d ?= wt c = Gt)%N as -> by (now apply N.compare_gt_iff). reflexivity.
Qed.

(** ** statements *)

Definition row_text (s : str) : Prop := good_text s /\ (List.length s < 250)%nat.
Definition over (w : db) : Prop := Forall row_text (perms w) /\ Forall row_text (keys w).
Definition stmt_good (s : stmt) : Prop :=
  match s with
  | UpdVertex id _ _ | InsVertex id _ _ | UpdPerm id | InsPerm id => row_text id
  | DelPerm id | DelVertex id | IncDegree id _ => good_text id
  | DelAllVertices | DelAllPerms => True
  end.
Lemma over_empty : over db_empty.
Proof. split; constructor. Qed.
Lemma map_ext_Forall {A B} (P : A -> Prop) (f g : A -> B) l : Forall P l -> (forall x, P x -> f x = g x) -> List.map f l = List.map g l.
Proof. intros H E. apply map_ext_in. intros x Hx. rewrite Forall_forall in H. now apply E, H. Qed.
Lemma filter_ext_Forall {A} (P : A -> Prop) (f g : A -> bool) l : Forall P l -> (forall x, P x -> f x = g x) -> filter f l = filter g l.
Proof. intros H E. apply filter_ext_in. intros x Hx. rewrite Forall_forall in H. now apply E, H. Qed.
Lemma existsb_ext_Forall {A} (P : A -> Prop) (f g : A -> bool) l : Forall P l -> (forall x, P x -> f x = g x) -> existsb f l = existsb g l.
Proof. intros H E. induction H as [|x l Hx _ IH]; [reflexivity|]. cbn. now rewrite IH, E. Qed.
Lemma over_keys w : over w -> Forall (fun r => row_text (fst r)) (vertices w).
Proof. intros [_ H]. unfold keys in H. now rewrite Forall_map in H. Qed.
Lemma same_key s r : row_text s -> row_text r -> ci_eq wt (my_key s) (my_key r) = str_eqb (my_key s) (my_key r).
Proof. intros [Hs Ls] [Hr Lr]. rewrite !key_short by assumption. now apply eq_same. Qed.

Lemma stmt_same s w : over w -> stmt_good s ->
  sql_run_ci wt s w = sql_run_my s w /\ forall w' n, sql_run_my s w = Ok (w', n) -> over w'.
Proof.
  intros Ow. pose proof (over_keys w Ow) as Ok_. destruct Ow as [Op Ov]. destruct s as [id d t|id d t|id|id|id|id|id k| |]; cbn [stmt_good sql_run_ci sql_run_my]; intros G.
  - split.
    + f_equal. f_equal; [f_equal|].
      * apply (map_ext_Forall _ _ _ _ Ok_). intros r Hr. unfold vkey. now rewrite eq_same by (apply G || apply Hr).
      * f_equal. apply (filter_ext_Forall _ _ _ _ Ok_). intros r Hr. unfold vkey. rewrite eq_same by (apply G || apply Hr). destruct (str_eqb id (fst r)); reflexivity.
    + intros w' n [= <- _]. split; [exact Op|]. unfold keys. cbn [vertices]. rewrite !Forall_map. eapply Forall_impl; [|exact Ok_]. intros r Hr.
      cbn beta. destruct (vkey id r); [exact G|exact Hr].
  - split.
    + rewrite (existsb_ext_Forall _ _ (fun r => str_eqb (my_key id) (my_key (fst r))) _ Ok_); [reflexivity|]. intros r Hr. now apply same_key.
    + intros w' n. destruct (existsb _ _); [discriminate|]. intros [= <- _]. split; [exact Op|]. unfold keys. cbn [vertices]. rewrite map_app. apply Forall_app. split; [exact Ov|]. now constructor.
  - split.
    + f_equal. f_equal.
      * transitivity (Db (vertices w) (perms w)); [|apply db_eta]. f_equal. transitivity (List.map (fun r => r) (perms w)); [|apply map_id].
        apply (map_ext_Forall _ _ _ _ Op). intros r Hr. rewrite eq_same by (apply G || apply Hr). destruct (str_eqb id r) eqn:E; [now apply str_eqb_eq in E|reflexivity].
      * transitivity (List.length (filter (fun _ => false) (perms w))); [f_equal|induction (perms w); [reflexivity|]; inversion Op; auto].
        apply (filter_ext_Forall _ _ _ _ Op). intros r Hr. rewrite eq_same by (apply G || apply Hr). apply andb_negb_r.
    + intros w' n [= <- _]. split; [exact Op|exact Ov].
  - split.
    + rewrite (existsb_ext_Forall _ _ (fun r => str_eqb (my_key id) (my_key r)) _ Op); [reflexivity|]. intros r Hr. now apply same_key.
    + intros w' n. destruct (existsb _ _); [discriminate|]. intros [= <- _]. split; [|exact Ov]. cbn [perms]. apply Forall_app. split; [exact Op|]. now constructor.
  - cbn [sql_run]. split.
    + f_equal. f_equal; [f_equal|f_equal]; apply (filter_ext_Forall _ _ _ _ Op); intros r Hr; now rewrite eq_same by (apply G || apply Hr).
    + intros w' n [= <- _]. split; [|exact Ov]. cbn [perms]. rewrite Forall_forall in *. intros r Hr. apply filter_In in Hr as [Hr _]. now apply Op.
  - cbn [sql_run]. split.
    + f_equal. f_equal; [f_equal|f_equal]; apply (filter_ext_Forall _ _ _ _ Ok_); intros r Hr; unfold vkey; now rewrite eq_same by (apply G || apply Hr).
    + intros w' n [= <- _]. split; [exact Op|]. unfold keys. cbn [vertices]. rewrite Forall_map. rewrite Forall_forall in *. intros r Hr. apply filter_In in Hr as [Hr _]. now apply Ok_.
  - split.
    + f_equal. f_equal; [f_equal|].
      * apply (map_ext_Forall _ _ _ _ Ok_). intros r Hr. unfold vkey. now rewrite eq_same by (apply G || apply Hr).
      * destruct (k =? 0)%Z; [reflexivity|]. f_equal. apply (filter_ext_Forall _ _ _ _ Ok_). intros r Hr. unfold vkey. now rewrite eq_same by (apply G || apply Hr).
    + intros w' n [= <- _]. split; [exact Op|]. unfold keys. cbn [vertices]. rewrite !Forall_map. eapply Forall_impl; [|exact Ok_]. intros r Hr.
      cbn beta. destruct (vkey id r); exact Hr.
  - cbn [sql_run]. split; [reflexivity|]. intros w' n [= <- _]. split; [exact Op|constructor].
  - cbn [sql_run]. split; [reflexivity|]. intros w' n [= <- _]. split; [constructor|exact Ov].
Qed.

(** ** programs *)

Definition good (c : conn) : Prop := c_auto c = true /\ over (c_work c).
(** the two runs agree, and end in a good state *)
Definition sim {A} (p : prog A) (c : conn) : Prop :=
  run_ci wt p c = run_on p c /\ forall r c' t, run_on p c = (r, c', t) -> good c'.
Lemma run_ci_bind {A B} (p : prog A) (k : A -> prog B) c : run_ci wt (pbind p k) c = bind (run_ci wt p) (fun a => run_ci wt (k a)) c.
Proof.
  revert c. induction p as [[a|e]|X a f IH]; intros c; cbn [pbind run_ci].
  - unfold bind, lift, ret. destruct (run_ci wt (k a) c) as [[r c1] t1]. reflexivity.
  - reflexivity.
  - unfold bind at 1 2. destruct (run_act_ci wt a c) as [[[x|e] c1] t1] eqn:E.
    + unfold bind. rewrite E, IH. unfold bind. destruct (run_ci wt (f x) c1) as [[[y|e] c2] t2].
      * destruct (run_ci wt (k y) c2) as [[r c3] t3]. now rewrite app_assoc.
      * reflexivity.
    + unfold bind. now rewrite E.
Qed.
Lemma sim_bind {A B} (p : prog A) (k : A -> prog B) c : sim p c ->
  (forall a c1 t1, run_on p c = (Ok a, c1, t1) -> good c1 -> sim (k a) c1) -> sim (pbind p k) c.
Proof.
  intros [H1 G1] H2. split.
  - rewrite run_ci_bind, run_on_bind. unfold bind. rewrite H1. destruct (run_on p c) as [[[a|e] c1] t1]; [|reflexivity].
    now rewrite (proj1 (H2 a c1 t1 eq_refl (G1 _ _ _ eq_refl))).
  - intros r c' t. rewrite run_on_bind. unfold bind. destruct (run_on p c) as [[[a|e] c1] t1].
    + destruct (run_on (k a) c1) as [[r2 c2] t2] eqn:E. intros [= <- <- <-]. apply (proj2 (H2 a c1 t1 eq_refl (G1 _ _ _ eq_refl)) _ _ _ E).
    + intros [= _ <- _]. apply (G1 _ _ _ eq_refl).
Qed.
Lemma sim_ret {A} (r : res A) c : good c -> sim (PRet r) c.
Proof. intros G. split; [reflexivity|]. destruct r; cbn; now intros r0 c' t [= _ <- _]. Qed.
Lemma sim_get c : good c -> sim (pact AGetCur) c.
Proof. intros G. split; [reflexivity|]. now intros r0 c' t [= _ <- _]. Qed.
Lemma sim_set s c : good c -> sim (pact (ASetCur s)) c.
Proof. intros G. split; [reflexivity|]. now intros r0 c' t [= _ <- _]. Qed.
Lemma sim_commit c : good c -> sim (pact ACommit) c.
Proof. intros G. split; [reflexivity|]. now intros r0 c' t [= _ <- _]. Qed.
Lemma sim_exec h s c : stmt_good s -> good c -> sim (pact (AExec h s)) c.
Proof.
  intros Hs [A O]. destruct (stmt_same s (c_work c) O Hs) as [E1 E2]. split.
  - cbn. unfold bind, execute_ci, execute_on, engine. rewrite A, E1. reflexivity.
  - intros r c' t. cbn. unfold bind, execute_on, engine. rewrite A. destruct (negb (usable h c)); [intros [= _ <- _]; now split|].
    destruct (bind_error s); [intros [= _ <- _]; now split|]. destruct (sql_run_my s (c_work c)) as [[w n]|e]; intros [= _ <- _]; [|now split].
    split; [reflexivity|]. cbn. now apply (E2 w n).
Qed.
Lemma sim_for {A} (l : list A) f c : (forall x c, In x l -> good c -> sim (f x) c) -> good c -> sim (pfor l f) c.
Proof.
  revert c. induction l as [|x l IH]; intros c H G; cbn [pfor]; [now apply sim_ret|]. apply sim_bind; [apply H; [now left|exact G]|]. intros _ c1 t1 _ G1.
  apply IH; [|exact G1]. intros y c2 Hy. apply H. now right.
Qed.
Lemma look_same id w : over w -> good_text id -> sel_ci wt (SelRow id) w = vlook id w.
Proof.
  intros O G. apply over_keys in O. cbn [sel_ci]. unfold vlook. induction O as [|r l Hr _ IH]; [reflexivity|]. cbn [find].
  change (vkey id r) with (str_eqb id (fst r)). rewrite eq_same by (exact G || apply Hr). destruct (str_eqb id (fst r)); [reflexivity|exact IH].
Qed.
Lemma sim_row h id c : good_text id -> good c -> sim (pact (AQuery h (SelRow id))) c.
Proof.
  intros Hi [A O]. split.
  - cbn. unfold bind, query. destruct (negb (usable h c)); [reflexivity|]. destruct (negb (forallb bindable [id])); [reflexivity|].
    pose proof (look_same id (c_work c) O Hi) as E. cbn [sel_ci] in E. now rewrite E.
  - intros r c' t. cbn. unfold bind, query. destruct (negb (usable h c)); [intros [= _ <- _]; now split|]. destruct (negb (forallb bindable [id])); intros [= _ <- _]; now split.
Qed.
Ltac sims := repeat (first [apply sim_ret | apply sim_get | apply sim_set | apply sim_commit | assumption
  | apply sim_bind; [|intros ? ? ? _ ?] | match goal with |- sim (if ?b then _ else _) _ => destruct b | |- sim (match ?x with _ => _ end) _ => destruct x end]).
Lemma sim_open b c : good c -> sim (p_open_cursor b) c.
Proof. intros G. unfold p_open_cursor. sims. Qed.
Lemma sim_close_handle h c : good c -> sim (p_close_handle h) c.
Proof. intros G. unfold p_close_handle. sims. Qed.
Lemma sim_close h l b c : good c -> sim (p_close_cursor h l b) c.
Proof. intros G. unfold p_close_cursor. destruct l, b; sims; apply sim_close_handle; assumption. Qed.

(** ** texts of vertices and rows *)

Lemma ends_plain s : no_white s = true -> ends_with c_space s = false.
Proof.
  intros H. destruct s as [|c s _] using rev_ind; [reflexivity|]. rewrite ends_with_app_last. unfold no_white in H. rewrite forallb_app in H.
  apply andb_true_iff in H as [_ H]. cbn in H. rewrite andb_true_r in H. destruct (N.eqb_spec c c_space) as [->|N]; [discriminate H|reflexivity].
Qed.
Lemma vertex_end v : db_vertex v = true -> ends_with c_space (edge2str v) = false.
Proof.
  intros H. destruct (is_tup v) eqn:E.
  - destruct v as [| | | |l]; try easy. cbn [edge2str]. change (c_lpar :: ?x) with ([c_lpar] ++ x). rewrite app_assoc. now rewrite ends_with_app_last.
  - replace (edge2str v) with (show_atom v) by (now destruct v). apply ends_plain. destruct (atom_plain v) as (_ & Hw & _); [now apply db_atom_wf, db_vertex_atom|exact Hw].
Qed.
Lemma vertex_text v : db_vertex v = true -> written_in K v -> good_text (edge2str v).
Proof. intros H W. split; [exact W|now apply vertex_end]. Qed.
Lemma digits_in s : forallb is_digit s = true -> inK s.
Proof. rewrite !forallb_forall. intros H c Hc. apply (ta_in _ _ T). now apply H. Qed.
Lemma join_in l : Forall (fun s => inK s) l -> inK (join [c_space] l).
Proof.
  induction 1 as [|x l Hx H IH]; [reflexivity|]. destruct l as [|y l]; [exact Hx|].
  rewrite join_cons, forallb_app, Hx. cbn [app forallb andb]. rewrite (proj1 (ta_in _ _ T)). exact IH.
Qed.
Lemma nodes_in l : Forall (written_in K) l -> inK (nodes2str l).
Proof. intros H. apply join_in. now rewrite Forall_map. Qed.
Lemma perm_number_in k : (0 <= k)%Z -> written_in K (VInt k).
Proof. intros H. unfold written_in. change (edge2str (VInt k)) with (show_Z k). unfold show_Z. replace (k <? 0)%Z with false by (symmetry; apply Z.ltb_ge; lia). apply digits_in, show_N_digits. Qed.

Variable V : value -> Prop.
Hypothesis HV : noalias V.
Hypothesis VK : forall x, V x -> written_in K x.

Lemma elems_written e : edge_in V e -> Forall (written_in K) (elems e).
Proof. intros [_ H]. apply Forall_forall. intros x Hx. now apply VK, H. Qed.
Lemma edge_written e : edge_in V e -> written_in K e.
Proof.
  intros He. destruct (db_edge_elems e (edge_in_db _ _ He)) as (Ee & _ & _). rewrite Ee. unfold written_in. cbn [edge2str forallb]. rewrite forallb_app.
  change (join [c_space] (List.map edge2str (elems e))) with (nodes2str (elems e)). rewrite (nodes_in _ (elems_written e He)). cbn [forallb]. rewrite andb_true_r.
  apply andb_true_iff. exact (conj (proj1 (proj2 (ta_in _ _ T))) (proj1 (proj2 (proj2 (ta_in _ _ T))))).
Qed.
Lemma edge_text e : edge_in V e -> good_text (edge2str e).
Proof. intros He. apply vertex_text; [now apply db_edge_vertex, (edge_in_db V)|now apply edge_written]. Qed.
Lemma elem_text e x : edge_in V e -> In x (elems e) -> good_text (edge2str x).
Proof.
  intros He Hx. apply vertex_text; [now apply (elems_db V e)|]. pose proof (elems_written e He) as W. rewrite Forall_forall in W. now apply W.
Qed.
Lemma row_good e r : edge_in V e -> is_row (elems e) r -> good_text r /\ In c_space r.
Proof.
  intros He (k & p & Hk & Ep & ->). destruct (nthperm_ok _ k Hk) as (p' & _ & Ep' & Pp). assert (p' = p) by congruence. subst p'.
  destruct (db_edge_elems e (edge_in_db _ _ He)) as (_ & _ & Le).
  assert (Hn : p <> []) by (intros ->; apply Permutation_length in Pp; cbn in Pp; lia).
  split; [split|].
  - apply nodes_in. apply Forall_app. split; [rewrite <- Pp; now apply elems_written|]. constructor; [apply perm_number_in; lia|constructor].
  - rewrite nodes2str_app by easy. change (c_space :: ?s) with ([c_space] ++ s). rewrite app_assoc. rewrite ends_with_app_r.
    + apply ends_plain. cbn [nodes2str List.map join]. destruct (atom_plain (VInt k) eq_refl) as (_ & Hw & _). exact Hw.
    + change (show_atom (VInt k) <> []). now destruct (atom_plain (VInt k) eq_refl).
  - rewrite nodes2str_app by easy. apply in_app_iff. right. now left.
Qed.

(** ** the queries *)

Lemma on_gives {A B} (p : prog A) (k : A -> prog B) c a : run_ci wt p c = (Ok a, c, []) -> run_ci wt (pbind p k) c = run_ci wt (k a) c.
Proof. intros E. rewrite run_ci_bind. unfold bind. rewrite E. destruct (run_ci wt (k a) c) as [[r c'] t]. reflexivity. Qed.
Lemma on_pure {A B} (r : res A) a (k : A -> prog B) c : r = Ok a -> run_ci wt (pbind (PRet r) k) c = run_ci wt (k a) c.
Proof. intros ->. reflexivity. Qed.
Lemma open_ci c : run_ci wt (p_open_cursor true) c = (Ok (hd_of c), c, []).
Proof. unfold p_open_cursor, hd_of. cbn. unfold bind, get_cur. now destruct (c_cur c). Qed.
Lemma close_ci c : run_ci wt (p_close_cursor (hd_of c) true false) c = (Ok tt, c, []).
Proof. unfold p_close_cursor, hd_of. cbn. unfold bind, get_cur. now destruct (c_cur c). Qed.
Lemma query_ci {A} (q : sel A) c : live c -> forallb bindable (sel_texts q) = true -> run_ci wt (pact (AQuery (hd_of c) q)) c = (Ok (sel_ci wt q (c_work c)), c, []).
Proof.
  intros L B. cbn. unfold bind, query. unfold live in L. unfold hd_of, usable. rewrite B. destruct c as [au cm wk [| |]]; cbn in *; (reflexivity || now elim L).
Qed.

Lemma pattern_ci h p c : Inv V (c_work c) h -> live c -> good c -> pattern_in V p ->
  exists l, run_ci wt (p_pattern2edges (VTup p)) c = (Ok l, c, []) /\ NoDup l
    /\ forall e, In e l <-> In e (stored h) /\ matches p (elems e).
Proof.
  intros I L [_ [Op _]] Hp. pose proof (pattern_in_ok V p Hp) as Hp'. pose proof (wf_rows _ _ (i_wf _ _ _ I)) as Hw.
  destruct Hp' as [(a & rest & Ea & Ha) Hd Hi].
  set (s := nodes2str (filter not_none p)).
  destruct (nodes2str_text (filter not_none p)) as [Hn Ht]; [now rewrite Ea|exact Hd|]. fold s in Hn, Ht.
  assert (Hl : starts_with c_lpar s = false).
  { unfold s. rewrite Ea. destruct (nodes2str_first a rest) as (t & E & _). rewrite E.
    destruct (atom_text_start a (db_atom_wf a Ha)) as (Et & ch & r & E2 & Hc). rewrite Et, E2. exact Hc. }
  assert (Ks : inK s).
  { apply nodes_in. apply Forall_forall. intros x Hx. apply filter_In in Hx as [Hx Nx]. apply VK. now apply Hi. }
  destruct (db_text_plus_1 s Hn Ht) as (hi & Hhi & B1 & B2).
  assert (Kr : forall r, In r (perms (c_work c)) -> inK r) by (intros r Hr; rewrite Forall_forall in Op; apply Op; exact Hr).
  destruct (cur2edges_gen V (c_work c) (ci_range wt s hi) HV Hw) as (es & Ec & Nes & Ies).
  { intros r Hr R. now apply (range_no_par s hi r Ks (Kr r Hr) Hn Hl Hhi). }
  destruct (flags_spec V p es HV Hi) as (flags & Ef & If).
  { intros e He. now apply Ies in He. }
  set (out := List.map fst (filter snd (combine es flags))) in *.
  destruct (py_set_edges V out HV) as [N S].
  { intros e He. apply If in He as [He _]. now apply Ies in He. }
  exists (py_set out). split; [|split; [exact N|]].
  - unfold p_pattern2edges. rewrite (on_pure _ p) by reflexivity. cbv zeta. fold s. rewrite (on_pure _ hi) by exact Hhi.
    rewrite (on_gives _ _ c _ (open_ci c)). rewrite (on_gives _ _ c (filter (ci_range wt s hi) (perms (c_work c)))) by (apply query_ci; [exact L|cbn; now rewrite B1, B2]).
    rewrite (on_pure _ es) by exact Ec. rewrite (on_gives _ _ c _ (close_ci c)). rewrite (on_pure _ flags) by exact Ef. reflexivity.
  - intros e. rewrite S, If, Ies. split.
    + intros ((He & r & Hr & Rr & _) & M). split; [|exact M]. now apply (i_rows _ _ _ I e r).
    + intros (He & M). pose proof (i_edges _ _ _ I e He) as Hin. split; [|exact M]. split; [exact Hin|].
      destruct (indexed_hit_pattern V (c_work c) p e Hin (stored_indexed V _ h e I He)) as (r & Hr & Rr & Pr); [|exact M|].
      { exists a. apply filter_In. rewrite Ea. now left. }
      exists r. split; [exact Hr|]. split; [exact Rr|]. now apply range_prefix; [|apply Kr| |].
Qed.
Lemma exists_ci h e c : Inv V (c_work c) h -> live c -> good c -> edge_in V e -> run_ci wt (p_exists e) c = (Ok (memb e (stored h)), c, []).
Proof.
  intros I L G He. destruct (db_edge_elems e (edge_in_db _ _ He)) as (Ee & Ae & Le).
  assert (Hp : pattern_in V (elems e)).
  { constructor.
    - destruct (db_edge_inv e (edge_in_db _ _ He)) as (a & b & l & -> & Ha & Hl). exists a, (b :: l). split; [|exact Ha]. exact (filter_all_db _ Hl).
    - intros x Hx _. split; [now apply (elems_db V e)|now apply He]. }
  destruct (pattern_ci h (elems e) c I L G Hp) as (l & E & N & Il). unfold p_exists. rewrite Ee at 1. rewrite (on_gives _ _ c _ E).
  change (run_ci wt (pret (Nat.ltb 0 (List.length l))) c) with (@Ok bool (Nat.ltb 0 (List.length l)), c, @nil db). f_equal. f_equal. f_equal.
  destruct (memb e (stored h)) eqn:M.
  - apply memb_in in M. assert (In e l) as H by (apply Il; split; [exact M|apply matches_refl]). destruct l; [destruct H|reflexivity].
  - destruct l as [|x l]; [reflexivity|]. exfalso. destruct (proj1 (Il x) (or_introl eq_refl)) as [Hx Mx]. apply matches_all_db in Mx; [|exact Ae].
    apply memb_nin in M. apply M. destruct (db_edge_elems x) as (Ex & _ & _); [now apply (edge_in_db V), (i_edges _ _ _ I)|]. rewrite Ee, Mx, <- Ex. exact Hx.
Qed.
Lemma sim_exists h e c : Inv V (c_work c) h -> live c -> good c -> edge_in V e -> sim (p_exists e) c.
Proof.
  intros I L G He. assert (R : run_on (p_exists e) c = (Ok (memb e (stored h)), c, [])) by (rewrite (blind_exists e c), (ir_exists e c); exact (Inv_exists V (c_work c) h c e HV I eq_refl L He)).
  split; [rewrite R; now apply exists_ci|]. rewrite R. intros r c' t [= _ <- _]. exact G.
Qed.
Lemma star_ci h a c : Inv V (c_work c) h -> live c -> good c -> db_atom a = true -> written_in K a ->
  run_ci wt (p_star a) c = run_on (p_star a) c.
Proof.
  intros I L [_ [Op _]] Ha Wa. rewrite (blind_star a c), (ir_star a c). destruct (Inv_star V h a c HV I L Ha) as (l & Gl & _). rewrite Gl.
  pose proof (wf_rows _ _ (i_wf _ _ _ I)) as Hw.
  destruct (star_pure V (c_work c) a HV Hw Ha) as (hi & es & Ehi & B & Ec & _).
  assert (Eh : hi = edge2str a ++ [(c_space + 1)%N]) by (rewrite str_plus_1_app in Ehi; destruct (c_space + 1 <=? max_cp)%N; [now injection Ehi as <-|discriminate Ehi]).
  assert (Na : ~ In c_space (edge2str a)).
  { replace (edge2str a) with (show_atom a) by (now destruct a). destruct (atom_plain a (db_atom_wf a Ha)) as (_ & W & _). unfold nospace in W. rewrite forallb_forall in W.
    intros H. apply W in H. discriminate H. }
  assert (F : filter (ci_range wt (edge2str a ++ [c_space]) hi) (perms (c_work c)) = filter (in_range (edge2str a ++ [c_space]) hi) (perms (c_work c))).
  { apply filter_ext_in. intros r Hr. rewrite (in_range_prefix _ _ _ Ehi). rewrite Eh. destruct (Hw r Hr) as (e & He & Rr). destruct (row_good e r He Rr) as [_ Sr].
    apply range_star; [exact Wa| |exact Na|exact Sr]. rewrite Forall_forall in Op. now apply Op. }
  assert (R : run_ci wt (p_star a) c = (Ok (py_set es), c, [])).
  { unfold p_star, p_str2perms. cbv zeta. rewrite (on_pure _ hi) by exact Ehi. rewrite (on_gives _ _ c _ (open_ci c)).
    rewrite (on_gives _ _ c (filter (in_range (edge2str a ++ [c_space]) hi) (perms (c_work c)))) by (rewrite <- F; apply query_ci; [exact L|exact B]).
    rewrite (on_pure _ es) by exact Ec. rewrite (on_gives _ _ c _ (close_ci c)). reflexivity. }
  rewrite R. assert (R2 : run_on (p_star a) c = (Ok (py_set es), c, [])); [|rewrite (blind_star a c), (ir_star a c), Gl in R2; now rewrite <- R2].
  rewrite (blind_star a c), (ir_star a c). unfold star, str2perms. cbv zeta. rewrite (bind_gives _ _ c hi) by (now apply gives_lift). rewrite bind_open.
  rewrite (bind_gives _ _ c (filter (in_range (edge2str a ++ [c_space]) hi) (perms (c_work c)))).
  2:{ unfold gives, query. unfold usable, hd_of, live in *. rewrite B. destruct c as [au cm wk [| |]]; cbn in *; (reflexivity || now elim L). }
  rewrite (bind_gives _ _ c es) by (now apply gives_lift). now rewrite (bind_gives _ _ c tt (close_true c)).
Qed.
Lemma root_ci h r c : Inv V (c_work c) h -> live c -> good c -> root_in r -> root_written K r ->
  run_ci wt (p_symbols_with_root (VStr r)) c = run_on (p_symbols_with_root (VStr r)) c
  /\ exists l, run_on (p_symbols_with_root (VStr r)) c = (Ok l, c, []) /\ NoDup l
       /\ forall s, In s l <-> (exists e, In e (stored h) /\ In (VStr s) (elems e)) /\ exists t, s = r ++ c_slash :: t.
Proof.
  intros I L [_ [Op _]] Hr Wr. destruct Hr as (R1 & R2 & R3). pose proof (conj R1 (conj R2 R3) : root_in r) as Hr.
  destruct (Inv_symbols V h r c I L R1 R2 R3) as (l & Gl & N & Il).
  assert (Ro : run_on (p_symbols_with_root (VStr r)) c = (Ok l, c, [])) by (rewrite (blind_symbols (VStr r) c), (ir_symbols (VStr r) c); exact Gl).
  split; [|exists l; now split].
  assert (Na : ~ In c_space r).
  { intros H. unfold no_white in R2. rewrite forallb_forall in R2. apply R2 in H. discriminate H. }
  assert (F : filter (ci_range wt (r ++ [c_slash]) (r ++ [c_0])) (perms (c_work c)) = filter (in_range (r ++ [c_slash]) (r ++ [c_0])) (perms (c_work c))).
  { apply filter_ext_in. intros x Hx. rewrite (in_range_prefix _ _ _ (root_plus r)). apply range_root; [exact Wr| |exact Na]. rewrite Forall_forall in Op. now apply Op. }
  destruct (root_pure V (c_work c) r Hr (i_wf _ _ _ I)) as (ss & Es). unfold first_tokens in Es.
  assert (R : run_ci wt (p_symbols_with_root (VStr r)) c = (Ok (str_set ss), c, [])).
  { unfold p_symbols_with_root. cbn [show_atom]. cbv zeta. rewrite (on_pure _ _ _ _ (root_plus r)). rewrite (on_gives _ _ c _ (open_ci c)).
    rewrite (on_gives _ _ c (filter (in_range (r ++ [c_slash]) (r ++ [c_0])) (perms (c_work c)))) by (rewrite <- F; apply query_ci; [exact L|now apply root_binds]).
    rewrite (on_pure _ ss) by exact Es. rewrite (on_gives _ _ c _ (close_ci c)). reflexivity. }
  rewrite R. assert (R4 : run_on (p_symbols_with_root (VStr r)) c = (Ok (str_set ss), c, [])); [|now rewrite R4].
  rewrite (blind_symbols (VStr r) c), (ir_symbols (VStr r) c). unfold symbols_with_root. cbn [show_atom]. cbv zeta. rewrite (bind_gives _ _ c (r ++ [c_0])) by (apply gives_lift, root_plus). rewrite bind_open.
  rewrite (bind_gives _ _ c (filter (in_range (r ++ [c_slash]) (r ++ [c_0])) (perms (c_work c)))).
  2:{ unfold gives, query. unfold usable, hd_of, live in *. pose proof (root_binds r Hr) as Bb. cbn [forallb] in Bb |- *. rewrite Bb.
 destruct c as [au cm wk [| |]]; cbn in *; (reflexivity || now elim L). }
  rewrite (bind_gives _ _ c ss) by (now apply gives_lift). now rewrite (bind_gives _ _ c tt (close_true c)).
Qed.
Lemma all_ci {B} (f : value * Z -> B) h c : Inv V (c_work c) h -> live c -> run_ci wt (p_f_all f) c = run_on (p_f_all f) c.
Proof.
  intros I L. destruct (all_pure f V (c_work c) (i_wf _ _ _ I)) as (ps & E & _).
  assert (R : run_ci wt (p_f_all f) c = (Ok (List.map f ps), c, [])).
  { unfold p_f_all. rewrite (on_gives _ _ c _ (open_ci c)). rewrite (on_gives _ _ c _ (query_ci SelAll c L eq_refl)). cbn [sel_ci].
    rewrite (on_pure _ (List.map f ps)) by exact E. rewrite (on_gives _ _ c _ (close_ci c)). reflexivity. }
  rewrite R, (blind_f_all f c), (ir_f_all f c). unfold f_all. rewrite bind_open.
  rewrite (bind_gives _ _ c (List.map (fun r => (fst r, fst (snd r))) (vertices (c_work c)))).
  2:{ unfold gives, query. unfold usable, hd_of, live in *. destruct c as [au cm wk [| |]]; cbn in *; (reflexivity || now elim L). }
  rewrite (bind_gives _ _ c _ (gives_lift _ c _ E)). now rewrite (bind_gives _ _ c tt (close_true c)).
Qed.
Lemma sources_ci h e c : Inv V (c_work c) h -> live c -> good c -> db_vertex e = true -> V e -> V const_source ->
  exists l, run_ci wt (p_sources e) c = (Ok l, c, []) /\ NoDup l /\ forall s, In s l <-> In (link s e) (stored h).
Proof.
  intros I L G He Ve Vs. destruct (pattern_ci h _ c I L G (sources_pattern_in V e He Ve Vs)) as (l & E & _ & Il).
  destruct (sources_pure V h e (c_work c) l HV I He Il) as (ss & Em & Ns & Is). exists (py_set ss). split; [|split; [exact Ns|exact Is]].
  unfold p_sources. rewrite (on_gives _ _ c _ E). now rewrite (on_pure _ ss) by exact Em.
Qed.

(** ** the calls *)

Lemma sim_change id k c : good_text id -> good c -> sim (p_change_degree id k) c.
Proof.
  intros Hi G. unfold p_change_degree. apply sim_bind; [now apply sim_open|]. intros hd c1 t1 _ G1. apply sim_bind; [now apply sim_exec|]. intros n c2 t2 _ G2.
  apply sim_bind; [now apply sim_close|]. intros _ c3 t3 _ G3. now apply sim_ret.
Qed.
Lemma sim_uoi u i c : stmt_good u -> stmt_good i -> good c -> sim (p_update_or_insert u i) c.
Proof.
  intros Hu Hi G. unfold p_update_or_insert. apply sim_bind; [now apply sim_open|]. intros hd c1 t1 _ G1. apply sim_bind; [now apply sim_exec|]. intros n c2 t2 _ G2.
  apply sim_bind; [|intros _ c3 t3 _ G3; now apply sim_close]. destruct (Nat.eqb n 0); [|now apply sim_ret].
  apply sim_bind; [now apply sim_exec|]. intros _ c3 t3 _ G3. now apply sim_ret.
Qed.
Lemma sim_degree v c : db_vertex v = true -> written_in K v -> good c -> sim (p_degree v) c.
Proof.
  intros Hv Hw G. unfold p_degree. cbv zeta. apply sim_bind; [now apply sim_open|]. intros hd c1 t1 _ G1. apply sim_bind; [apply sim_row; [now apply vertex_text|exact G1]|].
  intros [[d t]|] c2 t2 _ G2.
  - apply sim_bind; [now apply sim_close_handle|]. intros _ c3 t3 _ G3. now apply sim_ret.
  - apply sim_bind; [now apply sim_close|]. intros _ c3 t3 _ G3. now apply sim_ret.
Qed.
Lemma sim_timestamp v c : db_vertex v = true -> written_in K v -> good c -> sim (p_timestamp v) c.
Proof.
  intros Hv Hw G. unfold p_timestamp. cbv zeta. apply sim_bind; [now apply sim_open|]. intros hd c1 t1 _ G1. apply sim_bind; [apply sim_row; [now apply vertex_text|exact G1]|].
  intros [[d t]|] c2 t2 _ G2.
  - apply sim_bind; [now apply sim_close_handle|]. intros _ c3 t3 _ G3. now apply sim_ret.
  - apply sim_bind; [now apply sim_close|]. intros _ c3 t3 _ G3. now apply sim_ret.
Qed.
Lemma sim_destroy c : good c -> sim p_destroy c.
Proof.
  intros G. unfold p_destroy. apply sim_bind; [now apply sim_open|]. intros hd c1 t1 _ G1. apply sim_bind; [now apply sim_exec|]. intros n c2 t2 _ G2.
  apply sim_bind; [now apply sim_exec|]. intros n2 c3 t3 _ G3. now apply sim_close.
Qed.

Lemma sim_add_raw h e t c : live c -> Inv V (c_work c) h -> edge_in V e -> good c -> (~ present h e -> short_texts e) -> sim (p_add_raw e t) c.
Proof.
  intros L I He G Hf. pose proof (edge_in_db _ _ He) as De. destruct (db_edge_elems e De) as (Ee & Ae & Le).
  unfold p_add_raw. apply sim_bind; [now apply (sim_exists h)|]. intros b c1 t1 E G1. rewrite (blind_exists e c), (ir_exists e c) in E.
  pose proof (Inv_exists V _ h c e HV I eq_refl L He) as X. unfold gives in X. rewrite X in E. injection E as <- <- <-.
  apply sim_bind; [|intros _ c2 t2 _ G2; now apply sim_ret]. destruct (memb e (stored h)) eqn:M; [now apply sim_ret|].
  assert (Np : ~ present h e) by (rewrite <- stored_present; now apply memb_nin). specialize (Hf Np). destruct (short_vertex e De Hf) as [Hse Hsx].
  rewrite (as_seq_edge e De). cbn [pbind]. apply sim_bind.
  - apply sim_for; [|exact G]. intros x c1 Hx G2. unfold p_add_vertex. cbv zeta. apply sim_bind; [apply sim_change; [now apply (elem_text e)|exact G2]|].
    intros [|] c2 t2 _ G3; [now apply sim_ret|]. assert (row_text (edge2str x)) by (split; [now apply (elem_text e)|now apply Hsx]). now apply sim_uoi.
  - intros _ c1 t1 _ G2. assert (row_text (edge2str e)) by (split; [now apply edge_text|exact Hse]). apply sim_bind; [now apply sim_uoi|].
    intros _ c2 t2 _ G3. rewrite dow_rows. apply sim_for; [|exact G3]. intros r c3 Hr G4.
    assert (Hn : elems e <> []) by (intros E; rewrite E in Le; cbn in Le; lia). apply (rows_of_spec _ _ Hn) in Hr.
    assert (row_text r) by (split; [now apply (row_good e)|now apply (short_rows e)]). now apply sim_uoi.
Qed.
Lemma sim_remove_raw h e c : live c -> Inv V (c_work c) h -> edge_in V e -> good c -> sim (p_remove_raw e) c.
Proof.
  intros L I He G. pose proof (edge_in_db _ _ He) as De. destruct (db_edge_elems e De) as (Ee & Ae & Le).
  unfold p_remove_raw. apply sim_bind; [now apply (sim_exists h)|]. intros b c1 t1 _ G1. destruct b; [|now apply sim_ret].
  rewrite (as_seq_edge e De). cbn [pbind]. apply sim_bind.
  - apply sim_for; [|exact G1]. intros x c2 Hx G2. apply sim_bind; [apply sim_change; [now apply (elem_text e)|exact G2]|]. intros _ c3 t3 _ G3. now apply sim_ret.
  - intros _ c2 t2 _ G2. apply sim_bind.
    + rewrite dow_rows. apply sim_for; [|exact G2]. intros r c3 Hr G3.
      assert (Hn : elems e <> []) by (intros E; rewrite E in Le; cbn in Le; lia). apply (rows_of_spec _ _ Hn) in Hr. unfold p_remove_edge_permutation.
      apply sim_bind; [apply sim_exec; [now apply (row_good e)|exact G3]|]. intros _ c4 t4 _ G4. now apply sim_commit.
    + intros _ c3 t3 _ G3. unfold p_remove_str. apply sim_bind; [now apply sim_open|]. intros hd c4 t4 _ G4.
      apply sim_bind; [apply sim_exec; [now apply edge_text|exact G4]|]. intros _ c5 t5 _ G5. now apply sim_close.
Qed.

(** a loop, whose rounds run as in the model *)
Lemma sim_loop {A} (l : list A) (f : A -> prog unit) (g : list ev -> A -> list ev) : extends g ->
  (forall x h, In x l -> goes false V h (g h x) (run (f x)) tt) ->
  (forall x h, In x l -> Forall (ev_in V) h -> Forall (ev_in V) (g h x)) ->
  (forall x h c, In x l -> Forall (ev_in V) h -> my_fine (g h x) -> live c -> Inv V (c_work c) h -> run_on (f x) c = run (f x) c) ->
  (forall x h c, In x l -> Forall (ev_in V) h -> my_fine (g h x) -> live c -> Inv V (c_work c) h -> good c -> sim (f x) c) ->
  forall h c, Forall (ev_in V) h -> my_fine (fold_left g l h) -> live c -> Inv V (c_work c) h -> good c -> sim (pfor l f) c.
Proof.
  intros X. induction l as [|x l IH]; intros H1 H2 H3 H4 h c Hh Hf L I G; cbn [pfor]; [now apply sim_ret|].
  cbn [fold_left] in Hf. assert (Hf1 : my_fine (g h x)) by now apply (fine_fold g l).
  apply sim_bind; [apply (H4 x h); auto; now left|].
  intros [] c1 t1 E G1. rewrite (H3 x h c (or_introl eq_refl) Hh Hf1 L I) in E.
  destruct (H1 x h (or_introl eq_refl) c L I) as (fs & (c2 & t2 & E2 & S) & I2). rewrite E in E2. injection E2 as <- <-.
  apply (IH (fun y h' Hy => H1 y h' (or_intror Hy)) (fun y h' Hy => H2 y h' (or_intror Hy)) (fun y h' c' Hy => H3 y h' c' (or_intror Hy)) (fun y h' c' Hy => H4 y h' c' (or_intror Hy)) (g h x)).
  - apply H2; [now left|exact Hh].
  - exact Hf.
  - unfold live. now rewrite (st_cur _ _ _ _ _ S).
  - now rewrite (st_work _ _ _ _ _ S).
  - exact G1.
Qed.

Lemma sim_add h e t c : live c -> Inv V (c_work c) h -> edge_in V e -> good c -> my_fine (EAdd e t :: h) -> sim (p_add e t) c.
Proof.
  intros L I He G Hf. destruct (index0_edge e (edge_in_db _ _ He)) as (a & E0 & Ea). unfold p_add. rewrite E0. cbn [pbind]. rewrite Ea.
  apply sim_bind; [|intros ? ? ? _ G1; now apply sim_ret].
  apply sim_bind; [|intros ? ? ? _ G1; now apply sim_ret]. apply (sim_add_raw h); auto. intros N. now apply (fine_add e t h Hf).
Qed.
Lemma ready_open_on c h h1 c1 t1 : ready V c h -> run_on (p_open_cursor false) c = (Ok h1, c1, t1) -> live c1 /\ Inv V (c_work c1) h.
Proof. intros R. rewrite (blind_open false c). now apply ready_open. Qed.
Lemma sim_add_many h es t c : es <> [] -> Forall (edge_in V) es -> int64 t = true -> ready V c h -> Forall (ev_in V) h -> good c ->
  my_fine (fold_left (fun h e => EAdd e t :: h) es h) -> sim (p_add (VTup es) t) c.
Proof.
  intros Hn Hes Ht R Hh G Hf. destruct (index0_edges V es Hn Hes) as (a & E0 & Ea). unfold p_add. rewrite E0. cbn [pbind]. rewrite Ea.
  apply sim_bind; [|intros ? ? ? _ G1; now apply sim_ret].
  apply sim_bind; [now apply sim_open|]. intros hd c1 t1 E1 G1. destruct (ready_open_on _ _ _ _ _ R E1) as [L1 I1].
  cbn [as_seq pbind]. apply sim_bind; [|intros ? c2 t2 _ G2; now apply sim_close].
  rewrite Forall_forall in Hes. apply (sim_loop es _ (fun h e => EAdd e t :: h)) with (h := h); auto.
  - intros h' x. now exists [EAdd x t].
  - intros x h' Hx c0 L0 I0. destruct (goes_weaken _ _ _ _ _ (goes_add_raw V h' x t HV (Hes x Hx) Ht) c0 L0 I0) as (fs & (c4 & t4 & E4 & S4) & I4).
    exists fs. split; [|exact I4]. exists c4, t4. split; [|exact S4]. rewrite run_bind. unfold bind. rewrite (ir_add_raw x t c0), E4. cbn. now rewrite app_nil_r.
  - intros x h' Hx Hh'. constructor; [now apply Hes|exact Hh'].
  - intros x h' c0 Hx Hh' Hf' L0 I0. apply same_bind; [|intros ? ? ? _; reflexivity]. apply (add_raw_same V h'); auto. now apply fine_add.
  - intros x h' c0 Hx Hh' Hf' L0 I0 G0. apply sim_bind; [|intros ? ? ? _ G2; now apply sim_ret]. apply (sim_add_raw h'); auto. intros N. now apply (fine_add x t h' Hf').
Qed.
Lemma sim_remove h e c : live c -> Inv V (c_work c) h -> edge_in V e -> good c -> sim (p_remove e) c.
Proof.
  intros L I He G. destruct (index0_edge e (edge_in_db _ _ He)) as (a & E0 & Ea). unfold p_remove. rewrite E0. cbn [pbind]. rewrite Ea. now apply (sim_remove_raw h).
Qed.
(** removals do not depend on the history being fine *)
Lemma sim_rem_loop (l : list value) f : (forall x h, In x l -> goes false V h (ERem x :: h) (run (f x)) tt) -> (forall x c, run_on (f x) c = run (f x) c) ->
  (forall x h c, In x l -> live c -> Inv V (c_work c) h -> good c -> sim (f x) c) ->
  forall h c, live c -> Inv V (c_work c) h -> good c -> sim (pfor l f) c.
Proof.
  induction l as [|x l IH]; intros H1 H3 H4 h c L I G; cbn [pfor]; [now apply sim_ret|]. apply sim_bind; [apply (H4 x h); auto; now left|].
  intros [] c1 t1 E G1. rewrite (H3 x c) in E. destruct (H1 x h (or_introl eq_refl) c L I) as (fs & (c2 & t2 & E2 & S) & I2). rewrite E in E2. injection E2 as <- <-.
  apply (IH (fun y h' Hy => H1 y h' (or_intror Hy)) H3 (fun y h' c' Hy => H4 y h' c' (or_intror Hy)) (ERem x :: h)).
  - unfold live. now rewrite (st_cur _ _ _ _ _ S).
  - now rewrite (st_work _ _ _ _ _ S).
  - exact G1.
Qed.
Lemma goes_p_remove h e : edge_in V e -> goes false V h (ERem e :: h) (run (p_remove e)) tt.
Proof. intros He. apply (goes_run _ _ _ _ _ (remove e)); [apply ir_remove|now apply goes_remove]. Qed.
Lemma sim_remove_loop l h c : (forall x, In x l -> edge_in V x) -> live c -> Inv V (c_work c) h -> good c -> sim (pfor l p_remove) c.
Proof.
  intros H. apply sim_rem_loop; [intros x h' Hx; apply goes_p_remove; now apply H|intros x c0; apply blind_remove|].
  intros x h' c0 Hx L I G. apply (sim_remove h'); auto.
Qed.
Lemma sim_remove_many es h c : es <> [] -> Forall (edge_in V) es -> live c -> Inv V (c_work c) h -> good c -> sim (p_remove (VTup es)) c.
Proof.
  intros Hn Hes L I G. destruct (index0_edges V es Hn Hes) as (a & E0 & Ea). unfold p_remove. rewrite E0. cbn [pbind]. rewrite Ea. cbn [as_seq pbind].
  rewrite Forall_forall in Hes. apply (sim_rem_loop es p_remove_raw) with (h := h); auto.
  - intros x h' Hx. apply (goes_run _ _ _ _ _ (remove_raw x)); [apply ir_remove_raw|]. apply goes_remove_raw; auto.
  - intros x c0. apply blind_remove_raw.
  - intros x h' c0 Hx L0 I0 G0. apply (sim_remove_raw h'); auto.
Qed.
(** a query that only matters up to order, and whose answer is then dropped *)
Lemma sim_dropped {A} (p : prog A) (c : conn) (l l' : A) : run_ci wt p c = (Ok l, c, []) -> run_on p c = (Ok l', c, []) -> good c -> sim (pbind p (fun _ => pret tt)) c.
Proof.
  intros E1 E2 G. split.
  - rewrite (on_gives _ _ c _ E1), run_on_bind. unfold bind. rewrite E2. reflexivity.
  - intros r c' t. rewrite run_on_bind. unfold bind. rewrite E2. cbn. now intros [= _ <- _].
Qed.
Lemma sim_pattern_drop h p c : Inv V (c_work c) h -> live c -> good c -> pattern_in V p -> sim (pbind (p_pattern2edges (VTup p)) (fun _ => pret tt)) c.
Proof.
  intros I L G Hp. destruct (pattern_ci h p c I L G Hp) as (l & E & _). destruct (Inv_pattern V h p c HV I L Hp) as (l' & E' & _).
  apply (sim_dropped _ c l l'); [exact E| |exact G]. rewrite (blind_pattern (VTup p) c), (ir_pattern (VTup p) c). exact E'.
Qed.
Lemma sim_star_drop h a c : Inv V (c_work c) h -> live c -> good c -> db_atom a = true -> written_in K a -> sim (pbind (p_star a) (fun _ => pret tt)) c.
Proof.
  intros I L G Ha Wa. pose proof (star_ci h a c I L G Ha Wa) as E. destruct (Inv_star V h a c HV I L Ha) as (l & E' & _).
  assert (R : run_on (p_star a) c = (Ok l, c, [])) by (rewrite (blind_star a c), (ir_star a c); exact E').
  apply (sim_dropped _ c l l); [now rewrite E|exact R|exact G].
Qed.
Lemma sim_root_drop h r c : Inv V (c_work c) h -> live c -> good c -> root_in r -> root_written K r -> sim (pbind (p_symbols_with_root (VStr r)) (fun _ => pret tt)) c.
Proof.
  intros I L G Hr Wr. destruct (root_ci h r c I L G Hr Wr) as (E & l & R & _). apply (sim_dropped _ c l l); [now rewrite E|exact R|exact G].
Qed.
Lemma sim_all_drop h c : Inv V (c_work c) h -> live c -> good c -> sim (pbind (p_f_all (fun x => x)) (fun _ => pret tt)) c.
Proof.
  intros I L G. pose proof (all_ci (fun x => x) h c I L) as E. destruct (Inv_f_all (fun x : value * Z => x) V h c I L) as (l & R & _).
  assert (Ro : run_on (p_f_all (fun x : value * Z => x)) c = (Ok (List.map (fun x => x) l), c, [])) by (rewrite (blind_f_all _ c), (ir_f_all _ c); exact R).
  eapply (sim_dropped _ c); [rewrite E; exact Ro|exact Ro|exact G].
Qed.
Definition bop_written (b : bop) : Prop := match b with BStar v => written_in K v | BRoot r => root_written K r | _ => True end.
Lemma sim_bop h b c : bop_in V b -> bop_written b -> Forall (ev_in V) h -> my_fine (after_bop h b) -> live c -> Inv V (c_work c) h -> good c -> sim (p_bop b) c.
Proof.
  intros Hb Hw Hh Hf L I G. destruct b as [e t|e|es| |e|p|a|r|]; cbn [p_bop bop_in bop_written after_bop] in *.
  - apply sim_bind; [apply (sim_add h); auto; apply Hb|]. intros ? ? ? _ G1. now apply sim_ret.
  - now apply (sim_remove h).
  - destruct Hb. now apply (sim_remove_many es h).
  - now apply sim_destroy.
  - apply sim_bind; [now apply (sim_exists h)|]. intros ? ? ? _ G1. now apply sim_ret.
  - now apply (sim_pattern_drop h).
  - now apply (sim_star_drop h).
  - now apply (sim_root_drop h).
  - now apply (sim_all_drop h).
Qed.

(** ** the calls of M_driver *)

Lemma run_on_gives {A B} (p : prog A) (k : A -> prog B) c a : run_on p c = (Ok a, c, []) -> run_on (pbind p k) c = run_on (k a) c.
Proof. intros E. rewrite run_on_bind. unfold bind. rewrite E. destruct (run_on (k a) c) as [[r c1] t1]. reflexivity. Qed.

Lemma sim_op ord h o c : op_in V o -> op_written K o -> Forall (ev_in V) h -> ready V c h -> my_fine (after h o) -> good c ->
  (forall p, o <> ORemovePattern p) -> sim (p_op ord o) c.
Proof.
  intros Hi Hw Hh R Hf G Hp. pose proof (ready_live _ _ _ R) as L. pose proof (rd_inv _ _ _ R) as I.
  destruct o as [e t|es t|e|es| |s e t|s es t|s e|p|fs|q|]; cbn [p_op after op_in op_written] in *.
  - apply sim_bind; [apply (sim_add h); auto; apply Hi|]. intros ? ? ? _ G1. now apply sim_ret.
  - destruct Hi as [[Hn Hes] Ht]. apply sim_bind; [now apply (sim_add_many h)|]. intros ? ? ? _ G1. now apply sim_ret.
  - now apply (sim_remove h).
  - destruct Hi. now apply (sim_remove_many es h).
  - now apply sim_destroy.
  - destruct Hi as [[He Hl] Ht]. destruct (index0_edge e (edge_in_db _ _ He)) as (a & E0 & Ea). unfold p_add_belief. rewrite E0. cbn [pbind]. rewrite Ea.
    apply sim_bind; [|intros ? ? ? _ G1; now apply sim_ret].
    apply (sim_add_many h); [discriminate| |exact Ht|exact R|exact Hh|exact G|exact Hf]. apply Forall_cons; [exact He|]. apply Forall_cons; [exact Hl|constructor].
  - destruct Hi as [[Hn Hes] Ht]. destruct (index0_edges V es Hn) as (a & E0 & Ea).
    { eapply Forall_impl; [|exact Hes]. now intros x [H _]. }
    unfold p_add_belief. rewrite E0. cbn [pbind]. rewrite Ea. cbn [as_seq pbind]. apply sim_bind; [|intros ? ? ? _ G1; now apply sim_ret].
    apply (sim_add_many h); auto.
    + destruct es; [easy|discriminate].
    + rewrite Forall_forall in *. intros x Hx. apply in_flat_map in Hx as (e & He & [<-|[<-|[]]]); now apply (Hes e).
    + rewrite fold_flat. exact Hf.
  - destruct Hi as [He Hl]. change (link_edge s e) with (link s e) in *. unfold p_remove_belief. apply sim_bind; [now apply (sim_remove h)|].
    intros [] c1 t1 E1 G1. rewrite (blind_remove (link s e) c) in E1. destruct (goes_p_remove h (link s e) Hl c L I) as (us & (c2 & t2 & E2 & S2) & I2).
    rewrite E1 in E2. injection E2 as <- <-. rewrite <- (st_work _ _ _ _ _ S2) in I2.
    assert (L1 : live c1) by (unfold live; now rewrite (st_cur _ _ _ _ _ S2)).
    assert (V e /\ V const_source) as [Ve Vs] by (split; apply Hl; cbn; tauto).
    pose proof (db_edge_vertex _ (edge_in_db _ _ He)) as De.
    destruct (sources_ci _ e c1 I2 L1 G1 De Ve Vs) as (l & El & _ & Il). destruct (Inv_sources V _ e c1 HV I2 L1 De Ve Vs) as (l' & El' & _ & Il').
    assert (Ro : run_on (p_sources e) c1 = (Ok l', c1, [])) by (rewrite (blind_sources e c1), (ir_sources e c1); exact El').
    assert (Eb : Nat.eqb (List.length l) 0 = Nat.eqb (List.length l') 0).
    { destruct l as [|x l], l' as [|y l']; try reflexivity; exfalso.
      - apply (proj2 (Il y)), Il'. now left.
      - apply (proj2 (Il' x)), Il. now left. }
    assert (S3 : sim (if Nat.eqb (List.length l') 0 then p_remove e else pret tt) c1).
    { destruct (Nat.eqb (List.length l') 0); [now apply (sim_remove (ERem (link s e) :: h))|now apply sim_ret]. }
    split.
    + rewrite (on_gives _ _ c1 _ El), (run_on_gives _ _ c1 _ Ro), Eb. exact (proj1 S3).
    + intros r c' t. rewrite (run_on_gives _ _ c1 _ Ro). apply (proj2 S3).
  - now elim (Hp p).
  - unfold p_batch_exec. apply sim_bind; [now apply sim_open|]. intros hd c1 t1 E1 G1. destruct (ready_open_on _ _ _ _ _ R E1) as [L1 I1].
    apply sim_bind; [|intros ? c2 t2 _ G2; now apply sim_close]. rewrite pfor_map. rewrite Forall_forall in Hi, Hw.
    assert (Hb : forall bs b, In bs fs -> In b bs -> bop_in V b) by (intros bs b H1 H2; apply Hi, in_concat; now exists bs).
    assert (Hbw : forall bs b, In bs fs -> In b bs -> bop_written b) by (intros bs b H1 H2; apply (Hw b), in_concat; now exists bs).
    assert (Gb : forall bs h, In bs fs -> goes false V h (fold_left after_bop bs h) (run (pfor bs p_bop)) tt).
    { intros bs h' Hbs. apply (goes_run _ _ _ _ _ (mfor bs run_bop)); [apply ir_for, ir_bop|]. apply goes_mfor. intros b h2 Hb2. apply goes_bop; [exact HV|now apply (Hb bs)]. }
    assert (Sb : forall bs h' c0, In bs fs -> Forall (ev_in V) h' -> my_fine (fold_left after_bop bs h') -> live c0 -> Inv V (c_work c0) h' -> run_on (pfor bs p_bop) c0 = run (pfor bs p_bop) c0).
    { intros bs h' c0 Hbs Hh' Hf' L0 I0. apply (same_loop V bs _ after_bop) with (h := h'); auto.
      * apply extends_bop.
      * intros b h2 Hb2. apply (goes_run _ _ _ _ _ (run_bop b)); [apply ir_bop|]. apply goes_bop; [exact HV|now apply (Hb bs)].
      * intros b h2 Hb2. apply bop_in_hist. now apply (Hb bs).
      * intros b h2 c2 Hb2 Hh2 Hf2 L2 I2. apply (bop_same V h2); auto. now apply (Hb bs). }
    apply (sim_loop fs _ (fun h bs => fold_left after_bop bs h)) with (h := h); auto.
    + intros h' bs. apply extends_fold, extends_bop.
    + intros bs h' Hbs Hh'. apply (fold_in V (bop_in V)); [|rewrite Forall_forall; intros b; now apply Hb|exact Hh']. intros h2 b. apply bop_in_hist.
    + intros bs h' c0 Hbs Hh' Hf' L0 I0 G0. apply (sim_loop bs _ after_bop) with (h := h'); auto.
      * apply extends_bop.
      * intros b h2 Hb2. apply (goes_run _ _ _ _ _ (run_bop b)); [apply ir_bop|]. apply goes_bop; [exact HV|now apply (Hb bs)].
      * intros b h2 Hb2. apply bop_in_hist. now apply (Hb bs).
      * intros b h2 c2 Hb2 Hh2 Hf2 L2 I2. apply (bop_same V h2); auto. now apply (Hb bs).
      * intros b h2 c2 Hb2 Hh2 Hf2 L2 I2 G2. apply (sim_bop h2); auto; [now apply (Hb bs)|now apply (Hbw bs)].
    + clear - Hf. revert h Hf. induction fs as [|bs fs IH]; intros h Hf; [exact Hf|]. cbn [List.concat fold_left] in *.
      rewrite fold_left_app in Hf. now apply IH.
  - destruct q as [e|p|a|v|v|e|r|]; cbn [p_ask ask_in ask_written] in *.
    + apply sim_bind; [now apply (sim_exists h)|]. intros ? ? ? _ G1. now apply sim_ret.
    + now apply (sim_pattern_drop h).
    + now apply (sim_star_drop h).
    + apply sim_bind; [now apply sim_degree|]. intros ? ? ? _ G1. now apply sim_ret.
    + apply sim_bind; [now apply sim_timestamp|]. intros ? ? ? _ G1. now apply sim_ret.
    + destruct Hi as (De & Ve & Vs). destruct (sources_ci h e c I L G De Ve Vs) as (l & El & _). destruct (Inv_sources V h e c HV I L De Ve Vs) as (l' & El' & _).
      apply (sim_dropped _ c l l'); [exact El| |exact G]. rewrite (blind_sources e c), (ir_sources e c). exact El'.
    + now apply (sim_root_drop h).
    + now apply (sim_all_drop h).
  - now apply sim_ret.
Qed.

(** the order in which a pattern's answer is gone through: as on the other engines,
    up to a permutation *)
Definition swap_order (ord : list value -> list value) (l l' : list value) (x : list value) : list value :=
  if veqb (VTup x) (VTup l) then ord l' else x.
Lemma op_ci ord h o c : (forall l, Permutation (ord l) l) -> op_in V o -> op_written K o -> Forall (ev_in V) h -> ready V c h -> my_fine (after h o) -> good c ->
  exists ord' c' tr, (forall l, Permutation (ord' l) l) /\ run_op_ci wt ord o c = run_op ord' o c /\ run_op ord' o c = (Ok tt, c', tr) /\ ready V c' (after h o) /\ good c'.
Proof.
  intros Ho Hi Hw Hh R Hf G.
  assert (X : exists ord', (forall l, Permutation (ord' l) l) /\ run_op_ci wt ord o c = run_op_on ord' o c /\ forall r c' t, run_op_on ord' o c = (r, c', t) -> good c').
  { destruct o as [e t|es t|e|es| |s e t|s es t|s e|p|fs|q|];
      try (exists ord; split; [exact Ho|]; cbn [run_op_ci run_op_on]; apply (sim_op ord h); auto; discriminate).
    - pose proof (ready_live _ _ _ R) as L. pose proof (rd_inv _ _ _ R) as I. cbn [op_in] in Hi.
      destruct (pattern_ci h p c I L G Hi) as (l' & E' & N' & Il'). destruct (Inv_pattern V h p c HV I L Hi) as (l & E & N & Il).
      assert (Pl : Permutation l l') by (apply NoDup_Permutation; [exact N|exact N'|intros x; now rewrite Il, Il']).
      exists (swap_order ord l l'). split.
      { intros x. unfold swap_order. destruct (veqb (VTup x) (VTup l)) eqn:Ex; [|reflexivity]. apply veqb_eq in Ex. injection Ex as ->.
        transitivity l'; [apply Ho|now symmetry]. }
      cbn [run_op_ci run_op_on p_op]. unfold p_remove_by_pattern.
      assert (Eo : swap_order ord l l' l = ord l') by (unfold swap_order; now rewrite (proj2 (veqb_eq _ _) eq_refl)).
      assert (Ro : run_on (p_pattern2edges (VTup p)) c = (Ok l, c, [])) by (rewrite (blind_pattern (VTup p) c), (ir_pattern (VTup p) c); exact E).
      assert (S : sim (pfor (ord l') p_remove) c).
      { apply (sim_remove_loop _ h); auto. intros x Hx. apply (i_edges _ _ _ I). apply Il'. now apply (Permutation_in x (Ho l')). }
      split.
      + rewrite (on_gives _ _ c _ E'), (run_on_gives _ _ c _ Ro), Eo. exact (proj1 S).
      + intros r c' t. rewrite (run_on_gives _ _ c _ Ro), Eo. apply (proj2 S).
    - exists ord. split; [exact Ho|]. split; [reflexivity|]. cbn [run_op_on]. unfold reopen_op, reopen, open_db. intros r c' t [= _ <- _].
      destruct G as [Ga Gw]. destruct R as [_ Hs _]. split; [exact Ga|]. cbn [c_work]. now rewrite Hs. }
  destruct X as (ord' & Ho' & E & Gd). exists ord'.
  assert (E2 : run_op_on ord' o c = run_op ord' o c).
  { destruct o; try reflexivity; cbn [run_op_on]; rewrite (op_same ord' V h) by auto; now apply run_p_op. }
  destruct (op_top ord' V h o c HV Ho' Hi R) as (us & c1 & t1 & [E1 A1 R1 _ _]). exists c1, t1.
  split; [exact Ho'|]. split; [now rewrite E, E2|]. split; [exact E1|]. split; [exact R1|]. apply (Gd (Ok tt) c1 t1). now rewrite E2.
Qed.
Lemma ops_ci ord ops h c : (forall l, Permutation (ord l) l) -> Forall (op_in V) ops -> Forall (op_written K) ops -> Forall (ev_in V) h -> ready V c h ->
  my_fine (fold_left after ops h) -> good c ->
  exists c' tr, run_ops_ci wt ord ops c = (Ok tt, c', tr) /\ ready V c' (fold_left after ops h) /\ good c'.
Proof.
  intros Ho Hi. revert h c. induction Hi as [|o ops Hi _ IH]; intros h c Hw Hh R Hf G; [exists c, []; exact (conj eq_refl (conj R G))|].
  inversion Hw as [|? ? Hw1 Hw2]; subst. cbn [fold_left] in Hf.
  destruct (op_ci ord h o c Ho Hi Hw1 Hh R) as (ord' & c1 & t1 & _ & E & E1 & R1 & G1); [now apply (fine_fold after ops _ extends_after)|exact G|].
  destruct (IH (after h o) c1 Hw2 (after_in V h o Hi Hh) R1 Hf G1) as (c2 & t2 & E2 & R2 & G2). exists c2, (t1 ++ t2).
  split; [|split; [exact R2|exact G2]]. unfold run_ops_ci in *. cbn [mfor]. unfold bind. rewrite E, E1, E2. reflexivity.
Qed.
End apart.
