(** * P_rows.v -- the row of any vertex, from the history alone *)

From Verif Require Import Py M_symbol M_edge M_sql M_hypergraph P_py Spec P_edge P_perm P_range P_query
  S_history M_driver P_ops P_hist P_graph P_answers.
From Coq Require Import Permutation String.
Open Scope list_scope.

Lemma vrow_born V h v : Forall (ev_in V) h ->
  vrow h v = option_map (fun b => (Z.of_nat (occurrences v (stored h)) - Z.of_nat (occurrences v (stored (snd b))), fst b)%Z) (born v h).
Proof.
  induction 1 as [|x h Hx Hh IH]; [reflexivity|]. destruct x as [e t|e|]; cbn [ev_in] in *; [| |reflexivity].
  - cbn [vrow born stored]. destruct (memb e (stored h)) eqn:M; [exact IH|]. destruct (veqb v e) eqn:Ev.
    + apply veqb_eq in Ev as <-. cbn [option_map fst snd occurrences]. rewrite count_0 by (apply not_self, (edge_in_db V), Hx). f_equal. f_equal. lia.
    + cbn [occurrences]. destruct (born v h) as [[t0 h0]|] eqn:Eb; cbn [option_map fst snd] in *; rewrite IH.
      * destruct (count v (elems e)) as [|n]; [reflexivity|]. f_equal. f_equal. lia.
      * destruct (memb v (elems e)) eqn:Me; cbn [option_map fst snd].
        -- apply memb_in, count_pos in Me. destruct (count v (elems e)) as [|n]; [lia|]. f_equal. f_equal. lia.
        -- apply memb_nin, count_0 in Me. now rewrite Me.
  - cbn [vrow born]. destruct (memb e (stored h)) eqn:M.
    + destruct (veqb v e) eqn:Ev; [apply veqb_eq in Ev as <-; now rewrite M|]. cbn [andb]. rewrite IH.
      destruct (born v h) as [[t0 h0]|]; [|reflexivity]. cbn [option_map fst snd]. f_equal. f_equal.
      apply memb_in in M. pose proof (occ_filter v e (stored h) (stored_nodup h) M) as O. cbn [stored]. lia.
    + assert (E : veqb v e && memb v (stored h) = false).
      { destruct (veqb v e) eqn:Ev; [apply veqb_eq in Ev as <-; now rewrite M|reflexivity]. }
      rewrite E. apply memb_nin in M. rewrite (stored_rem_absent e h M). exact IH.
Qed.

(** [born] in words *)
Lemma memb_present e h : memb e (stored h) = true <-> present h e.
Proof. rewrite <- stored_present. apply memb_in. Qed.
Lemma memb_absent e h : memb e (stored h) = false <-> ~ present h e.
Proof. rewrite <- stored_present. apply memb_nin. Qed.

Lemma lasts_cons v x l h0 : lasts v (x :: l) h0 <->
  lasts v l h0 /\ x <> EDestroy /\ (x = ERem v -> ~ present (l ++ h0) v) /\ (forall t, x = EAdd v t -> present (l ++ h0) v).
Proof.
  unfold lasts. split.
  - intros H. split; [|split; [|split]].
    + intros a y b ->. apply (H (x :: a) y b eq_refl).
    + apply (H [] x l eq_refl).
    + apply (H [] x l eq_refl).
    + apply (H [] x l eq_refl).
  - intros (H1 & H2 & H3 & H4) a y b E. destruct a as [|z a]; injection E as <- E.
    + subst b. now split.
    + now apply (H1 a).
Qed.
Lemma lasts_nil v h0 : lasts v [] h0.
Proof. intros a x b E. now destruct a. Qed.

Lemma born_spec v h t h0 : born v h = Some (t, h0) <-> starts v h t h0.
Proof.
  unfold starts. revert t h0. induction h as [|x h IH]; intros t h0.
  { split; [discriminate|]. intros (later & e & E & _). now destruct later. }
  assert (Cons : forall later e, x :: h = later ++ EAdd e t :: h0 ->
            (later = [] /\ x = EAdd e t /\ h = h0) \/ exists later', later = x :: later' /\ h = later' ++ EAdd e t :: h0).
  { intros later e E. destruct later as [|y later]; injection E as -> E; [left; now split|right; now exists later]. }
  destruct x as [e' t'|e'|]; cbn [born].
  - destruct (memb e' (stored h)) eqn:M.
    + pose proof (proj1 (memb_present _ _) M) as P. rewrite IH. split.
      * intros (later & e & E & Hp & Hw & Hl). exists (EAdd e' t' :: later), e. split; [now rewrite E|]. split; [exact Hp|]. split; [exact Hw|].
        apply lasts_cons. split; [exact Hl|]. split; [discriminate|]. split; [discriminate|]. intros s [= -> ->]. now rewrite <- E.
      * intros (later & e & E & Hp & Hw & Hl). apply Cons in E as [(-> & [= -> ->] & ->)|(later' & -> & E)]; [contradiction|].
        apply lasts_cons in Hl as (Hl & _). exists later', e. now split.
    + pose proof (proj1 (memb_absent _ _) M) as P. destruct (veqb v e') eqn:Ev.
      * apply veqb_eq in Ev as <-. split.
        -- intros [= -> ->]. exists [], v. split; [reflexivity|]. split; [exact P|]. split; [now left|apply lasts_nil].
        -- intros (later & e & E & Hp & Hw & Hl). apply Cons in E as [(-> & [= -> ->] & ->)|(later' & -> & E)]; [reflexivity|].
           apply lasts_cons in Hl as (_ & _ & _ & Hl). exfalso. apply P. rewrite E. now apply (Hl t').
      * apply veqb_neq in Ev. destruct (born v h) as [[t1 h1]|] eqn:Eb.
        -- rewrite IH. split.
           ++ intros (later & e & E & Hp & Hw & Hl). exists (EAdd e' t' :: later), e. split; [now rewrite E|]. split; [exact Hp|]. split; [exact Hw|].
              apply lasts_cons. split; [exact Hl|]. split; [discriminate|]. split; [discriminate|]. intros s [= -> ->]. contradiction.
           ++ intros (later & e & E & Hp & Hw & Hl). apply Cons in E as [(-> & [= -> ->] & ->)|(later' & -> & E)].
              ** destruct Hw as [Hw|[_ Hw]]; [contradiction|]. rewrite Hw in Eb. discriminate.
              ** apply lasts_cons in Hl as (Hl & _). exists later', e. now split.
        -- destruct (memb v (elems e')) eqn:Me.
           ++ apply memb_in in Me. split.
              ** intros [= -> ->]. exists [], e'. split; [reflexivity|]. split; [exact P|]. split; [right; now split|apply lasts_nil].
              ** intros (later & e & E & Hp & Hw & Hl). apply Cons in E as [(-> & [= -> ->] & ->)|(later' & -> & E)]; [reflexivity|].
                 apply lasts_cons in Hl as (Hl & _). exfalso. assert (X : None = Some (t, h0)) by (apply IH; exists later', e; now split). discriminate.
           ++ apply memb_nin in Me. split; [discriminate|]. intros (later & e & E & Hp & Hw & Hl). exfalso.
              apply Cons in E as [(-> & [= -> ->] & ->)|(later' & -> & E)]; [destruct Hw as [Hw|[Hw _]]; contradiction|].
              apply lasts_cons in Hl as (Hl & _). assert (X : None = Some (t, h0)) by (apply IH; exists later', e; now split). discriminate.
  - destruct (veqb v e' && memb v (stored h)) eqn:M.
    + apply andb_true_iff in M as [Ev M]. apply veqb_eq in Ev as <-. apply memb_present in M. split; [discriminate|].
      intros (later & e & E & Hp & Hw & Hl). exfalso. apply Cons in E as [(-> & [=] & ->)|(later' & -> & E)].
      apply lasts_cons in Hl as (_ & _ & Hl & _). apply Hl; [reflexivity|]. now rewrite <- E.
    + rewrite IH. split.
      * intros (later & e & E & Hp & Hw & Hl). exists (ERem e' :: later), e. split; [now rewrite E|]. split; [exact Hp|]. split; [exact Hw|].
        apply lasts_cons. split; [exact Hl|]. split; [discriminate|]. split; [|discriminate]. intros [= ->].
        rewrite veqb_refl in M. cbn [andb] in M. apply memb_absent in M. now rewrite <- E.
      * intros (later & e & E & Hp & Hw & Hl). apply Cons in E as [(-> & [=] & ->)|(later' & -> & E)].
        apply lasts_cons in Hl as (Hl & _). exists later', e. now split.
  - split; [discriminate|]. intros (later & e & E & Hp & Hw & Hl). exfalso. apply Cons in E as [(-> & [=] & ->)|(later' & -> & E)].
    apply lasts_cons in Hl as (_ & Hl & _). now apply Hl.
Qed.
