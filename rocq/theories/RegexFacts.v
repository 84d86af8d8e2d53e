(** * The derivative matcher computes the language of an expression. *)
From Verif Require Import PyBase Regex.

Lemma str_eqb_refl s : str_eqb s s = true.
Proof. induction s as [|c s IH]; simpl; [reflexivity|]. now rewrite N.eqb_refl, IH. Qed.

Lemma str_eqb_eq a b : str_eqb a b = true <-> a = b.
Proof.
  split; [|intros ->; apply str_eqb_refl].
  revert b; induction a as [|x a IH]; destruct b as [|y b]; simpl; try discriminate; auto.
  intro H. apply andb_true_iff in H as [H1 H2]. apply N.eqb_eq in H1. apply IH in H2. congruence.
Qed.

Lemma str_eqb_neq a b : str_eqb a b = false <-> a <> b.
Proof.
  rewrite <- str_eqb_eq. destruct (str_eqb a b); split; congruence.
Qed.

Lemma str_eqb_sym a b : str_eqb a b = str_eqb b a.
Proof.
  destruct (str_eqb a b) eqn:E.
  - apply str_eqb_eq in E; subst. now rewrite str_eqb_refl.
  - symmetry. apply str_eqb_neq. apply str_eqb_neq in E. congruence.
Qed.

Lemma str_eq_dec (a b : str) : {a = b} + {a <> b}.
Proof. destruct (str_eqb a b) eqn:E; [left; now apply str_eqb_eq|right; now apply str_eqb_neq]. Qed.

Lemma nullable_ok r : nullable r = true <-> matches r [].
Proof.
  split.
  - induction r; simpl; intro H; try discriminate.
    + constructor.
    + apply orb_true_iff in H as [H|H]; [apply M_alt_l|apply M_alt_r]; auto.
    + apply andb_true_iff in H as [H1 H2]. change (@nil N) with (@nil N ++ []). constructor; auto.
    + constructor.
  - intro H. remember [] as s. induction H; simpl; subst; auto; try discriminate.
    + now rewrite IHmatches.
    + rewrite IHmatches by auto. apply orb_true_r.
    + apply app_eq_nil in Heqs as [-> ->]. rewrite IHmatches1, IHmatches2; auto.
Qed.

Lemma ranges_eqb_eq a b : ranges_eqb a b = true -> a = b.
Proof.
  revert b; induction a as [|[x y] a IH]; destruct b as [|[x' y'] b]; simpl; try discriminate; auto.
  intro H. apply andb_true_iff in H as [H H2]. apply andb_true_iff in H as [H0 H1].
  apply N.eqb_eq in H0, H1. apply IH in H2. congruence.
Qed.

Lemma re_eqb_eq a b : re_eqb a b = true -> a = b.
Proof.
  revert b; induction a; destruct b; simpl; try discriminate; auto; intro H;
    try (apply andb_true_iff in H as [H1 H2]);
    try (apply IHa1 in H1; apply IHa2 in H2; congruence).
  - f_equal. now apply ranges_eqb_eq.
  - f_equal. auto.
Qed.

Lemma matches_mkseq a b s : matches (mkseq a b) s <-> matches (Seq a b) s.
Proof.
  destruct a; simpl; try reflexivity.
  split; intro H.
  - change s with ([] ++ s). constructor; [constructor|auto].
  - inversion H; subst. inversion H2; subst. auto.
Qed.

Lemma star_cons_inv a c s : matches (Star a) (c :: s) ->
  exists s1 s2, s = s1 ++ s2 /\ matches a (c :: s1) /\ matches (Star a) s2.
Proof.
  intro H. remember (Star a) as r. remember (c :: s) as w. revert c s Heqw.
  induction H; try discriminate; intros c' s' E; injection Heqr as ->.
  destruct s as [|d s].
  - simpl in E. apply IHmatches2; auto.
  - injection E as -> <-. eauto.
Qed.

Lemma pderiv_ok c r s : matches r (c :: s) <-> exists r', In r' (pderiv c r) /\ matches r' s.
Proof.
  revert s. induction r; intro s; simpl.
  - split; [intro H; inversion H|intros [? [[] _]]].
  - split.
    + intro H; inversion H; subst. rewrite H2. exists Eps. simpl. split; auto. constructor.
    + intros [r' [I H]]. destruct (in_ranges ranges c) eqn:E; simpl in I; [|destruct I].
      destruct I as [<-|[]]. inversion H; subst. now constructor.
  - split.
    + intro H; inversion H; subst; [apply IHr1 in H3|apply IHr2 in H3];
        destruct H3 as [r' [I M]]; exists r'; split; auto; apply in_or_app; auto.
    + intros [r' [I M]]. apply in_app_or in I as [I|I];
        [apply M_alt_l, IHr1|apply M_alt_r, IHr2]; eauto.
  - split.
    + intro H. inversion H as [| | | |a b s1 t M1 M2 Ea Es| | ]; subst.
      destruct s1 as [|d s1].
      * simpl in Es. subst t. assert (nullable r1 = true) as -> by now apply nullable_ok.
        apply IHr2 in M2 as [r' [I M]]. exists r'. split; auto. apply in_or_app; auto.
      * injection Es as -> <-. apply IHr1 in M1 as [r' [I M]].
        exists (mkseq r' r2). split.
        -- apply in_or_app; left. apply in_map_iff. eauto.
        -- apply matches_mkseq. now constructor.
    + intros [r' [I M]]. apply in_app_or in I as [I|I].
      * apply in_map_iff in I as [x [<- I]]. apply matches_mkseq in M.
        inversion M; subst. change (c :: s0 ++ t) with ((c :: s0) ++ t). constructor; auto.
        apply IHr1; eauto.
      * destruct (nullable r1) eqn:E; [|destruct I].
        change (c :: s) with ([] ++ c :: s). constructor; [now apply nullable_ok|].
        apply IHr2; eauto.
  - split.
    + intro H. apply star_cons_inv in H as (s1 & s2 & -> & M1 & M2).
      apply IHr in M1 as [r' [I M]]. exists (mkseq r' (Star r)). split.
      * apply in_map_iff; eauto.
      * apply matches_mkseq. now constructor.
    + intros [r' [I M]]. apply in_map_iff in I as [x [<- I]]. apply matches_mkseq in M.
      inversion M; subst. change (c :: s0 ++ t) with ((c :: s0) ++ t). constructor; auto.
      apply IHr; eauto.
Qed.

Definition matches_any (st : list re) (s : list N) : Prop := exists r, In r st /\ matches r s.

Lemma re_mem_in r l : re_mem r l = true -> In r l.
Proof.
  induction l as [|x l IH]; simpl; [discriminate|]. intro H.
  apply orb_true_iff in H as [H|H]; [left; symmetry; now apply re_eqb_eq|right; auto].
Qed.

Lemma dedup_in r l : In r (dedup l) <-> In r l.
Proof.
  induction l as [|x l IH]; simpl; [tauto|].
  destruct (re_mem x (dedup l)) eqn:E; simpl; rewrite <- IH; [|tauto].
  apply re_mem_in in E. split; [tauto|]. intros [->|H]; auto.
Qed.

Lemma step_ok c st s : matches_any st (c :: s) <-> matches_any (step c st) s.
Proof.
  unfold matches_any, step. split.
  - intros [r [I M]]. apply pderiv_ok in M as [r' [I' M]]. exists r'. split; auto.
    apply dedup_in, in_flat_map. eauto.
  - intros [r [I M]]. apply dedup_in, in_flat_map in I as [r0 [I0 I1]].
    exists r0. split; auto. apply pderiv_ok. eauto.
Qed.

Lemma accepts_ok st : accepts st = true <-> matches_any st [].
Proof.
  unfold accepts, matches_any. rewrite existsb_exists.
  split; intros [r [I M]]; exists r; split; auto; now apply nullable_ok.
Qed.

Lemma full_match_ok st s : full_match st s = true <-> matches_any st s.
Proof.
  revert st. induction s as [|c s IH]; intro st; simpl.
  - apply accepts_ok.
  - rewrite IH. symmetry. apply step_ok.
Qed.

Lemma full_match1 r s : full_match [r] s = true <-> matches r s.
Proof.
  rewrite full_match_ok. unfold matches_any. split.
  - intros [x [[<-|[]] M]]; auto.
  - intro M; exists r; simpl; auto.
Qed.

(** [longest] returns the length of the longest matching prefix. *)
Definition is_longest (P : list N -> Prop) (s : list N) (n : nat) : Prop :=
  n <= List.length s /\ P (firstn n s) /\
  forall m, m <= List.length s -> P (firstn m s) -> m <= n.

Definition no_prefix (P : list N -> Prop) (s : list N) : Prop :=
  forall m, m <= List.length s -> ~ P (firstn m s).

Lemma longest_ok st s :
  match longest st s with
  | Some n => is_longest (matches_any st) s n
  | None => no_prefix (matches_any st) s
  end.
Proof.
  revert st. induction s as [|c s IH]; intro st; simpl longest.
  - destruct (accepts st) eqn:E.
    + repeat split; simpl; auto. now apply accepts_ok.
    + intros m Hm M. rewrite firstn_nil in M. apply accepts_ok in M. congruence.
  - assert (Hstop : forall m, step c st = [] \/ longest (step c st) s = None ->
              S m <= S (List.length s) -> ~ matches_any st (c :: firstn m s)).
    { intros m Hs Hm M. apply step_ok in M. destruct Hs as [Hs|Hs].
      - rewrite Hs in M. destruct M as [? [[] _]].
      - specialize (IH (step c st)). rewrite Hs in IH. apply (IH m); auto. lia. }
    assert (Hmax : forall X : Prop, step c st = [] \/ longest (step c st) s = None ->
       match (if accepts st then Some 0 else None) with
       | Some n => is_longest (matches_any st) (c :: s) n
       | None => no_prefix (matches_any st) (c :: s) end).
    { intros _ Hs. destruct (accepts st) eqn:E.
      - split; [simpl; lia|]. split; [now apply accepts_ok|].
        intros [|m] Hm M; auto. exfalso. apply (Hstop m Hs) in M; [destruct M|simpl in Hm; lia].
      - intros [|m] Hm M.
        + apply accepts_ok in M. congruence.
        + apply (Hstop m Hs) in M; [destruct M|simpl in Hm; lia]. }
    destruct (step c st) as [|r0 st'] eqn:Es.
    + apply Hmax; [exact True|auto].
    + destruct (longest (r0 :: st') s) as [n|] eqn:El.
      * specialize (IH (r0 :: st')). rewrite El in IH. destruct IH as (H1 & H2 & H3).
        split; [simpl; lia|]. split.
        -- simpl. apply step_ok. now rewrite Es.
        -- intros [|m] Hm M; [lia|]. simpl in M, Hm. apply step_ok in M. rewrite Es in M.
           apply le_n_S, H3; auto. lia.
      * apply Hmax; [exact True|auto].
Qed.

Lemma longest1_ok r s :
  match longest [r] s with
  | Some n => is_longest (matches r) s n
  | None => no_prefix (matches r) s
  end.
Proof.
  assert (H : forall s, matches_any [r] s <-> matches r s).
  { intro t. unfold matches_any. split; [intros [x [[<-|[]] M]]; auto|intro; exists r; simpl; auto]. }
  pose proof (longest_ok [r] s) as L. destruct (longest [r] s).
  - destruct L as (H1 & H2 & H3). split; auto. split; [now apply H|].
    intros m Hm M. apply H3; auto. now apply H.
  - intros m Hm M. apply (L m Hm). now apply H.
Qed.
