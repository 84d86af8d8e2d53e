(** * Facts about monomials, chains and the normal form of a unit. *)
From Verif Require Import PyBase PyNum Graph Expr Units UnitSpec UnitFacts UnitProofs RegexFacts
  Sympy Convert ConvertSpec.
From Coq Require Import QArith Qpower Qreduction Qcanon Reals Qreals Lra Lia.
Close Scope Qc_scope.
Close Scope Q_scope.

(** ** rationals *)
Lemma Q_is0_iff q : Q_is0 q = true <-> Q2R q = 0%R.
Proof.
  unfold Q_is0. rewrite Z.eqb_eq. split.
  - intro E. unfold Q2R. rewrite E. simpl. lra.
  - intro E. destruct (Qeq_dec q 0) as [H|H].
    + unfold Qeq in H. simpl in H. lia.
    + exfalso. apply H. apply eqR_Qeq. rewrite E. unfold Q2R; simpl; lra.
Qed.

Lemma Q_is0_false q : Q_is0 q = false <-> Q2R q <> 0%R.
Proof.
  rewrite <- Q_is0_iff. destruct (Q_is0 q); split; congruence.
Qed.

Lemma Q2R_red q : Q2R (Qred q) = Q2R q.
Proof. apply Qeq_eqR, Qred_correct. Qed.

Lemma Q2R_0 : Q2R 0 = 0%R. Proof. unfold Q2R; simpl; lra. Qed.
Lemma Q2R_1 : Q2R 1 = 1%R. Proof. unfold Q2R; simpl; lra. Qed.
Lemma Q2R_Z z : Q2R (inject_Z z) = IZR z. Proof. unfold Q2R; simpl; lra. Qed.

Lemma Q_int_Z z : Q_int (inject_Z z) = Some z.
Proof.
  unfold Q_int. rewrite Qred_identity; [reflexivity|]. simpl. apply Z.gcd_1_r.
Qed.

Lemma Q2R_inv_total q : Q2R q <> 0%R -> Q2R (/ q) = (/ Q2R q)%R.
Proof. intro H. apply Q2R_inv. intro E. apply H. apply Qeq_eqR in E. rewrite E. apply Q2R_0. Qed.

Lemma Q2R_pow_nat q n : Q2R q <> 0%R -> Q2R (Qpower q (Z.of_nat n)) = (Q2R q ^ n)%R.
Proof.
  intro H. assert (N : ~ (q == 0)%Q). { intro E. apply H. apply Qeq_eqR in E. rewrite E. apply Q2R_0. }
  induction n as [|n IH]; [simpl; apply Q2R_1|].
  rewrite Nat2Z.inj_succ, <- Z.add_1_l.
  rewrite (Qeq_eqR _ _ (Qpower_plus q 1 (Z.of_nat n) N)), Q2R_mult, IH. simpl. reflexivity.
Qed.

Lemma Q2R_power q z : Q2R q <> 0%R -> Q2R (Qpower q z) = powerRZ (Q2R q) z.
Proof.
  intro H. destruct z as [|p|p].
  - simpl. apply Q2R_1.
  - rewrite <- positive_nat_Z. rewrite Q2R_pow_nat; auto. rewrite positive_nat_Z. reflexivity.
  - assert (P : Q2R (Qpower q (Zpos p)) = (Q2R q ^ Pos.to_nat p)%R).
    { rewrite <- positive_nat_Z. apply Q2R_pow_nat; auto. }
    change (Qpower q (Zneg p)) with (/ Qpower q (Zpos p))%Q. rewrite Q2R_inv_total; rewrite P.
    + reflexivity.
    + apply pow_nonzero, H.
Qed.

(** ** exponent lists *)
Definition mget (s : str) (e : list (str * Z)) : Z := match dget s e with Some z => z | None => 0%Z end.
Definition wf_exps (e : list (str * Z)) : Prop := NoDup (map fst e) /\ Forall (fun kz => snd kz <> 0%Z) e.

Lemma mget_notin s e : ~ In s (map fst e) -> mget s e = 0%Z.
Proof.
  unfold mget. induction e as [|[k z] e IH]; cbn [map dget fst]; auto. intro H.
  destruct (str_eqb s k) eqn:E; [apply str_eqb_eq in E; subst; exfalso; apply H; simpl; auto|].
  apply IH. intro I. apply H. now right.
Qed.

Lemma mget_cons s k z e : mget s ((k, z) :: e) = if str_eqb s k then z else mget s e.
Proof. unfold mget. cbn [dget]. now destruct (str_eqb s k). Qed.

Lemma exps_add_keys k z e : forall x, In x (map fst (exps_add k z e)) -> x = k \/ In x (map fst e).
Proof.
  induction e as [|[k' z'] e IH]; intro x; cbn [exps_add].
  - destruct (z =? 0)%Z; simpl; intuition.
  - destruct (str_eqb k k') eqn:E.
    + destruct (z' + z =? 0)%Z; simpl; intuition.
    + simpl. intros [->|H]; auto. apply IH in H. tauto.
Qed.

Lemma exps_add_wf k z e : wf_exps e -> wf_exps (exps_add k z e).
Proof.
  unfold wf_exps. induction e as [|[k' z'] e IH]; intros [N F]; cbn [exps_add].
  - destruct (z =? 0)%Z eqn:E; simpl; split; repeat constructor; simpl; auto. intro H. subst. discriminate.
  - inversion N; subst. inversion F; subst. destruct (str_eqb k k') eqn:E.
    + destruct (z' + z =? 0)%Z eqn:E0; [split; auto|]. split; constructor; auto. simpl. now apply Z.eqb_neq.
    + destruct (IH (conj H2 H4)) as [N' F']. split; simpl; constructor; auto.
      intro I. apply exps_add_keys in I as [->|I]; [|contradiction]. now rewrite str_eqb_refl in E.
Qed.

Lemma exps_add_get k z e s : wf_exps e -> mget s (exps_add k z e) = (mget s e + (if str_eqb k s then z else 0))%Z.
Proof.
  induction e as [|[k' z'] e IH]; intros [N F]; cbn [exps_add].
  - destruct (z =? 0)%Z eqn:E.
    + apply Z.eqb_eq in E. subst. unfold mget; simpl. now destruct (str_eqb k s).
    + rewrite mget_cons. unfold mget; simpl. rewrite (str_eqb_sym s k). now destruct (str_eqb k s).
  - inversion N; subst. inversion F; subst. destruct (str_eqb k k') eqn:E.
    + apply str_eqb_eq in E. subst k'. destruct (z' + z =? 0)%Z eqn:E0.
      * apply Z.eqb_eq in E0. rewrite mget_cons. rewrite (str_eqb_sym s k). destruct (str_eqb k s) eqn:E1; [|lia].
        apply str_eqb_eq in E1. subst s. rewrite mget_notin; auto.
      * rewrite !mget_cons. rewrite (str_eqb_sym s k). destruct (str_eqb k s); lia.
    + rewrite !mget_cons. destruct (str_eqb s k') eqn:E1.
      * apply str_eqb_eq in E1. subst. rewrite E. lia.
      * apply IH. split; auto.
Qed.

Lemma exps_merge_ok a b : wf_exps a -> wf_exps b ->
  wf_exps (exps_merge a b) /\ forall s, mget s (exps_merge a b) = (mget s a + mget s b)%Z.
Proof.
  unfold exps_merge. revert a. induction b as [|[k z] b IH]; intros a Ha Hb; cbn [fold_left fst snd].
  - split; auto. intro s. unfold mget at 3. simpl. lia.
  - destruct Hb as [N F]. inversion N; subst. inversion F; subst.
    destruct (IH (exps_add k z a)) as [W G]; [now apply exps_add_wf|split; auto|].
    split; auto. intro s. rewrite G, exps_add_get by auto. rewrite mget_cons. rewrite (str_eqb_sym s k).
    destruct (str_eqb k s) eqn:E; [|lia]. apply str_eqb_eq in E. subst. rewrite (mget_notin s b); auto. lia.
Qed.

Lemma exps_scale_ok n e : wf_exps e ->
  wf_exps (exps_scale n e) /\ forall s, mget s (exps_scale n e) = (mget s e * n)%Z.
Proof.
  unfold exps_scale. intros [N F]. destruct (n =? 0)%Z eqn:E.
  - apply Z.eqb_eq in E. subst. split; [split; constructor|]. intro s. unfold mget at 1. simpl. lia.
  - apply Z.eqb_neq in E. split.
    + split.
      * rewrite map_map. simpl. exact N.
      * apply Forall_forall. intros x I. apply in_map_iff in I as ([k z] & <- & I). simpl.
        rewrite Forall_forall in F. apply F in I. simpl in I. nia.
    + intro s. clear N F. induction e as [|[k z] e IH]; [reflexivity|]. cbn [map fst snd].
      rewrite !mget_cons. destruct (str_eqb s k); auto.
Qed.

Lemma exps_zero e : wf_exps e -> (forall s, mget s e = 0%Z) -> e = [].
Proof.
  intros [N F] H. destruct e as [|[k z] e]; auto. inversion F; subst. specialize (H k).
  rewrite mget_cons, str_eqb_refl in H. contradiction.
Qed.

(** ** monomials *)
Definition good (m : mono) : Prop := Q2R (m_coef m) <> 0%R /\ wf_exps (m_exps m).

Lemma mono_norm_coef q e : Q2R (m_coef (mono_norm q e)) = Q2R q.
Proof.
  unfold mono_norm. destruct (Q_is0 q) eqn:E; simpl.
  - apply Q_is0_iff in E. rewrite E. apply Q2R_0.
  - apply Q2R_red.
Qed.

Lemma mono_norm_good q e : Q2R q <> 0%R -> wf_exps e -> good (mono_norm q e) /\ m_exps (mono_norm q e) = e.
Proof.
  intros H W. unfold good. rewrite mono_norm_coef. unfold mono_norm. apply Q_is0_false in H as H'. rewrite H'. simpl. auto.
Qed.

Lemma mono_mul_coef a b : Q2R (m_coef (mono_mul a b)) = (Q2R (m_coef a) * Q2R (m_coef b))%R.
Proof. unfold mono_mul. rewrite mono_norm_coef. apply Q2R_mult. Qed.

Lemma mono_mul_ok a b : good a -> good b ->
  good (mono_mul a b) /\ forall s, mget s (m_exps (mono_mul a b)) = (mget s (m_exps a) + mget s (m_exps b))%Z.
Proof.
  intros [Ha Wa] [Hb Wb]. destruct (exps_merge_ok _ _ Wa Wb) as [W G].
  unfold mono_mul. destruct (mono_norm_good (m_coef a * m_coef b)%Q (exps_merge (m_exps a) (m_exps b))) as [G1 G2]; auto.
  - rewrite Q2R_mult. now apply Rmult_integral_contrapositive.
  - split; auto. intro s. now rewrite G2.
Qed.

Lemma mono_inv_ok a : good a -> exists i, mono_inv a = Some i /\ good i /\
  Q2R (m_coef i) = (/ Q2R (m_coef a))%R /\ forall s, mget s (m_exps i) = (- mget s (m_exps a))%Z.
Proof.
  intros [Ha Wa]. unfold mono_inv. apply Q_is0_false in Ha as H'. rewrite H'. eexists. split; [reflexivity|].
  destruct (exps_scale_ok (-1) _ Wa) as [W G].
  destruct (mono_norm_good (/ m_coef a)%Q (exps_scale (-1) (m_exps a))) as [G1 G2]; auto.
  - rewrite Q2R_inv_total by auto. now apply Rinv_neq_0_compat.
  - rewrite mono_norm_coef, Q2R_inv_total by auto. repeat split; auto; try apply G1.
    intro s. rewrite G2, G. lia.
Qed.

Lemma mono_inv_some a i : mono_inv a = Some i -> Q2R (m_coef a) <> 0%R /\ Q2R (m_coef i) = (/ Q2R (m_coef a))%R.
Proof.
  unfold mono_inv. destruct (Q_is0 (m_coef a)) eqn:E; [discriminate|]. intro H. injection H as <-.
  apply Q_is0_false in E. split; auto. rewrite mono_norm_coef. now apply Q2R_inv_total.
Qed.

Lemma mono_pow_ok a n : good a -> exists i, mono_pow a n = Some i /\ good i /\
  Q2R (m_coef i) = powerRZ (Q2R (m_coef a)) n /\ forall s, mget s (m_exps i) = (mget s (m_exps a) * n)%Z.
Proof.
  intros [Ha Wa]. unfold mono_pow. apply Q_is0_false in Ha as H'. rewrite H'. simpl. eexists. split; [reflexivity|].
  destruct (exps_scale_ok n _ Wa) as [W G].
  destruct (mono_norm_good (Qpower (m_coef a) n) (exps_scale n (m_exps a))) as [G1 G2]; auto.
  - rewrite Q2R_power by auto. now apply powerRZ_NOR.
  - rewrite mono_norm_coef, Q2R_power by auto. repeat split; auto; try apply G1. intro s. now rewrite G2, G.
Qed.

Lemma num_sympy_ok v : numeric v -> exists q, num_sympy v = Ok (SNum q) /\ Q2R q = num_R v.
Proof.
  destruct v; simpl; intro H; try contradiction; eexists; split; try reflexivity. apply Q2R_Z.
Qed.

Lemma not_reserved s : ~ In s own_names -> reserved s = false.
Proof.
  intro H. unfold reserved. unfold own_names in H. simpl in H.
  destruct (str_eqb s (u "value")) eqn:E1; [apply str_eqb_eq in E1; subst; tauto|].
  destruct (str_eqb s (u "to_value")) eqn:E2; [apply str_eqb_eq in E2; subst; tauto|].
  destruct (str_eqb s (u "value_transformed_to_base_unit_scale")) eqn:E3; [apply str_eqb_eq in E3; subst; tauto|].
  reflexivity.
Qed.

Lemma rated_plain n : rated n -> plain n.
Proof.
  induction n; simpl; intro H; try tauto.
  destruct n2 as [|[z|z|z] ?| | | | | |]; try contradiction. split; eauto.
Qed.

Lemma rated_factor n : rated n -> factor n <> 0%R.
Proof.
  induction n; simpl; intro H; try contradiction; try tauto; try lra.
  - destruct n2 as [|[z|z|z] ?| | | | | |]; try contradiction. now apply powerRZ_NOR, IHn1.
  - apply Rmult_integral_contrapositive; tauto.
  - apply Rmult_integral_contrapositive. split; [tauto|]. apply Rinv_neq_0_compat; tauto.
Qed.

Lemma rated_mono n : rated n -> exists se m, to_sympy n = Ok se /\ mono_of se = Some m /\ good m /\
  Q2R (m_coef m) = factor n /\ forall s, mget s (m_exps m) = symexp n s.
Proof.
  unfold symexp. induction n; intro H; simpl in H; try contradiction.
  - (* number *) destruct H as [Hn H0]. destruct (num_sympy_ok _ Hn) as (q & E & V). exists (SNum q), (mono_num q).
    simpl. split; auto. split; auto. unfold mono_num.
    destruct (mono_norm_good q []) as [G1 G2]; [rewrite V; auto|split; constructor|].
    rewrite mono_norm_coef. repeat split; auto; try apply G1. intro s. rewrite G2. reflexivity.
  - (* identifier *) exists (SSym name), (mono_sym name). simpl. rewrite not_reserved by auto.
    repeat split; auto; simpl; try (rewrite Q2R_1; lra).
    + constructor; [simpl; tauto|constructor].
    + constructor; [simpl; lia|constructor].
    + intro s. rewrite mget_cons, (str_eqb_sym s name). unfold mget; simpl. now destruct (str_eqb name s).
  - (* raise *) destruct n2 as [|[z|z|z] ?| | | | | |]; try contradiction.
    destruct (IHn1 H) as (se & m & E & M & G & C & X). destruct (mono_pow_ok m z G) as (i & P & Gi & Ci & Xi).
    exists (SPow se (SNum (inject_Z z))), i. cbn [to_sympy num_sympy bind]. rewrite E. cbn [bind].
    split; auto. cbn [mono_of]. rewrite Q_int_Z, M. cbn [obind]. rewrite P.
    repeat split; auto; try apply Gi; [now rewrite Ci, C|]. intro s. rewrite Xi, X. simpl. lia.
  - (* multiply *) destruct H as [H1 H2]. destruct (IHn1 H1) as (s1 & m1 & E1 & M1 & G1 & C1 & X1).
    destruct (IHn2 H2) as (s2 & m2 & E2 & M2 & G2 & C2 & X2).
    exists (SMul s1 s2), (mono_mul m1 m2). cbn [to_sympy]. rewrite E1. cbn [bind]. rewrite E2. cbn [bind].
    split; auto. cbn [mono_of]. rewrite M1, M2. split; auto. destruct (mono_mul_ok _ _ G1 G2) as [G X].
    rewrite mono_mul_coef, C1, C2. repeat split; auto; try apply G. intro s. rewrite X, X1, X2. reflexivity.
  - (* divide *) destruct H as [H1 H2]. destruct (IHn1 H1) as (s1 & m1 & E1 & M1 & G1 & C1 & X1).
    destruct (IHn2 H2) as (s2 & m2 & E2 & M2 & G2 & C2 & X2). destruct (mono_inv_ok _ G2) as (i & I & Gi & Ci & Xi).
    exists (SDiv s1 s2), (mono_mul m1 i). cbn [to_sympy]. rewrite E1. cbn [bind]. rewrite E2. cbn [bind].
    split; auto. cbn [mono_of]. rewrite M1, M2. cbn [obind]. rewrite I. split; auto. destruct (mono_mul_ok _ _ G1 Gi) as [G X].
    rewrite mono_mul_coef, C1, Ci, C2. repeat split; auto; try apply G. intro s. rewrite X, X1, Xi, X2. simpl. lia.
Qed.
(** Rational evaluation is real evaluation. *)
Lemma Some_inj {A} (a b : A) : Some a = Some b -> a = b. Proof. congruence. Qed.
Lemma op_evalQ_sound o x y : op_evalQ o x = Some y -> op_eval o (Q2R x) = Some (Q2R y).
Proof.
  destruct o as [m|q|b|b|]; cbn [op_evalQ op_eval]; intro H; try discriminate.
  - apply Some_inj in H; subst y. apply f_equal. rewrite (Qeq_eqR _ _ (Qred_correct _)). symmetry. apply Q2R_mult.
  - apply Some_inj in H; subst y. apply f_equal. rewrite (Qeq_eqR _ _ (Qred_correct _)). symmetry. apply Q2R_plus.
  - unfold Q_is0 in H. destruct (Z.eqb_spec (Qnum x) 0) as [E|E]; [discriminate|]. apply Some_inj in H; subst y.
    assert (N : ~ (x == 0)%Q) by (unfold Qeq; cbn; lia).
    destruct (Req_EM_T (Q2R x) 0) as [Z|Z].
    + exfalso. apply N. apply eqR_Qeq. rewrite Z. unfold Q2R. cbn. lra.
    + apply f_equal. rewrite (Qeq_eqR _ _ (Qred_correct _)). symmetry. now apply Q2R_inv.
Qed.
Lemma chain_evalQ_sound c : forall x y, chain_evalQ c x = Some y -> chain_eval c (Q2R x) = Some (Q2R y).
Proof.
  induction c as [|o c IH]; intros x y H; cbn [chain_evalQ chain_eval] in *.
  - injection H as <-. reflexivity.
  - destruct (op_evalQ o x) as [z|] eqn:E; [|discriminate]. cbn [obind] in H. rewrite (op_evalQ_sound o x z E). cbn [obind]. now apply IH.
Qed.
Lemma convertQ_sound c v q : convertQ c v = Ok q -> convert c (Q2R v) = Ok (Q2R q).
Proof.
  unfold convertQ, convert. destruct (existsb op_residual (cv_ops c)); [discriminate|].
  destruct (chain_evalQ (cv_ops c) v) as [y|] eqn:E; [|discriminate]. cbn [of_option]. intro H. injection H as <-.
  now rewrite (chain_evalQ_sound _ _ _ E).
Qed.
