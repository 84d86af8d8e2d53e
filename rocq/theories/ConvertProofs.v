(** * Chains, the converter, and the meaning of a conversion. *)
From Verif Require Import PyBase PyNum Graph Expr Units UnitSpec UnitFacts UnitProofs RegexFacts
  Sympy Convert ConvertSpec ConvertFacts.
From Coq Require Import QArith Reals Qreals Lra Lia.
Close Scope Q_scope.

(** ** evaluation of chains *)
Lemma chain_eval_app a b x : chain_eval (a ++ b) x = obind (chain_eval a x) (chain_eval b).
Proof.
  revert x. induction a as [|o a IH]; intro x; simpl; auto.
  destruct (op_eval o x); simpl; auto.
Qed.

Definition op_nz (o : op) : Prop := match o with OpScale m => Q2R (m_coef m) <> 0%R | _ => True end.
Definition chain_nz (c : chain) : Prop := Forall op_nz c.

Definition E (c : chain) (x : R) := chain_eval (rev c) x.
Lemma E_cons o c x : E (o :: c) x = obind (E c x) (op_eval o).
Proof.
  unfold E. simpl. rewrite chain_eval_app. simpl. destruct (chain_eval (rev c) x); simpl; auto.
  destruct (op_eval o r); auto.
Qed.

Lemma mono_eqb_coef a b : mono_eqb a b = true -> Q2R (m_coef a) = Q2R (m_coef b).
Proof. unfold mono_eqb. intro H. apply andb_true_iff in H as [H _]. apply Qeq_bool_iff in H. now apply Qeq_eqR. Qed.

Lemma obind_ret {A} (o : option A) : obind o Some = o.
Proof. now destruct o. Qed.

Lemma push_nz o c : chain_nz (push o c) -> op_nz o /\ chain_nz c.
Proof.
  unfold chain_nz. destruct o; cbn [push]; intro H; try (inversion H; subst; split; simpl; auto; fail).
  - destruct c as [|[k|k|k|k|] c].
    2:{ destruct (mono_eqb (mono_mul k m) mono_one) eqn:E1.
        { apply mono_eqb_coef in E1. rewrite mono_mul_coef in E1. simpl in E1. rewrite Q2R_1 in E1.
          split; [simpl; intro Z; rewrite Z in E1; lra|constructor; auto; simpl; intro Z; rewrite Z in E1; lra]. }
        assert (N : Q2R (m_coef (mono_mul k m)) <> 0%R).
        { destruct (Q_is0 (m_coef (mono_mul k m))) eqn:E0; inversion H; subst; auto. }
        assert (Fc : Forall op_nz c).
        { destruct (Q_is0 (m_coef (mono_mul k m))) eqn:E0; [apply Q_is0_iff in E0; contradiction|].
          inversion H; auto. }
        rewrite mono_mul_coef in N. split; [simpl; intro Z; rewrite Z in N; lra|].
        constructor; auto. simpl. intro Z. rewrite Z in N. lra. }
    all: destruct (mono_eqb m mono_one) eqn:E1;
      [apply mono_eqb_coef in E1; simpl in E1; rewrite Q2R_1 in E1; split; auto; simpl; lra|];
      destruct (Q_is0 (m_coef m)) eqn:E0;
      [apply Q_is0_iff in E0; inversion H; subst; contradiction|inversion H; subst; split; auto].
  - split; simpl; auto. destruct c as [|[k|k|k|k|] c];
      destruct (Q_is0 _) in H; auto; try (inversion H; subst; auto; fail); constructor; simpl; auto.
Qed.

Lemma push_nz_fwd o c : op_nz o -> chain_nz c -> chain_nz (push o c).
Proof.
  unfold chain_nz. intros Ho Hc. destruct o; cbn [push]; auto.
  - destruct c as [|[k|k|k|k|] c].
    2:{ inversion Hc; subst. simpl in Ho, H1.
        assert (N : Q2R (m_coef (mono_mul k m)) <> 0%R)
          by (rewrite mono_mul_coef; now apply Rmult_integral_contrapositive).
        destruct (mono_eqb _ _); auto. destruct (Q_is0 _); constructor; auto. }
    all: destruct (mono_eqb _ _); auto; destruct (Q_is0 _); repeat constructor; auto; inversion Hc; auto.
  - destruct c as [|[k|k|k|k|] c]; destruct (Q_is0 _); auto; try (constructor; simpl; auto; fail);
      inversion Hc; auto; constructor; simpl; auto.
Qed.

Lemma push_eval o c x : op_nz o -> chain_nz c -> E (push o c) x = obind (E c x) (op_eval o).
Proof.
  intros Ho Hc. destruct o; cbn [push]; try apply E_cons.
  - assert (Q : forall k c', k = m -> E (if mono_eqb k mono_one then c' else if Q_is0 (m_coef k) then [OpScale k] else OpScale k :: c') x
                = obind (E c' x) (op_eval (OpScale k))).
    { intros k c' ->. destruct (mono_eqb m mono_one) eqn:E1.
      - apply mono_eqb_coef in E1. simpl in E1. rewrite Q2R_1 in E1. destruct (E c' x); simpl; auto. rewrite E1. f_equal. lra.
      - simpl in Ho. apply Q_is0_false in Ho. rewrite Ho. apply E_cons. }
    destruct c as [|[k|k|k|k|] c]; try (apply Q; reflexivity).
    clear Q. rewrite E_cons. inversion Hc; subst. simpl in Ho, H1.
    assert (N : Q2R (m_coef (mono_mul k m)) <> 0%R)
      by (rewrite mono_mul_coef; now apply Rmult_integral_contrapositive).
    destruct (mono_eqb (mono_mul k m) mono_one) eqn:E1.
    + apply mono_eqb_coef in E1. rewrite mono_mul_coef in E1. simpl in E1. rewrite Q2R_1 in E1.
      destruct (E c x); simpl; auto. f_equal. replace (Q2R (m_coef m) * (Q2R (m_coef k) * r))%R with ((Q2R (m_coef k) * Q2R (m_coef m)) * r)%R by ring.
      rewrite E1. lra.
    + apply Q_is0_false in N. rewrite N, E_cons. destruct (E c x); simpl; auto. f_equal. rewrite mono_mul_coef. ring.
  - assert (Q : forall c', E (if Q_is0 q then c' else OpAdd (Qred q) :: c') x = obind (E c' x) (op_eval (OpAdd q))).
    { intros c'. destruct (Q_is0 q) eqn:E1.
      - apply Q_is0_iff in E1. destruct (E c' x); simpl; auto. rewrite E1. f_equal. lra.
      - rewrite E_cons. destruct (E c' x); cbn [obind op_eval]; auto. now rewrite Q2R_red. }
    destruct c as [|[k|k|k|k|] c]; try apply Q.
    clear Q. rewrite E_cons. destruct (Q_is0 (k + q)) eqn:E1.
    + apply Q_is0_iff in E1. rewrite Q2R_plus in E1. destruct (E c x); simpl; auto. f_equal. lra.
    + rewrite E_cons. destruct (E c x); cbn [obind op_eval]; auto. rewrite Q2R_red, Q2R_plus. f_equal. ring.
Qed.

Lemma fold_push_nz c : forall acc, chain_nz (fold_left (fun a o => push o a) c acc) <-> chain_nz c /\ chain_nz acc.
Proof.
  induction c as [|o c IH]; intro acc; simpl; [split; [split; auto; constructor|tauto]|].
  rewrite IH. split.
  - intros [H1 H2]. apply push_nz in H2 as [H2 H3]. split; auto. constructor; auto.
  - intros [H1 H2]. inversion H1; subst. split; auto. now apply push_nz_fwd.
Qed.

Lemma chain_nz_rev c : chain_nz (rev c) <-> chain_nz c.
Proof. unfold chain_nz. split; intro H; [rewrite <- (rev_involutive c)|]; now apply Forall_rev. Qed.

Lemma chain_norm_nz c : chain_nz (chain_norm c) <-> chain_nz c.
Proof. unfold chain_norm. rewrite chain_nz_rev, fold_push_nz. split; [tauto|split; auto; constructor]. Qed.

Lemma fold_push_eval c : forall acc x, chain_nz c -> chain_nz acc ->
  E (fold_left (fun a o => push o a) c acc) x = obind (E acc x) (chain_eval c).
Proof.
  induction c as [|o c IH]; intros acc x Hc Ha; cbn [fold_left].
  - symmetry. apply obind_ret.
  - inversion Hc; subst. rewrite IH; auto; [|now apply push_nz_fwd].
    rewrite push_eval by auto. destruct (E acc x); reflexivity.
Qed.

Lemma chain_norm_eval c x : chain_nz c -> chain_eval (chain_norm c) x = chain_eval c x.
Proof.
  intro H. unfold chain_norm.
  change (E (fold_left (fun a o => push o a) c []) x = chain_eval c x).
  rewrite fold_push_eval; auto. constructor.
Qed.

(** ** leftover symbols *)
Definition chain_nr (c : chain) : Prop := Forall (fun o => op_residual o = false) c.

Lemma push_nr o c : op_residual o = false -> chain_nr c -> chain_nr (push o c).
Proof.
  unfold chain_nr. intros Ho Hc. destruct o; cbn [push]; auto.
  - assert (Z : m_exps m = []) by (simpl in Ho; destruct (m_exps m); congruence).
    assert (Q : forall k c', m_exps k = [] -> Forall (fun o => op_residual o = false) c' ->
       Forall (fun o => op_residual o = false) (if mono_eqb k mono_one then c' else if Q_is0 (m_coef k) then [OpScale k] else OpScale k :: c')).
    { intros k c' Ek Hc'. destruct (mono_eqb _ _); auto. destruct (Q_is0 _); repeat constructor; auto; simpl; now rewrite Ek. }
    destruct c as [|[k|k|k|k|] c]; try (apply Q; auto).
    + inversion Hc; subst. unfold mono_mul, mono_norm. destruct (Q_is0 _); auto. simpl in H1. simpl. rewrite Z.
      destruct (m_exps k); [reflexivity|discriminate].
    + now inversion Hc.
  - destruct c as [|[k|k|k|k|] c]; destruct (Q_is0 _); auto; try (constructor; simpl; auto; fail);
      inversion Hc; auto; constructor; simpl; auto.
Qed.

Lemma chain_norm_nr c : chain_nr c -> chain_nr (chain_norm c).
Proof.
  intro H. unfold chain_norm. unfold chain_nr. apply Forall_rev.
  assert (Q : forall c acc, chain_nr c -> chain_nr acc -> chain_nr (fold_left (fun a o => push o a) c acc)).
  { clear. induction c as [|o c IH]; intros acc Hc Ha; auto. inversion Hc; subst. simpl. apply IH; auto. now apply push_nr. }
  apply Q; auto. constructor.
Qed.

Lemma nr_existsb c : chain_nr c -> existsb op_residual c = false.
Proof. induction 1; simpl; auto. now rewrite H. Qed.

(** ** inverses *)
Lemma base_pos b : (0 < base_R b)%R.
Proof. destruct b; simpl; try lra. apply exp_pos. Qed.

Lemma base_ln b : ln (base_R b) <> 0%R.
Proof.
  destruct b; simpl.
  - pose proof ln_lt_2. pose proof (ln_increasing 1 2). rewrite ln_1 in *. lra.
  - pose proof (ln_increasing 1 10). rewrite ln_1 in *. lra.
  - rewrite ln_exp. lra.
Qed.

Lemma log_iff b y x : (0 < y /\ ln y / ln (base_R b) = x)%R <-> y = Rpower (base_R b) x.
Proof.
  pose proof (base_ln b) as N. unfold Rpower. split.
  - intros [P <-]. replace (ln y / ln (base_R b) * ln (base_R b))%R with (ln y) by (field; auto). now rewrite exp_ln.
  - intros ->. split; [apply exp_pos|]. rewrite ln_exp. field; auto.
Qed.

Lemma op_eval_log b y x : op_eval (OpLog b) y = Some x <-> y = Rpower (base_R b) x.
Proof.
  rewrite <- log_iff. simpl. destruct (Rlt_dec 0 y); split; try discriminate.
  - intro H; injection H as <-; auto.
  - intros [_ <-]; auto.
  - tauto.
Qed.

Lemma op_inv_iff o i x y : op_inv o = Some i -> (op_eval i x = Some y <-> op_eval o y = Some x).
Proof.
  destruct o as [m|q|b|b|]; cbn [op_inv].
  - destruct (mono_inv m) as [m'|] eqn:M; [|discriminate]. simpl. intro H. injection H as <-.
    apply mono_inv_some in M as [N V]. simpl. rewrite V. split; intro H; injection H as <-; f_equal; field; auto.
  - intro H. injection H as <-. simpl. rewrite Q2R_opp. split; intro H; injection H as <-; f_equal; ring.
  - intro H. injection H as <-. rewrite op_eval_log. simpl. split; [intro H; injection H as <-; auto|intros ->; auto].
  - intro H. injection H as <-. rewrite op_eval_log. simpl. split; [intros ->; auto|intro H; injection H as <-; auto].
  - intro H. injection H as <-. simpl. destruct (Req_EM_T x 0), (Req_EM_T y 0); split; try discriminate; intro H; injection H as <-.
    + now apply Rinv_neq_0_compat in n. 
    + now apply Rinv_neq_0_compat in n. 
    + f_equal. field; auto.
    + f_equal. field; auto.
Qed.

Lemma chain_inv_iff c : forall i x y, chain_inv c = Some i -> (chain_eval i x = Some y <-> chain_eval c y = Some x).
Proof.
  induction c as [|o c IH]; intros i x y H; simpl in H.
  - injection H as <-. simpl. split; congruence.
  - destruct (chain_inv c) as [i'|]; [|discriminate]. destruct (op_inv o) as [o'|] eqn:O; [|discriminate].
    injection H as <-. rewrite chain_eval_app. simpl. split.
    + destruct (chain_eval i' x) as [z|] eqn:Z; [|discriminate]. simpl. intro H.
      assert (H' : op_eval o' z = Some y) by (destruct (op_eval o' z); simpl in H; congruence).
      apply (op_inv_iff _ _ _ _ O) in H'. rewrite H'. simpl. now apply (IH i').
    + destruct (op_eval o y) as [z|] eqn:Z; [|discriminate]. simpl. intro H.
      apply (IH i' x z eq_refl) in H. rewrite H. simpl. apply (op_inv_iff _ _ _ _ O) in Z. now rewrite Z.
Qed.

Lemma chain_inv_nz c : forall i, chain_inv c = Some i -> chain_nz c /\ chain_nz i.
Proof.
  unfold chain_nz. induction c as [|o c IH]; intros i H; simpl in H.
  - injection H as <-. split; constructor.
  - destruct (chain_inv c) as [i'|]; [|discriminate]. destruct (op_inv o) as [o'|] eqn:O; [|discriminate].
    injection H as <-. destruct (IH _ eq_refl) as [H1 H2].
    assert (N : op_nz o /\ op_nz o').
    { destruct o as [m|q|b|b|]; cbn [op_inv] in O; try (injection O as <-; simpl; auto; fail).
      destruct (mono_inv m) as [m'|] eqn:M; [|discriminate]. injection O as <-. apply mono_inv_some in M as [N V].
      simpl. split; auto. rewrite V. now apply Rinv_neq_0_compat. }
    split; [constructor; tauto|]. apply Forall_app. split; auto. constructor; [tauto|constructor].
Qed.

Lemma chain_inv_exists c : chain_nz c -> exists i, chain_inv c = Some i.
Proof.
  induction 1 as [|o c Ho Hc [i IH]]; simpl; eauto. rewrite IH.
  assert (O : exists o', op_inv o = Some o').
  { destruct o as [m|q|b|b|]; cbn [op_inv]; eauto. unfold mono_inv. simpl in Ho. apply Q_is0_false in Ho. rewrite Ho. simpl. eauto. }
  destruct O as [o' ->]. eauto.
Qed.

(** ** the converter *)
Definition direct_dims (a b : anyunit) : Prop :=
  exists da db, dimensionality a = Ok da /\ dimensionality b = Ok db /\ dimval_eqb da db = true.

(** What the numbers of a converter between given normal forms mean. *)
Lemma converter_direct a b cv c1 m1 c2 m2 : mk_converter a b = Ok cv -> direct_dims a b ->
  normal_form (core a) = Ok (c1, m1) -> normal_form (core b) = Ok (c2, m2) ->
  chain_nz c1 /\ exists k, Q2R (m_coef k) = (Q2R (m_coef m1) / Q2R (m_coef m2))%R /\ Q2R (m_coef m2) <> 0%R /\
  (chain_nz c2 -> Q2R (m_coef m1) <> 0%R -> forall v w, chain_eval (cv_ops cv) v = Some w <->
     exists y, chain_eval c1 y = Some v /\ chain_eval c2 (Q2R (m_coef k) * y) = Some w).
Proof.
  intros H (da & db & Ea & Eb & D) N1 N2. unfold mk_converter in H. rewrite Ea, Eb in H. cbn [bind] in H.
  destruct (dimval_inv da) as [ia|]; [|discriminate]. cbn [bind] in H. rewrite D in H. cbn [orb negb] in H.
  rewrite N1, N2 in H. cbn [bind fst snd] in H.
  destruct (chain_inv (chain_norm c1)) as [i|] eqn:I; [|discriminate]. cbn [of_option bind] in H.
  destruct (mono_inv m2) as [m2'|] eqn:M; [|discriminate]. cbn [obind of_option bind] in H. injection H as <-.
  destruct (chain_inv_nz _ _ I) as [Nz Ni]. pose proof (proj1 (chain_norm_nz c1) Nz) as Nz1. apply mono_inv_some in M as [Nm V].
  split; auto. exists (mono_mul m1 m2'). rewrite mono_mul_coef, V. split; auto. split; auto.
  intros Nz2 Nm1 v w. cbn [cv_ops].
  assert (Nk : op_nz (OpScale (mono_mul m1 m2'))).
  { simpl. rewrite mono_mul_coef, V. apply Rmult_integral_contrapositive. split; auto. now apply Rinv_neq_0_compat. }
  rewrite chain_norm_eval.
  2:{ unfold chain_nz in *. apply Forall_app. split; auto. }
  rewrite chain_eval_app.
  assert (Z : forall y, chain_eval i v = Some y <-> chain_eval c1 y = Some v).
  { intro y. rewrite (chain_inv_iff _ _ v y I). now rewrite chain_norm_eval. }
  assert (S : forall y, chain_eval (OpScale (mono_mul m1 m2') :: c2) y = chain_eval c2 (Q2R (m_coef m1) * / Q2R (m_coef m2) * y)%R).
  { intro y. simpl. now rewrite mono_mul_coef, V. }
  change ([OpScale (mono_mul m1 m2')] ++ c2) with (OpScale (mono_mul m1 m2') :: c2).
  split.
  - destruct (chain_eval i v) as [y|] eqn:Y; [|discriminate]. cbn [obind]. intro H. exists y. split; [now apply Z|]. now rewrite <- S.
  - intros (y & H1 & H2). apply Z in H1. rewrite H1. cbn [obind]. now rewrite S.
Qed.

(** ** definitions with a meaning *)
Definition noscale (c : chain) : Prop := Forall (fun o => match o with OpScale _ => False | _ => True end) c.

Lemma log_base_spec f r : log_base_R f = Some r -> exists b, log_base f = Some b /\ base_R b = r.
Proof.
  unfold log_base_R, log_base. destruct (str_eqb f (u "lb")); [intro H; injection H as <-; exists Base2; auto|].
  destruct (str_eqb f (u "lg")); [intro H; injection H as <-; exists Base10; auto|].
  destruct (str_eqb f (u "ln")); simpl; [intro H; injection H as <-; exists BaseE; auto|].
  destruct (str_eqb f (u "log")); [intro H; injection H as <-; exists BaseE; auto|discriminate].
Qed.

Definition transform_node (t : option node) : node := match t with Some t => t | None => value_id end.

(** [means n d c]: chain [c] takes a number of [d] to the number of [n] denoting the same. *)
Definition means (n d : node) (c : chain) : Prop :=
  forall x y, chain_eval c y = Some x <-> quantity n x = (factor d * y)%R.

Lemma rated_quantity n x : rated n -> quantity n x = (factor n * x)%R.
Proof. destruct n; simpl; tauto. Qed.

Lemma rated_levels n : levels n -> rated n \/ exists f a, n = Logarithm f a.
Proof. destruct n; simpl; eauto. Qed.

Lemma levels_form n : levels n -> forall root, exists t d, Expr.split root n = Ok (t, d) /\ rated d /\
  (forall s, symexp d s = symexp n s) /\
  exists st c, to_sympy (transform_node t) = Ok st /\ chain_of st = Some c /\ noscale c /\ means n d c.
Proof.
  assert (B : forall n, rated n -> forall root, exists t d, Expr.split root n = Ok (t, d) /\ rated d /\
    (forall s, symexp d s = symexp n s) /\
    exists st c, to_sympy (transform_node t) = Ok st /\ chain_of st = Some c /\ noscale c /\ means n d c).
  { clear n. intros n H root. exists None, n. split; [apply split_plain, rated_plain, H|]. repeat split; auto.
    exists (SSym (u "value")), []. repeat split; auto; try constructor.
    - simpl. intro E1. injection E1 as <-. now apply rated_quantity.
    - rewrite rated_quantity by auto. simpl. intro E1. f_equal. apply (Rmult_eq_reg_l (factor n)); auto.
      now apply rated_factor. }
  induction n; intros H root; try (apply B; exact H).
  clear B. cbn [levels] in H. destruct H as [Hf Ha]. destruct (log_base_R function) as [r|] eqn:L; [|congruence].
  destruct (log_base_spec _ _ L) as (b & Lb & Br).
  destruct (IHn Ha false) as (t & d & S & Rd & X & st & c & T & C & NS & M).
  cbn [Expr.split]. rewrite S. cbn [bind fst snd]. eexists. exists d. split; [reflexivity|]. split; auto. split; [exact X|].
  exists (SLog b st), (c ++ [OpLog b]). repeat split.
  - change (match t with Some t0 => t0 | None => value_id end) with (transform_node t).
    change (to_sympy (transform_node (Some (Logarithm function (transform_node t)))))
      with (match log_base function with None => Err EKey | Some b => do x <- to_sympy (transform_node t) ;; Ok (SLog b x) end).
    rewrite Lb, T. reflexivity.
  - cbn [chain_of]. rewrite C. reflexivity.
  - apply Forall_app. split; auto; repeat constructor.
  - cbn [quantity]. rewrite L, chain_eval_app. intro E1.
    destruct (chain_eval c y) as [z|] eqn:Z; [|discriminate]. cbn [obind] in E1.
    assert (E2 : op_eval (OpLog b) z = Some x) by (cbn [chain_eval] in E1; destruct (op_eval (OpLog b) z); cbn [obind] in E1; congruence).
    apply op_eval_log in E2. rewrite Br in E2. subst z. now apply M.
  - cbn [quantity]. rewrite L, chain_eval_app. intro E1. apply M in E1. rewrite E1. cbn [obind chain_eval].
    rewrite (proj2 (op_eval_log b _ x)); [reflexivity|now rewrite Br].
Qed.

Lemma measurable_form n : measurable n -> exists t d, split_root n = Ok (t, d) /\ rated d /\
  (forall s, symexp d s = symexp n s) /\
  exists st c, to_sympy (transform_node t) = Ok st /\ chain_of st = Some c /\ noscale c /\ means n d c.
Proof.
  intro H. destruct n; try (apply levels_form; exact H).
  cbn [measurable] in H. destruct n2 as [|v raw| | | | | |]; try contradiction. destruct H as [Hv Ha].
  destruct (levels_form _ Ha false) as (t & d & S & Rd & X & st & c & T & C & NS & M).
  destruct (num_sympy_ok v Hv) as (q & Q & V).
  unfold split_root. cbn [Expr.split]. rewrite S. cbn [bind fst snd]. eexists. exists d. split; [reflexivity|]. split; auto. split; [exact X|].
  exists (SSub st (SNum q)), (c ++ [OpAdd (- q)]). repeat split.
  - change (match t with Some t0 => t0 | None => value_id end) with (transform_node t).
    change (to_sympy (transform_node (Some (Shift (transform_node t) (Number v raw)))))
      with (do x <- to_sympy (transform_node t) ;; do y <- num_sympy v ;; Ok (SSub x y)).
    rewrite T; cbn [bind]; rewrite Q; reflexivity.
  - cbn [chain_of]. rewrite C. reflexivity.
  - apply Forall_app. split; auto; repeat constructor.
  - rewrite chain_eval_app. intro E1. destruct (chain_eval c y) as [z|] eqn:Z; [|discriminate]. cbn [obind chain_eval op_eval] in E1.
    injection E1 as <-. cbn [quantity]. rewrite Q2R_opp, V. apply M. rewrite Z. f_equal. ring.
  - cbn [quantity]. intro E1. apply M in E1. rewrite chain_eval_app, E1. cbn [obind chain_eval op_eval]. rewrite Q2R_opp, V. f_equal. ring.
Qed.

Lemma noscale_nz c : noscale c -> chain_nz c.
Proof. intro H. eapply Forall_impl; [|exact H]. intros []; simpl; tauto. Qed.

Lemma noscale_nr c : noscale c -> chain_nr c.
Proof. intro H. eapply Forall_impl; [|exact H]. intros []; simpl; tauto. Qed.

Lemma push_noscale o c : match o with OpScale _ => False | _ => True end -> noscale c -> noscale (push o c).
Proof.
  unfold noscale. intros Ho Hc. destruct o; cbn [push]; try contradiction; auto.
  destruct c as [|[k|k|k|k|] c]; destruct (Q_is0 _); auto; try (constructor; simpl; auto; fail);
    inversion Hc; auto; constructor; simpl; auto.
Qed.

Lemma fold_push_noscale c : forall acc, noscale c -> noscale acc -> noscale (fold_left (fun a o => push o a) c acc).
Proof. induction c as [|o c IH]; intros acc Hc Ha; auto. inversion Hc; subst. simpl. apply IH; auto. now apply push_noscale. Qed.

Lemma chain_norm_noscale c : noscale c -> noscale (chain_norm c).
Proof. intro H. unfold chain_norm, noscale. apply Forall_rev. apply fold_push_noscale; auto. constructor. Qed.

Lemma chain_inv_noscale c : forall i, noscale c -> chain_inv c = Some i -> noscale i.
Proof.
  unfold noscale. induction c as [|o c IH]; intros i Hc H; simpl in H; [injection H as <-; constructor|].
  inversion Hc; subst. destruct (chain_inv c); [|discriminate]. destruct (op_inv o) eqn:O; [|discriminate]. injection H as <-.
  apply Forall_app. split; auto. constructor; [|constructor]. destruct o; simpl in O; try contradiction; injection O as <-; auto.
Qed.

(** a leftover symbol in the middle of scale-free steps stays *)
Lemma residual_stays i c k : noscale i -> noscale c -> op_residual (OpScale k) = true ->
  existsb op_residual (chain_norm (i ++ OpScale k :: c)) = true.
Proof.
  intros Hi Hc Hk. unfold chain_norm. rewrite fold_left_app. cbn [fold_left].
  set (acc := fold_left (fun a o => push o a) i []). assert (Ha : noscale acc) by (apply fold_push_noscale; auto; constructor).
  assert (P : push (OpScale k) acc = OpScale k :: acc \/ push (OpScale k) acc = [OpScale k]).
  { cbn [push]. assert (M : mono_eqb k mono_one = false).
    { unfold mono_eqb. simpl in Hk. destruct (m_exps k); [discriminate|]. apply andb_false_r. }
    destruct acc as [|[a|a|a|a|] acc']; try (rewrite M; destruct (Q_is0 (m_coef k)); auto).
    inversion Ha; contradiction. }
  assert (Q : forall c acc, noscale c -> existsb op_residual acc = true -> existsb op_residual (fold_left (fun a o => push o a) c acc) = true).
  { clear. induction c as [|o c IH]; intros acc Hc Ha; auto. inversion Hc; subst. cbn [fold_left]. apply IH; auto.
    destruct o; cbn [push]; try contradiction; auto.
    destruct acc as [|[a|a|a|a|] acc']; destruct (Q_is0 _); simpl in *; auto. }
  assert (X : existsb op_residual (fold_left (fun a o => push o a) c (push (OpScale k) acc)) = true).
  { apply Q; auto. destruct P as [-> | ->]; cbn [existsb]; now rewrite Hk. }
  apply existsb_exists in X as (o & I & R). apply existsb_exists. exists o. split; auto. now apply in_rev in I.
Qed.

(** the normal form of a unit with a meaning *)
Lemma measurable_normal x e : expanded x = Ok e -> measurable e -> exists c m, normal_form x = Ok (c, m) /\
  noscale c /\ good m /\ (forall s, mget s (m_exps m) = symexp e s) /\
  (forall v y, chain_eval c y = Some v <-> quantity e v = (Q2R (m_coef m) * y)%R).
Proof.
  intros Ex H. destruct (measurable_form _ H) as (t & d & S & Rd & X & st & c & T & C & NS & M).
  destruct (rated_mono _ Rd) as (sd & m & Td & Md & G & Cm & Xm).
  exists c, m. unfold normal_form, symbolic. rewrite Ex. cbn [bind]. rewrite S. cbn [bind fst snd].
  assert (T' : (match t with Some t => to_sympy t | None => Ok (SSym (u "value")) end) = Ok st).
  { destruct t; exact T. }
  rewrite T'. cbn [bind]. rewrite Td. cbn [bind fst snd]. rewrite C. cbn [of_option bind]. rewrite Md. cbn [of_option bind].
  split; auto. split; auto. split; auto. split; [intro s; rewrite Xm; apply X|]. intros v y. rewrite Cm. apply M.
Qed.

Lemma convert_iff cv v w : convert cv v = Ok w <-> existsb op_residual (cv_ops cv) = false /\ chain_eval (cv_ops cv) v = Some w.
Proof.
  unfold convert. destruct (existsb op_residual (cv_ops cv)); [split; [discriminate|intros [? _]; discriminate]|].
  destruct (chain_eval (cv_ops cv) v); simpl; split; try discriminate; try (intros [_ ?]; discriminate).
  - intro H. injection H as <-. auto.
  - intros [_ H]. injection H as <-. auto.
Qed.

Lemma exps_nil_or e : wf_exps e -> e = [] \/ exists s, mget s e <> 0%Z.
Proof.
  intros [N F]. destruct e as [|[k z] e]; auto. right. exists k. rewrite mget_cons, str_eqb_refl. now inversion F.
Qed.

(** dimensionality objects (every unit except a bare basis unit object) *)
Definition has_dims (a : anyunit) (d : dims) : Prop := dimensionality a = Ok (DObj d).

Lemma meaning_direct a b da db e1 e2 :
  has_dims a da -> has_dims b db -> (forall s, dval da s = dval db s) ->
  expanded (core a) = Ok e1 -> expanded (core b) = Ok e2 -> measurable e1 -> measurable e2 ->
  exists cv, mk_converter a b = Ok cv /\
   ((forall s, symexp e1 s = symexp e2 s) -> forall v w, convert cv v = Ok w <-> quantity e2 w = quantity e1 v) /\
   (~ (forall s, symexp e1 s = symexp e2 s) -> forall v, convert cv v = Err EName).
Proof.
  intros Ha Hb D X1 X2 M1 M2.
  assert (Wa : wf_dims da /\ wf_dims db).
  { unfold has_dims in *. split; [destruct a as [[r dl it|d rs]|x r]|destruct b as [[r dl it|d rs]|x r]]; cbn [dimensionality] in *;
      (destruct (udims _) eqn:U; [|discriminate]); cbn [bind] in *; try discriminate;
      (injection Ha as <- || injection Hb as <-); now apply udims_wf_dims in U. }
  assert (De : dims_eqb da db = true) by (apply dims_eqb_iff; tauto).
  destruct (measurable_normal _ _ X1 M1) as (c1 & m1 & N1 & S1 & G1 & E1 & Q1).
  destruct (measurable_normal _ _ X2 M2) as (c2 & m2 & N2 & S2 & G2 & E2 & Q2).
  destruct (mono_inv_ok _ G2) as (m2' & I2 & G2' & C2' & E2').
  destruct (mono_mul_ok _ _ G1 G2') as [Gk Ek].
  assert (S1' : noscale (chain_norm c1)) by now apply chain_norm_noscale.
  destruct (chain_inv_exists (chain_norm c1) (noscale_nz _ S1')) as [i I].
  assert (Si : noscale i) by (eapply chain_inv_noscale; eauto).
  exists (mkConv (chain_norm (i ++ [OpScale (mono_mul m1 m2')] ++ c2))).
  assert (MK : mk_converter a b = Ok (mkConv (chain_norm (i ++ [OpScale (mono_mul m1 m2')] ++ c2)))).
  { unfold mk_converter. rewrite Ha, Hb. cbn [bind dimval_inv dimval_eqb]. rewrite De. cbn [orb negb].
    rewrite N1, N2. cbn [bind fst snd]. rewrite I. cbn [of_option bind]. rewrite I2. reflexivity. }
  split; auto.
  assert (DD : direct_dims a b) by (exists (DObj da), (DObj db); auto).
  destruct (converter_direct _ _ _ _ _ _ _ MK DD N1 N2) as (_ & k & Ck & Nk & EV).
  assert (Gm1 : Q2R (m_coef m1) <> 0%R) by apply G1.
  specialize (EV (noscale_nz _ S2) Gm1). split.
  - intros S v w. rewrite convert_iff, EV.
    assert (R : existsb op_residual (cv_ops (mkConv (chain_norm (i ++ [OpScale (mono_mul m1 m2')] ++ c2)))) = false).
    { apply nr_existsb. cbn [cv_ops]. apply chain_norm_nr. apply Forall_app. split; [now apply noscale_nr|].
      constructor; [|now apply noscale_nr]. simpl.
      rewrite (exps_zero (m_exps (mono_mul m1 m2'))); auto; [apply Gk|]. intro s. rewrite Ek, E2', E1, E2, S. lia. }
    split.
    + intros (_ & y & A & B). apply Q1 in A. apply Q2 in B. rewrite A, B, Ck. field. auto.
    + intro A. split; auto. exists (quantity e1 v / Q2R (m_coef m1))%R. rewrite Q1, Q2, A, Ck. split; field; auto.
  - intros S v. unfold convert. cbn [cv_ops app]. rewrite residual_stays; auto.
    simpl. destruct (exps_nil_or (m_exps (mono_mul m1 m2'))) as [Z|[s Z]]; [apply Gk| |].
    + exfalso. apply S. intro s. assert (Y := Ek s). rewrite Z, E2', E1, E2 in Y. unfold mget in Y. simpl in Y. lia.
    + destruct (m_exps (mono_mul m1 m2')); auto; try (now unfold mget in *).
Qed.

Lemma meaning_inverse a b da db e1 e2 :
  has_dims a da -> has_dims b db -> (forall s, dval da s = - dval db s)%Z -> (exists s, dval da s <> 0%Z) ->
  expanded (core a) = Ok e1 -> expanded (core b) = Ok e2 -> measurable e1 -> measurable e2 ->
  exists cv, mk_converter a b = Ok cv /\
   ((forall s, symexp e1 s = - symexp e2 s)%Z -> forall v w, convert cv v = Ok w <->
      quantity e1 v <> 0%R /\ quantity e2 w = (/ quantity e1 v)%R) /\
   (~ (forall s, symexp e1 s = - symexp e2 s)%Z -> forall v, convert cv v = Err EName).
Proof.
  intros Ha Hb D [s0 Z0] X1 X2 M1 M2.
  assert (Wa : wf_dims da /\ wf_dims db).
  { unfold has_dims in *. split; [destruct a as [[r dl it|d rs]|x r]|destruct b as [[r dl it|d rs]|x r]]; cbn [dimensionality] in *;
      (destruct (udims _) eqn:U; [|discriminate]); cbn [bind] in *; try discriminate;
      (injection Ha as <- || injection Hb as <-); now apply udims_wf_dims in U. }
  assert (De : dims_eqb da db = false).
  { destruct (dims_eqb da db) eqn:Q; auto. exfalso.
    assert (Q' := proj1 (dims_eqb_iff _ _ (proj1 Wa) (proj2 Wa)) Q s0). specialize (D s0). lia. }
  assert (Di : dims_eqb (dims_inv da) db = true).
  { apply dims_eqb_iff; [now apply dims_inv_wf|tauto|]. intro s. rewrite dims_inv_val, D. lia. }
  destruct (measurable_normal _ _ X1 M1) as (c1 & m1 & N1 & S1 & G1 & E1 & Q1).
  destruct (measurable_normal _ _ X2 M2) as (c2 & m2 & N2 & S2 & G2 & E2 & Q2).
  destruct (mono_mul_ok _ _ G1 G2) as [Gk Ek].
  assert (S1' : noscale (chain_norm c1)) by now apply chain_norm_noscale.
  destruct (chain_inv_exists (chain_norm c1) (noscale_nz _ S1')) as [i I].
  assert (Si : noscale i) by (eapply chain_inv_noscale; eauto).
  assert (Gm1 : Q2R (m_coef m1) <> 0%R) by apply G1. assert (Gm2 : Q2R (m_coef m2) <> 0%R) by apply G2.
  exists (mkConv (chain_norm (i ++ OpScale (mono_mul m1 m2) :: OpRecip :: c2))).
  split.
  { unfold mk_converter. rewrite Ha, Hb. cbn [bind dimval_inv dimval_eqb]. rewrite De, Di. cbn [orb negb].
    rewrite N1, N2. cbn [bind fst snd]. rewrite I. cbn [of_option bind].
    destruct Gk as [Gk _]. apply Q_is0_false in Gk. now rewrite Gk. }
  assert (Z : forall v y, chain_eval i v = Some y <-> chain_eval c1 y = Some v).
  { intros v y. rewrite (chain_inv_iff _ _ v y I). rewrite chain_norm_eval; [reflexivity|]. now apply noscale_nz. }
  assert (NZ : chain_nz (i ++ OpScale (mono_mul m1 m2) :: OpRecip :: c2)).
  { apply Forall_app. split; [now apply noscale_nz|]. constructor; [apply Gk|]. constructor; [simpl; auto|now apply noscale_nz]. }
  assert (EV : forall v w, chain_eval (chain_norm (i ++ OpScale (mono_mul m1 m2) :: OpRecip :: c2)) v = Some w <->
     exists y, chain_eval c1 y = Some v /\ y <> 0%R /\ chain_eval c2 (/ (Q2R (m_coef m1) * Q2R (m_coef m2) * y)) = Some w).
  { intros v w. rewrite chain_norm_eval by auto. rewrite chain_eval_app.
    assert (P : forall y, (Q2R (m_coef m1) * Q2R (m_coef m2) * y <> 0 <-> y <> 0)%R).
    { intro y. split; [intros H ->; apply H; ring|]. intro H. apply Rmult_integral_contrapositive.
      split; auto; now apply Rmult_integral_contrapositive. }
    split.
    - destruct (chain_eval i v) as [y|] eqn:Y; [|discriminate]. cbn [obind chain_eval op_eval]. rewrite mono_mul_coef.
      destruct (Req_EM_T _ _) as [T|T]; [discriminate|]. cbn [obind]. intro H. exists y. rewrite <- Z, <- P. auto.
    - intros (y & A & B & C). apply Z in A. rewrite A. cbn [obind chain_eval op_eval]. rewrite mono_mul_coef.
      apply P in B. destruct (Req_EM_T _ _) as [T|T]; [contradiction|]. cbn [obind]. exact C. }
  split.
  - intros S v w. rewrite convert_iff. cbn [cv_ops]. rewrite EV.
    assert (R : existsb op_residual (chain_norm (i ++ OpScale (mono_mul m1 m2) :: OpRecip :: c2)) = false).
    { apply nr_existsb. apply chain_norm_nr. apply Forall_app. split; [now apply noscale_nr|].
      constructor; [|constructor; [reflexivity|now apply noscale_nr]]. simpl.
      rewrite (exps_zero (m_exps (mono_mul m1 m2))); auto; [apply Gk|]. intro s. rewrite Ek, E1, E2, S. lia. }
    split.
    + intros (_ & y & A & B & C). apply Q1 in A. apply Q2 in C. rewrite A, C. split.
      * now apply Rmult_integral_contrapositive.
      * field. auto.
    + intros [A B]. split; auto. exists (quantity e1 v / Q2R (m_coef m1))%R. rewrite Q1, Q2, B. repeat split; try (field; auto).
      apply Rmult_integral_contrapositive. split; auto. now apply Rinv_neq_0_compat.
  - intros S v. unfold convert. cbn [cv_ops]. rewrite residual_stays; auto; [constructor; simpl; auto|].
    simpl. destruct (exps_nil_or (m_exps (mono_mul m1 m2))) as [Y|[s Y]]; [apply Gk| |].
    + exfalso. apply S. intro s. assert (W := Ek s). rewrite Y, E1, E2 in W. unfold mget in W. simpl in W. lia.
    + destruct (m_exps (mono_mul m1 m2)); auto; try (now unfold mget in *).
Qed.
