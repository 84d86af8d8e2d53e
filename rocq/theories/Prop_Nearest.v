(** * C99: the rounding of sympy's Floats (FloatEq.rnd) is rounding to nearest, ties to even. *)
From Verif Require Import PyBase PyNum Graph Expr Units Sympy Convert ConvertSpec ConvertFacts ConvertMore Rounding Prop_Rounding FloatEq Prop_FloatEq.
From Coq Require Import QArith Qabs Qround Reals Qreals Lia Lra.
Local Open Scope R_scope.

(** ** Specification: a binary number of [p] bits *)
Definition binary (p : Z) (x : R) : Prop := exists m e, (Z.abs m < 2 ^ p)%Z /\ x = IZR m * powerRZ 2 e.

(** ** Proofs *)
Lemma magnitude_gt q : Q2R q <> 0 -> Rabs (Q2R q) < powerRZ 2 (magnitude q + 1).
Proof.
  intro N. unfold magnitude. cbv zeta. set (e := (_ - _)%Z).
  assert (A : (0 < Z.abs (Qnum q))%Z).
  { apply Z.abs_pos. intro H. apply N. unfold Q2R. rewrite H. lra. }
  destruct (Qle_bool _ _) eqn:C.
  - destruct (log2_bounds _ A) as [_ U]. destruct (log2_bounds (Zpos (Qden q)) ltac:(lia)) as [L _].
    unfold Q2R. rewrite Rabs_mult, (Rabs_right (/ _)).
    2:{ apply Rle_ge, Rlt_le, Rinv_0_lt_compat, IZR_lt. lia. }
    rewrite <- abs_IZR. unfold e.
    replace (Z.log2 (Z.abs (Qnum q)) - Z.log2 (Z.pos (Qden q)) + 1)%Z
      with (Z.log2 (Z.abs (Qnum q)) + 1 + - Z.log2 (Z.pos (Qden q)))%Z by lia.
    rewrite powerRZ_add by lra. rewrite powerRZ_neg'.
    apply Rle_lt_trans with (IZR (Z.abs (Qnum q)) * / powerRZ 2 (Z.log2 (Z.pos (Qden q)))).
    + apply Rmult_le_compat_l; [apply IZR_le; lia|]. apply Rinv_le_contravar; [apply pow2_pos|exact L].
    + apply Rmult_lt_compat_r; [apply Rinv_0_lt_compat, pow2_pos|exact U].
  - replace (e - 1 + 1)%Z with e by lia.
    assert (L : ~ (Qpower 2 e <= Qabs q)%Q) by (intro H; apply Qle_bool_iff in H; rewrite C in H; discriminate H).
    apply Qnot_le_lt in L. apply Qlt_Rlt in L. now rewrite Q2R_pow2, Q2R_abs in L.
Qed.

Lemma half_even_tie x : Rabs (IZR (round_half_even x) - Q2R x) = 1 / 2 -> Z.even (round_half_even x) = true.
Proof.
  unfold round_half_even. pose proof (Qfloor_le x) as L. pose proof (Qlt_floor x) as U.
  apply Qle_Rle in L. apply Qlt_Rlt in U. rewrite Q2R_Z in L, U. rewrite plus_IZR in U. set (m := Qfloor x) in *.
  assert (D : Q2R (x - inject_Z m) = Q2R x - IZR m) by (unfold Qminus; rewrite Q2R_plus, Q2R_opp, Q2R_Z; lra).
  assert (H2 : Q2R (1 # 2) = 1 / 2) by (unfold Q2R; simpl; lra).
  destruct (Qcompare (x - inject_Z m) (1 # 2)) eqn:C.
  - intros _. destruct (Z.even m) eqn:E; [exact E|]. rewrite Z.add_1_r, Z.even_succ, <- Z.negb_even, E. reflexivity.
  - apply Qlt_alt in C. apply Qlt_Rlt in C. rewrite D, H2 in C. intro H. exfalso. rewrite Rabs_left1 in H; lra.
  - apply Qgt_alt in C. apply Qlt_Rlt in C. rewrite D, H2 in C. rewrite plus_IZR. intro H. exfalso. rewrite Rabs_right in H; lra.
Qed.

(** the nearest integer *)
Lemma integer_nearest (Y : R) (n : Z) : Rabs (IZR n - Y) <= 1 / 2 -> forall k,
  Rabs (IZR n - Y) <= Rabs (IZR k - Y) /\ (k <> n -> Rabs (IZR k - Y) = Rabs (IZR n - Y) -> Rabs (IZR n - Y) = 1 / 2).
Proof.
  intros H k. destruct (Z.eq_dec k n) as [->|Ne]; [split; [lra|congruence]|].
  assert (D : 1 <= Rabs (IZR k - IZR n)).
  { rewrite <- minus_IZR, <- abs_IZR. apply IZR_le. lia. }
  pose proof (Rabs_triang (IZR k - Y) (Y - IZR n)) as T. replace (IZR k - Y + (Y - IZR n)) with (IZR k - IZR n) in T by ring.
  rewrite (Rabs_minus_sym Y (IZR n)) in T. split; [lra|]. intros _ E. lra.
Qed.

Section OneNumber.
Variables (p : Z) (q : Q).
Hypothesis p_pos : (0 < p)%Z.
Hypothesis q_not0 : Q2R q <> 0.
Let s := (p - 1 - magnitude q)%Z.
Let Y := Q2R q * powerRZ 2 s.
Let sg := Z.sgn (Qnum q).
Let n := (sg * round_half_even (Qabs q * Qpower 2 s))%Z.

Lemma scale_inv : powerRZ 2 s * powerRZ 2 (- s) = 1.
Proof. rewrite <- powerRZ_add by lra. replace (s + - s)%Z with 0%Z by lia. reflexivity. Qed.
Lemma sg_one : sg = 1%Z \/ sg = (-1)%Z.
Proof.
  assert (Qnum q <> 0)%Z by (intro E; apply q_not0; unfold Q2R; rewrite E; lra).
  unfold sg. destruct (Z.sgn_spec (Qnum q)) as [[_ ->] | [[E _] | [_ ->]]]; auto. exfalso. apply H. now symmetry.
Qed.
Lemma Y_abs : Rabs Y = Q2R (Qabs q * Qpower 2 s).
Proof. unfold Y. rewrite Rabs_mult, (Rabs_right (powerRZ 2 s)) by (apply Rle_ge, Rlt_le, pow2_pos). now rewrite Q2R_mult, Q2R_pow2, Q2R_abs. Qed.
Lemma Y_sg : Y = IZR sg * Rabs Y.
Proof. unfold Y, sg. rewrite Rabs_mult, (Rabs_right (powerRZ 2 s)) by (apply Rle_ge, Rlt_le, pow2_pos). rewrite (sgn_abs q) at 1. ring. Qed.
Lemma n_dist : Rabs (IZR n - Y) = Rabs (IZR (round_half_even (Qabs q * Qpower 2 s)) - Rabs Y).
Proof.
  rewrite Y_sg at 1. unfold n. rewrite mult_IZR.
  replace (IZR sg * IZR (round_half_even (Qabs q * Qpower 2 s)) - IZR sg * Rabs Y) with (IZR sg * (IZR (round_half_even (Qabs q * Qpower 2 s)) - Rabs Y)) by ring.
  rewrite Rabs_mult. assert (E : Rabs (IZR sg) = 1); [|rewrite E; ring].
  destruct sg_one as [-> | ->]; [apply Rabs_R1|]. change (IZR (-1)) with (-1). rewrite Rabs_left; lra.
Qed.
Lemma n_near : Rabs (IZR n - Y) <= 1 / 2.
Proof. rewrite n_dist, Y_abs. apply half_even_near. Qed.
Lemma n_tie : Rabs (IZR n - Y) = 1 / 2 -> Z.even n = true.
Proof.
  rewrite n_dist, Y_abs. intro H. apply half_even_tie in H. unfold n. rewrite Z.even_mul, H. apply Bool.orb_true_r.
Qed.
Lemma Y_low : powerRZ 2 (p - 1) <= Rabs Y.
Proof.
  unfold Y. rewrite Rabs_mult, (Rabs_right (powerRZ 2 s)) by (apply Rle_ge, Rlt_le, pow2_pos).
  replace (p - 1)%Z with (magnitude q + s)%Z by (unfold s; lia). rewrite powerRZ_add by lra.
  apply Rmult_le_compat_r; [apply Rlt_le, pow2_pos|]. now apply magnitude_le.
Qed.
Lemma Y_high : Rabs Y < powerRZ 2 p.
Proof.
  unfold Y. rewrite Rabs_mult, (Rabs_right (powerRZ 2 s)) by (apply Rle_ge, Rlt_le, pow2_pos).
  replace p with (magnitude q + 1 + s)%Z at 1 by (unfold s; lia). rewrite powerRZ_add by lra.
  apply Rmult_lt_compat_r; [apply pow2_pos|]. now apply magnitude_gt.
Qed.
Lemma n_range : (2 ^ (p - 1) <= Z.abs n <= 2 ^ p)%Z.
Proof.
  pose proof n_near as H. pose proof Y_low as L. pose proof Y_high as U. rewrite <- IZR_pow2 in L, U by lia.
  pose proof (Rabs_triang_inv (IZR n) Y) as T1. pose proof (Rabs_triang_inv Y (IZR n)) as T2. rewrite Rabs_minus_sym in T2.
  rewrite <- abs_IZR in T1, T2.
  assert (A : IZR (2 ^ (p - 1)) - 1 < IZR (Z.abs n)) by lra. assert (B : IZR (Z.abs n) < IZR (2 ^ p) + 1) by lra.
  rewrite <- minus_IZR in A. rewrite <- plus_IZR in B. apply lt_IZR in A, B. lia.
Qed.

(** every binary number is at least as far away as some multiple of the last bit *)
Lemma on_grid x : binary p x -> exists k,
  Rabs (IZR k - Y) <= Rabs (x * powerRZ 2 s - Y) /\
  (Rabs (IZR k - Y) = Rabs (x * powerRZ 2 s - Y) -> x * powerRZ 2 s = IZR k).
Proof.
  intros (m & e & M & ->). rewrite Rmult_assoc, <- powerRZ_add by lra.
  destruct (Z_le_gt_dec 0 (e + s)) as [G|G].
  - exists (m * 2 ^ (e + s))%Z. rewrite mult_IZR, IZR_pow2 by lia. split; [lra|reflexivity].
  - exists (sg * 2 ^ (p - 1))%Z.
    assert (X : Rabs (IZR m * powerRZ 2 (e + s)) < powerRZ 2 (p - 1)).
    { rewrite Rabs_mult, (Rabs_right (powerRZ 2 _)), <- abs_IZR by (apply Rle_ge, Rlt_le, pow2_pos).
      apply Rle_lt_trans with (IZR (Z.abs m) * powerRZ 2 (-1)).
      - apply Rmult_le_compat_l; [apply IZR_le; lia|]. replace (-1)%Z with (e + s + (-1 - e - s))%Z at 1 by lia.
        rewrite (powerRZ_add 2 (e + s)) by lra. pose proof (pow2_pos (e + s)). rewrite <- (IZR_pow2 (-1 - e - s)) by lia.
        assert (1 <= IZR (2 ^ (-1 - e - s))) by (apply (IZR_le 1); pose proof (Z.pow_pos_nonneg 2 (-1 - e - s)); lia). nra.
      - replace (p - 1)%Z with (p + -1)%Z by lia. rewrite powerRZ_add by lra. apply Rmult_lt_compat_r; [apply pow2_pos|].
        rewrite <- IZR_pow2 by lia. now apply IZR_lt. }
    pose proof Y_low as L. pose proof (Rabs_triang_inv Y (IZR m * powerRZ 2 (e + s))) as T. rewrite Rabs_minus_sym in T.
    assert (K : Rabs (IZR (sg * 2 ^ (p - 1)) - Y) = Rabs Y - powerRZ 2 (p - 1)).
    { pose proof Y_sg as Ys. revert Ys L. generalize (Rabs Y) as a. intros a Ys L. rewrite Ys. rewrite mult_IZR, IZR_pow2 by lia. destruct sg_one as [-> | ->].
      - rewrite !Rmult_1_l, Rabs_left1 by lra. ring.
      - change (IZR (-1)) with (-1). rewrite Rabs_right by lra. ring. }
    rewrite K. split; [lra|]. intro E. exfalso. lra.
Qed.

Lemma result : Q2R (rnd_red p q) = IZR n * powerRZ 2 (- s).
Proof.
  unfold rnd_red. destruct (Q_is0 q) eqn:Z0; [apply Q_is0_iff in Z0; contradiction|].
  fold s sg n. now rewrite Q2R_red, Q2R_mult, Q2R_Z, Q2R_pow2.
Qed.
Lemma unscale x : Rabs (x - Q2R q) = Rabs (x * powerRZ 2 s - Y) * powerRZ 2 (- s).
Proof.
  rewrite <- (Rabs_right (powerRZ 2 (- s))) at 1 by (apply Rle_ge, Rlt_le, pow2_pos). rewrite <- Rabs_mult. f_equal.
  unfold Y. replace ((x * powerRZ 2 s - Q2R q * powerRZ 2 s) * powerRZ 2 (- s)) with ((x - Q2R q) * (powerRZ 2 s * powerRZ 2 (- s))) by ring.
  rewrite scale_inv. ring.
Qed.

Lemma nearest_red :
  binary p (Q2R (rnd_red p q)) /\
  (forall x, binary p x -> Rabs (Q2R (rnd_red p q) - Q2R q) <= Rabs (x - Q2R q)) /\
  (forall x, binary p x -> x <> Q2R (rnd_red p q) -> Rabs (x - Q2R q) = Rabs (Q2R (rnd_red p q) - Q2R q) ->
     exists m e, Q2R (rnd_red p q) = IZR m * powerRZ 2 e /\ (2 ^ (p - 1) <= Z.abs m <= 2 ^ p)%Z /\ Z.even m = true).
Proof.
  pose proof n_range as [R1 R2].
  assert (Sc : Q2R (rnd_red p q) * powerRZ 2 s = IZR n).
  { rewrite result. replace (IZR n * powerRZ 2 (- s) * powerRZ 2 s) with (IZR n * (powerRZ 2 s * powerRZ 2 (- s))) by ring. rewrite scale_inv. ring. }
  split; [|split].
  - rewrite result. destruct (Z.eq_dec (Z.abs n) (2 ^ p)) as [E|E].
    + exists sg, (p - s)%Z. split.
      * assert (Z.abs sg = 1)%Z as -> by (destruct sg_one as [-> | ->]; reflexivity).
        replace p with (1 + (p - 1))%Z by lia. rewrite Z.pow_add_r by lia. pose proof (Z.pow_pos_nonneg 2 (p - 1)). lia.
      * replace (p - s)%Z with (p + - s)%Z by lia. rewrite powerRZ_add by lra. rewrite <- (IZR_pow2 p) by lia.
        rewrite <- Rmult_assoc, <- mult_IZR. do 2 f_equal.
        assert (Pp : (0 < 2 ^ p)%Z) by (apply Z.pow_pos_nonneg; lia).
        assert (Sn : (0 <= round_half_even (Qabs q * Qpower 2 s))%Z).
        { pose proof (half_even_near (Qabs q * Qpower 2 s)) as H. rewrite <- Y_abs in H. pose proof (Rabs_pos Y).
          apply Rabs_le_between in H || idtac.
          assert (-1 < IZR (round_half_even (Qabs q * Qpower 2 s))).
          { destruct (Rle_lt_dec (IZR (round_half_even (Qabs q * Qpower 2 s))) (-1)); [|lra]. exfalso.
            pose proof (Rle_abs (- (IZR (round_half_even (Qabs q * Qpower 2 s)) - Rabs Y))) as B. rewrite Rabs_Ropp in B. lra. }
          change (-1) with (IZR (-1)) in H1. apply lt_IZR in H1. lia. }
        unfold n in *. rewrite Z.abs_mul in E. assert (Z.abs sg = 1)%Z as Es by (destruct sg_one as [-> | ->]; reflexivity).
        rewrite Es in E. rewrite Z.abs_eq in E by lia. lia.
    + exists n, (- s)%Z. split; [lia|reflexivity].
  - intros x B. rewrite (unscale x), (unscale (Q2R (rnd_red p q))), Sc.
    apply Rmult_le_compat_r; [apply Rlt_le, pow2_pos|]. destruct (on_grid x B) as (k & K & _).
    apply Rle_trans with (Rabs (IZR k - Y)); [|exact K]. apply (integer_nearest Y n n_near).
  - intros x B Ne E. exists n, (- s)%Z. split; [exact result|]. split; [lia|]. apply n_tie.
    rewrite (unscale x), (unscale (Q2R (rnd_red p q))), Sc in E. apply Rmult_eq_reg_r in E; [|pose proof (pow2_pos (- s)); lra].
    destruct (on_grid x B) as (k & K & Keq). destruct (integer_nearest Y n n_near k) as [N1 N2].
    assert (Ek : Rabs (IZR k - Y) = Rabs (x * powerRZ 2 s - Y)) by lra.
    apply N2; [|lra]. intros ->. apply Ne. apply Keq in Ek.
    apply (f_equal (fun z => z * powerRZ 2 (- s))) in Ek.
    replace (x * powerRZ 2 s * powerRZ 2 (- s)) with (x * (powerRZ 2 s * powerRZ 2 (- s))) in Ek by ring. rewrite scale_inv in Ek. rewrite result. lra.
Qed.
End OneNumber.

(** ** C99.  The rounding used in the model of unit equality gives a number of [p] bits, no number of
    [p] bits is nearer, and of two that are equally near it takes the one with the even significand. *)
Theorem C99_rounding_is_to_nearest_even :
  forall p q, (0 < p)%Z ->
  binary p (Q2R (rnd p q)) /\
  (forall x, binary p x -> Rabs (Q2R (rnd p q) - Q2R q) <= Rabs (x - Q2R q)) /\
  (forall x, binary p x -> x <> Q2R (rnd p q) -> Rabs (x - Q2R q) = Rabs (Q2R (rnd p q) - Q2R q) ->
     exists m e, Q2R (rnd p q) = IZR m * powerRZ 2 e /\ (2 ^ (p - 1) <= Z.abs m <= 2 ^ p)%Z /\ Z.even m = true).
Proof.
  intros p q P. unfold rnd. rewrite <- (Q2R_red q). set (q' := Qred q).
  destruct (Req_dec (Q2R q') 0) as [Z0|N0]; [|now apply nearest_red].
  assert (R0 : Q2R (rnd_red p q') = 0).
  { unfold rnd_red. destruct (Q_is0 q') eqn:E; [apply RMicromega.Q2R_0|]. apply Q_is0_false in E. contradiction. }
  rewrite R0, Z0. split; [|split].
  - exists 0%Z, 0%Z. split; [apply (Z.pow_pos_nonneg 2 p); lia|]. simpl. ring.
  - intros x _. rewrite Rminus_0_r, Rabs_R0. apply Rabs_pos.
  - intros x _ Ne E. exfalso. apply Ne. rewrite !Rminus_0_r, Rabs_R0 in E. destruct (Req_dec x 0); [auto|]. apply Rabs_no_R0 in H. contradiction.
Qed.

Print Assumptions C99_rounding_is_to_nearest_even.
