(** * C28, C74, C99, C100, C101: equality of units with rounded numbers *)
From Verif Require Import PyBase PyNum Graph Expr Units UnitSpec Sympy Convert ConvertSpec ConvertFacts ConvertMore UnitFacts UnitProofs RegexFacts EqFacts Rounding Prop_Convert Prop_Rounding FloatEq.
From Coq Require Import QArith Qabs Qround Reals Qreals Lia Lra.
Local Open Scope R_scope.

(** ** Rounding to [p] bits has relative error 2^-p *)
Lemma Q2R_2 : Q2R 2 = 2. Proof. unfold Q2R; simpl; lra. Qed.
Lemma Q2R_pow2 z : Q2R (Qpower 2 z) = powerRZ 2 z.
Proof. rewrite Q2R_power; rewrite Q2R_2; [reflexivity | lra]. Qed.
Lemma pow2_pos z : 0 < powerRZ 2 z. Proof. apply powerRZ_lt. lra. Qed.
Lemma Q2R_abs q : Q2R (Qabs q) = Rabs (Q2R q).
Proof.
  destruct (Qlt_le_dec q 0) as [H | H].
  - rewrite (Qeq_eqR _ _ (Qabs_neg q (Qlt_le_weak _ _ H))), Q2R_opp. rewrite Rabs_left; [reflexivity |].
    apply Qlt_Rlt in H. now rewrite RMicromega.Q2R_0 in H.
  - rewrite (Qeq_eqR _ _ (Qabs_pos q H)). rewrite Rabs_right; [reflexivity |].
    apply Qle_Rle in H. rewrite RMicromega.Q2R_0 in H. lra.
Qed.

Lemma half_even_near x : Rabs (IZR (round_half_even x) - Q2R x) <= 1 / 2.
Proof.
  unfold round_half_even. pose proof (Qfloor_le x) as L. pose proof (Qlt_floor x) as U.
  apply Qle_Rle in L. apply Qlt_Rlt in U. rewrite Q2R_Z in L, U. rewrite plus_IZR in U. set (m := Qfloor x) in *.
  assert (D : Q2R (x - inject_Z m) = Q2R x - IZR m) by (unfold Qminus; rewrite Q2R_plus, Q2R_opp, Q2R_Z; lra).
  assert (H2 : Q2R (1 # 2) = 1 / 2) by (unfold Q2R; simpl; lra).
  destruct (Qcompare (x - inject_Z m) (1 # 2)) eqn:C.
  - apply Qeq_alt in C. apply Qeq_eqR in C. rewrite D, H2 in C.
    destruct (Z.even m); [| rewrite plus_IZR]; apply Rabs_le; lra.
  - apply Qlt_alt in C. apply Qlt_Rlt in C. rewrite D, H2 in C. apply Rabs_le; lra.
  - apply Qgt_alt in C. apply Qlt_Rlt in C. rewrite D, H2 in C. rewrite plus_IZR. apply Rabs_le; lra.
Qed.

Lemma IZR_pow2 n : (0 <= n)%Z -> IZR (2 ^ n) = powerRZ 2 n.
Proof.
  intro H. rewrite <- (Z2Nat.id n H), <- pow_IZR, pow_powerRZ. reflexivity.
Qed.

Lemma log2_bounds z : (0 < z)%Z -> powerRZ 2 (Z.log2 z) <= IZR z < powerRZ 2 (Z.log2 z + 1).
Proof.
  intro H. destruct (Z.log2_spec z H) as [A B]. pose proof (Z.log2_nonneg z).
  rewrite <- !IZR_pow2 by lia. split; [apply IZR_le, A | apply IZR_lt, B].
Qed.

Lemma magnitude_le q : Q2R q <> 0 -> powerRZ 2 (magnitude q) <= Rabs (Q2R q).
Proof.
  intro N. unfold magnitude. cbv zeta. set (e := (_ - _)%Z).
  destruct (Qle_bool _ _) eqn:C.
  - apply Qle_bool_iff in C. apply Qle_Rle in C. now rewrite Q2R_pow2, Q2R_abs in C.
  - assert (A : (0 < Z.abs (Qnum q))%Z).
    { apply Z.abs_pos. intro H. apply N. unfold Q2R. rewrite H. lra. }
    destruct (log2_bounds _ A) as [L _]. destruct (log2_bounds (Zpos (Qden q)) ltac:(lia)) as [_ U].
    unfold Q2R. rewrite Rabs_mult, (Rabs_right (/ _)).
    2:{ apply Rle_ge, Rlt_le, Rinv_0_lt_compat, IZR_lt. lia. }
    rewrite <- abs_IZR. unfold e.
    replace (Z.log2 (Z.abs (Qnum q)) - Z.log2 (Z.pos (Qden q)) - 1)%Z
      with (Z.log2 (Z.abs (Qnum q)) + - (Z.log2 (Z.pos (Qden q)) + 1))%Z by lia.
    rewrite powerRZ_add by lra. rewrite powerRZ_neg'.
    apply Rmult_le_compat; [apply Rlt_le, pow2_pos | apply Rlt_le, Rinv_0_lt_compat, pow2_pos | exact L |].
    apply Rinv_le_contravar; [apply IZR_lt; lia | lra].
Qed.

Lemma sgn_abs q : Q2R q = IZR (Z.sgn (Qnum q)) * Rabs (Q2R q).
Proof.
  unfold Q2R. assert (P : 0 < / IZR (Z.pos (Qden q))) by (apply Rinv_0_lt_compat, IZR_lt; lia).
  rewrite Rabs_mult, (Rabs_right (/ _)) by lra. rewrite <- abs_IZR, <- Rmult_assoc, <- mult_IZR.
  f_equal. f_equal. lia.
Qed.

Lemma rnd_red_near p q : rounded (powerRZ 2 (- p)) (Q2R q) (Q2R (rnd_red p q)).
Proof.
  unfold rounded, rnd_red. destruct (Q_is0 q) eqn:Z0.
  { apply Q_is0_iff in Z0. rewrite Z0, RMicromega.Q2R_0. rewrite Rminus_0_r, Rabs_R0. lra. }
  apply Q_is0_false in Z0. set (s := (p - 1 - magnitude q)%Z).
  rewrite Q2R_red, Q2R_mult, Q2R_Z, Q2R_pow2, mult_IZR.
  pose proof (half_even_near (Qabs q * Qpower 2 s)) as H. rewrite Q2R_mult, Q2R_pow2, Q2R_abs in H.
  set (m := IZR (round_half_even _)) in *. pose proof (magnitude_le q Z0) as M.
  assert (S1 : powerRZ 2 s * powerRZ 2 (- s) = 1).
  { rewrite <- powerRZ_add by lra. replace (s + - s)%Z with 0%Z by lia. reflexivity. }
  assert (Sg : Rabs (IZR (Z.sgn (Qnum q))) = 1).
  { assert (Qnum q <> 0)%Z by (intro E; apply Z0; unfold Q2R; rewrite E; lra).
    destruct (Z.sgn_spec (Qnum q)) as [[_ ->] | [[E _] | [_ ->]]]; [rewrite Rabs_R1; reflexivity | lia |].
    change (IZR (- (1))) with (-1). rewrite Rabs_left; lra. }
  rewrite (sgn_abs q) at 1.
  replace (IZR (Z.sgn (Qnum q)) * m * powerRZ 2 (- s) - IZR (Z.sgn (Qnum q)) * Rabs (Q2R q))
    with (IZR (Z.sgn (Qnum q)) * ((m - Rabs (Q2R q) * powerRZ 2 s) * powerRZ 2 (- s))).
  2:{ replace (IZR (Z.sgn (Qnum q)) * Rabs (Q2R q)) with (IZR (Z.sgn (Qnum q)) * Rabs (Q2R q) * (powerRZ 2 s * powerRZ 2 (- s))) by (rewrite S1; ring). ring. }
  rewrite !Rabs_mult, Sg, Rmult_1_l, (Rabs_right (powerRZ 2 (- s))) by (apply Rle_ge, Rlt_le, pow2_pos).
  replace (powerRZ 2 (- p)) with (1 / 2 * powerRZ 2 (- s) * powerRZ 2 (- magnitude q)).
  2:{ unfold s. rewrite Rmult_assoc, <- powerRZ_add by lra.
      replace (1 / 2) with (powerRZ 2 (-1)) by (simpl; lra). rewrite <- powerRZ_add by lra. f_equal. lia. }
  assert (K : 1 <= powerRZ 2 (- magnitude q) * Rabs (Q2R q)).
  { apply (Rmult_le_compat_l (powerRZ 2 (- magnitude q)) _ _ (Rlt_le _ _ (pow2_pos _))) in M.
    rewrite <- powerRZ_add in M by lra. replace (- magnitude q + magnitude q)%Z with 0%Z in M by lia. exact M. }
  pose proof (pow2_pos (- s)). set (w := powerRZ 2 (- magnitude q) * Rabs (Q2R q)) in *.
  replace (1 / 2 * powerRZ 2 (- s) * powerRZ 2 (- magnitude q) * Rabs (Q2R q)) with (1 / 2 * powerRZ 2 (- s) * w) by (unfold w; ring).
  assert (Rabs (m - Rabs (Q2R q) * powerRZ 2 s) * powerRZ 2 (- s) <= 1 / 2 * powerRZ 2 (- s)) by (apply Rmult_le_compat_r; lra).
  nra.
Qed.

Lemma rnd_near p q : rounded (powerRZ 2 (- p)) (Q2R q) (Q2R (rnd p q)).
Proof. unfold rnd. rewrite <- (Q2R_red q) at 1. apply rnd_red_near. Qed.

Lemma rnd_same p x y : (x == y)%Q -> rnd p x = rnd p y.
Proof. intro E. unfold rnd. now rewrite (Qred_complete _ _ E). Qed.

(** ** What is compared, in words

    [whole e]: no number in the definition is a Float (is written with a point or an exponent).
    [decimal e]: some number in it is, not counting the base of a power 0.
    [short e]: its Floats have the usual precision, 53 bits. *)
Fixpoint literals (p : numv -> bool) (n : node) : bool :=
  match n with
  | Number v _ => p v
  | Multiply a b | Divide a b => literals p a && literals p b
  | Raise a _ => literals p a
  | _ => true
  end.
Definition whole := literals (fun v => negb (float_literal v)).
Definition short := literals (fun v => match v with NDec d => negb (float_literal v) || Z.eqb (literal_bits d) 53 | _ => true end).
Fixpoint decimal (n : node) : bool :=
  match n with
  | Number v _ => float_literal v
  | Multiply a b | Divide a b => decimal a || decimal b
  | Raise a (Number (NInt z) _) => negb (Z.eqb z 0) && decimal a
  | _ => false
  end.

(** The number of roundings in a definition, generously counted. *)
Fixpoint roundings (n : node) : nat :=
  match n with
  | Number _ _ => 1
  | Multiply a b => roundings a + roundings b + 2
  | Divide a b => roundings a + roundings b + 3
  | Raise a (Number (NInt z) _) => Z.abs_nat z * roundings a + 1
  | _ => 0
  end%nat.

(** The accuracy of Float ** Integer *)
Definition accurate (fpow : Z -> Q -> Z -> Q) : Prop :=
  forall p f n, (53 <= p)%Z -> Q2R f <> 0 -> rounded (powerRZ 2 (-52)) (powerRZ (Q2R f) n) (Q2R (fpow p f n)).

Definition eps := powerRZ 2 (-52).
Lemma eps_range : 0 <= eps < 1.
Proof.
  unfold eps. split; [apply Rlt_le, pow2_pos |]. unfold powerRZ.
  apply Rlt_le_trans with (/ 1); [| lra]. apply Rinv_lt_contravar; [| apply Rlt_pow_R1; [lra | lia]].
  rewrite Rmult_1_l. apply pow_lt. lra.
Qed.

Lemma rounded_weaken p q : (53 <= p)%Z -> rounded eps (Q2R q) (Q2R (rnd p q)).
Proof.
  intro P. unfold rounded. eapply Rle_trans; [apply rnd_near |]. apply Rmult_le_compat_r; [apply Rabs_pos |].
  unfold eps. replace (-52)%Z with (- p + (p - 52))%Z by lia. rewrite powerRZ_add by lra.
  rewrite <- (Rmult_1_r (powerRZ 2 (- p))) at 1. apply Rmult_le_compat_l; [apply Rlt_le, pow2_pos |].
  rewrite <- IZR_pow2 by lia. apply IZR_le. pose proof (Z.pow_pos_nonneg 2 (p - 52)). lia.
Qed.

Lemma near_weaken k m x y : (k <= m)%nat -> near eps k x y -> near eps m x y.
Proof.
  intros L H. replace m with (k + (m - k))%nat by lia. eapply (near_trans eps eps_range); [exact H |].
  apply (near_refl eps eps_range).
Qed.

Lemma near_rnd k p x q : (53 <= p)%Z -> near eps k x (Q2R q) -> near eps (k + 1) x (Q2R (rnd p q)).
Proof. intros P H. eapply (near_step eps eps_range); [exact H |]. now apply rounded_weaken. Qed.

Definition fine (c : scalar) : Prop := match c with Exact _ => True | Flt p _ => (53 <= p)%Z end.

Lemma smul_near k m x y a b : near eps k x (Q2R (sval a)) -> near eps m y (Q2R (sval b)) -> fine a -> fine b ->
  near eps (k + m + 2) (x * y) (Q2R (sval (smul a b))) /\ fine (smul a b).
Proof.
  intros H K Fa Fb. destruct a as [a | p a], b as [b | r b]; cbn [smul sval fine] in *.
  - split; [| exact Logic.I]. rewrite Q2R_red, Q2R_mult. apply near_weaken with (k + m)%nat; [lia |]. now apply (near_mul eps eps_range).
  - split; [| exact Fb]. replace (k + m + 2)%nat with ((k + 1) + m + 1)%nat by lia. apply near_rnd; [exact Fb |].
    rewrite Q2R_mult. apply (near_mul eps eps_range); [now apply near_rnd | exact K].
  - split; [| exact Fa]. replace (k + m + 2)%nat with (k + (m + 1) + 1)%nat by lia. apply near_rnd; [exact Fa |].
    rewrite Q2R_mult. apply (near_mul eps eps_range); [exact H | now apply near_rnd].
  - split; [| lia]. apply near_weaken with (k + m + 1)%nat; [lia |]. apply near_rnd; [lia |].
    rewrite Q2R_mult. now apply (near_mul eps eps_range).
Qed.

Lemma sinv_near k x a : x <> 0 -> near eps k x (Q2R (sval a)) -> fine a ->
  near eps (k + 1) (/ x) (Q2R (sval (sinv a))) /\ fine (sinv a).
Proof.
  intros X H Fa. pose proof (near_nonzero eps eps_range k x _ X H) as Y. apply (near_inv eps eps_range) in H; [| exact X].
  destruct a as [a | p a]; cbn [sinv sval fine] in *.
  - split; [| exact Logic.I]. rewrite Q2R_red, Q2R_inv_total by exact Y. apply near_weaken with k; [lia | exact H].
  - split; [| exact Fa]. apply near_rnd; [exact Fa |]. rewrite Q2R_inv_total by exact Y. exact H.
Qed.

Lemma sdiv_near k m x y a b : y <> 0 -> near eps k x (Q2R (sval a)) -> near eps m y (Q2R (sval b)) -> fine a -> fine b ->
  near eps (k + m + 3) (x / y) (Q2R (sval (sdiv a b))) /\ fine (sdiv a b).
Proof.
  intros Y H K Fa Fb. pose proof (sinv_near m y b Y K Fb) as [K' Fb'].
  assert (D : near eps (k + m + 3) (x / y) (Q2R (sval (smul a (sinv b)))) /\ fine (smul a (sinv b))).
  { replace (k + m + 3)%nat with (k + (m + 1) + 2)%nat by lia. now apply smul_near. }
  pose proof (near_nonzero eps eps_range m y _ Y K) as Yb.
  destruct a as [a | p a]; [exact D |]. clear D. destruct b as [b | r b]; cbn [sdiv sval fine] in *.
  - assert (R1 : near eps (m + 1) y (Q2R (rnd p b))) by now apply near_rnd.
    pose proof (near_nonzero eps eps_range _ y _ Y R1) as Yr. apply (near_inv eps eps_range) in R1; [| exact Y].
    split; [| exact Fa]. apply near_weaken with (k + (m + 1) + 1)%nat; [lia |]. apply near_rnd; [exact Fa |].
    unfold Qdiv. rewrite Q2R_mult, Q2R_inv_total by exact Yr. now apply (near_mul eps eps_range).
  - apply (near_inv eps eps_range) in K; [| exact Y].
    split; [| lia]. apply near_weaken with (k + m + 1)%nat; [lia |]. apply near_rnd; [lia |].
    unfold Qdiv. rewrite Q2R_mult, Q2R_inv_total by exact Yb. now apply (near_mul eps eps_range).
Qed.

Section Accuracy.
Variable fpow : Z -> Q -> Z -> Q.
Hypothesis fpow_accurate : accurate fpow.

Lemma spow_near k x a n : x <> 0 -> near eps k x (Q2R (sval a)) -> fine a ->
  near eps (Z.abs_nat n * k + 1) (powerRZ x n) (Q2R (sval (spow fpow a n))) /\ fine (spow fpow a n).
Proof.
  intros X H Fa. pose proof (near_nonzero eps eps_range k x _ X H) as Y.
  pose proof (near_powerRZ eps eps_range k x _ n X H) as P.
  destruct a as [a | p a]; cbn [spow sval fine] in *.
  - split; [| exact Logic.I]. rewrite Q2R_red, Q2R_power by exact Y. now apply near_weaken with (Z.abs_nat n * k)%nat; [lia |].
  - destruct (Z.eqb_spec n 0) as [-> | N0].
    { split; [| exact Logic.I]. cbn [sval powerRZ]. rewrite RMicromega.Q2R_1. apply (near_refl eps eps_range). }
    destruct (Z.eqb_spec n 1) as [-> | N1].
    { split; [| exact Fa]. cbn [sval]. rewrite powerRZ_1. apply near_weaken with k; [lia | exact H]. }
    split; [| exact Fa]. cbn [sval]. eapply (near_step eps eps_range); [exact P |]. now apply fpow_accurate.
Qed.

Lemma literal_near v c : literal v = Some c -> near eps 1 (num_R v) (Q2R (sval c)) /\ fine c.
Proof.
  destruct v as [z | d | s]; cbn [literal]; intro H.
  - destruct (z =? 0)%Z; [discriminate H |]. injection H as <-. cbn [sval num_R fine]. rewrite Q2R_Z.
    split; [apply (near_refl eps eps_range) | exact Logic.I].
  - destruct (Q_is0 (dec_Q d)); [discriminate H |]. injection H as <-. cbn [num_R].
    destruct (float_text (dec_str d)); cbn [sval fine].
    + assert (53 <= literal_bits d)%Z by (unfold literal_bits; lia). split; [| assumption].
      apply (near_rounded eps eps_range). now apply rounded_weaken.
    + split; [apply (near_refl eps eps_range) | exact Logic.I].
  - discriminate H.
Qed.

Lemma fmono_near n : rated n -> forall c ex, fmono_of fpow n = Some (c, ex) ->
  near eps (roundings n) (factor n) (Q2R (sval c)) /\ fine c.
Proof.
  induction n as [x | v raw | s | a IHa b IHb | a IHa b IHb | a IHa b IHb | a IHa b IHb | f a IHa];
    intros R c ex E; cbn [rated] in R; try contradiction; cbn [fmono_of] in E.
  - destruct (literal v) as [l |] eqn:L; cbn [obind] in E; [| discriminate E]. injection E as <- <-.
    cbn [roundings factor]. now apply literal_near.
  - destruct (reserved s); [discriminate E |]. injection E as <- <-. cbn [roundings factor sval fine].
    rewrite RMicromega.Q2R_1. split; [apply (near_refl eps eps_range) | exact Logic.I].
  - destruct b as [| [z | |] raw | | | | | |]; try contradiction.
    destruct (fmono_of fpow a) as [[ca xa] |]; cbn [obind fst snd] in E; [| discriminate E]. injection E as <- <-.
    destruct (IHa R ca xa eq_refl) as [H F]. cbn [roundings factor]. apply spow_near; [now apply rated_factor | exact H | exact F].
  - destruct R as [Ra Rb].
    destruct (fmono_of fpow a) as [[ca xa] |]; cbn [obind fst snd] in E; [| discriminate E].
    destruct (fmono_of fpow b) as [[cb xb] |]; cbn [obind fst snd] in E; [| discriminate E]. injection E as <- <-.
    destruct (IHa Ra ca xa eq_refl) as [Ha Fa]. destruct (IHb Rb cb xb eq_refl) as [Hb Fb].
    cbn [roundings factor]. now apply smul_near.
  - destruct R as [Ra Rb].
    destruct (fmono_of fpow a) as [[ca xa] |]; cbn [obind fst snd] in E; [| discriminate E].
    destruct (fmono_of fpow b) as [[cb xb] |]; cbn [obind fst snd] in E; [| discriminate E]. injection E as <- <-.
    destruct (IHa Ra ca xa eq_refl) as [Ha Fa]. destruct (IHb Rb cb xb eq_refl) as [Hb Fb].
    cbn [roundings factor]. pose proof (rated_factor b Rb) as Nb.
    assert (D : near eps (roundings a + roundings b + 3) (factor a / factor b) (Q2R (sval (smul ca (sinv cb)))) /\ fine (smul ca (sinv cb))).
    { destruct (sinv_near _ _ _ Nb Hb Fb) as [Hi Fi].
      replace (roundings a + roundings b + 3)%nat with (roundings a + (roundings b + 1) + 2)%nat by lia. now apply smul_near. }
    destruct xa; [destruct xb |]; [now apply sdiv_near | exact D | exact D].
Qed.
End Accuracy.

(** ** The exponents are those of the exact normal form *)
Lemma literal_rated v : numeric v -> num_R v <> 0 -> exists c, literal v = Some c.
Proof.
  destruct v as [z | d | s]; cbn [numeric num_R literal]; intros N R; [| | contradiction].
  - destruct (Z.eqb_spec z 0) as [-> | _]; [now contradiction R | eauto].
  - apply Q_is0_false in R. rewrite R. eauto.
Qed.

Lemma mono_mul_exps a b : good a -> good b -> m_exps (mono_mul a b) = exps_merge (m_exps a) (m_exps b).
Proof.
  intros [Ha Wa] [Hb Wb]. destruct (exps_merge_ok _ _ Wa Wb) as [W _].
  apply mono_norm_good; [| exact W]. rewrite Q2R_mult. now apply Rmult_integral_contrapositive.
Qed.
Lemma mono_inv_exps a i : good a -> mono_inv a = Some i -> m_exps i = exps_scale (-1) (m_exps a).
Proof.
  intros [Ha Wa] E. unfold mono_inv in E. apply Q_is0_false in Ha as H'. rewrite H' in E. injection E as <-.
  apply mono_norm_good; [| now apply exps_scale_ok]. rewrite Q2R_inv_total by auto. now apply Rinv_neq_0_compat.
Qed.
Lemma mono_pow_exps a n i : good a -> mono_pow a n = Some i -> m_exps i = exps_scale n (m_exps a).
Proof.
  intros [Ha Wa] E. unfold mono_pow in E. apply Q_is0_false in Ha as H'. rewrite H' in E. cbn [andb] in E. injection E as <-.
  apply mono_norm_good; [| now apply exps_scale_ok]. rewrite Q2R_power by auto. now apply powerRZ_NOR.
Qed.

Lemma fmono_exps fpow n : rated n -> exists se m c, to_sympy n = Ok se /\ mono_of se = Some m /\ good m /\
  fmono_of fpow n = Some (c, m_exps m) /\ (whole n = true -> exists q, c = Exact q /\ Q2R q = Q2R (m_coef m)) /\
  (match c with Exact _ => false | Flt _ _ => true end = decimal n) /\
  (short n = true -> match c with Exact _ => True | Flt p _ => p = 53%Z end).
Proof.
  induction n as [x | v raw | s | a IHa b IHb | a IHa b IHb | a IHa b IHb | a IHa b IHb | f a IHa];
    intros R; cbn [rated] in R; try contradiction; cbn [fmono_of].
  - destruct R as [N R]. destruct (num_sympy_ok v N) as (q & E & V). destruct (literal_rated v N R) as (c & L).
    exists (SNum q), (mono_num q), c. cbn [to_sympy]. split; [exact E |]. split; [reflexivity |].
    destruct (mono_norm_good q []) as [G1 G2]; [now rewrite V | split; constructor |].
    split; [exact G1 |]. rewrite L. cbn [obind]. unfold mono_num. rewrite G2, mono_norm_coef.
    split; [reflexivity |]. rewrite V. unfold whole, short. cbn [literals decimal].
    destruct v as [z | d | t]; cbn [literal float_literal num_R] in *.
    + destruct (z =? 0)%Z; [discriminate L |]. injection L as <-. split; [| split; auto].
      intros _. eexists. split; [reflexivity | apply Q2R_Z].
    + destruct (Q_is0 (dec_Q d)); [discriminate L |]. injection L as <-. destruct (float_text (dec_str d)); cbn [negb orb].
      * split; [discriminate |]. split; [reflexivity |]. apply Z.eqb_eq.
      * split; [| split; auto]. intros _. eexists. split; reflexivity.
    + discriminate L.
  - exists (SSym s), (mono_sym s), (Exact 1). cbn [to_sympy mono_of]. rewrite not_reserved by exact R.
    split; [reflexivity |]. split; [reflexivity |]. split.
    { split; [cbn; rewrite RMicromega.Q2R_1; lra |]. split; cbn.
      - constructor; [intros [] | constructor].
      - constructor; [cbn; lia | constructor]. }
    split; [reflexivity |]. split; [| split; auto]. intros _. exists 1%Q. split; reflexivity.
  - destruct b as [| [z | |] raw | | | | | |]; try contradiction.
    destruct (IHa R) as (se & m & c & E & M & G & F & W & D & S0). destruct (mono_pow_ok m z G) as (i & P & Gi & Ci & _).
    exists (SPow se (SNum (inject_Z z))), i, (spow fpow c z). cbn [to_sympy num_sympy bind]. rewrite E. cbn [bind].
    split; [reflexivity |]. cbn [mono_of]. rewrite Q_int_Z, M. cbn [obind]. split; [exact P |]. split; [exact Gi |].
    rewrite F. cbn [obind fst snd]. rewrite (mono_pow_exps m z i G P). split; [reflexivity |].
    change (whole (Raise a (Number (NInt z) raw))) with (whole a). change (short (Raise a (Number (NInt z) raw))) with (short a).
    split; [| split].
    + intro Wa. destruct (W Wa) as (q & -> & V). cbn [spow]. eexists. split; [reflexivity |].
      rewrite Q2R_red, Ci, Q2R_power, V; [reflexivity |]. rewrite V. apply G.
    + cbn [decimal]. rewrite <- D. destruct c as [q | p q]; cbn [spow]; [now rewrite Bool.andb_false_r |].
      destruct (z =? 0)%Z; [reflexivity |]. destruct (z =? 1)%Z; reflexivity.
    + intro Sa. specialize (S0 Sa). destruct c as [q | p q]; cbn [spow]; [exact Logic.I |].
      destruct (z =? 0)%Z; [exact Logic.I |]. destruct (z =? 1)%Z; exact S0.
  - destruct R as [Ra Rb]. destruct (IHa Ra) as (s1 & m1 & c1 & E1 & M1 & G1 & F1 & W1 & D1 & S1).
    destruct (IHb Rb) as (s2 & m2 & c2 & E2 & M2 & G2 & F2 & W2 & D2 & S2).
    exists (SMul s1 s2), (mono_mul m1 m2), (smul c1 c2). cbn [to_sympy]. rewrite E1. cbn [bind]. rewrite E2. cbn [bind].
    split; [reflexivity |]. cbn [mono_of]. rewrite M1, M2. cbn [obind]. split; [reflexivity |].
    destruct (mono_mul_ok _ _ G1 G2) as [G _]. split; [exact G |]. rewrite F1, F2. cbn [obind fst snd].
    rewrite mono_mul_exps by assumption. split; [reflexivity |]. rewrite mono_mul_coef.
    unfold whole, short in *. cbn [literals decimal]. rewrite <- D1, <- D2. split; [| split].
    + intro Wa. apply andb_prop in Wa as [Wa Wb]. destruct (W1 Wa) as (q1 & -> & V1). destruct (W2 Wb) as (q2 & -> & V2).
      eexists. split; [reflexivity |]. now rewrite Q2R_red, Q2R_mult, V1, V2.
    + destruct c1, c2; reflexivity.
    + intro Sa. apply andb_prop in Sa as [Sa Sb]. specialize (S1 Sa). specialize (S2 Sb).
      destruct c1, c2; cbn [smul]; auto. subst. reflexivity.
  - destruct R as [Ra Rb]. destruct (IHa Ra) as (s1 & m1 & c1 & E1 & M1 & G1 & F1 & W1 & D1 & S1).
    destruct (IHb Rb) as (s2 & m2 & c2 & E2 & M2 & G2 & F2 & W2 & D2 & S2). destruct (mono_inv_ok _ G2) as (i & I & Gi & Ci & _).
    eexists (SDiv s1 s2), (mono_mul m1 i), _. cbn [to_sympy]. rewrite E1. cbn [bind]. rewrite E2. cbn [bind].
    split; [reflexivity |]. cbn [mono_of]. rewrite M1, M2. cbn [obind]. rewrite I. split; [reflexivity |].
    destruct (mono_mul_ok _ _ G1 Gi) as [G _]. split; [exact G |]. rewrite F1, F2. cbn [obind fst snd].
    rewrite mono_mul_exps by assumption. rewrite (mono_inv_exps m2 i G2 I). split; [reflexivity |]. rewrite mono_mul_coef, Ci.
    unfold whole, short in *. cbn [literals decimal]. rewrite <- D1, <- D2. split; [| split].
    + intro Wa. apply andb_prop in Wa as [Wa Wb]. destruct (W1 Wa) as (q1 & -> & V1). destruct (W2 Wb) as (q2 & -> & V2).
      assert (N2 : Q2R q2 <> 0) by (rewrite V2; apply G2).
      assert (X : sdiv (Exact q1) (Exact q2) = Exact (Qred (q1 * Qred (/ q2)))) by reflexivity.
      exists (Qred (q1 * Qred (/ q2))). split; [destruct (m_exps m1); [destruct (m_exps m2) |]; reflexivity |].
      now rewrite Q2R_red, Q2R_mult, Q2R_red, Q2R_inv_total, V1, V2.
    + destruct (m_exps m1); [destruct (m_exps m2) |]; destruct c1, c2; reflexivity.
    + intro Sa. apply andb_prop in Sa as [Sa Sb]. specialize (S1 Sa). specialize (S2 Sb).
      destruct (m_exps m1); [destruct (m_exps m2) |]; destruct c1, c2; cbn [smul sdiv sinv]; auto; subst; reflexivity.
Qed.

(** ** Unit.__eq__ for such definitions *)
Definition has_basis (e : node) : Prop := exists s, symexp e s <> 0%Z.

Lemma split_rated e : rated e -> split_root e = Ok (None, e).
Proof. intro R. unfold split_root. apply split_plain, rated_plain, R. Qed.

Lemma normal_rated x e : expanded x = Ok e -> rated e -> exists se m, to_sympy e = Ok se /\ mono_of se = Some m /\
  normal_form x = Ok ([], m).
Proof.
  intros X R. destruct (rated_mono e R) as (se & m & T & M & _). exists se, m. split; [exact T |]. split; [exact M |].
  unfold normal_form, symbolic. rewrite X. cbn [bind]. rewrite split_rated by exact R. cbn [bind fst snd]. rewrite T. cbn [bind fst snd].
  rewrite M. reflexivity.
Qed.

Lemma exps_of e se m : rated e -> to_sympy e = Ok se -> mono_of se = Some m -> good m /\ Q2R (m_coef m) = factor e /\ forall s, mget s (m_exps m) = symexp e s.
Proof.
  intros R T M. destruct (rated_mono e R) as (se' & m' & T' & M' & G & C & X). rewrite T in T'. injection T' as <-.
  rewrite M in M'. injection M' as <-. auto.
Qed.

Lemma float_eq_form fpow x y e1 e2 : expanded x = Ok e1 -> expanded y = Ok e2 -> rated e1 -> rated e2 -> has_basis e1 ->
  node_str (definition_of y) <> node_str (definition_of x) ->
  exists c1 m1 c2 m2, fmono_of fpow e1 = Some (c1, m_exps m1) /\ fmono_of fpow e2 = Some (c2, m_exps m2) /\
    good m1 /\ good m2 /\ normal_form x = Ok ([], m1) /\ normal_form y = Ok ([], m2) /\
    (forall s, mget s (m_exps m1) = symexp e1 s) /\ (forall s, mget s (m_exps m2) = symexp e2 s) /\
    (whole e1 = true -> exists q, c1 = Exact q /\ Q2R q = Q2R (m_coef m1)) /\
    (whole e2 = true -> exists q, c2 = Exact q /\ Q2R q = Q2R (m_coef m2)) /\
    float_eq fpow x y = Ok (exps_eqb (m_exps m1) (m_exps m2) && scalar_same c1 c2).
Proof.
  intros X1 X2 R1 R2 [s H] N.
  destruct (fmono_exps fpow e1 R1) as (se1 & m1 & c1 & T1 & M1 & G1 & F1 & W1 & _).
  destruct (fmono_exps fpow e2 R2) as (se2 & m2 & c2 & T2 & M2 & G2 & F2 & W2 & _).
  destruct (normal_rated x e1 X1 R1) as (se1' & m1' & T1' & M1' & N1).
  destruct (normal_rated y e2 X2 R2) as (se2' & m2' & T2' & M2' & N2).
  rewrite T1 in T1'. injection T1' as <-. rewrite M1 in M1'. injection M1' as <-.
  rewrite T2 in T2'. injection T2' as <-. rewrite M2 in M2'. injection M2' as <-.
  exists c1, m1, c2, m2. destruct (exps_of e1 se1 m1 R1 T1 M1) as (_ & _ & S1). destruct (exps_of e2 se2 m2 R2 T2 M2) as (_ & _ & S2).
  split; [exact F1 |]. split; [exact F2 |]. split; [exact G1 |]. split; [exact G2 |]. split; [exact N1 |]. split; [exact N2 |].
  split; [exact S1 |]. split; [exact S2 |]. split; [exact W1 |]. split; [exact W2 |].
  unfold float_eq. destruct (str_eqb _ _) eqn:E; [apply str_eqb_eq in E; contradiction |].
  rewrite X1, X2. cbn [bind]. rewrite !split_rated by assumption. cbn [bind fst snd]. rewrite F1, F2. cbn [of_option bind fst snd].
  destruct (m_exps m1) as [| a l] eqn:Z1; [| reflexivity]. specialize (S1 s). now contradiction H.
Qed.

Lemma text_ne x y : unit_str x <> unit_str y -> node_str (definition_of y) <> node_str (definition_of x).
Proof. intros N E. apply N. destruct x, y; symmetry; exact E. Qed.
Lemma text_dec x y : {node_str (definition_of y) = node_str (definition_of x)} + {node_str (definition_of y) <> node_str (definition_of x)}.
Proof. destruct (str_eqb (node_str (definition_of y)) (node_str (definition_of x))) eqn:E; [left; now apply str_eqb_eq | right].
  intro H. rewrite H, str_eqb_refl in E. discriminate E. Qed.
Lemma text_eq fpow x y : node_str (definition_of y) = node_str (definition_of x) -> float_eq fpow x y = Ok true /\ unit_eq x y = Ok true.
Proof. intro E. unfold float_eq, unit_eq. rewrite E, str_eqb_refl. auto. Qed.

(** C28.  For definitions without Floats the comparison is the exact one of [unit_eq]. *)
Theorem C28_whole_numbers_are_compared_exactly :
  forall fpow x y e1 e2, expanded x = Ok e1 -> expanded y = Ok e2 -> rated e1 -> rated e2 -> has_basis e1 ->
  whole e1 = true -> whole e2 = true -> float_eq fpow x y = unit_eq x y.
Proof.
  intros fpow x y e1 e2 X1 X2 R1 R2 B W1 W2. destruct (text_dec x y) as [E | N].
  { destruct (text_eq fpow x y E) as [-> ->]. reflexivity. }
  destruct (float_eq_form fpow x y e1 e2 X1 X2 R1 R2 B N) as (c1 & m1 & c2 & m2 & _ & _ & _ & _ & N1 & N2 & _ & _ & H1 & H2 & ->).
  destruct (H1 W1) as (q1 & -> & V1). destruct (H2 W2) as (q2 & -> & V2).
  unfold unit_eq. destruct (str_eqb _ _) eqn:E; [apply str_eqb_eq in E; contradiction |]. rewrite N1, N2. cbn [bind fst snd].
  f_equal. unfold mono_eqb. change (chain_eqb _ _) with true. rewrite Bool.andb_true_r, Bool.andb_comm. f_equal. cbn [scalar_same].
  apply eq_true_iff_eq. rewrite !Qeq_bool_iff. split; intro H; apply eqR_Qeq; apply Qeq_eqR in H; congruence.
Qed.

(** C99.  Equality with rounding: reflexive, symmetric, true of definitions written out alike. *)
Theorem C99_equality_reflexive : forall fpow x, float_eq fpow x x = Ok true.
Proof. intros. now apply text_eq. Qed.

Lemma scalar_same_sym a b : scalar_same a b = scalar_same b a.
Proof. destruct a, b; cbn [scalar_same]; apply eq_true_iff_eq; rewrite !Qeq_bool_iff; split; intro H; symmetry; exact H. Qed.

Lemma exps_eqb_sym a b : good a -> good b -> exps_eqb (m_exps a) (m_exps b) = exps_eqb (m_exps b) (m_exps a).
Proof.
  intros [_ Wa] [_ Wb]. apply eq_true_iff_eq. rewrite !exps_eqb_iff by assumption. split; intros H s; symmetry; apply H.
Qed.

Theorem C99_equality_symmetric :
  forall fpow x y e1 e2, expanded x = Ok e1 -> expanded y = Ok e2 -> rated e1 -> rated e2 -> has_basis e1 -> has_basis e2 ->
  float_eq fpow x y = float_eq fpow y x.
Proof.
  intros fpow x y e1 e2 X1 X2 R1 R2 B1 B2. destruct (text_dec x y) as [E | N].
  { destruct (text_eq fpow x y E) as [-> _]. destruct (text_eq fpow y x (eq_sym E)) as [-> _]. reflexivity. }
  destruct (float_eq_form fpow x y e1 e2 X1 X2 R1 R2 B1 N) as (c1 & m1 & c2 & m2 & F1 & F2 & G1 & G2 & N1 & N2 & _ & _ & _ & _ & ->).
  destruct (float_eq_form fpow y x e2 e1 X2 X1 R2 R1 B2 (not_eq_sym N)) as (c2' & m2' & c1' & m1' & F2' & F1' & _ & _ & N2' & N1' & _ & _ & _ & _ & ->).
  rewrite N1 in N1'. injection N1' as <-. rewrite N2 in N2'. injection N2' as <-. rewrite F1 in F1'. injection F1' as <-. rewrite F2 in F2'. injection F2' as <-.
  now rewrite scalar_same_sym, (exps_eqb_sym m1 m2).
Qed.

Theorem C99_same_definition_is_equal :
  forall fpow x y e, expanded x = Ok e -> expanded y = Ok e -> rated e -> has_basis e -> float_eq fpow x y = Ok true.
Proof.
  intros fpow x y e X1 X2 R B. destruct (text_dec x y) as [E | N]; [now apply text_eq |].
  destruct (float_eq_form fpow x y e e X1 X2 R R B N) as (c1 & m1 & c2 & m2 & F1 & F2 & G1 & G2 & _ & _ & S1 & S2 & _ & _ & ->).
  rewrite F1 in F2. injection F2 as <- _. f_equal. apply andb_true_intro. split.
  - apply exps_eqb_iff; [apply G1 | apply G2 |]. intro s. now rewrite S1, S2.
  - destruct c1; cbn [scalar_same]; apply Qeq_bool_iff; reflexivity.
Qed.

Lemma near_sym k x y : near eps k x y -> near eps k y x.
Proof.
  intros (t & -> & L & U). pose proof (pow_bounds eps eps_range k) as [P _]. exists (/ t).
  assert (T : 0 < t) by lra. split; [field; lra |]. split.
  - rewrite <- (Rinv_inv ((1 - eps) ^ k)). now apply Rinv_le_contravar.
  - now apply Rinv_le_contravar.
Qed.

(** ... and units that compare equal, though their texts differ, agree up to the roundings made. *)
Theorem C99_equal_units_nearly_agree :
  forall fpow x y e1 e2, accurate fpow -> expanded x = Ok e1 -> expanded y = Ok e2 -> rated e1 -> rated e2 -> has_basis e1 ->
  unit_str x <> unit_str y -> float_eq fpow x y = Ok true ->
  (forall s, symexp e1 s = symexp e2 s) /\
  let k := (roundings e1 + roundings e2 + 1)%nat in
  (INR k * powerRZ 2 (-52) <= 1 / 2 -> Rabs (factor e2 - factor e1) <= 2 * INR k * powerRZ 2 (-52) * Rabs (factor e1)).
Proof.
  intros fpow x y e1 e2 A X1 X2 R1 R2 B N H. apply text_ne in N.
  destruct (float_eq_form fpow x y e1 e2 X1 X2 R1 R2 B N) as (c1 & m1 & c2 & m2 & F1 & F2 & G1 & G2 & _ & _ & S1 & S2 & _ & _ & E).
  rewrite H in E. injection E as E. symmetry in E. apply andb_prop in E as [Ee Es]. split.
  { intro s. rewrite <- S1, <- S2. apply exps_eqb_iff; [apply G1 | apply G2 | exact Ee]. }
  intros k K. apply (near_error eps eps_range k); [exact K |].
  destruct (fmono_near fpow A e1 R1 _ _ F1) as [P1 Q1]. destruct (fmono_near fpow A e2 R2 _ _ F2) as [P2 Q2].
  assert (L : near eps 1 (Q2R (sval c1)) (Q2R (sval c2))).
  { destruct c1 as [q1 | p1 q1], c2 as [q2 | p2 q2]; cbn [scalar_same sval fine] in *; apply Qeq_bool_iff, Qeq_eqR in Es; rewrite <- ?Es.
    - apply (near_refl eps eps_range).
    - apply (near_rounded eps eps_range). now apply rounded_weaken.
    - rewrite Es. apply near_sym, (near_rounded eps eps_range). now apply rounded_weaken.
    - apply (near_refl eps eps_range). }
  apply near_sym in P2. unfold k. replace (roundings e1 + roundings e2 + 1)%nat with (roundings e1 + 1 + roundings e2)%nat by lia.
  eapply (near_trans eps eps_range); [| exact P2]. eapply (near_trans eps eps_range); [exact P1 | exact L].
Qed.

(** C74.  With Floats of the usual precision, equality that does not come from the texts is
    transitive unless a unit with Floats stands between two without. *)
Lemma scalar_same_trans a b c :
  match a with Exact _ => True | Flt p _ => p = 53%Z end -> match b with Exact _ => True | Flt p _ => p = 53%Z end -> match c with Exact _ => True | Flt p _ => p = 53%Z end ->
  match a with Exact _ => false | Flt _ _ => true end = true \/ match b with Exact _ => false | Flt _ _ => true end = false \/ match c with Exact _ => false | Flt _ _ => true end = true ->
  scalar_same a b = true -> scalar_same b c = true -> scalar_same a c = true.
Proof.
  destruct a as [a | p a], b as [b | q b], c as [c | r c]; cbn [scalar_same]; intros Pa Pb Pc D H K; subst;
    apply Qeq_bool_iff in H; apply Qeq_bool_iff in K; apply Qeq_bool_iff;
    try (rewrite (rnd_same _ _ _ H)); try (rewrite <- (rnd_same _ _ _ K)); try (now rewrite H); try (now rewrite <- H, K); try assumption.
  destruct D as [D | [D | D]]; discriminate D.
Qed.

Theorem C74_transitive_unless_decimals_are_between :
  forall fpow x y z e1 e2 e3, expanded x = Ok e1 -> expanded y = Ok e2 -> expanded z = Ok e3 ->
  rated e1 -> rated e2 -> rated e3 -> has_basis e1 -> short e1 = true -> short e2 = true -> short e3 = true ->
  unit_str x <> unit_str y -> unit_str y <> unit_str z ->
  decimal e1 = true \/ decimal e2 = false \/ decimal e3 = true ->
  float_eq fpow x y = Ok true -> float_eq fpow y z = Ok true -> float_eq fpow x z = Ok true.
Proof.
  intros fpow x y z e1 e2 e3 X1 X2 X3 R1 R2 R3 B1 S1 S2 S3 N12 N23 D H K. apply text_ne in N12, N23.
  destruct (text_dec x z) as [E | N13]; [now apply text_eq |].
  destruct (float_eq_form fpow x y e1 e2 X1 X2 R1 R2 B1 N12) as (c1 & m1 & c2 & m2 & F1 & F2 & G1 & G2 & _ & _ & M1 & M2 & _ & _ & E12).
  rewrite H in E12. injection E12 as E12. symmetry in E12. apply andb_prop in E12 as [X12 C12].
  assert (Q12 : forall s, symexp e1 s = symexp e2 s) by (intro s; rewrite <- M1, <- M2; apply exps_eqb_iff; [apply G1 | apply G2 | exact X12]).
  assert (B2 : has_basis e2) by (destruct B1 as [s Hs]; exists s; now rewrite <- Q12).
  destruct (float_eq_form fpow y z e2 e3 X2 X3 R2 R3 B2 N23) as (c2' & m2' & c3 & m3 & F2' & F3 & _ & G3 & _ & _ & M2' & M3 & _ & _ & E23).
  rewrite K in E23. injection E23 as E23. symmetry in E23. apply andb_prop in E23 as [X23 C23].
  destruct (float_eq_form fpow x z e1 e3 X1 X3 R1 R3 B1 N13) as (c1' & m1' & c3' & m3' & F1' & F3' & G1' & G3' & _ & _ & M1' & M3' & _ & _ & ->).
  rewrite F1 in F1'. injection F1' as <- _. rewrite F2 in F2'. injection F2' as <- EX. rewrite F3 in F3'. injection F3' as <- _.
  f_equal. apply andb_true_intro. split.
  - apply exps_eqb_iff; [apply G1' | apply G3' |]. intro s. rewrite M1', M3', Q12, <- M2, <- M3, EX.
    apply exps_eqb_iff; [rewrite <- EX; apply G2 | apply G3 | exact X23].
  - destruct (fmono_exps fpow e1 R1) as (? & ? & d1 & _ & _ & _ & Y1 & _ & D1 & T1).
    destruct (fmono_exps fpow e2 R2) as (? & ? & d2 & _ & _ & _ & Y2 & _ & D2 & T2).
    destruct (fmono_exps fpow e3 R3) as (? & ? & d3 & _ & _ & _ & Y3 & _ & D3 & T3).
    rewrite F1 in Y1. injection Y1 as <- _. rewrite F2 in Y2. injection Y2 as <- _. rewrite F3 in Y3. injection Y3 as <- _.
    rewrite <- D1, <- D2, <- D3 in D. apply (scalar_same_trans c1 c2 c3); try assumption; [exact (T1 S1) | exact (T2 S2) | exact (T3 S3)].
Qed.

(** C99.  How sympy reads the digits of a number of a text: 15 digits at least, more when more are written, and a
    whole number with a positive exponent counts the zeros it leaves out. *)
Definition read_literal (s : str) : option (Z * Z * bool) :=
  match py_decimal s with Ok d => Some (literal_digits d, literal_bits d, float_literal (NDec d)) | Err _ => None end.
Example C99_literal_precision :
  map (fun s => read_literal (u s))
      ["2.5e20"; "2e20"; "25e3"; "0.1"; "1.2345678901234567890"; "2.50"; "1e-7"; "3"; "30."]%string =
  [Some (15, 53, true); Some (21, 73, true); Some (15, 53, true); Some (15, 53, true); Some (20, 70, true);
   Some (15, 53, true); Some (15, 53, true); Some (15, 53, false); Some (15, 53, false)]%Z.
Proof. vm_compute. reflexivity. Qed.
