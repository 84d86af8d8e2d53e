(** * C112: converted values of logarithmic units are accurate *)
From Verif Require Import PyBase PyNum Graph Expr Units UnitSpec UnitFacts UnitProofs Sympy Convert ConvertSpec ConvertFacts ConvertProofs ConvertMore
  Prop_Convert Rounding Prop_Rounding RoundingLog.
From Coq Require Import QArith Reals Qreals Lia Lra.
Local Open Scope R_scope.

(** An expanded definition, perhaps one logarithm: its base, and what it is a logarithm of. *)
Definition level (e : node) : option R := match e with Logarithm f _ => log_base_R f | _ => None end.
Definition inner (e : node) : node := match e with Logarithm _ a => a | _ => e end.

(** the number that [v] of such a unit is, and back *)
Definition power_of (o : option R) (v : R) : R := match o with None => v | Some b => Rpower b v end.
Definition level_of (o : option R) (y : R) : R := match o with None => y | Some b => ln y / ln b end.

(** how much larger the exponent of a power makes a relative error *)
Definition stretch (o : option R) (v : R) : R := match o with None => 0 | Some b => Rabs v * ln b end.

(** The bound, [d] being the relative error of the number whose logarithm is taken. *)
Definition error_bound (eps : R) (o : option R) (d exact : R) : R :=
  match o with
  | None => 2 * d * Rabs exact
  | Some b => 2 * d / ln b + 6 * eps * Rabs exact
  end.

Lemma base_gt_1 b : 1 < base_R b.
Proof. destruct b; cbn [base_R]; try lra. pose proof (exp_ineq1 1 ltac:(lra)). lra. Qed.
Lemma ln_base b : 0 < ln (base_R b).
Proof. rewrite <- ln_1. apply ln_increasing; [lra | apply base_gt_1]. Qed.

(** ** logarithms of factors *)
Lemma ln_le_sub x : 0 < x -> ln x <= x - 1.
Proof.
  intros H. pose proof (exp_ineq1_le (ln x)) as E. rewrite exp_ln in E by exact H. lra.
Qed.
Lemma exp_small d : 0 <= d <= 1 / 2 -> exp d <= 1 + 2 * d.
Proof.
  intros H. pose proof (exp_ineq1_le (- d)) as E. assert (P := exp_pos d).
  assert (M : exp d * exp (- d) = 1) by (rewrite <- exp_plus; replace (d + - d) with 0 by ring; apply exp_0).
  assert (exp d * (1 - d) <= 1) by (rewrite <- M; apply Rmult_le_compat_l; lra).
  nra.
Qed.

Lemma log_quantity e v : measurable e -> rated (inner e) -> quantity e v = factor (inner e) * power_of (level e) v.
Proof.
  intros Me R. assert (Plain : inner e = e -> level e = None -> quantity e v = factor (inner e) * power_of (level e) v).
  { intros I N. rewrite I in *. rewrite N. cbn [power_of]. now apply rated_quantity. }
  destruct e as [| | | | | | | f a]; try (now apply Plain). clear Plain. cbn [inner level quantity] in *.
  destruct (log_base_R f) as [r |] eqn:Lf.
  - cbn [power_of]. now apply rated_quantity.
  - exfalso. cbn [measurable levels] in Me. tauto.
Qed.
Definition log_name (o : option lbase) : option R := option_map base_R o.

Section Proof.
Variable eps : R.
Hypothesis eps_small : 0 <= eps <= 1 / 10.
Let e1 : 0 <= eps < 1. Proof. lra. Qed.
Notation near := (near eps).

(** [close d x y]: y is x times e^d or less, or times e^-d or more *)
Definition close (d x y : R) : Prop := exists s, y = x * exp s /\ Rabs s <= d.

Lemma close_near k x y : near k x y -> close (2 * INR k * eps) x y.
Proof.
  intros (t & -> & T1 & T2). pose proof (pow_bounds eps e1 k) as B.
  assert (P : 0 < t) by lra. exists (ln t). split; [now rewrite exp_ln |].
  assert (L : ln (1 - eps) >= - (2 * eps)).
  { assert (H := ln_le_sub (/ (1 - eps)) ltac:(apply Rinv_0_lt_compat; lra)). rewrite ln_Rinv in H by lra.
    assert (/ (1 - eps) - 1 <= 2 * eps); [| lra].
    apply (Rmult_le_reg_r (1 - eps)); [lra |]. rewrite Rmult_minus_distr_r, Rinv_l by lra. nra. }
  assert (K : ln ((1 - eps) ^ k) >= - (2 * INR k * eps)).
  { rewrite ln_pow by lra. pose proof (pos_INR k). nra. }
  apply Rabs_le. split.
  - assert (ln ((1 - eps) ^ k) <= ln t); [| lra].
    destruct (Req_dec ((1 - eps) ^ k) t) as [-> | N]; [lra |]. apply Rlt_le, ln_increasing; lra.
  - assert (ln t <= ln (/ (1 - eps) ^ k)); [| rewrite ln_Rinv in H by lra; lra].
    destruct (Req_dec t (/ (1 - eps) ^ k)) as [-> | N]; [lra |]. apply Rlt_le, ln_increasing; lra.
Qed.

Lemma close_mul d d' x y x' y' : close d x y -> close d' x' y' -> close (d + d') (x * x') (y * y').
Proof.
  intros (s & -> & S) (s' & -> & S'). exists (s + s'). split; [rewrite exp_plus; ring |].
  eapply Rle_trans; [apply Rabs_triang | lra].
Qed.
Lemma close_trans d d' x y z : close d x y -> close d' y z -> close (d + d') x z.
Proof.
  intros (s & -> & S) (s' & -> & S'). exists (s + s'). split; [rewrite exp_plus; ring |].
  eapply Rle_trans; [apply Rabs_triang | lra].
Qed.
Lemma close_mono d d' x y : d <= d' -> close d x y -> close d' x y.
Proof. intros L (s & E & H). exists s. split; [exact E | lra]. Qed.

(** a relative error of the exponent *)
Lemma power_close b v y : rounded_power eps b v y ->
  close (2 * eps + 3 * eps * (Rabs v * ln (base_R b))) (Rpower (base_R b) v) y.
Proof.
  pose proof (ln_base b) as Lb. pose proof (Rabs_pos v) as Av.
  assert (V : 0 <= 3 * eps * (Rabs v * ln (base_R b))) by (apply Rmult_le_pos; [lra | apply Rmult_le_pos; lra]).
  intros [H | (l & z & Hl & Hz & Hy)].
  - apply (near_rounded eps e1), close_near in H. eapply close_mono; [| exact H]. cbn [INR]. lra.
  - apply (near_rounded eps e1), close_near in Hy. cbn [INR] in Hy.
    apply (close_mono _ (2 * eps)) in Hy; [| lra].
    rewrite Rplus_comm. eapply close_trans; [| exact Hy].
    exists (z - v * ln (base_R b)). split.
    { unfold Rpower. rewrite <- exp_plus. f_equal. ring. }
    unfold rounded in Hl, Hz. rewrite (Rabs_right (ln _)) in Hl by lra.
    rewrite Rabs_mult in Hz.
    assert (La : Rabs l <= (1 + eps) * ln (base_R b)).
    { replace l with ((l - ln (base_R b)) + ln (base_R b)) by ring. eapply Rle_trans; [apply Rabs_triang |].
      rewrite (Rabs_right (ln _)) by lra. lra. }
    replace (z - v * ln (base_R b)) with ((z - v * l) + v * (l - ln (base_R b))) by ring.
    eapply Rle_trans; [apply Rabs_triang |]. rewrite (Rabs_mult v).
    apply Rle_trans with (eps * (Rabs v * ((1 + eps) * ln (base_R b))) + Rabs v * (eps * ln (base_R b))).
    + apply Rplus_le_compat; [| now apply Rmult_le_compat_l].
      eapply Rle_trans; [exact Hz |]. apply Rmult_le_compat_l; [lra |]. now apply Rmult_le_compat_l.
    + assert (0 <= eps * (Rabs v * ln (base_R b))) by (apply Rmult_le_pos; [lra | apply Rmult_le_pos; lra]).
      nra.
Qed.

Lemma log_near b y w : rounded_log eps b y w -> near 3 (ln y / ln (base_R b)) w.
Proof.
  intros [H | (l & g & Hl & Hg & Hw)].
  - apply (near_rounded eps e1) in H. apply (near_trans eps e1 1 2) with w; [exact H | apply (near_refl eps e1)].
  - replace 3%nat with ((1 + 1) + 1)%nat by reflexivity. eapply (near_step eps e1); [| exact Hw]. unfold Rdiv.
    apply (near_mul eps e1); [now apply (near_rounded eps e1) |].
    apply (near_inv eps e1); [pose proof (ln_base b); lra | now apply (near_rounded eps e1)].
Qed.

(** ** Units *)

Lemma log_unit x e o c : expanded x = Ok e -> measurable e -> rated (inner e) -> has_log eps x o c ->
  log_name o = level e /\ near (operations (inner e)) (factor (inner e)) c.
Proof.
  intros X Me R (t & d & S & L & C). unfold symbolic in S. rewrite X in S. cbn [bind] in S.
  assert (Plain : inner e = e -> level e = None -> log_name o = level e /\ near (operations (inner e)) (factor (inner e)) c).
  { intros I N. rewrite I in *. rewrite N. unfold split_root in S. rewrite (split_plain e _ (rated_plain e R)) in S. cbn [bind fst snd] in S.
    destruct (to_sympy e) as [d' | er] eqn:T; cbn [bind] in S; [| discriminate S]. injection S as <- <-.
    inversion L; subst. split; [reflexivity | now apply (coefficient_near eps e1 e R d')]. }
  destruct e as [| | | | | | | f a]; try (now apply Plain). clear Plain. cbn [inner level] in *.
  assert (Mf : log_base_R f <> None) by (cbn [measurable levels] in Me; tauto).
  destruct (log_base_R f) as [r |] eqn:Lf; [| congruence]. destruct (log_base_spec _ _ Lf) as (b & Lb & Eb).
  unfold split_root in S. cbn [Expr.split] in S. rewrite (split_plain a _ (rated_plain a R)) in S. cbn [bind fst snd to_sympy value_id] in S.
  rewrite Lb in S. cbn [bind] in S.
  destruct (to_sympy a) as [d' | er] eqn:T; cbn [bind] in S; [| discriminate S]. injection S as <- <-.
  inversion L; subst. split; [reflexivity | now apply (coefficient_near eps e1 a R d')].
Qed.

End Proof.

(** C112.  Units with or without a logarithm, of equal exponents.  [g]: the number of the inner target
    unit that the converted quantity is; a logarithm has one only if that is positive. *)
Theorem C112_logarithmic_conversion_is_accurate :
  forall eps dl x y e1 e2 v w, 0 <= eps ->
  describable dl x e1 -> describable dl y e2 -> rated (inner e1) -> rated (inner e2) ->
  (forall s, symexp e1 s = symexp e2 s) ->
  let g := factor (inner e1) / factor (inner e2) * power_of (level e1) v in
  let k := (operations (inner e1) + operations (inner e2) + 5)%nat in
  let d := eps * (2 * INR k + 3 * stretch (level e1) v) in
  (level e2 <> None -> 0 < g) -> d <= 1 / 2 ->
  rounded_log_convert eps x y v w ->
  exists cv exact, mk_converter (AUnit x) (AUnit y) = Ok cv /\ convert cv v = Ok exact /\
    exact = level_of (level e2) g /\
    Rabs (w - exact) <= error_bound eps (level e2) d exact.
Proof.
  intros eps dl x y e1 e2 v w E0 D1 D2 R1 R2 S g k d G K H.
  destruct (C20_conversion_preserves_the_quantity dl x y e1 e2 D1 D2 S) as (cv & Cv & Q).
  destruct D1 as (_ & _ & _ & X1 & M1). destruct D2 as (_ & _ & _ & X2 & M2).
  assert (K5 : 5 <= INR k) by (replace 5 with (INR 5) by (simpl; lra); apply le_INR; unfold k; lia).
  assert (St : 0 <= stretch (level e1) v).
  { destruct (level e1) as [b |] eqn:L; cbn [stretch]; [| lra]. apply Rmult_le_pos; [apply Rabs_pos |].
    destruct e1 as [| | | | | | | f a]; try discriminate L. cbn [level] in L. destruct (log_base_spec _ _ L) as (b' & _ & <-).
    pose proof (ln_base b'). lra. }
  assert (E1 : eps <= 1 / 20) by (unfold d in K; nra).
  assert (E9 : 0 <= eps < 1) by lra. assert (E8 : 0 <= eps <= 1 / 10) by lra.
  assert (N2 : factor (inner e2) <> 0) by now apply rated_factor.
  exists cv, (level_of (level e2) g). split; [exact Cv |].
  destruct H as (o1 & c1 & o2 & c2 & i & kk & p & z1 & z2 & H1 & H2 & Hi & Hk & Hp & Hz1 & Hz2 & Hw).
  destruct (log_unit eps E8 x e1 o1 c1 X1 M1 R1 H1) as [L1 C1]. destruct (log_unit eps E8 y e2 o2 c2 X2 M2 R2 H2) as [L2 C2].
  split.
  { apply Q. rewrite !log_quantity by assumption. fold g.
    replace (factor (inner e1) * power_of (level e1) v) with (factor (inner e2) * g) by (unfold g; field; exact N2).
    f_equal. rewrite <- L2 in G |- *. destruct o2 as [b |]; cbn [log_name option_map level_of power_of]; [| reflexivity].
    unfold Rpower. replace (ln g / ln (base_R b) * ln (base_R b)) with (ln g) by (field; pose proof (ln_base b); lra).
    apply exp_ln, G. discriminate. }
  split; [reflexivity |].
  assert (P : Prop_Rounding.near eps (operations (inner e1) + operations (inner e2) + 3) (factor (inner e1) / factor (inner e2)) p).
  { replace (operations (inner e1) + operations (inner e2) + 3)%nat with (operations (inner e1) + (operations (inner e2) + 1) + 1 + 1)%nat by lia.
    eapply (near_step eps E9); [| exact Hp]. eapply (near_step eps E9); [| exact Hk]. unfold Rdiv.
    apply (near_mul eps E9); [exact C1 |]. eapply (near_step eps E9); [| exact Hi]. now apply (near_inv eps E9). }
  assert (Z1 : close (2 * eps + 3 * eps * stretch (level e1) v) (power_of (level e1) v) z1).
  { rewrite <- L1 in St |- *. destruct o1 as [b |]; cbn [log_name option_map power_of stretch] in *.
    - now apply power_close.
    - subst z1. exists 0. rewrite exp_0, Rabs_R0. split; [ring | lra]. }
  assert (Z2 : close d g z2).
  { apply (near_rounded eps E9), (close_near eps E8) in Hz2. apply (close_near eps E8) in P.
    eapply close_mono; [| eapply close_trans; [eapply close_mul; [exact P | exact Z1] | exact Hz2]].
    unfold d, k. rewrite !plus_INR. cbn [INR]. lra. }
  destruct Z2 as (s & -> & Hs).
  assert (D0 : 0 <= d) by (pose proof (Rabs_pos s); lra).
  rewrite <- L2 in G |- *. destruct o2 as [b |]; cbn [log_name option_map level_of error_bound] in *.
  - specialize (G ltac:(discriminate)). pose proof (ln_base b) as Lb.
    apply (log_near eps E8) in Hw. rewrite ln_mult, ln_exp in Hw by (try exact G; apply exp_pos).
    assert (I3 : INR 3 = 3) by (simpl; lra).
    apply (near_error eps E9) in Hw; [| rewrite I3; lra]. rewrite I3 in Hw.
    set (ex := ln g / ln (base_R b)) in *.
    replace ((ln g + s) / ln (base_R b)) with (ex + s / ln (base_R b)) in Hw by (unfold ex; field; lra).
    assert (Sb : Rabs (s / ln (base_R b)) <= d / ln (base_R b)).
    { unfold Rdiv. rewrite Rabs_mult, (Rabs_right (/ _)); [apply Rmult_le_compat_r; [left; apply Rinv_0_lt_compat |]; lra |].
      apply Rle_ge. left. now apply Rinv_0_lt_compat. }
    assert (Db : 0 <= d / ln (base_R b)) by (apply Rmult_le_pos; [lra | left; now apply Rinv_0_lt_compat]).
    pose proof (Rabs_triang ex (s / ln (base_R b))) as T.
    replace (w - ex) with ((w - (ex + s / ln (base_R b))) + s / ln (base_R b)) by ring.
    eapply Rle_trans; [apply Rabs_triang |].
    replace (2 * d / ln (base_R b)) with (2 * (d / ln (base_R b))) by (unfold Rdiv; ring).
    set (q := d / ln (base_R b)) in *. pose proof (Rabs_pos ex). nra.
  - subst w. replace (g * exp s - g) with ((exp s - 1) * g) by ring. rewrite Rabs_mult.
    apply Rmult_le_compat_r; [apply Rabs_pos |]. apply Rabs_le.
    assert (Sd : - d <= s <= d) by (revert Hs; unfold Rabs; destruct (Rcase_abs s); lra).
    assert (U := exp_small d ltac:(lra)). pose proof (exp_ineq1_le s).
    assert (exp s <= exp d); [| lra].
    destruct (Req_dec s d) as [-> | N]; [lra |]. apply Rlt_le, exp_increasing. lra.
Qed.

(** A result exists: the exact one is among those allowed. *)
Lemma log_exact eps : 0 <= eps < 1 -> forall x e, expanded x = Ok e -> measurable e -> rated (inner e) ->
  exists o, log_name o = level e /\ has_log eps x o (factor (inner e)).
Proof.
  intros E0 x e X Me R.
  assert (Plain : inner e = e -> level e = None -> exists o, log_name o = level e /\ has_log eps x o (factor (inner e))).
  { intros I N. rewrite I in *. rewrite N. destruct (unit_exact eps E0 x e X R) as (d & S & C). exists None. split; [reflexivity |].
    exists (SSym (u "value")), d. split; [exact S |]. split; [constructor | exact C]. }
  destruct e as [| | | | | | | f a]; try (now apply Plain). clear Plain. cbn [inner level] in *.
  assert (Mf : log_base_R f <> None) by (cbn [measurable levels] in Me; tauto).
  destruct (log_base_R f) as [r |] eqn:Lf; [| congruence]. destruct (log_base_spec _ _ Lf) as (b & Lb & Eb).
  destruct (rated_mono a R) as (d & m & T & _). exists (Some b). split; [cbn; now rewrite Eb |].
  exists (SLog b (SSym (u "value"))), d. split; [| split].
  - unfold symbolic. rewrite X. cbn [bind]. unfold split_root. cbn [Expr.split]. rewrite (split_plain a _ (rated_plain a R)).
    cbn [bind fst snd to_sympy value_id]. rewrite Lb. cbn [bind]. now rewrite T.
  - constructor.
  - now apply coefficient_exact.
Qed.

Theorem C112_exact_arithmetic_is_allowed :
  forall eps x y e1 e2 v, 0 <= eps < 1 -> expanded x = Ok e1 -> expanded y = Ok e2 -> measurable e1 -> measurable e2 ->
  rated (inner e1) -> rated (inner e2) ->
  rounded_log_convert eps x y v (level_of (level e2) (factor (inner e1) / factor (inner e2) * power_of (level e1) v)).
Proof.
  intros eps x y e1 e2 v E0 X1 X2 M1 M2 R1 R2. assert (Z := rounded_exact eps E0).
  destruct (log_exact eps E0 x e1 X1 M1 R1) as (o1 & L1 & H1). destruct (log_exact eps E0 y e2 X2 M2 R2) as (o2 & L2 & H2).
  rewrite <- L1, <- L2.
  exists o1, (factor (inner e1)), o2, (factor (inner e2)), (/ factor (inner e2)),
    (factor (inner e1) * / factor (inner e2)), (factor (inner e1) * / factor (inner e2)), (power_of (log_name o1) v),
    (factor (inner e1) / factor (inner e2) * power_of (log_name o1) v).
  split; [exact H1 |]. split; [exact H2 |]. do 3 (split; [apply Z |]).
  split; [destruct o1; [left; apply Z | reflexivity] |]. split; [apply Z |].
  destruct o2; [left; apply Z | reflexivity].
Qed.
