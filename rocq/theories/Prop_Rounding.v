(** * C89: converted values are accurate *)
From Verif Require Import PyBase PyNum Graph Expr Units UnitSpec Sympy Convert ConvertSpec ConvertFacts ConvertMore UnitFacts UnitProofs Rounding Prop_Convert.
From Coq Require Import QArith Reals Qreals Lia Lra.
Local Open Scope R_scope.

(** The number of operations in an expanded definition, as the specification of the bound counts
    them: a literal or a multiplication 1, a division 2, a power once per factor and one more. *)
Fixpoint operations (n : node) : nat :=
  match n with
  | Number _ _ => 1
  | Multiply a b => operations a + operations b + 1
  | Divide a b => operations a + operations b + 2
  | Raise a (Number (NInt z) _) => Z.abs_nat z * operations a + 1
  | _ => 0
  end%nat.

Section Proof.
Variable eps : R.
Hypothesis eps_small : 0 <= eps < 1.

(** [near k x y]: y is x up to k rounding errors *)
Definition near (k : nat) (x y : R) : Prop :=
  exists t, y = x * t /\ (1 - eps) ^ k <= t <= / (1 - eps) ^ k.

Lemma pow_bounds k : 0 < (1 - eps) ^ k <= 1.
Proof.
  split; [apply pow_lt; lra |]. apply Rle_trans with (1 ^ k); [apply pow_incr; lra | rewrite pow1; lra].
Qed.

Lemma near_refl k x : near k x x.
Proof.
  exists 1. split; [ring |]. pose proof (pow_bounds k). split; [lra |].
  apply Rle_trans with (/ 1); [lra | apply Rinv_le_contravar; lra].
Qed.

Lemma near_mul k m x y x' y' : near k x x' -> near m y y' -> near (k + m) (x * y) (x' * y').
Proof.
  intros (s & -> & S1 & S2) (t & -> & T1 & T2). exists (s * t). split; [ring |].
  pose proof (pow_bounds k). pose proof (pow_bounds m). rewrite pow_add. split.
  - apply Rmult_le_compat; lra.
  - rewrite Rinv_mult. apply Rmult_le_compat; lra.
Qed.

Lemma near_inv k x y : x <> 0 -> near k x y -> near k (/ x) (/ y).
Proof.
  intros X (t & -> & T1 & T2). pose proof (pow_bounds k). exists (/ t). split; [field; split; lra |]. split.
  - rewrite <- (Rinv_inv ((1 - eps) ^ k)). apply Rinv_le_contravar; lra.
  - apply Rinv_le_contravar; lra.
Qed.

Lemma near_pow k x y n : near k x y -> near (n * k) (x ^ n) (y ^ n).
Proof.
  intros H. induction n as [| n IH]; [apply near_refl |]. cbn [pow Nat.mul]. now apply near_mul.
Qed.

Lemma near_powerRZ k x y z : x <> 0 -> near k x y -> near (Z.abs_nat z * k) (powerRZ x z) (powerRZ y z).
Proof.
  intros X H. destruct z as [| p | p]; cbn [powerRZ Z.abs_nat].
  - apply near_refl.
  - now apply near_pow.
  - apply near_inv; [now apply pow_nonzero | now apply near_pow].
Qed.

Lemma near_trans k m x y z : near k x y -> near m y z -> near (k + m) x z.
Proof.
  intros H (t & -> & T). replace x with (x * 1) by ring. apply near_mul; [exact H |]. exists t. split; [ring | exact T].
Qed.

Lemma near_rounded x y : rounded eps x y -> near 1 x y.
Proof.
  unfold rounded. intros H. cbn [near]. destruct (Req_dec x 0) as [-> | X].
  - rewrite Rabs_R0, Rmult_0_r in H. assert (y = 0).
    { destruct (Req_dec y 0) as [E | N]; [exact E |]. apply Rabs_pos_lt in N. rewrite Rminus_0_r in H. lra. }
    subst y. apply near_refl.
  - exists (y / x). split; [field; exact X |]. rewrite pow_1.
    assert (D : Rabs (y / x - 1) <= eps).
    { replace (y / x - 1) with ((y - x) / x) by (field; exact X). unfold Rdiv. rewrite Rabs_mult, Rabs_inv.
      apply Rabs_pos_lt in X. apply (Rmult_le_reg_r (Rabs x)); [exact X |]. rewrite Rmult_assoc, Rinv_l by lra. lra. }
    assert (B : - eps <= y / x - 1 <= eps) by (revert D; unfold Rabs; destruct (Rcase_abs _); intros; lra).
    split; [lra |].
    apply (Rmult_le_reg_r (1 - eps)); [lra |]. rewrite Rinv_l by lra. nra.
Qed.

Lemma near_step k x y z : near k x y -> rounded eps y z -> near (k + 1) x z.
Proof. intros H R. eapply near_trans; [exact H | now apply near_rounded]. Qed.

Lemma near_nonzero k x y : x <> 0 -> near k x y -> y <> 0.
Proof.
  intros X (t & -> & T & _). pose proof (pow_bounds k). apply Rmult_integral_contrapositive. split; [exact X | lra].
Qed.

Lemma coefficient_near n : rated n -> forall d c, to_sympy n = Ok d -> coefficient eps d c -> near (operations n) (factor n) c.
Proof.
  induction n as [x | v raw | s | a IHa b IHb | a IHa b IHb | a IHa b IHb | a IHa b IHb | f a IHa];
    intros R d c T C; cbn [rated] in R; try contradiction; cbn [to_sympy] in T.
  - destruct R as [N _]. destruct (num_sympy_ok v N) as (q & E & V). rewrite E in T. injection T as <-.
    inversion C as [q' c' H | | | |]; subst. cbn [operations factor]. rewrite <- V. now apply near_rounded.
  - injection T as <-. inversion C; subst. apply near_refl.
  - destruct b as [| [z | |] raw | | | | | |]; try contradiction. cbn [to_sympy num_sympy] in T.
    destruct (to_sympy a) as [da | e] eqn:Ta; cbn [bind] in T; [| discriminate T]. injection T as <-.
    inversion C as [| | | | a' q n x c' Q Ca H]; subst. rewrite Q_int_Z in Q. injection Q as <-.
    cbn [operations factor]. eapply near_step; [| exact H]. apply near_powerRZ; [now apply rated_factor |].
    now apply (IHa R da).
  - destruct R as [Ra Rb]. destruct (to_sympy a) as [da | e] eqn:Ta; cbn [bind] in T; [| discriminate T].
    destruct (to_sympy b) as [db | e] eqn:Tb; cbn [bind] in T; [| discriminate T]. injection T as <-.
    inversion C as [| | a' b' x y c' Ca Cb H | |]; subst. cbn [operations factor].
    eapply near_step; [| exact H]. apply near_mul; [now apply (IHa Ra da) | now apply (IHb Rb db)].
  - destruct R as [Ra Rb]. destruct (to_sympy a) as [da | e] eqn:Ta; cbn [bind] in T; [| discriminate T].
    destruct (to_sympy b) as [db | e] eqn:Tb; cbn [bind] in T; [| discriminate T]. injection T as <-.
    inversion C as [| | | a' b' x y z c' Ca Cb Hz H |]; subst. cbn [operations factor].
    replace (operations a + operations b + 2)%nat with (operations a + (operations b + 1) + 1)%nat by lia.
    eapply near_step; [| exact H]. unfold Rdiv. apply near_mul; [now apply (IHa Ra da) |].
    eapply near_step; [| exact Hz]. apply near_inv; [now apply rated_factor | now apply (IHb Rb db)].
Qed.

Lemma unit_coefficient x e c : expanded x = Ok e -> rated e -> has_coefficient eps x c -> near (operations e) (factor e) c.
Proof.
  intros X R (d & S & C). unfold symbolic in S. rewrite X in S. cbn [bind] in S. unfold split_root in S.
  rewrite (split_plain e _ (rated_plain e R)) in S. cbn [bind fst snd] in S.
  destruct (to_sympy e) as [d' | er] eqn:T; cbn [bind] in S; [| discriminate S]. injection S as <-.
  now apply (coefficient_near e R d').
Qed.

Lemma direct_near x y e1 e2 v w : expanded x = Ok e1 -> expanded y = Ok e2 -> rated e1 -> rated e2 ->
  rounded_convert eps x y v w -> near (operations e1 + operations e2 + 4) (factor e1 / factor e2 * v) w.
Proof.
  intros X1 X2 R1 R2 (c1 & c2 & i & k & p & H1 & H2 & Hi & Hk & Hp & Hw).
  apply (unit_coefficient x e1 c1 X1 R1) in H1. apply (unit_coefficient y e2 c2 X2 R2) in H2.
  replace (operations e1 + operations e2 + 4)%nat with (((operations e1 + (operations e2 + 1) + 1) + 1) + 0 + 1)%nat by lia.
  eapply near_step; [| exact Hw]. apply near_mul; [| apply near_refl].
  eapply near_step; [| exact Hp]. eapply near_step; [| exact Hk]. unfold Rdiv. apply near_mul; [exact H1 |].
  eapply near_step; [| exact Hi]. apply near_inv; [now apply rated_factor | exact H2].
Qed.

Lemma inverse_near x y e1 e2 v w : expanded x = Ok e1 -> expanded y = Ok e2 -> rated e1 -> rated e2 ->
  rounded_convert_inverted eps x y v w -> near (operations e1 + operations e2 + 4) (/ (factor e1 * factor e2) / v) w.
Proof.
  intros X1 X2 R1 R2 (c1 & c2 & j & k & p & H1 & H2 & Hj & Hk & Hp & Hw).
  apply (unit_coefficient x e1 c1 X1 R1) in H1. apply (unit_coefficient y e2 c2 X2 R2) in H2.
  assert (P : factor e1 * factor e2 <> 0) by (apply Rmult_integral_contrapositive; split; now apply rated_factor).
  replace (operations e1 + operations e2 + 4)%nat with (((operations e1 + operations e2 + 1) + 1 + 1) + 0 + 1)%nat by lia.
  eapply near_step; [| exact Hw]. unfold Rdiv. apply near_mul; [| apply near_refl].
  eapply near_step; [| exact Hp]. eapply near_step; [| exact Hk]. apply near_inv; [exact P |].
  eapply near_step; [| exact Hj]. now apply near_mul.
Qed.

(** (1 - eps)^k is about 1 - k eps *)
Lemma near_error k x y : INR k * eps <= 1 / 2 -> near k x y -> Rabs (y - x) <= 2 * INR k * eps * Rabs x.
Proof.
  intros K (t & -> & T1 & T2).
  assert (B : 1 - INR k * eps <= (1 - eps) ^ k).
  { clear K T1 T2. induction k as [| k IH]; [cbn; lra |]. rewrite S_INR. cbn [pow].
    pose proof (pos_INR k). pose proof (pow_bounds k). nra. }
  assert (P : 0 <= INR k * eps) by (apply Rmult_le_pos; [apply pos_INR | lra]).
  assert (U : / (1 - eps) ^ k <= 1 + 2 * (INR k * eps)).
  { apply Rle_trans with (/ (1 - INR k * eps)); [apply Rinv_le_contravar; lra |].
    apply (Rmult_le_reg_r (1 - INR k * eps)); [lra |]. rewrite Rinv_l by lra. nra. }
  replace (x * t - x) with ((t - 1) * x) by ring. rewrite Rabs_mult.
  replace (2 * INR k * eps * Rabs x) with ((2 * (INR k * eps)) * Rabs x) by ring.
  apply Rmult_le_compat_r; [apply Rabs_pos |]. apply Rabs_le. lra.
Qed.

Lemma rounded_exact x : rounded eps x x.
Proof. unfold rounded. rewrite Rminus_diag_eq by reflexivity. rewrite Rabs_R0. apply Rmult_le_pos; [lra | apply Rabs_pos]. Qed.

Lemma coefficient_exact n : rated n -> forall d, to_sympy n = Ok d -> coefficient eps d (factor n).
Proof.
  induction n as [x | v raw | s | a IHa b IHb | a IHa b IHb | a IHa b IHb | a IHa b IHb | f a IHa];
    intros R d T; cbn [rated] in R; try contradiction; cbn [to_sympy] in T.
  - destruct R as [N _]. destruct (num_sympy_ok v N) as (q & E & V). rewrite E in T. injection T as <-.
    cbn [factor]. rewrite <- V. constructor. apply rounded_exact.
  - injection T as <-. constructor.
  - destruct b as [| [z | |] raw | | | | | |]; try contradiction. cbn [to_sympy num_sympy] in T.
    destruct (to_sympy a) as [da | e] eqn:Ta; cbn [bind] in T; [| discriminate T]. injection T as <-.
    cbn [factor]. apply (CPow eps da (inject_Z z) z (factor a)); [apply Q_int_Z | now apply IHa | apply rounded_exact].
  - destruct R as [Ra Rb]. destruct (to_sympy a) as [da | e] eqn:Ta; cbn [bind] in T; [| discriminate T].
    destruct (to_sympy b) as [db | e] eqn:Tb; cbn [bind] in T; [| discriminate T]. injection T as <-.
    cbn [factor]. apply (CMul eps da db (factor a) (factor b)); auto. apply rounded_exact.
  - destruct R as [Ra Rb]. destruct (to_sympy a) as [da | e] eqn:Ta; cbn [bind] in T; [| discriminate T].
    destruct (to_sympy b) as [db | e] eqn:Tb; cbn [bind] in T; [| discriminate T]. injection T as <-.
    cbn [factor]. apply (CDiv eps da db (factor a) (factor b) (/ factor b)); auto; apply rounded_exact.
Qed.

Lemma unit_exact x e : expanded x = Ok e -> rated e -> has_coefficient eps x (factor e).
Proof.
  intros X R. destruct (rated_mono e R) as (d & m & T & _). exists d. split.
  - unfold symbolic. rewrite X. cbn [bind]. unfold split_root.
    rewrite (split_plain e _ (rated_plain e R)). cbn [bind fst snd]. now rewrite T.
  - now apply coefficient_exact.
Qed.
End Proof.

(** ** The theorems.  [eps]: the relative error of one operation; [k]: how many there are. *)

(** Direct conversion: what comes out differs from the exact answer, that of [convert], by less than
    [2 k eps] times that answer. *)
Theorem C89_direct_conversion_is_accurate :
  forall eps dl x y e1 e2 v w, 0 <= eps ->
  describable dl x e1 -> describable dl y e2 -> rated e1 -> rated e2 ->
  (forall s, symexp e1 s = symexp e2 s) ->
  let k := (operations e1 + operations e2 + 4)%nat in
  INR k * eps <= 1 / 2 ->
  rounded_convert eps x y v w ->
  exists cv exact, mk_converter (AUnit x) (AUnit y) = Ok cv /\ convert cv v = Ok exact /\
    exact = factor e1 / factor e2 * v /\
    Rabs (w - exact) <= 2 * INR k * eps * Rabs exact.
Proof.
  intros eps dl x y e1 e2 v w E0 D1 D2 R1 R2 S k K H.
  assert (E1 : eps < 1).
  { assert (4 <= INR k) by (unfold k; rewrite plus_INR; pose proof (pos_INR (operations e1 + operations e2)); cbn [INR]; lra).
    nra. }
  destruct (C24_plain_conversion_is_one_factor dl x y e1 e2 D1 D2 R1 R2 S) as (cv & q & C & Q & _ & V).
  exists cv, (Q2R q * v). split; [exact C |]. split; [apply V |]. rewrite Q. split; [reflexivity |].
  apply near_error; [lra | exact K |]. destruct D1 as (_ & _ & _ & X1 & _), D2 as (_ & _ & _ & X2 & _).
  apply (direct_near eps (conj E0 E1) x y); assumption.
Qed.

(** Inverse conversion (seconds to hertz). *)
Theorem C89_inverse_conversion_is_accurate :
  forall eps dl x y e1 e2 v w, 0 <= eps ->
  describable dl x e1 -> describable dl y e2 -> rated e1 -> rated e2 ->
  (forall s, symexp e1 s = - symexp e2 s)%Z -> (exists s, dl s = false /\ symexp e1 s <> 0%Z) -> v <> 0 ->
  let k := (operations e1 + operations e2 + 4)%nat in
  INR k * eps <= 1 / 2 ->
  rounded_convert_inverted eps x y v w ->
  exists cv exact, mk_converter (AUnit x) (AUnit y) = Ok cv /\ convert cv v = Ok exact /\
    exact = / (factor e1 * factor e2) / v /\
    Rabs (w - exact) <= 2 * INR k * eps * Rabs exact.
Proof.
  intros eps dl x y e1 e2 v w E0 D1 D2 R1 R2 S S0 V0 k K H.
  assert (E1 : eps < 1).
  { assert (4 <= INR k) by (unfold k; rewrite plus_INR; pose proof (pos_INR (operations e1 + operations e2)); cbn [INR]; lra).
    nra. }
  destruct (C24_inverse_plain_conversion_is_one_factor dl x y e1 e2 D1 D2 R1 R2 S S0) as (cv & q & C & Q & _ & V).
  exists cv, (Q2R q / v). split; [exact C |]. split; [now apply V |]. rewrite Q. split; [reflexivity |].
  apply near_error; [lra | exact K |]. destruct D1 as (_ & _ & _ & X1 & _), D2 as (_ & _ & _ & X2 & _).
  apply (inverse_near eps (conj E0 E1) x y); assumption.
Qed.

(** A result exists: the exact one is always among those allowed. *)
Theorem C89_exact_arithmetic_is_allowed :
  forall eps x y e1 e2 v, 0 <= eps < 1 -> expanded x = Ok e1 -> expanded y = Ok e2 -> rated e1 -> rated e2 ->
  rounded_convert eps x y v (factor e1 / factor e2 * v) /\
  rounded_convert_inverted eps x y v (/ (factor e1 * factor e2) / v).
Proof.
  intros eps x y e1 e2 v E0 X1 X2 R1 R2.
  pose proof (unit_exact eps E0 x e1 X1 R1) as H1. pose proof (unit_exact eps E0 y e2 X2 R2) as H2.
  assert (Z := rounded_exact eps E0). split.
  - exists (factor e1), (factor e2), (/ factor e2), (factor e1 * / factor e2), (factor e1 * / factor e2). auto 10.
  - exists (factor e1), (factor e2), (factor e1 * factor e2), (/ (factor e1 * factor e2)), (/ (factor e1 * factor e2)). auto 10.
Qed.
