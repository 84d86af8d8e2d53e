(** * C93: converted values of units with an offset are accurate *)
From Verif Require Import PyBase PyNum Graph Expr Units UnitSpec UnitFacts UnitProofs Sympy Convert ConvertSpec ConvertFacts ConvertProofs ConvertMore
  Prop_Convert Rounding Prop_Rounding.
From Coq Require Import QArith Reals Qreals Lia Lra.
Local Open Scope R_scope.

(** An expanded definition, perhaps shifted: the offset, and the rest. *)
Definition offset (e : node) : R := match e with Shift _ (Number v _) => num_R v | _ => 0 end.
Definition body (e : node) : node := match e with Shift a (Number _ _) => a | _ => e end.

Section Proof.
Variable eps : R.
Hypothesis eps_small : 0 <= eps < 1.
Notation near := (near eps).

Lemma near_mono k m x y : (k <= m)%nat -> near k x y -> near m x y.
Proof.
  intros L (t & -> & T1 & T2). exists t. split; [reflexivity |].
  replace m with (k + (m - k))%nat by lia. rewrite pow_add.
  pose proof (pow_bounds eps eps_small k). pose proof (pow_bounds eps eps_small (m - k)).
  split; [nra |]. eapply Rle_trans; [exact T2 |]. apply Rinv_le_contravar; nra.
Qed.

(** rounding a sum rounds both terms *)
Lemma rounded_plus x y z : rounded eps (x + y) z -> exists x' y', near 1 x x' /\ near 1 y y' /\ z = x' + y'.
Proof.
  intros H. apply (near_rounded eps eps_small) in H as (t & -> & T). exists (x * t), (y * t).
  split; [exists t; auto |]. split; [exists t; auto |]. ring.
Qed.
Lemma rounded_near k x y z : near k x y -> rounded eps y z -> near (k + 1) x z.
Proof. apply (near_step eps eps_small). Qed.
Lemma near_opp k x y : near k x y -> near k (- x) (- y).
Proof. intros (t & -> & T). exists t. split; [ring | exact T]. Qed.
Lemma near_scale k m x p z z' : near k x p -> near m z z' -> near (k + m) (x * z) (p * z').
Proof. apply (near_mul eps eps_small). Qed.

Lemma offset_near x e a c : expanded x = Ok e -> measurable e -> rated (body e) -> has_offset eps x a c ->
  near 1 (offset e) a /\ near (operations (body e)) (factor (body e)) c.
Proof.
  intros X Me R (t & d & S & Oa & C). unfold symbolic in S. rewrite X in S. cbn [bind] in S.
  assert (Plain : body e = e -> rated e -> offset e = 0 -> near 1 (offset e) a /\ near (operations (body e)) (factor (body e)) c).
  { intros -> Re ->. unfold split_root in S. rewrite (split_plain e _ (rated_plain e Re)) in S. cbn [bind fst snd] in S.
    destruct (to_sympy e) as [d' | er] eqn:T; cbn [bind] in S; [| discriminate S]. injection S as <- <-.
    inversion Oa; subst. split; [apply (near_refl eps eps_small) | now apply (coefficient_near eps eps_small e Re d')]. }
  destruct e as [| | | | | | g b |]; try (now apply Plain).
  destruct b as [| v r | | | | | |]; try (now apply Plain). clear Plain. cbn [body offset] in *. cbn [measurable] in Me. destruct Me as [Nv _].
  unfold split_root in S. cbn [Expr.split] in S. rewrite (split_plain g _ (rated_plain g R)) in S. cbn [bind fst snd to_sympy value_id] in S.
  destruct (num_sympy_ok v Nv) as (q & E & V). rewrite E in S. cbn [bind] in S.
  destruct (to_sympy g) as [d' | er] eqn:T; cbn [bind] in S; [| discriminate S]. injection S as <- <-.
  inversion Oa as [| q' a' H]; subst. rewrite <- V. split; [now apply (near_rounded eps eps_small) | now apply (coefficient_near eps eps_small g R d')].
Qed.

Lemma offset_convert_near x y e1 e2 v w : expanded x = Ok e1 -> expanded y = Ok e2 -> measurable e1 -> measurable e2 ->
  rated (body e1) -> rated (body e2) -> rounded_offset_convert eps x y v w ->
  let f := factor (body e1) / factor (body e2) in
  let k := (operations (body e1) + operations (body e2) + 9)%nat in
  exists x1 x2 x3, near k (f * v) x1 /\ near k (f * offset e1) x2 /\ near k (- offset e2) x3 /\ w = x1 + x2 + x3.
Proof.
  intros X1 X2 M1 M2 R1 R2 (a1 & c1 & a2 & c2 & b1 & i & k & p & H1 & H2 & Hb & Hi & Hk & Hp & Way) f n.
  destruct (offset_near x e1 a1 c1 X1 M1 R1 H1) as [A1 C1]. destruct (offset_near y e2 a2 c2 X2 M2 R2 H2) as [A2 C2].
  assert (B1 : near 2 (offset e1) b1) by (apply (rounded_near 1 _ _ _ A1 Hb)).
  assert (K : near (operations (body e1) + operations (body e2) + 2) f k).
  { replace (operations (body e1) + operations (body e2) + 2)%nat with (operations (body e1) + (operations (body e2) + 1) + 1)%nat by lia.
    eapply rounded_near; [| exact Hk]. apply near_scale; [exact C1 |]. eapply rounded_near; [| exact Hi].
    apply (near_inv eps eps_small); [now apply rated_factor | exact C2]. }
  assert (P : near (operations (body e1) + operations (body e2) + 3) f p).
  { replace (operations (body e1) + operations (body e2) + 3)%nat with (operations (body e1) + operations (body e2) + 2 + 1)%nat by lia.
    eapply rounded_near; [exact K | exact Hp]. }
  assert (Vv := near_refl eps eps_small 0 v).
  destruct Way as [(m & b & b' & z & Hm & Hd & Hb' & Hz & Hw) | (b' & a' & z & z' & Hb' & Ha' & Hz & Hz' & Hw)].
  - (* k*value + b *)
    apply rounded_plus in Hw as (z1 & b2 & Z1 & B2 & ->).
    apply (near_rounded eps eps_small) in Hb' as (t & -> & T).
    replace (m - a2) with (m + - a2) in Hd by ring. apply rounded_plus in Hd as (m1 & a3 & Ma & Aa & ->).
    destruct B2 as (t' & -> & T').
    assert (Tt : forall q x0 y0, near q x0 y0 -> near (q + 2) x0 (y0 * t * t')).
    { intros q x0 y0 H. replace (q + 2)%nat with (q + 1 + 1)%nat by lia.
      eapply (near_trans eps eps_small); [eapply (near_trans eps eps_small); [exact H |] |].
      - exists t. split; [reflexivity | exact T].
      - exists t'. split; [reflexivity | exact T']. }
    exists z1, (m1 * t * t'), (a3 * t * t'). split; [| split; [| split]].
    + eapply near_mono; [| eapply (near_trans eps eps_small); [| exact Z1]; eapply rounded_near; [| exact Hz]; apply near_scale; [exact P | exact Vv]]. lia.
    + eapply near_mono; [| apply Tt; eapply (near_trans eps eps_small); [| exact Ma]; eapply rounded_near; [| exact Hm]; apply near_scale; [exact K | exact B1]]. lia.
    + eapply near_mono; [| apply Tt; eapply (near_trans eps eps_small); [| exact Aa]; apply near_opp; exact A2]. lia.
    + ring.
  - (* k*(value + b1) - a2 *)
    apply rounded_plus in Hz as (v1 & b2 & V1 & B2 & ->).
    replace (z' - a') with (z' + - a') in Hw by ring. apply rounded_plus in Hw as (z2 & a3 & Z2 & A3 & ->).
    apply (near_rounded eps eps_small) in Hz' as (t & -> & T). destruct Z2 as (t' & -> & T').
    assert (Tt : forall q x0 y0, near q x0 y0 -> near (q + 2) x0 (y0 * t * t')).
    { intros q x0 y0 H. replace (q + 2)%nat with (q + 1 + 1)%nat by lia.
      eapply (near_trans eps eps_small); [eapply (near_trans eps eps_small); [exact H |] |].
      - exists t. split; [reflexivity | exact T].
      - exists t'. split; [reflexivity | exact T']. }
    exists (p * v1 * t * t'), (p * b2 * t * t'), a3. split; [| split; [| split]].
    + eapply near_mono; [| apply Tt; apply near_scale; [exact P | exact V1]]. lia.
    + eapply near_mono; [| apply Tt; apply near_scale; [exact P | eapply (near_trans eps eps_small); [| exact B2]; eapply rounded_near; [exact B1 | exact Hb']]]. lia.
    + eapply near_mono; [| eapply (near_trans eps eps_small); [| exact A3]; apply near_opp; eapply rounded_near; [exact A2 | exact Ha']]. lia.
    + ring.
Qed.
End Proof.

Lemma body_quantity e x : measurable e -> rated (body e) -> quantity e x = factor (body e) * (x + offset e).
Proof.
  intros Me R. assert (P : rated e -> quantity e x = factor e * (x + 0)).
  { intros Re. rewrite (rated_quantity e x Re). f_equal. lra. }
  destruct e as [| | | | | | g b |]; try (now apply P). destruct b as [| v r | | | | | |]; try (now apply P).
  cbn [quantity body offset] in *. now apply rated_quantity.
Qed.

(** C93.  Units with or without an offset, of equal exponents.  The bound is relative to the numbers
    added up, which may cancel. *)
Theorem C93_offset_conversion_is_accurate :
  forall eps dl x y e1 e2 v w, 0 <= eps ->
  describable dl x e1 -> describable dl y e2 -> rated (body e1) -> rated (body e2) ->
  (forall s, symexp e1 s = symexp e2 s) ->
  let f := factor (body e1) / factor (body e2) in
  let k := (operations (body e1) + operations (body e2) + 9)%nat in
  INR k * eps <= 1 / 2 ->
  rounded_offset_convert eps x y v w ->
  exists cv exact, mk_converter (AUnit x) (AUnit y) = Ok cv /\ convert cv v = Ok exact /\
    exact = f * (v + offset e1) - offset e2 /\
    Rabs (w - exact) <= 2 * INR k * eps * (Rabs (f * v) + Rabs (f * offset e1) + Rabs (offset e2)).
Proof.
  intros eps dl x y e1 e2 v w E0 D1 D2 R1 R2 S f k K H.
  destruct (C20_conversion_preserves_the_quantity dl x y e1 e2 D1 D2 S) as (cv & Cv & Q).
  destruct D1 as (_ & _ & _ & X1 & M1). destruct D2 as (_ & _ & _ & X2 & M2).
  assert (E1 : eps < 1).
  { assert (1 <= INR k) by (change 1 with (INR 1); apply le_INR; unfold k; lia). nra. }
  exists cv, (f * (v + offset e1) - offset e2). split; [exact Cv |]. split.
  { apply Q. rewrite !body_quantity by assumption. unfold f. field. now apply rated_factor. }
  split; [reflexivity |].
  destruct (offset_convert_near eps (conj E0 E1) x y e1 e2 v w X1 X2 M1 M2 R1 R2 H) as (x1 & x2 & x3 & N1 & N2 & N3 & ->).
  apply (near_error eps (conj E0 E1) _ _ _ K) in N1. apply (near_error eps (conj E0 E1) _ _ _ K) in N2.
  apply (near_error eps (conj E0 E1) _ _ _ K) in N3. rewrite Rabs_Ropp in N3. fold f k in N1, N2, N3.
  replace (x1 + x2 + x3 - (f * (v + offset e1) - offset e2))
    with ((x1 - f * v) + (x2 - f * offset e1) + (x3 - - offset e2)) by ring.
  eapply Rle_trans; [apply Rabs_triang |]. eapply Rle_trans; [apply Rplus_le_compat_r, Rabs_triang |].
  rewrite !Rmult_plus_distr_l. lra.
Qed.

(** A result exists: the exact one is among those allowed. *)
Lemma offset_exact eps : 0 <= eps < 1 -> forall x e, expanded x = Ok e -> measurable e -> rated (body e) ->
  has_offset eps x (offset e) (factor (body e)).
Proof.
  intros E0 x e X Me R.
  assert (Plain : body e = e -> rated e -> offset e = 0 -> has_offset eps x (offset e) (factor (body e))).
  { intros -> Re ->. destruct (unit_exact eps E0 x e X Re) as (d & S & C). exists (SSym (u "value")), d. split; [exact S |].
    split; [constructor | exact C]. }
  destruct e as [| | | | | | g b |]; try (now apply Plain).
  destruct b as [| v r | | | | | |]; try (now apply Plain). clear Plain. cbn [body offset] in *. cbn [measurable] in Me. destruct Me as [Nv _].
  destruct (num_sympy_ok v Nv) as (q & E & V). destruct (rated_mono g R) as (d & m & T & _).
  exists (SSub (SSym (u "value")) (SNum q)), d. split; [| split].
  - unfold symbolic. rewrite X. cbn [bind]. unfold split_root. cbn [Expr.split]. rewrite (split_plain g _ (rated_plain g R)).
    cbn [bind fst snd to_sympy value_id]. rewrite E. cbn [bind]. now rewrite T.
  - rewrite <- V. constructor. now apply rounded_exact.
  - now apply coefficient_exact.
Qed.

Theorem C93_exact_arithmetic_is_allowed :
  forall eps x y e1 e2 v, 0 <= eps < 1 -> expanded x = Ok e1 -> expanded y = Ok e2 -> measurable e1 -> measurable e2 ->
  rated (body e1) -> rated (body e2) ->
  rounded_offset_convert eps x y v (factor (body e1) / factor (body e2) * (v + offset e1) - offset e2).
Proof.
  intros eps x y e1 e2 v E0 X1 X2 M1 M2 R1 R2. assert (Z := rounded_exact eps E0).
  exists (offset e1), (factor (body e1)), (offset e2), (factor (body e2)), (offset e1), (/ factor (body e2)),
    (factor (body e1) * / factor (body e2)), (factor (body e1) * / factor (body e2)).
  split; [now apply offset_exact |]. split; [now apply offset_exact |]. do 4 (split; [apply Z |]). right.
  exists (offset e1), (offset e2), (v + offset e1), (factor (body e1) * / factor (body e2) * (v + offset e1)).
  do 4 (split; [apply Z |]). unfold Rdiv. apply Z.
Qed.
