(** * Round trips of arbitrary units, equality, scaled transforms. *)
From Verif Require Import PyBase PyNum Graph Expr Units UnitSpec UnitFacts UnitProofs RegexFacts
  Sympy Convert ConvertSpec ConvertFacts ConvertProofs UnitSystem.
From Coq Require Import QArith Reals Qreals Lra Lia.
Close Scope Q_scope.

Lemma dims_of_object a d : dimensionality a = Ok (DObj d) -> wf_dims d.
Proof.
  destruct a as [[r dl it|e rs]|x r]; cbn [dimensionality]; (destruct (udims _) eqn:U; [|discriminate]); cbn [bind]; intro H;
    try discriminate; injection H as <-; now apply udims_wf_dims in U.
Qed.

Definition link (direct : bool) (k1 k2 y : R) (c2 : chain) (w : R) : Prop :=
  if direct then chain_eval c2 (k1 / k2 * y) = Some w
  else y <> 0%R /\ chain_eval c2 (/ (k1 * k2 * y)) = Some w.

Lemma converter_any a b cv : mk_converter a b = Ok cv -> exists da db c1 m1 c2 m2,
  has_dims a da /\ dimensionality b = Ok db /\
  normal_form (core a) = Ok (c1, m1) /\ normal_form (core b) = Ok (c2, m2) /\
  chain_nz c1 /\ Q2R (m_coef m2) <> 0%R /\
  (dimval_eqb (DObj da) db = true \/ dimval_eqb (DObj (dims_inv da)) db = true) /\
  (chain_nz c2 -> Q2R (m_coef m1) <> 0%R -> forall v w, chain_eval (cv_ops cv) v = Some w <->
     exists y, chain_eval c1 y = Some v /\ link (dimval_eqb (DObj da) db) (Q2R (m_coef m1)) (Q2R (m_coef m2)) y c2 w).
Proof.
  intro H. assert (H' := H). unfold mk_converter in H.
  destruct (dimensionality a) as [va|] eqn:Da; [|discriminate]. cbn [bind] in H.
  destruct (dimensionality b) as [db|] eqn:Db; [|discriminate]. cbn [bind] in H.
  destruct va as [da|da]; [|discriminate]. cbn [bind dimval_inv] in H.
  destruct (dimval_eqb (DObj da) db) eqn:D.
  - cbn [orb negb] in H. destruct (normal_form (core a)) as [[c1 m1]|] eqn:N1; [|discriminate]. cbn [bind] in H.
    destruct (normal_form (core b)) as [[c2 m2]|] eqn:N2; [|discriminate]. clear H.
    destruct (converter_direct a b cv c1 m1 c2 m2 H') as (Z & k & K & N & EV); auto.
    { exists (DObj da), db. auto. }
    exists da, db, c1, m1, c2, m2. unfold has_dims. rewrite D. repeat split; auto; intros; unfold link in *; rewrite <- ?K in *; try (apply EV; auto; fail).
  - cbn [orb negb] in H. destruct (dimval_eqb (DObj (dims_inv da)) db) eqn:I; [|discriminate]. cbn [negb] in H.
    destruct (normal_form (core a)) as [[c1 m1]|] eqn:N1; [|discriminate]. cbn [bind] in H.
    destruct (normal_form (core b)) as [[c2 m2]|] eqn:N2; [|discriminate]. cbn [bind fst snd] in H.
    destruct (chain_inv (chain_norm c1)) as [i|] eqn:Ci; [|discriminate]. cbn [of_option bind] in H.
    destruct (Q_is0 _) eqn:Zk in H; [discriminate|]. injection H as <-.
    apply Q_is0_false in Zk. rewrite mono_mul_coef in Zk.
    destruct (chain_inv_nz _ _ Ci) as [Nz Ni]. pose proof (proj1 (chain_norm_nz c1) Nz) as Nz1.
    exists da, db, c1, m1, c2, m2. unfold has_dims. rewrite D. split; auto. split; auto. split; auto. split; auto. split; auto.
    split; [intro E0; apply Zk; rewrite E0; ring|]. split; auto.
    intros Nz2 Nm1 v w. cbn [cv_ops]. rewrite chain_norm_eval.
    2:{ apply Forall_app. split; auto. constructor; [simpl; rewrite mono_mul_coef; auto|]. constructor; simpl; auto. }
    rewrite chain_eval_app.
    assert (Z : forall y, chain_eval i v = Some y <-> chain_eval c1 y = Some v).
    { intro y. rewrite (chain_inv_iff _ _ v y Ci). now rewrite chain_norm_eval. }
    assert (P : forall y, (Q2R (m_coef m1) * Q2R (m_coef m2) * y <> 0 <-> y <> 0)%R).
    { intro y. split; [intros H ->; apply H; ring|]. intro H. apply Rmult_integral_contrapositive. auto. }
    unfold link. split.
    + destruct (chain_eval i v) as [y|] eqn:Y; [|discriminate]. cbn [app obind chain_eval op_eval]. rewrite mono_mul_coef.
      destruct (Req_EM_T _ _) as [T|T]; [discriminate|]. cbn [obind]. intro H. exists y. rewrite <- Z, <- P. auto.
    + intros (y & A & B & C). apply Z in A. rewrite A. cbn [app obind chain_eval op_eval]. rewrite mono_mul_coef.
      apply P in B. destruct (Req_EM_T _ _) as [T|T]; [contradiction|]. cbn [obind]. exact C.
Qed.

Lemma chain_eval_inj c : chain_nz c -> forall y y' x, chain_eval c y = Some x -> chain_eval c y' = Some x -> y = y'.
Proof.
  intros N y y' x A B. destruct (chain_inv_exists _ N) as [i I].
  apply (chain_inv_iff _ _ x y I) in A. apply (chain_inv_iff _ _ x y' I) in B. congruence.
Qed.

Lemma identity_any a cv v w : mk_converter a a = Ok cv -> convert cv v = Ok w -> w = v.
Proof.
  intros H C. destruct (converter_any _ _ _ H) as (da & db & c1 & m1 & c2 & m2 & Ha & Hb & N1 & N2 & Z1 & M2 & _ & EV).
  unfold has_dims in Ha. rewrite Ha in Hb. injection Hb as Hb. subst db. rewrite N1 in N2. injection N2 as <- <-.
  apply convert_iff in C as [_ C]. destruct (proj1 (EV Z1 M2 v w) C) as (y & A & L).
  assert (D : dimval_eqb (DObj da) (DObj da) = true).
  { cbn [dimval_eqb]. apply dims_eqb_iff; auto; now apply dims_of_object in Ha. }
  rewrite D in L. unfold link in L. replace (Q2R (m_coef m1) / Q2R (m_coef m1) * y)%R with y in L by (field; auto). congruence.
Qed.

Lemma roundtrip_any a b ab ba v w v' : mk_converter a b = Ok ab -> mk_converter b a = Ok ba ->
  convert ab v = Ok w -> convert ba w = Ok v' -> v' = v.
Proof.
  intros H1 H2 C1 C2.
  destruct (converter_any _ _ _ H1) as (da & vb & c1 & m1 & c2 & m2 & Ha & Hb & N1 & N2 & Z1 & M2 & D1 & EV1).
  destruct (converter_any _ _ _ H2) as (db & va & c2' & m2' & c1' & m1' & Hb' & Ha' & N2' & N1' & Z2 & M1 & D2 & EV2).
  unfold has_dims in *. rewrite Ha in Ha'. injection Ha' as <-. rewrite Hb in Hb'. injection Hb' as ->.
  rewrite N1 in N1'. injection N1' as <- <-. rewrite N2 in N2'. injection N2' as <- <-.
  apply convert_iff in C1 as [_ C1]. destruct (proj1 (EV1 Z2 M1 v w) C1) as (y & A & L).
  apply convert_iff in C2 as [_ C2]. destruct (proj1 (EV2 Z1 M2 w v') C2) as (y' & A' & L').
  apply dims_of_object in Ha as Wa. apply dims_of_object in Hb as Wb.
  assert (S : dimval_eqb (DObj da) (DObj db) = dimval_eqb (DObj db) (DObj da)).
  { cbn [dimval_eqb]. destruct (dims_eqb da db) eqn:X, (dims_eqb db da) eqn:Y; auto.
    - assert (Q := proj1 (dims_eqb_iff _ _ Wa Wb) X). rewrite <- Y. symmetry. apply dims_eqb_iff; auto.
    - assert (Q := proj1 (dims_eqb_iff _ _ Wb Wa) Y). rewrite <- X. apply dims_eqb_iff; auto. }
  rewrite S in L. destruct (dimval_eqb (DObj db) (DObj da)); unfold link in L, L'.
  - assert (y' = (Q2R (m_coef m1) / Q2R (m_coef m2) * y)%R) by (eapply chain_eval_inj; eauto). subst y'.
    replace (Q2R (m_coef m2) / Q2R (m_coef m1) * (Q2R (m_coef m1) / Q2R (m_coef m2) * y))%R with y in L' by (field; auto). congruence.
  - destruct L as [Y L]. destruct L' as [Y' L'].
    assert (y' = (/ (Q2R (m_coef m1) * Q2R (m_coef m2) * y))%R) by (eapply chain_eval_inj; eauto). subst y'.
    replace (/ (Q2R (m_coef m2) * Q2R (m_coef m1) * / (Q2R (m_coef m1) * Q2R (m_coef m2) * y)))%R with y in L' by (field; auto). congruence.
Qed.

Lemma compose_any a b c da db dc ab bc ac ca v w z z' :
  has_dims a da -> has_dims b db -> has_dims c dc ->
  (forall s, dval da s = dval db s) -> (forall s, dval db s = dval dc s) ->
  mk_converter a b = Ok ab -> mk_converter b c = Ok bc -> mk_converter a c = Ok ac -> mk_converter c a = Ok ca ->
  convert ab v = Ok w -> convert bc w = Ok z -> convert ac v = Ok z' -> z' = z.
Proof.
  intros Ha Hb Hc Dab Dbc H1 H2 H3 H4 C1 C2 C3.
  destruct (converter_any _ _ _ H1) as (da1 & vb & c1 & m1 & c2 & m2 & Ha1 & Hb1 & N1 & N2 & Z1 & M2 & D1 & EV1).
  destruct (converter_any _ _ _ H2) as (db1 & vc & c2' & m2' & c3 & m3 & Hb2 & Hc2 & N2' & N3 & Z2 & M3 & D2 & EV2).
  destruct (converter_any _ _ _ H3) as (da3 & vc' & c1' & m1' & c3' & m3' & Ha3 & Hc3 & N1' & N3' & Z1' & M3' & D3 & EV3).
  destruct (converter_any _ _ _ H4) as (? & ? & c3x & ? & ? & m1x & ? & ? & N3x & N1x & NZ & M1 & _ & _).
  unfold has_dims in *. rewrite Ha in Ha1, Ha3. injection Ha1 as Ha1. injection Ha3 as Ha3.
  rewrite Hb in Hb1, Hb2. injection Hb1 as Hb1. injection Hb2 as Hb2. rewrite Hc in Hc2, Hc3. injection Hc2 as Hc2. injection Hc3 as Hc3.
  subst da1 da3 db1 vb vc vc'.
  rewrite N3 in N3x. injection N3x as <- <-. rewrite N1 in N1x. injection N1x as <- <-.
  rewrite N2 in N2'. injection N2' as <- <-. rewrite N1 in N1'. injection N1' as <- <-. rewrite N3 in N3'. injection N3' as <- <-.
  apply dims_of_object in Ha as Wa. apply dims_of_object in Hb as Wb. apply dims_of_object in Hc as Wc.
  assert (E1 : dimval_eqb (DObj da) (DObj db) = true) by (apply dims_eqb_iff; auto).
  assert (E2 : dimval_eqb (DObj db) (DObj dc) = true) by (apply dims_eqb_iff; auto).
  assert (E3 : dimval_eqb (DObj da) (DObj dc) = true) by (apply dims_eqb_iff; auto; intro s; now rewrite Dab).
  apply convert_iff in C1 as [_ C1]. apply convert_iff in C2 as [_ C2]. apply convert_iff in C3 as [_ C3].
    destruct (proj1 (EV1 Z2 M1 v w) C1) as (y1 & A1 & L1).
    destruct (proj1 (EV2 NZ M2 w z) C2) as (y2 & A2 & L2). destruct (proj1 (EV3 NZ M1 v z') C3) as (y3 & A3 & L3).
    rewrite E1 in L1. rewrite E2 in L2. rewrite E3 in L3. unfold link in *.
    assert (y3 = y1) by (eapply (chain_eval_inj c1); eauto). subst y3.
    assert (y2 = (Q2R (m_coef m1) / Q2R (m_coef m2) * y1)%R) by (eapply (chain_eval_inj c2); eauto). subst y2.
    replace (Q2R (m_coef m2) / Q2R (m_coef m3) * (Q2R (m_coef m1) / Q2R (m_coef m2) * y1))%R
      with (Q2R (m_coef m1) / Q2R (m_coef m3) * y1)%R in L2 by (field; auto).
    congruence.
Qed.

(** ** converters between normal forms with given meanings *)
Lemma chain_inv_nr c : forall i, chain_nr c -> chain_inv c = Some i -> chain_nr i.
Proof.
  unfold chain_nr. induction c as [|o c IH]; intros i Hc H; simpl in H; [injection H as <-; constructor|].
  inversion Hc; subst. destruct (chain_inv c); [|discriminate]. destruct (op_inv o) eqn:O; [|discriminate]. injection H as <-.
  apply Forall_app. split; auto. constructor; [|constructor].
  destruct o as [m|q|b|b|]; cbn [op_inv] in O; try (injection O as <-; reflexivity).
  unfold mono_inv in O. destruct (Q_is0 (m_coef m)); [discriminate|]. cbn [option_map] in O. injection O as <-.
  cbn [op_residual] in *. unfold mono_norm. destruct (Q_is0 _); auto. cbn [m_exps].
  destruct (m_exps m); [reflexivity|discriminate].
Qed.

Lemma converter_between a b da db c1 m1 c2 m2 (q1 q2 : R -> R) :
  has_dims a da -> has_dims b db -> (forall s, dval da s = dval db s) ->
  normal_form (core a) = Ok (c1, m1) -> normal_form (core b) = Ok (c2, m2) ->
  chain_nz c1 -> chain_nr c1 -> chain_nz c2 -> chain_nr c2 -> good m1 -> good m2 ->
  (forall s, mget s (m_exps m1) = mget s (m_exps m2)) ->
  (forall v y, chain_eval c1 y = Some v <-> q1 v = (Q2R (m_coef m1) * y)%R) ->
  (forall v y, chain_eval c2 y = Some v <-> q2 v = (Q2R (m_coef m2) * y)%R) ->
  exists cv, mk_converter a b = Ok cv /\ forall v w, convert cv v = Ok w <-> q2 w = q1 v.
Proof.
  intros Ha Hb D N1 N2 Z1 R1 Z2 R2 G1 G2 X Q1 Q2.
  apply dims_of_object in Ha as Wa. apply dims_of_object in Hb as Wb.
  assert (De : dims_eqb da db = true) by (apply dims_eqb_iff; tauto).
  destruct (mono_inv_ok _ G2) as (m2' & I2 & G2' & C2' & E2').
  destruct (mono_mul_ok _ _ G1 G2') as [Gk Ek].
  assert (S1' : chain_nz (chain_norm c1)) by now apply chain_norm_nz.
  destruct (chain_inv_exists (chain_norm c1) S1') as [i I].
  assert (Si : chain_nr i) by (apply (chain_inv_nr (chain_norm c1)); [now apply chain_norm_nr|exact I]).
  exists (mkConv (chain_norm (i ++ [OpScale (mono_mul m1 m2')] ++ c2))).
  assert (MK : mk_converter a b = Ok (mkConv (chain_norm (i ++ [OpScale (mono_mul m1 m2')] ++ c2)))).
  { unfold mk_converter. rewrite Ha, Hb. cbn [bind dimval_inv dimval_eqb]. rewrite De. cbn [orb negb].
    rewrite N1, N2. cbn [bind fst snd]. rewrite I. cbn [of_option bind]. rewrite I2. reflexivity. }
  split; auto.
  assert (DD : direct_dims a b) by (exists (DObj da), (DObj db); auto).
  destruct (converter_direct _ _ _ _ _ _ _ MK DD N1 N2) as (_ & k & Ck & Nk & EV).
  assert (Gm1 : Q2R (m_coef m1) <> 0%R) by apply G1.
  specialize (EV Z2 Gm1). intros v w. rewrite convert_iff, EV.
  assert (R : existsb op_residual (cv_ops (mkConv (chain_norm (i ++ [OpScale (mono_mul m1 m2')] ++ c2)))) = false).
  { apply nr_existsb. cbn [cv_ops]. apply chain_norm_nr. apply Forall_app. split; auto.
    constructor; auto. simpl.
    rewrite (exps_zero (m_exps (mono_mul m1 m2'))); auto; [apply Gk|]. intro s. rewrite Ek, E2', X. lia. }
  split.
  - intros (_ & y & A & B). apply Q1 in A. apply Q2 in B. rewrite A, B, Ck. field. auto.
  - intro A. split; auto. exists (q1 v / Q2R (m_coef m1))%R. rewrite Q1, Q2, A, Ck. split; field; auto.
Qed.

(** ** a number times a shifted or logarithmic unit *)
Definition unshifted (n : node) : node := match n with Shift a _ => a | _ => n end.
Definition transformed (n : node) : Prop :=
  match n with Logarithm _ _ => levels n | Shift a _ => levels a | _ => False end.

Lemma transformed_form n : transformed n -> exists t d, Expr.split false n = Ok (Some t, d) /\ rated d /\
  (forall s, symexp d s = symexp n s) /\
  exists st c, to_sympy t = Ok st /\ chain_of st = Some c /\ noscale c /\ means (unshifted n) d c.
Proof.
  intro H. destruct n; try contradiction; cbn [transformed unshifted] in *.
  - destruct (levels_form _ H false) as (t & d & S & Rd & X & st & c & T & C & NS & M).
    cbn [Expr.split]. rewrite S. cbn [bind fst snd]. exists (transform_node t), d. repeat split; auto.
    exists st, c. auto.
  - destruct (levels_form _ H false) as (t & d & S & Rd & X & st & c & T & C & NS & M).
    destruct t as [t|].
    + exists t, d. split; auto. split; auto. split; auto. exists st, c. auto.
    + exfalso. cbn [Expr.split] in S. destruct (Expr.split false n); discriminate.
Qed.

Lemma scaled_normal x v raw n : expanded x = Ok (Multiply (Number v raw) n) -> transformed n ->
  numeric v -> num_R v <> 0%R -> exists c m, normal_form x = Ok (c, m) /\ chain_nz c /\ chain_nr c /\ good m /\
  (forall s, mget s (m_exps m) = symexp n s) /\
  (forall x y, chain_eval c y = Some x <-> quantity (unshifted n) (x / num_R v) = (Q2R (m_coef m) * y)%R).
Proof.
  intros Ex H Hn H0. destruct (transformed_form _ H) as (t & d & S & Rd & X & st & c & T & C & NS & M).
  destruct (rated_mono _ Rd) as (sd & m & Td & Md & G & Cm & Xm).
  destruct (num_sympy_ok v Hn) as (q & Q & V).
  exists (c ++ [OpScale (mono_num q)]), m.
  unfold normal_form, symbolic. rewrite Ex. cbn [bind]. unfold split_root. cbn [Expr.split bind fst snd]. rewrite S. cbn [bind fst snd].
  cbn [to_sympy]. rewrite Q. cbn [bind]. rewrite T. cbn [bind]. rewrite Td. cbn [bind fst snd chain_of mono_of]. rewrite C. cbn [of_option bind]. rewrite Md. cbn [of_option bind].
  assert (Nq : Q2R q <> 0%R) by congruence.
  assert (Cq : Q2R (m_coef (mono_num q)) = num_R v) by (unfold mono_num; rewrite mono_norm_coef; auto).
  split; auto. split; [|split].
  - apply Forall_app. split; [now apply noscale_nz|]. constructor; [|constructor]. cbn [op_nz]. congruence.
  - apply Forall_app. split; [now apply noscale_nr|]. constructor; [|constructor]. cbn [op_residual]. unfold mono_num, mono_norm.
    destruct (Q_is0 q); reflexivity.
  - split; auto. split; [intro s; rewrite Xm; apply X|]. intros z y. rewrite Cm, <- (M (z / num_R v)%R y), chain_eval_app.
    destruct (chain_eval c y) as [r|]; cbn [obind chain_eval op_eval]; [|split; discriminate]. rewrite Cq.
    split; intro E0; injection E0 as E0; f_equal; [rewrite <- E0|rewrite E0]; field; auto.
Qed.

Lemma scaled_meaning a b da db v raw n e2 :
  has_dims a da -> has_dims b db -> (forall s, dval da s = dval db s) ->
  expanded (core a) = Ok (Multiply (Number v raw) n) -> transformed n -> numeric v -> num_R v <> 0%R ->
  expanded (core b) = Ok e2 -> measurable e2 -> (forall s, symexp n s = symexp e2 s) ->
  exists cv, mk_converter a b = Ok cv /\
    forall x w, convert cv x = Ok w <-> quantity e2 w = quantity (unshifted n) (x / num_R v).
Proof.
  intros Ha Hb D X1 T Hn H0 X2 M2 S.
  destruct (scaled_normal _ _ _ _ X1 T Hn H0) as (c1 & m1 & N1 & Z1 & R1 & G1 & E1 & Q1).
  destruct (measurable_normal _ _ X2 M2) as (c2 & m2 & N2 & S2 & G2 & E2 & Q2).
  eapply (converter_between a b da db c1 m1 c2 m2 (fun x => quantity (unshifted n) (x / num_R v)) (quantity e2)); eauto.
  - now apply noscale_nz.
  - now apply noscale_nr.
  - intro s. now rewrite E1, E2.
Qed.

(** ** a shifted unit times another unit: the other unit's dimension disappears *)
Lemma product_loses_dims a s b refs : plain a -> plain b ->
  udims (UExpr (Multiply (Shift a s) b) refs) = udims (UExpr a refs) /\
  udims (UExpr (Multiply b (Shift a s)) refs) = udims (UExpr a refs).
Proof.
  intros Pa Pb. rewrite !udims_expr. unfold split_root. cbn [Expr.split].
  rewrite !(split_plain a), !(split_plain b) by auto. cbn [bind fst snd]. auto.
Qed.

(** ** equality *)
Lemma mono_norm_wf q e : wf_exps e -> wf_exps (m_exps (mono_norm q e)).
Proof. intro H. unfold mono_norm. destruct (Q_is0 q); auto. split; constructor. Qed.

Lemma mono_of_wf se : forall m, mono_of se = Some m -> wf_exps (m_exps m).
Proof.
  induction se; cbn [mono_of]; intros m H; try discriminate.
  - injection H as <-. apply mono_norm_wf. split; constructor.
  - destruct (reserved s); [discriminate|]. injection H as <-. cbn [m_exps mono_sym]. split; constructor; try constructor; simpl; auto; lia.
  - destruct se2; try discriminate. destruct (Q_int q) as [n|]; [|discriminate]. cbn [obind] in H.
    destruct (mono_of se1) as [x|]; [|discriminate]. cbn [obind] in H. unfold mono_pow in H.
    destruct (_ && _); [discriminate|]. injection H as <-. apply mono_norm_wf. now apply exps_scale_ok, IHse1.
  - destruct (mono_of se1) as [x|]; [|discriminate]. cbn [obind] in H. destruct (mono_of se2) as [y|]; [|discriminate]. cbn [obind] in H.
    injection H as <-. apply mono_norm_wf. apply exps_merge_ok; auto.
  - destruct (mono_of se1) as [x|]; [|discriminate]. cbn [obind] in H. destruct (mono_of se2) as [y|]; [|discriminate]. cbn [obind] in H.
    unfold mono_inv in H. destruct (Q_is0 (m_coef y)); [discriminate|]. cbn [obind] in H.
    injection H as <-. apply mono_norm_wf. apply exps_merge_ok; auto. apply mono_norm_wf. now apply exps_scale_ok, IHse2.
Qed.

Lemma exps_eqb_iff a b : wf_exps a -> wf_exps b -> (exps_eqb a b = true <-> forall s, mget s a = mget s b).
Proof.
  intros Wa Wb. unfold exps_eqb. rewrite andb_true_iff, Nat.eqb_eq, forallb_forall.
  assert (IN : forall e s z, wf_exps e -> (In (s, z) e <-> mget s e = z /\ z <> 0%Z)).
  { clear. intros e s z W. induction e as [|[k y] e IH].
    - simpl. split; [tauto|]. intros [H1 H2]. unfold mget in H1. simpl in H1. congruence.
    - destruct W as [N F]. inversion N; subst. inversion F; subst. specialize (IH (conj H2 H4)).
      rewrite mget_cons. destruct (str_eqb s k) eqn:E.
      + apply str_eqb_eq in E. subst k. simpl. split.
        * intros [H|H]; [injection H as <-; auto|]. apply (in_map fst) in H. contradiction.
        * intros [<- _]. auto.
      + simpl. rewrite <- IH. split; auto. intros [H|H]; auto. injection H as -> ->. rewrite str_eqb_refl in E. discriminate. }
  assert (K : forall e s, wf_exps e -> (In s (map fst e) <-> mget s e <> 0%Z)).
  { intros e s W. split.
    - intro H. apply in_map_iff in H as ([k z] & <- & H). apply (IN _ _ _ W) in H as [H1 H2]. cbn [fst]. congruence.
    - intro H. apply in_map_iff. exists (s, mget s e). split; auto. apply IN; auto. }
  split.
  - intros [L F] s. assert (SUB : forall s, mget s a <> 0%Z -> mget s b = mget s a).
    { intros t H. assert (I : In (t, mget t a) a) by (apply IN; auto). apply F in I. cbn [fst snd] in I. unfold mget at 1.
      destruct (dget t b); [|discriminate]. now apply Z.eqb_eq. }
    destruct (Z.eq_dec (mget s a) 0) as [Z|Z]; [|now rewrite SUB].
    rewrite Z. destruct (Z.eq_dec (mget s b) 0) as [Y|Y]; auto. exfalso.
    (* same length and keys of a among keys of b *)
    assert (I : incl (map fst b) (map fst a)).
    { apply NoDup_length_incl; [apply Wa|rewrite !map_length; lia|]. intros k H. apply K in H; auto. apply K; auto. rewrite SUB; auto. }
    apply K in Y; auto. apply I in Y. apply K in Y; auto.
  - intro H. split.
    + rewrite <- (map_length fst a), <- (map_length fst b). apply Nat.le_antisymm; apply NoDup_incl_length;
        try apply Wa; try apply Wb; intros k I; apply K in I; auto; apply K; auto; congruence.
    + intros [k z] I. cbn [fst snd]. apply IN in I as [I N]; auto. rewrite H in I. unfold mget in I.
      destruct (dget k b); [now apply Z.eqb_eq|congruence].
Qed.

Lemma mono_eqb_sym a b : wf_exps (m_exps a) -> wf_exps (m_exps b) -> mono_eqb a b = mono_eqb b a.
Proof.
  intros Wa Wb. unfold mono_eqb. f_equal; [apply Qeq_bool_comm|].
  destruct (exps_eqb (m_exps a) (m_exps b)) eqn:X, (exps_eqb (m_exps b) (m_exps a)) eqn:Y; auto.
  - rewrite <- Y. symmetry. apply exps_eqb_iff; auto. rewrite exps_eqb_iff in X by auto. auto.
  - rewrite <- X. apply exps_eqb_iff; auto. rewrite exps_eqb_iff in Y by auto. auto.
Qed.

Definition op_wf (o : op) : Prop := match o with OpScale m => wf_exps (m_exps m) | _ => True end.

Lemma chain_of_wf se : forall c, chain_of se = Some c -> Forall op_wf c.
Proof.
  induction se; cbn [chain_of]; intros c H; try discriminate.
  - destruct (str_eqb s (u "value")); [injection H as <-; constructor|discriminate].
  - destruct se2; try discriminate. destruct (chain_of se1); [|discriminate]. injection H as <-.
    apply Forall_app. split; auto. repeat constructor.
  - destruct (chain_of se1) as [c1|]; [destruct (mono_of se2) as [m|] eqn:M|].
    + injection H as <-. apply Forall_app. split; auto. constructor; [|constructor]. eapply mono_of_wf; eauto.
    + destruct (mono_of se1) as [m1|] eqn:M1; [|discriminate]. destruct (chain_of se2) as [c2|]; [|discriminate].
      injection H as <-. apply Forall_app. split; auto. constructor; [|constructor]. eapply mono_of_wf; eauto.
    + destruct (mono_of se1) as [m1|] eqn:M1; [|discriminate]. destruct (chain_of se2) as [c2|]; [|discriminate].
      injection H as <-. apply Forall_app. split; auto. constructor; [|constructor]. eapply mono_of_wf; eauto.
  - destruct (chain_of se); [|discriminate]. injection H as <-. apply Forall_app. split; auto. repeat constructor.
Qed.

Lemma push_wf o c : op_wf o -> Forall op_wf c -> Forall op_wf (push o c).
Proof.
  intros Ho Hc. destruct o; cbn [push]; auto.
  - assert (Q : forall k c', wf_exps (m_exps k) -> Forall op_wf c' ->
       Forall op_wf (if mono_eqb k mono_one then c' else if Q_is0 (m_coef k) then [OpScale k] else OpScale k :: c')).
    { intros k c' Ek Hc'. destruct (mono_eqb _ _); auto. destruct (Q_is0 _); repeat constructor; auto; apply Ek. }
    destruct c as [|[k|k|k|k|] c]; try (apply Q; auto).
    + inversion Hc; subst. apply mono_norm_wf. apply exps_merge_ok; auto.
    + now inversion Hc.
  - destruct c as [|[k|k|k|k|] c]; destruct (Q_is0 _); auto; try (constructor; simpl; auto; fail);
      inversion Hc; auto; constructor; simpl; auto.
Qed.

Lemma chain_norm_wf c : Forall op_wf c -> Forall op_wf (chain_norm c).
Proof.
  intro H. unfold chain_norm. apply Forall_rev.
  assert (Q : forall c acc, Forall op_wf c -> Forall op_wf acc -> Forall op_wf (fold_left (fun a o => push o a) c acc)).
  { clear. induction c as [|o c IH]; intros acc Hc Ha; auto. inversion Hc; subst. simpl. apply IH; auto. now apply push_wf. }
  apply Q; auto.
Qed.

Lemma chain_eqb_sym a : forall b, Forall op_wf a -> Forall op_wf b -> chain_eqb a b = chain_eqb b a.
Proof.
  induction a as [|x a IH]; intros [|y b] Ha Hb; auto. inversion Ha; subst. inversion Hb; subst. cbn [chain_eqb].
  rewrite IH by auto. f_equal. destruct x as [m|q|l|l|], y as [m'|q'|l'|l'|]; cbn [op_eqb]; auto;
    try (now apply mono_eqb_sym); try (apply Qeq_bool_comm);
    try (destruct l; reflexivity); try (destruct l'; reflexivity); destruct l, l'; reflexivity.
Qed.

Lemma normal_form_wf x c m : normal_form x = Ok (c, m) -> Forall op_wf c /\ wf_exps (m_exps m).
Proof.
  unfold normal_form. destruct (symbolic x) as [[t d]|]; [|discriminate]. cbn [bind fst snd].
  destruct (chain_of t) as [c'|] eqn:C; [|discriminate]. cbn [of_option bind]. destruct (mono_of d) as [m'|] eqn:M; [|discriminate].
  cbn [of_option bind]. intro H. injection H as <- <-. split; [eapply chain_of_wf|eapply mono_of_wf]; eauto.
Qed.

Lemma unit_eq_sym x y r : unit_eq x y = Ok r -> unit_eq y x = Ok r.
Proof.
  unfold unit_eq. rewrite (str_eqb_sym (node_str (definition_of x)) (node_str (definition_of y))).
  destruct (str_eqb _ _); auto.
  destruct (normal_form x) as [[c1 m1]|] eqn:N1; [|discriminate]. cbn [bind].
  destruct (normal_form y) as [[c2 m2]|] eqn:N2; [|discriminate]. cbn [bind fst snd]. intro H. rewrite <- H. f_equal.
  apply normal_form_wf in N1 as [W1 V1]. apply normal_form_wf in N2 as [W2 V2].
  rewrite (mono_eqb_sym m2 m1) by auto. now rewrite (chain_eqb_sym (chain_norm c2)) by now apply chain_norm_wf.
Qed.

Lemma chain_eqb_eval a : forall b x, chain_eqb a b = true -> chain_eval a x = chain_eval b x.
Proof.
  induction a as [|o a IH]; intros [|p b] x H; try discriminate; auto. cbn [chain_eqb] in H. apply andb_true_iff in H as [H1 H2].
  cbn [chain_eval]. assert (E0 : op_eval o x = op_eval p x).
  { destruct o as [m|q|l|l|], p as [m'|q'|l'|l'|]; cbn [op_eqb] in H1; try discriminate; auto;
      try (destruct l; discriminate); try (destruct l, l'; try discriminate; reflexivity).
    - cbn [op_eval]. now rewrite (mono_eqb_coef _ _ H1).
    - cbn [op_eval]. apply Qeq_bool_iff in H1. now rewrite (Qeq_eqR _ _ H1). }
  rewrite E0. destruct (op_eval p x); cbn [obind]; auto.
Qed.

Lemma unit_eq_meaning x y e1 e2 : unit_eq x y = Ok true ->
  node_str (definition_of x) <> node_str (definition_of y) ->
  expanded x = Ok e1 -> expanded y = Ok e2 -> measurable e1 -> measurable e2 ->
  (forall s, symexp e1 s = symexp e2 s) /\ forall v, quantity e1 v = quantity e2 v.
Proof.
  intros H N X1 X2 M1 M2. unfold unit_eq in H.
  destruct (str_eqb _ _) eqn:S in H; [apply str_eqb_eq in S; congruence|].
  destruct (measurable_normal _ _ X1 M1) as (c1 & m1 & N1 & S1 & G1 & E1 & Q1).
  destruct (measurable_normal _ _ X2 M2) as (c2 & m2 & N2 & S2 & G2 & E2 & Q2).
  rewrite N1, N2 in H. cbn [bind fst snd] in H. injection H as H. apply andb_true_iff in H as [Hm Hc]. split.
  - intro s. rewrite <- E1, <- E2. unfold mono_eqb in Hm. apply andb_true_iff in Hm as [_ Hm].
    rewrite exps_eqb_iff in Hm; [apply Hm|apply G1|apply G2].
  - intro v. apply mono_eqb_coef in Hm. assert (Gm : Q2R (m_coef m1) <> 0%R) by apply G1.
    assert (A : chain_eval c1 (quantity e1 v / Q2R (m_coef m1)) = Some v) by (apply Q1; field; auto).
    rewrite <- (chain_norm_eval c1), (chain_eqb_eval _ _ _ Hc), chain_norm_eval in A by now apply noscale_nz.
    apply Q2 in A. rewrite A, <- Hm. field. auto.
Qed.
