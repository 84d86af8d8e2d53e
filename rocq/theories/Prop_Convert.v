(** * C20-C28: conversions and equality. *)
From Verif Require Import PyBase PyNum Graph Lexer Parser Visitor Expr Units UnitSpec UnitFacts UnitProofs RegexFacts
  Sympy Convert ConvertSpec ConvertFacts ConvertProofs ConvertMore EqFacts UnitSystem Prop_Units.
From Coq Require Import QArith Reals Qreals Lra Lia.
Close Scope Q_scope.

Lemma gdim_basis dl e b : gdim (basis_exps dl) e b = if dl b then 0%Z else symexp e b.
Proof.
  unfold symexp. induction e; cbn [gdim]; try (destruct (dl b); lia).
  - unfold basis_exps. destruct (str_eqb name b) eqn:E; [apply str_eqb_eq in E; subst; destruct (dl b); auto|].
    destruct (dl name), (dl b); reflexivity.
  - destruct e2 as [|[z|z|z] ?| | | | | |]; try (destruct (dl b); nia).
Qed.

Lemma describable_dims dl x e : describable dl x e -> exists d, has_dims (AUnit x) d /\
  forall b, dval d b = if dl b then 0%Z else symexp e b.
Proof.
  intros (X & S & B & E & M). destruct (udims_sound x S) as (d & Ed & R). exists d. split.
  - destruct x; [destruct X|]. unfold has_dims. cbn [dimensionality]. now rewrite Ed.
  - intro b. rewrite (represents_val _ _ R), <- gdim_basis. now apply exps_expanded.
Qed.

Lemma describable_direct dl x y e1 e2 : describable dl x e1 -> describable dl y e2 ->
  (forall s, symexp e1 s = symexp e2 s) ->
  exists cv, mk_converter (AUnit x) (AUnit y) = Ok cv /\ forall v w, convert cv v = Ok w <-> quantity e2 w = quantity e1 v.
Proof.
  intros D1 D2 S. destruct (describable_dims _ _ _ D1) as (d1 & H1 & V1). destruct (describable_dims _ _ _ D2) as (d2 & H2 & V2).
  destruct (meaning_direct (AUnit x) (AUnit y) d1 d2 e1 e2) as (cv & C & M & _); auto; try apply D1; try apply D2.
  { intro s. rewrite V1, V2, S. reflexivity. }
  eauto.
Qed.

Lemma describable_inverse dl x y e1 e2 : describable dl x e1 -> describable dl y e2 ->
  (forall s, symexp e1 s = - symexp e2 s)%Z -> (exists s, dl s = false /\ symexp e1 s <> 0%Z) ->
  exists cv, mk_converter (AUnit x) (AUnit y) = Ok cv /\
    forall v w, convert cv v = Ok w <-> quantity e1 v <> 0%R /\ quantity e2 w = (/ quantity e1 v)%R.
Proof.
  intros D1 D2 S [s0 [L0 N0]]. destruct (describable_dims _ _ _ D1) as (d1 & H1 & V1). destruct (describable_dims _ _ _ D2) as (d2 & H2 & V2).
  destruct (meaning_inverse (AUnit x) (AUnit y) d1 d2 e1 e2) as (cv & C & M & _); auto; try apply D1; try apply D2.
  { intro s. rewrite V1, V2, S. destruct (dl s); lia. }
  { exists s0. now rewrite V1, L0. }
  eauto.
Qed.

(** C20.  Units with the same exponents: the converter exists and gives exactly the number
    [w] that denotes in the target the quantity that [v] denotes in the source. *)
Theorem C20_conversion_preserves_the_quantity :
  forall dl x y e1 e2, describable dl x e1 -> describable dl y e2 ->
  (forall s, symexp e1 s = symexp e2 s) ->
  exists cv, mk_converter (AUnit x) (AUnit y) = Ok cv /\
    forall v w, convert cv v = Ok w <-> quantity e2 w = quantity e1 v.
Proof. exact describable_direct. Qed.

(** C20.  Opposite exponents: the reciprocal quantity. *)
Theorem C20_inverse_conversion_gives_the_reciprocal :
  forall dl x y e1 e2, describable dl x e1 -> describable dl y e2 ->
  (forall s, symexp e1 s = - symexp e2 s)%Z -> (exists s, dl s = false /\ symexp e1 s <> 0%Z) ->
  exists cv, mk_converter (AUnit x) (AUnit y) = Ok cv /\
    forall v w, convert cv v = Ok w <-> quantity e1 v <> 0%R /\ quantity e2 w = (/ quantity e1 v)%R.
Proof. exact describable_inverse. Qed.

(** Examples: degC, and a shifted logarithm of a kilometre. *)
Definition bases (s : str) : bool := str_eqb s (u "radian").
Lemma basics_agree : forall s y, find_ref s basics = Some (RUnit y) -> bases_agree bases y.
Proof.
  intros s y. unfold basics. simpl.
  repeat match goal with |- (if ?c then _ else _) = _ -> _ => destruct c; [intro E; injection E as <-; constructor; reflexivity|] end.
  discriminate.
Qed.

Lemma own_dec s : existsb (str_eqb s) own_names = false -> ~ In s own_names.
Proof.
  intros H I. assert (existsb (str_eqb s) own_names = true); [|congruence].
  apply existsb_exists. exists s. split; auto. apply str_eqb_refl.
Qed.

Definition degC_node := Shift (Identifier (u "kelvin")) (Number (NDec (mkDec false 27315 (-2))) (Some (u "273.15"))).
Lemma C20_degC : describable bases degC degC_node.
Proof.
  split; [exact Logic.I|]. split; [apply C16_examples|]. split; [|split].
  - constructor. intros s y F _. eapply basics_agree, F.
  - vm_compute. reflexivity.
  - split; [exact Logic.I|]. apply own_dec. reflexivity.
Qed.

Definition kel := UExpr (I "K") basics.
Lemma C20_kelvin : describable bases kel (Identifier (u "kelvin")).
Proof.
  split; [exact Logic.I|]. split; [|split; [|split]].
  - apply sound_plain; [exact Logic.I|]. split.
    + intros s H. simpl in H. subst s. discriminate.
    + intros s y F _. eapply basics_sound, F.
  - constructor. intros s y F _. eapply basics_agree, F.
  - vm_compute. reflexivity.
  - apply own_dec. reflexivity.
Qed.

Definition log_km := UExpr (Shift (Logarithm (u "lg") (Multiply (Int 1000) (I "m"))) (Int 5)) basics.
Definition log_km_node := Shift (Logarithm (u "lg") (Multiply (Int 1000) (Identifier (u "meter")))) (Int 5).
Lemma C20_log : describable bases log_km log_km_node.
Proof.
  split; [exact Logic.I|]. split; [|split; [|split]].
  - constructor; [cbn; repeat split; intros; congruence| |].
    + intros s [[]|H]. simpl in H. subst s. discriminate.
    + intros s y F _. eapply basics_sound, F.
  - constructor. intros s y F _. eapply basics_agree, F.
  - vm_compute. reflexivity.
  - cbn [measurable log_km_node levels Int]. split; [exact Logic.I|]. split; [discriminate|].
    split; [split; [exact Logic.I|simpl; lra]|]. apply own_dec. reflexivity.
Qed.

Definition metre_text := UExpr (I "m") basics.
Lemma C20_metre : describable bases metre_text (Identifier (u "meter")).
Proof.
  split; [exact Logic.I|]. split; [|split; [|split]].
  - apply sound_plain; [exact Logic.I|]. split.
    + intros s H. simpl in H. subst s. discriminate.
    + intros s y F _. eapply basics_sound, F.
  - constructor. intros s y F _. eapply basics_agree, F.
  - vm_compute. reflexivity.
  - apply own_dec. reflexivity.
Qed.

(** 10 degC is 283.15 K; x (lg(re 1000 m) @ 5) is 10^(x+5) * 1000 m. *)
Example C20_example_degC : exists cv, mk_converter (AUnit degC) (AUnit kel) = Ok cv /\ convert cv 10 = Ok (28315 / 100)%R.
Proof.
  destruct (C20_conversion_preserves_the_quantity _ _ _ _ _ C20_degC C20_kelvin (fun s => eq_refl)) as (cv & C & M).
  exists cv. split; auto. apply M. cbn [quantity degC_node factor num_R]. 
  assert (E : Q2R (dec_Q (mkDec false 27315 (-2))) = (27315 / 100)%R).
  { replace (dec_Q (mkDec false 27315 (-2))) with (5463 # 20)%Q by (vm_compute; reflexivity). unfold Q2R; simpl. lra. }
  rewrite E. lra.
Qed.

Example C20_example_log : exists cv, mk_converter (AUnit log_km) (AUnit metre_text) = Ok cv /\
  forall v, convert cv v = Ok (1000 * Rpower 10 (v + 5))%R.
Proof.
  destruct (C20_conversion_preserves_the_quantity _ _ _ _ _ C20_log C20_metre) as (cv & C & M).
  { intro s. unfold symexp. cbn. reflexivity. }
  exists cv. split; auto. intro v. apply M. cbn [quantity log_km_node Int num_R].
  replace (log_base_R (u "lg")) with (Some 10%R) by reflexivity. cbn [quantity factor num_R Int]. lra.
Qed.

(** C21. *)
Theorem C21_identity :
  forall dl x e, describable dl x e ->
  exists cv, mk_converter (AUnit x) (AUnit x) = Ok cv /\ forall v, convert cv v = Ok v.
Proof.
  intros dl x e D. destruct (describable_direct dl x x e e D D (fun s => eq_refl)) as (cv & C & M).
  exists cv. split; auto. intro v. now apply M.
Qed.

(** ... and for every other unit or date unit, a number that comes out is the number put in. *)
Theorem C21_identity_of_any_unit :
  forall a cv v w, mk_converter a a = Ok cv -> convert cv v = Ok w -> w = v.
Proof. exact identity_any. Qed.

Example C21_example : is_ok (mk_converter (AUnit degC) (AUnit degC)) = true.
Proof. vm_compute. reflexivity. Qed.

(** C22. *)
Theorem C22_round_trip :
  forall dl x y e1 e2, describable dl x e1 -> describable dl y e2 ->
  (forall s, symexp e1 s = symexp e2 s) \/
  ((forall s, symexp e1 s = - symexp e2 s)%Z /\ exists s, dl s = false /\ symexp e1 s <> 0%Z) ->
  exists xy yx, mk_converter (AUnit x) (AUnit y) = Ok xy /\ mk_converter (AUnit y) (AUnit x) = Ok yx /\
    forall v w, convert xy v = Ok w -> convert yx w = Ok v.
Proof.
  intros dl x y e1 e2 D1 D2 [S|[S [s0 [L N]]]].
  - destruct (describable_direct dl x y e1 e2 D1 D2 S) as (xy & C1 & M1).
    destruct (describable_direct dl y x e2 e1 D2 D1 (fun s => eq_sym (S s))) as (yx & C2 & M2).
    exists xy, yx. repeat split; auto. intros v w H. apply M2. symmetry. now apply M1.
  - destruct (describable_inverse dl x y e1 e2 D1 D2 S) as (xy & C1 & M1); [eauto|].
    destruct (describable_inverse dl y x e2 e1 D2 D1) as (yx & C2 & M2).
    { intro s. rewrite S. lia. } { exists s0. split; auto. rewrite S in N. lia. }
    exists xy, yx. repeat split; auto. intros v w H. apply M1 in H as [H1 H2]. apply M2. rewrite H2. split.
    + now apply Rinv_neq_0_compat.
    + field. auto.
Qed.

Theorem C22_round_trip_of_any_units :
  forall a b ab ba v w v', mk_converter a b = Ok ab -> mk_converter b a = Ok ba ->
  convert ab v = Ok w -> convert ba w = Ok v' -> v' = v.
Proof. exact roundtrip_any. Qed.

Example C22_example : describable bases degC degC_node /\ describable bases kel (Identifier (u "kelvin")).
Proof. split; [apply C20_degC|apply C20_kelvin]. Qed.

(** C23. *)
Theorem C23_conversions_compose :
  forall dl x y z e1 e2 e3, describable dl x e1 -> describable dl y e2 -> describable dl z e3 ->
  (forall s, symexp e1 s = symexp e2 s) -> (forall s, symexp e2 s = symexp e3 s) ->
  exists xy yz xz, mk_converter (AUnit x) (AUnit y) = Ok xy /\ mk_converter (AUnit y) (AUnit z) = Ok yz /\
    mk_converter (AUnit x) (AUnit z) = Ok xz /\
    forall v w r, convert xy v = Ok w -> convert yz w = Ok r -> convert xz v = Ok r.
Proof.
  intros dl x y z e1 e2 e3 D1 D2 D3 S1 S2.
  destruct (describable_direct dl x y e1 e2 D1 D2 S1) as (xy & C1 & M1).
  destruct (describable_direct dl y z e2 e3 D2 D3 S2) as (yz & C2 & M2).
  destruct (describable_direct dl x z e1 e3 D1 D3 (fun s => eq_trans (S1 s) (S2 s))) as (xz & C3 & M3).
  exists xy, yz, xz. repeat split; auto. intros v w r H1 H2. apply M3. apply M1 in H1. apply M2 in H2. congruence.
Qed.

Theorem C23_conversions_of_any_units_compose :
  forall a b c da db dc ab bc ac ca v w z z',
  has_dims a da -> has_dims b db -> has_dims c dc ->
  (forall s, dval da s = dval db s) -> (forall s, dval db s = dval dc s) ->
  mk_converter a b = Ok ab -> mk_converter b c = Ok bc -> mk_converter a c = Ok ac -> mk_converter c a = Ok ca ->
  convert ab v = Ok w -> convert bc w = Ok z -> convert ac v = Ok z' -> z' = z.
Proof. exact compose_any. Qed.

Example C23_example : describable bases log_km log_km_node /\ describable bases metre_text (Identifier (u "meter")).
Proof. split; [apply C20_log|apply C20_metre]. Qed.

(** C24.  Plain units: one factor, a non-zero rational fixed by the units. *)
Lemma rated_measurable e : rated e -> measurable e.
Proof. destruct e; simpl; tauto. Qed.

Theorem C24_plain_conversion_is_one_factor :
  forall dl x y e1 e2, describable dl x e1 -> describable dl y e2 -> rated e1 -> rated e2 ->
  (forall s, symexp e1 s = symexp e2 s) ->
  exists cv k, mk_converter (AUnit x) (AUnit y) = Ok cv /\ Q2R k = (factor e1 / factor e2)%R /\ Q2R k <> 0%R /\
    forall v, convert cv v = Ok (Q2R k * v)%R.
Proof.
  intros dl x y e1 e2 D1 D2 R1 R2 S. destruct (describable_direct dl x y e1 e2 D1 D2 S) as (cv & C & M).
  destruct (rated_mono e1 R1) as (s1 & m1 & _ & _ & G1 & K1 & _). destruct (rated_mono e2 R2) as (s2 & m2 & _ & _ & G2 & K2 & _).
  exists cv, (m_coef m1 / m_coef m2)%Q.
  assert (K : Q2R (m_coef m1 / m_coef m2) = (factor e1 / factor e2)%R).
  { unfold Qdiv. rewrite Q2R_mult, Q2R_inv_total by apply G2. now rewrite K1, K2. }
  assert (F1 := rated_factor _ R1). assert (F2 := rated_factor _ R2). rewrite K. split; auto. split; auto. split.
  - apply Rmult_integral_contrapositive. split; auto. now apply Rinv_neq_0_compat.
  - intro v. apply M. rewrite !rated_quantity by auto. field. auto.
Qed.

Theorem C24_inverse_plain_conversion_is_one_factor :
  forall dl x y e1 e2, describable dl x e1 -> describable dl y e2 -> rated e1 -> rated e2 ->
  (forall s, symexp e1 s = - symexp e2 s)%Z -> (exists s, dl s = false /\ symexp e1 s <> 0%Z) ->
  exists cv k, mk_converter (AUnit x) (AUnit y) = Ok cv /\ Q2R k = (/ (factor e1 * factor e2))%R /\ Q2R k <> 0%R /\
    forall v, v <> 0%R -> convert cv v = Ok (Q2R k / v)%R.
Proof.
  intros dl x y e1 e2 D1 D2 R1 R2 S S0. destruct (describable_inverse dl x y e1 e2 D1 D2 S S0) as (cv & C & M).
  destruct (rated_mono e1 R1) as (s1 & m1 & _ & _ & G1 & K1 & _). destruct (rated_mono e2 R2) as (s2 & m2 & _ & _ & G2 & K2 & _).
  assert (F1 := rated_factor _ R1). assert (F2 := rated_factor _ R2).
  exists cv, (/ (m_coef m1 * m_coef m2))%Q.
  assert (P : (factor e1 * factor e2 <> 0)%R) by now apply Rmult_integral_contrapositive.
  assert (K : Q2R (/ (m_coef m1 * m_coef m2)) = (/ (factor e1 * factor e2))%R).
  { rewrite Q2R_inv_total, Q2R_mult, K1, K2; auto. rewrite Q2R_mult, K1, K2. auto. }
  rewrite K. split; auto. split; auto. split; [now apply Rinv_neq_0_compat|].
  intros v Hv. apply M. rewrite !rated_quantity by auto. split; [now apply Rmult_integral_contrapositive|]. field. auto.
Qed.

Lemma C24_km : describable bases km (Multiply (Number (NDec (mkDec false 1 3)) (Some (u "1e3"))) (Identifier (u "meter"))).
Proof.
  split; [exact Logic.I|]. split; [|split; [|split]].
  - apply (prefixed_exps (u "kilo") (u "m") (u "1e3") metre); [discriminate|constructor].
  - constructor. intros s y F _. simpl in F. destruct (str_eqb s (u "kilo")); [discriminate|]. destruct (str_eqb s (u "m")); [|discriminate].
    injection F as <-. now constructor.
  - vm_compute. reflexivity.
  - split; [split; [exact Logic.I|]|].
    + cbn [num_R]. replace (dec_Q (mkDec false 1 3)) with (1000 # 1)%Q by (vm_compute; reflexivity). unfold Q2R; simpl; lra.
    + apply own_dec. reflexivity.
Qed.

Example C24_example : exists cv, mk_converter (AUnit km) (AUnit metre_text) = Ok cv /\ convertQ cv 3 = Ok (3000 # 1)%Q.
Proof. eexists. split; [vm_compute; reflexivity|vm_compute; reflexivity]. Qed.

(** C25.  From prefix+unit to unit: multiplication by the value of the prefix. *)
Lemma named_describable dl k y e : sound_unit y -> bases_agree dl y -> expanded y = Ok e -> measurable e ->
  describable dl (named k y) e.
Proof.
  intros S B E M. assert (F : find_ref k [(k, RUnit y)] = Some (RUnit y)) by (simpl; now rewrite str_eqb_refl).
  split; [exact Logic.I|]. split; [|split; [|split]]; auto.
  - apply sound_plain; [exact Logic.I|]. split; intros s; simpl.
    + intros ->. now rewrite str_eqb_refl.
    + intros z. destruct (str_eqb s k); [|discriminate]. intro H. injection H as <-. auto.
  - constructor. intros s z. simpl. destruct (str_eqb s k); [|discriminate]. intro H. injection H as <-. auto.
  - unfold named. rewrite expanded_expr. cbn [expand_refs expand_ref]. rewrite E. cbn [bind subst dget]. now rewrite str_eqb_refl.
Qed.

Lemma prefixed_expanded key p k y x d e : key <> k -> prefixed_unit key p k y = Ok x ->
  py_decimal (pf_value p) = Ok d -> expanded y = Ok e ->
  expanded x = Ok (Multiply (Number (NDec d) (Some (pf_value p))) e).
Proof.
  intros N E P Ey. unfold prefixed_unit in E. apply mk_unit_iff in E as [-> _]. rewrite expanded_expr.
  cbn [dset]. assert (K : str_eqb k key = false) by (apply str_eqb_neq; auto). rewrite K.
  cbn [expand_refs expand_ref]. unfold prefix_expanded. rewrite P. cbn [bind]. rewrite Ey. cbn [bind subst dget].
  now rewrite str_eqb_refl, K, str_eqb_refl.
Qed.

Theorem C25_prefix_multiplies_by_its_value :
  forall dl key p k full y x d e, key <> k -> prefixed_unit key p k y = Ok x ->
  py_decimal (pf_value p) = Ok d -> Q2R (dec_Q d) <> 0%R ->
  sound_unit y -> bases_agree dl y -> expanded y = Ok e -> rated e ->
  exists cv, mk_converter (AUnit (named full x)) (AUnit (named k y)) = Ok cv /\
    forall v, convert cv v = Ok (Q2R (dec_Q d) * v)%R.
Proof.
  intros dl key p k full y x d e N E P D0 S B Ey R.
  assert (Ex := prefixed_expanded key p k y x d e N E P Ey).
  unfold prefixed_unit in E. apply mk_unit_iff in E as [-> _].
  destruct (prefixed_exps key k (pf_value p) y N S) as [S' _].
  assert (Rx : rated (Multiply (Number (NDec d) (Some (pf_value p))) e)) by (split; [split; [exact Logic.I|auto]|auto]).
  assert (F := rated_factor e R).
  destruct (describable_direct dl (named full (UExpr (Multiply (Identifier key) (Identifier k)) (dset k (RUnit y) [(key, RPrefix (pf_value p))])))
     (named k y) (Multiply (Number (NDec d) (Some (pf_value p))) e) e) as (cv & C & M).
  - apply named_describable; [exact S'| |exact Ex|exact Rx].
    constructor. intros s z H _. cbn [dset] in H. assert (K : str_eqb k key = false) by (apply str_eqb_neq; auto). rewrite K in H.
    simpl in H. destruct (str_eqb s key); [discriminate|]. destruct (str_eqb s k); [|discriminate]. injection H as <-. auto.
  - apply named_describable; auto. now apply rated_measurable.
  - intro s. reflexivity.
  - exists cv. split; auto. intro v. apply M. rewrite !rated_quantity by auto. cbn [factor num_R]. ring.
Qed.

Example C25_example :
  (exists x, prefixed_unit (u "k") (mkPrefix (u "kilo") (u "1e3") [u "k"]) (u "m") metre = Ok x) /\
  py_decimal (u "1e3") = Ok (mkDec false 1 3) /\ rated (Identifier (u "meter")).
Proof. split; [eexists; vm_compute; reflexivity|]. split; [vm_compute; reflexivity|]. apply own_dec. reflexivity. Qed.

(** C26.  n times a unit that is a pure factor is n of it ... *)
Theorem C26_scaling_a_plain_unit :
  forall dl x y n raw e, describable dl x (Multiply (Number n raw) e) -> describable dl y e ->
  rated (Number n raw) -> rated e ->
  exists cv, mk_converter (AUnit x) (AUnit y) = Ok cv /\ forall v, convert cv v = Ok (num_R n * v)%R.
Proof.
  intros dl x y n raw e D1 D2 Rn R.
  assert (F := rated_factor e R).
  destruct (describable_direct dl x y _ e D1 D2) as (cv & C & M); [reflexivity|].
  exists cv. split; auto. intro v. apply M. rewrite !rated_quantity by (auto; split; auto). cbn [factor num_R]. ring.
Qed.
Definition three_km := UExpr (Multiply (Int 3) (I "km")) [(u "km", RUnit km)].
Example C26_example_plain : expanded three_km = Ok (Multiply (Int 3) (Multiply (Number (NDec (mkDec false 1 3)) (Some (u "1e3"))) (Identifier (u "meter")))) /\
  exists cv, mk_converter (AUnit three_km) (AUnit (named (u "km") km)) = Ok cv /\ convertQ cv 5 = Ok (15 # 1)%Q.
Proof. split; [vm_compute; reflexivity|]. eexists. split; vm_compute; reflexivity. Qed.

(** ... but n times a shifted or logarithmic unit is that unit without its shift, and the
    value is divided by n. *)
Theorem C26_scaling_a_transformed_unit :
  forall a b da db n raw t e2, has_dims a da -> has_dims b db -> (forall s, dval da s = dval db s) ->
  expanded (core a) = Ok (Multiply (Number n raw) t) -> transformed t -> numeric n -> num_R n <> 0%R ->
  expanded (core b) = Ok e2 -> measurable e2 -> (forall s, symexp t s = symexp e2 s) ->
  exists cv, mk_converter a b = Ok cv /\
    forall v w, convert cv v = Ok w <-> quantity e2 w = quantity (unshifted t) (v / num_R n).
Proof. exact scaled_meaning. Qed.

(** ... so 1 of "2 lg(re m)" is not 100 m, and 10 of "2 degC" is 5 K. *)
Definition two_log := UExpr (Multiply (Int 2) (Logarithm (u "lg") (I "m"))) basics.
Example C26_two_log : exists cv, mk_converter (AUnit two_log) (AUnit metre_text) = Ok cv /\
  convert cv 1 = Ok (Rpower 10 (1 / 2)).
Proof.
  assert (H : has_dims (AUnit two_log) [((u "meter", false), 1%Z)]) by (vm_compute; reflexivity).
  assert (H' : has_dims (AUnit metre_text) [((u "meter", false), 1%Z)]) by (vm_compute; reflexivity).
  destruct (C26_scaling_a_transformed_unit (AUnit two_log) (AUnit metre_text) _ _ (NInt 2) (Some (u "2"))
     (Logarithm (u "lg") (Identifier (u "meter"))) (Identifier (u "meter")) H H') as (cv & C & M); auto; try reflexivity.
  - split; [discriminate|]. apply own_dec. reflexivity.
  - simpl. lra.
  - apply own_dec. reflexivity.
  - exists cv. split; auto. apply M. cbn [quantity unshifted]. 
    replace (log_base_R (u "lg")) with (Some 10%R) by reflexivity. cbn [quantity factor num_R]. reflexivity.
Qed.

Example C26_two_degC : exists cv,
  mk_converter (AUnit (UExpr (Multiply (Int 2) (I "degC")) [(u "degC", RUnit degC)])) (AUnit kel) = Ok cv /\
  convertQ cv 10 = Ok (5 # 1)%Q.
Proof. eexists. split; [vm_compute; reflexivity|vm_compute; reflexivity]. Qed.

(** The product of a shifted unit with another unit has the dimensionality of the shifted
    unit alone. *)
Theorem C26_product_with_a_shifted_unit :
  forall a s b refs, plain a -> plain b ->
  udims (UExpr (Multiply (Shift a s) b) refs) = udims (UExpr a refs) /\
  udims (UExpr (Multiply b (Shift a s)) refs) = udims (UExpr a refs).
Proof. exact product_loses_dims. Qed.

(** C70 is false: 1 of "2 lg(re m)" is not 100 m, 10 of "2 degC" is 5 K, and "(K @ 5) m" has the
    dimensionality of K. *)
Theorem C70_scaling_refuted :
  (exists cv, mk_converter (AUnit two_log) (AUnit metre_text) = Ok cv /\ convert cv 1 = Ok (Rpower 10 (1 / 2))) /\
  (exists cv, mk_converter (AUnit (UExpr (Multiply (Int 2) (I "degC")) [(u "degC", RUnit degC)])) (AUnit kel) = Ok cv /\
     convertQ cv 10 = Ok (5 # 1)%Q) /\
  udims (UExpr (Multiply (Shift (I "K") (Int 5)) (I "m")) basics) = Ok [((u "kelvin", false), 1%Z)].
Proof. split; [exact C26_two_log|]. split; [exact C26_two_degC|]. vm_compute. reflexivity. Qed.

(** C27.  two units of equal dimensionality convert iff the
    exponents of every dimensionless basis unit agree too; otherwise every value is a
    NameError. *)
Theorem C27_dimensionless_basis_units_must_match :
  forall a b da db e1 e2, has_dims a da -> has_dims b db -> (forall s, dval da s = dval db s) ->
  expanded (core a) = Ok e1 -> expanded (core b) = Ok e2 -> measurable e1 -> measurable e2 ->
  exists cv, mk_converter a b = Ok cv /\
   ((forall s, symexp e1 s = symexp e2 s) -> forall v w, convert cv v = Ok w <-> quantity e2 w = quantity e1 v) /\
   (~ (forall s, symexp e1 s = symexp e2 s) -> forall v, convert cv v = Err EName).
Proof. exact meaning_direct. Qed.

Theorem C52_radian_to_number_refuted :
  exists cv, mk_converter (AUnit (UExpr (I "rad") basics)) (AUnit (UExpr (Int 1) [])) = Ok cv /\
    forall v, convert cv v = Err EName.
Proof.
  destruct (C27_dimensionless_basis_units_must_match (AUnit (UExpr (I "rad") basics)) (AUnit (UExpr (Int 1) [])) [] []
    (Identifier (u "radian")) (Int 1)) as (cv & C & _ & M); auto; try (vm_compute; reflexivity).
  - apply own_dec. reflexivity.
  - split; [exact Logic.I|simpl; lra].
  - exists cv. split; auto. apply M. intro H. specialize (H (u "radian")). vm_compute in H. discriminate.
Qed.

(** C28.  Equality is reflexive and symmetric, and sound when the texts differ. *)
Theorem C28_equality_reflexive : forall x, unit_eq x x = Ok true.
Proof. intro x. unfold unit_eq. now rewrite str_eqb_refl. Qed.

Theorem C28_equality_symmetric : forall x y r, unit_eq x y = Ok r -> unit_eq y x = Ok r.
Proof. exact unit_eq_sym. Qed.

Theorem C28_equality_sound_when_texts_differ :
  forall x y e1 e2, unit_eq x y = Ok true -> unit_str x <> unit_str y ->
  expanded x = Ok e1 -> expanded y = Ok e2 -> measurable e1 -> measurable e2 ->
  (forall s, symexp e1 s = symexp e2 s) /\ forall v, quantity e1 v = quantity e2 v.
Proof.
  intros x y e1 e2 H N. apply unit_eq_meaning; auto. destruct x, y; exact N.
Qed.

(** C28.  Definitions that are alike give equal units, however they are written. *)
Theorem C28_equality_complete :
  forall x y e1 e2, expanded x = Ok e1 -> expanded y = Ok e2 -> same_measure e1 e2 -> unit_eq x y = Ok true.
Proof. exact unit_eq_complete. Qed.

(** C74.  Equality that does not come from the texts is transitive. *)
Theorem C74_equality_transitive_when_texts_differ :
  forall x y z, unit_str x <> unit_str y -> unit_str y <> unit_str z ->
  unit_eq x y = Ok true -> unit_eq y z = Ok true -> unit_eq x z = Ok true.
Proof. intros x y z A B. apply unit_eq_trans; [destruct x, y; exact A|destruct y, z; exact B]. Qed.

(** C75 is false: "m/(s K)" = "m/s K" (same text) and "m/s K" = "K m/s", yet "m/(s K)" differs
    from "K m/s". *)
Theorem C75_equality_not_transitive_refuted :
  exists x y z dx dy dz, parse (u "m/(s K)") = Ok dx /\ parse (u "m/s K") = Ok dy /\ parse (u "K m/s") = Ok dz /\
    x = UExpr dx basics /\ y = UExpr dy basics /\ z = UExpr dz basics /\
    unit_eq x y = Ok true /\ unit_eq y z = Ok true /\ unit_eq x z = Ok false.
Proof.
  destruct (parse (u "m/(s K)")) as [dx|] eqn:X; [|vm_compute in X; discriminate].
  destruct (parse (u "m/s K")) as [dy|] eqn:Y; [|vm_compute in Y; discriminate].
  destruct (parse (u "K m/s")) as [dz|] eqn:Z; [|vm_compute in Z; discriminate].
  vm_compute in X. injection X as <-. vm_compute in Y. injection Y as <-. vm_compute in Z. injection Z as <-.
  eexists _, _, _, _, _, _. split; [reflexivity|]. split; [reflexivity|]. split; [reflexivity|].
  split; [reflexivity|]. split; [reflexivity|]. split; [reflexivity|].
  split; [vm_compute; reflexivity|]. split; vm_compute; reflexivity.
Qed.

(** Two texts of a shifted logarithmic scale. *)
Example C28_complete_example :
  let a := UExpr (Shift (Logarithm (u "ln") (Multiply (Int 1000) (I "m"))) (Int 5)) basics in
  let b := UExpr (Shift (Logarithm (u "log") (Multiply (I "m") (Multiply (Int 10) (Int 100)))) (Int 5)) basics in
  unit_str a <> unit_str b /\ exists e1 e2, expanded a = Ok e1 /\ expanded b = Ok e2 /\ same_measure e1 e2.
Proof.
  split; [vm_compute; discriminate|].
  exists (Shift (Logarithm (u "ln") (Multiply (Int 1000) (Identifier (u "meter")))) (Int 5)).
  exists (Shift (Logarithm (u "log") (Multiply (Identifier (u "meter")) (Multiply (Int 10) (Int 100)))) (Int 5)).
  split; [vm_compute; reflexivity|]. split; [vm_compute; reflexivity|].
  assert (NM : ~ In (u "meter") own_names) by (apply own_dec; reflexivity).
  constructor; [|reflexivity]. constructor; [discriminate|reflexivity|]. apply SS_product.
  - split; [split; [exact Logic.I|cbn; lra]|exact NM].
  - split; [exact NM|]. split; (split; [exact Logic.I|cbn; lra]).
  - cbn. lra.
  - intro s. unfold symexp. cbn. lia.
Qed.

(** C53 is false: "m/(s K)" and "m/s K" are equal, with different
    dimensionalities, in one and the same system. *)
Theorem C53_equal_text_different_unit_refuted :
  exists x y dx dy, parse (u "m/(s K)") = Ok (definition_of x) /\ parse (u "m/s K") = Ok (definition_of y) /\
    (exists dx' dy', x = UExpr dx' basics /\ y = UExpr dy' basics) /\
    unit_eq x y = Ok true /\ udims x = Ok dx /\ udims y = Ok dy /\ dims_eqb dx dy = false /\
    is_convertible_to (AUnit x) (AUnit y) = Ok false.
Proof.
  exists (UExpr (Divide (I "m") (Multiply (I "s") (I "K"))) basics), (UExpr (Multiply (Divide (I "m") (I "s")) (I "K")) basics).
  eexists. eexists. split; [vm_compute; reflexivity|]. split; [vm_compute; reflexivity|].
  split; [eexists; eexists; split; reflexivity|]. split; [vm_compute; reflexivity|]. split; [vm_compute; reflexivity|].
  split; [vm_compute; reflexivity|]. split; vm_compute; reflexivity.
Qed.

Example C28_example : unit_eq km (UExpr (Multiply (Int 1000) (I "m")) basics) = Ok true /\
  unit_str km <> unit_str (UExpr (Multiply (Int 1000) (I "m")) basics).
Proof. split; [vm_compute; reflexivity|vm_compute; discriminate]. Qed.

Print Assumptions C20_conversion_preserves_the_quantity.
Print Assumptions C20_inverse_conversion_gives_the_reciprocal.
Print Assumptions C21_identity.
Print Assumptions C21_identity_of_any_unit.
Print Assumptions C22_round_trip.
Print Assumptions C22_round_trip_of_any_units.
Print Assumptions C23_conversions_compose.
Print Assumptions C23_conversions_of_any_units_compose.
Print Assumptions C24_plain_conversion_is_one_factor.
Print Assumptions C24_inverse_plain_conversion_is_one_factor.
Print Assumptions C25_prefix_multiplies_by_its_value.
Print Assumptions C26_scaling_a_plain_unit.
Print Assumptions C26_scaling_a_transformed_unit.
Print Assumptions C26_product_with_a_shifted_unit.
Print Assumptions C70_scaling_refuted.
Print Assumptions C27_dimensionless_basis_units_must_match.
Print Assumptions C52_radian_to_number_refuted.
Print Assumptions C28_equality_reflexive.
Print Assumptions C28_equality_symmetric.
Print Assumptions C28_equality_sound_when_texts_differ.
Print Assumptions C28_equality_complete.
Print Assumptions C74_equality_transitive_when_texts_differ.
Print Assumptions C75_equality_not_transitive_refuted.
Print Assumptions C53_equal_text_different_unit_refuted.
