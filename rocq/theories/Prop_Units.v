(** * C10-C18, C47: construction, dates, dimensionality, convertibility. *)
From Verif Require Import PyBase PyNum Graph Lexer Parser Visitor Expr Units UnitSpec UnitFacts UnitProofs
  Sympy Convert UnitSystem.
From Coq Require Import QArith.
Open Scope Z_scope.

(** Units used in the examples. *)
Definition metre := UBasis (u "meter") false false.
Definition second := UBasis (u "second") false true.
Definition kelvin := UBasis (u "kelvin") false false.
Definition radian := UBasis (u "radian") true false.
Definition basics : list (str * uref) :=
  [(u "m", RUnit metre); (u "s", RUnit second); (u "K", RUnit kelvin); (u "rad", RUnit radian)].
Definition I (s : string) := Identifier (u s).
Definition Int (z : Z) := Number (NInt z) (Some (Z_str z)).
(* km = kilo m; day = 86400 s; degC = K @ 273.15 *)
Definition km := UExpr (Multiply (I "kilo") (I "m")) [(u "kilo", RPrefix (u "1e3")); (u "m", RUnit metre)].
Definition day := UExpr (Multiply (Int 86400) (I "s")) basics.
Definition degC := UExpr (Shift (I "K") (Number (NDec (mkDec false 27315 (-2))) (Some (u "273.15")))) basics.
(* m s^-2 rad via km *)
Definition accel_node := Divide (Multiply (I "km") (I "rad")) (Raise (I "s") (Int 2)).
Definition accel := UExpr accel_node ((u "km", RUnit km) :: basics).

(** C10.  Construction never changes the definition: it succeeds iff the definition is
    acceptable, the normalised graph is the graph given, and str is that of the graph. *)
Theorem C10_construction_is_validation_only :
  forall d refs,
  (forall x, mk_unit d refs = Ok x <-> x = UExpr d refs /\ acceptable refs d) /\
  (forall e, normalised refs d = Ok e -> e = d) /\
  (forall x, mk_unit d refs = Ok x -> unit_str x = node_str d).
Proof.
  intros d refs. split; [intro x; apply mk_unit_iff|]. split; [apply normalised_same|].
  intros x E. apply mk_unit_iff in E as [-> _]. reflexivity.
Qed.

Example C10_example : mk_unit (Shift (I "K") (Int 5)) basics = Ok (UExpr (Shift (I "K") (Int 5)) basics).
Proof. vm_compute. reflexivity. Qed.

(** C11.  A date unit is returned exactly for a top-level shift of an acceptable unit whose
    dimensionality is one time basis to the power one; its reference is the written text. *)
Theorem C11_dates_recognised_exactly :
  forall e refs x r,
  unit_from_expression e refs = Ok (ADate x r) <->
  exists a s b, e = Shift a s /\ x = UExpr a refs /\ acceptable refs a /\
    udims (UExpr a refs) = Ok [((b, true), 1)] /\
    ((exists v, s = Number v (Some r)) \/ s = Unhandled r).
Proof.
  intros e refs x r. rewrite date_iff. split.
  - intros (a & s & E & X & A & T & S). rewrite is_time_expr in T.
    destruct (udims (UExpr a refs)) as [d|] eqn:D; [|discriminate]. cbn [bind] in T. injection T as T.
    apply dims_time_iff in T as [b ->]. exists a, s, b. auto.
  - intros (a & s & b & E & X & A & D & S). exists a, s. rewrite is_time_expr, D. auto.
Qed.

(** C11, the other outcome: a plain unit has exactly the written definition. *)
Theorem C11_other_units_are_the_expression :
  forall e refs x, unit_from_expression e refs = Ok (AUnit x) <-> x = UExpr e refs /\ acceptable refs e.
Proof. exact unit_iff. Qed.

Example C11_example :
  (exists e, parse (u "s @ 1990-1-1 12:00") = Ok e /\
    unit_from_expression e basics = Ok (ADate (UExpr (I "s") basics) (u "1990-1-1 12:00"))) /\
  unit_from_expression (Shift (I "K") (Int 5)) basics = Ok (AUnit (UExpr (Shift (I "K") (Int 5)) basics)).
Proof.
  split; [eexists; split; [vm_compute; reflexivity|]|]; vm_compute; reflexivity.
Qed.

(** C12.  No unit contains, at any depth, a shift by something that is not a number or a
    shift of a time unit. *)
Theorem C12_nested_dates_refused :
  forall d refs x a s, mk_unit d refs = Ok x -> sub (Shift a s) d ->
  (exists v r, s = Number v r) /\ (forall b, udims (UExpr a refs) <> Ok [((b, true), 1)]).
Proof.
  intros d refs x a s E S. apply mk_unit_iff in E as [_ A].
  destruct (acceptable_sub refs d a s A S) as [N T]. split; auto. intros b D.
  rewrite is_time_expr, D in T. discriminate.
Qed.

Example C12_example :
  mk_unit (Logarithm (u "lg") (Shift (I "s") (Int 5))) basics = Err (EValue VE_nested_date) /\
  mk_unit (Multiply (I "m") (Shift (I "K") (Unhandled (u "1990-1-1")))) basics = Err (EValue VE_shift_not_number).
Proof. split; vm_compute; reflexivity. Qed.

(** C13. *)
Theorem C13_date_units_convertible_to_nothing :
  forall x r b, is_convertible_to (ADate x r) b = Ok false /\
    (match b with ADate _ _ => True | AUnit y => is_convertible_to (AUnit y) (ADate x r) = Ok false end).
Proof. intros x r [y|y r']; simpl; auto. Qed.

(** C49 is false: a Converter between date units ignores the references. *)
Theorem C49_reference_dates_are_ignored_refuted :
  forall x y r1 r2 r1' r2',
  mk_converter (ADate x r1) (ADate y r2) = mk_converter (ADate x r1') (ADate y r2').
Proof. reflexivity. Qed.

Example C49_days_since_2000_to_days_since_2001 :
  exists c, mk_converter (ADate day (u "2000-1-1")) (ADate day (u "2001-1-1")) = Ok c /\
    convertQ c 1 = Ok (1%Q).
Proof. eexists. split; [vm_compute; reflexivity|vm_compute; reflexivity]. Qed.

(** C14.  For products, quotients and integer powers of resolved identifiers and numbers the
    dimensionality is defined and is the sum, difference, multiple; numbers contribute 0. *)
Theorem C14_dimensionality_homomorphism :
  forall refs a b z r, plain a -> plain b -> resolved a refs -> resolved b refs ->
  exists da db dm dd dp,
    udims (UExpr a refs) = Ok da /\ udims (UExpr b refs) = Ok db /\
    udims (UExpr (Multiply a b) refs) = Ok dm /\ udims (UExpr (Divide a b) refs) = Ok dd /\
    udims (UExpr (Raise a (Number (NInt z) r)) refs) = Ok dp /\
    forall k, dval dm k = dval da k + dval db k /\ dval dd k = dval da k - dval db k /\
              dval dp k = z * dval da k.
Proof.
  intros refs a b z r Pa Pb [Ra Sa] [Rb Sb].
  destruct (dims_of_plain a refs Pa (conj Ra Sa)) as (da & Ea & Va).
  destruct (dims_of_plain b refs Pb (conj Rb Sb)) as (db & Eb & Vb).
  assert (R2 : forall s, occurs s a \/ occurs s b -> find_ref s refs <> None) by (intros s [H|H]; auto).
  assert (S2 : forall s y, find_ref s refs = Some (RUnit y) -> occurs s a \/ occurs s b -> sound_unit y)
    by (intros s y F [H|H]; eauto).
  destruct (dims_of_plain (Multiply a b) refs (conj Pa Pb) (conj R2 S2)) as (dm & Em & Vm).
  destruct (dims_of_plain (Divide a b) refs (conj Pa Pb) (conj R2 S2)) as (dd & Ed & Vd).
  destruct (dims_of_plain (Raise a (Number (NInt z) r)) refs) as (dp & Ep & Vp).
  { simpl; eauto. }
  { split; [intros s [H|[]]; auto|intros s y F [H|[]]; eauto]. }
  exists da, db, dm, dd, dp. repeat split; auto; intros; rewrite ?Vm, ?Vd, ?Vp, ?Va, ?Vb; reflexivity.
Qed.

Theorem C14_numbers_have_no_dimension :
  forall v r refs, udims (UExpr (Number v r) refs) = Ok [].
Proof. reflexivity. Qed.

Theorem C14_no_zero_entries :
  forall x d, udims x = Ok d -> NoDup (map (fun e => fst (fst e)) d) /\ Forall (fun e => snd e <> 0) d.
Proof. exact udims_wf. Qed.

(** C14, at any depth of definitions: the dimensionality is the non-zero part of the
    exponents the specification computes through all definitions. *)
Theorem C14_dimensionality_through_definitions :
  forall x, sound_unit x -> exists d, udims x = Ok d /\ represents d (exps x).
Proof. exact udims_sound. Qed.

Lemma basics_sound : forall s y, find_ref s basics = Some (RUnit y) -> sound_unit y.
Proof.
  intros s y. unfold basics. simpl.
  repeat match goal with |- (if ?c then _ else _) = _ -> _ => destruct c; [intro E; injection E as <-; constructor|] end.
  discriminate.
Qed.

Lemma C14_example_sound : sound_unit accel.
Proof.
  apply sound_plain; [simpl; repeat split; eexists; eexists; reflexivity|]. split.
  - intros s H. simpl in H. destruct H as [[H|H]|[H|[]]]; subst s; vm_compute; discriminate.
  - intros s y F _. unfold accel in F. simpl in F. destruct (str_eqb s (u "km")).
    + injection F as <-. apply (prefixed_exps (u "kilo") (u "m") (u "1e3") metre); [discriminate|constructor].
    + eapply basics_sound. exact F.
Qed.

Example C14_example : udims accel = Ok [((u "meter", false), 1); ((u "second", true), -2)].
Proof. vm_compute. reflexivity. Qed.

(** C15.  The dimensionality equals the exponents of the dimensional basis units in the
    fully expanded definition. *)
Theorem C15_dimensionality_of_expanded_definition :
  forall x dl e, sound_unit x -> bases_agree dl x -> expanded x = Ok e ->
  exists d, udims x = Ok d /\ forall b, dval d b = gdim (basis_exps dl) e b.
Proof.
  intros x dl e S B E. destruct (udims_sound x S) as (d & Ed & R). exists d. split; auto.
  intro b. rewrite (represents_val d _ R). now apply exps_expanded.
Qed.

Example C15_example :
  bases_agree (fun s => str_eqb s (u "radian")) accel /\
  expanded accel = Ok (Divide (Multiply (Multiply (Number (NDec (mkDec false 1 3)) (Some (u "1e3")))
     (Identifier (u "meter"))) (Identifier (u "radian"))) (Raise (Identifier (u "second")) (Int 2))).
Proof.
  split; [|vm_compute; reflexivity]. constructor. intros s y F _. simpl in F.
  repeat match type of F with (if ?c then _ else _) = _ => destruct c; [injection F as <-|] end; try discriminate;
    try (constructor; reflexivity).
  constructor. intros s' y' F' _. simpl in F'.
  repeat match type of F' with (if ?c then _ else _) = _ => destruct c; [injection F' as <- || discriminate|] end; try discriminate;
    constructor; reflexivity.
Qed.

(** C16.  Scale factors never change the dimensionality (also of shifted and logarithmic
    units). *)
Theorem C16_scale_factors_keep_dimensionality :
  forall d refs v r, sound_unit (UExpr d refs) ->
  exists m m1 m2 m3, udims (UExpr d refs) = Ok m /\
    udims (UExpr (Multiply (Number v r) d) refs) = Ok m1 /\
    udims (UExpr (Multiply d (Number v r)) refs) = Ok m2 /\
    udims (UExpr (Divide d (Number v r)) refs) = Ok m3 /\
    forall b, dval m1 b = dval m b /\ dval m2 b = dval m b /\ dval m3 b = dval m b.
Proof.
  intros d refs v r S. destruct (sound_scaled v r d refs S) as (S1 & S2 & S3).
  destruct (dims_of_sound _ _ S) as (m & E & V). destruct (dims_of_sound _ _ S1) as (m1 & E1 & V1).
  destruct (dims_of_sound _ _ S2) as (m2 & E2 & V2). destruct (dims_of_sound _ _ S3) as (m3 & E3 & V3).
  exists m, m1, m2, m3. repeat split; auto; rewrite ?V1, ?V2, ?V3, V; simpl; lia.
Qed.

(** C16.  A prefixed unit has the dimensionality of the unit when prefix and unit are
    written differently. *)
Theorem C16_prefix_keeps_dimensionality :
  forall key p k y x, key <> k -> sound_unit y -> prefixed_unit key p k y = Ok x ->
  exists dx dy, udims x = Ok dx /\ udims y = Ok dy /\ forall b, dval dx b = dval dy b.
Proof.
  intros key p k y x N S E. unfold prefixed_unit in E. apply mk_unit_iff in E as [-> _].
  destruct (prefixed_exps key k (pf_value p) y N S) as [S' V].
  destruct (udims_sound _ S') as (dx & Ex & Rx). destruct (udims_sound _ S) as (dy & Ey & Ry).
  exists dx, dy. split; [exact Ex|]. split; [exact Ey|]. intro b.
  rewrite (represents_val _ _ Rx), (represents_val _ _ Ry). apply V.
Qed.

(** C50 is false: it is squared when they are the same text, as in "mm". *)
Theorem C50_same_spelling_squares_dimensionality_refuted :
  forall p k y x, sound_unit y -> prefixed_unit k p k y = Ok x ->
  exists dx dy, udims x = Ok dx /\ udims y = Ok dy /\ forall b, dval dx b = 2 * dval dy b.
Proof.
  intros p k y x S E. unfold prefixed_unit in E. apply mk_unit_iff in E as [-> _].
  destruct (prefixed_collision k (pf_value p) y S) as [S' V].
  destruct (udims_sound _ S') as (dx & Ex & Rx). destruct (udims_sound _ S) as (dy & Ey & Ry).
  exists dx, dy. split; [exact Ex|]. split; [exact Ey|]. intro b.
  rewrite (represents_val _ _ Rx), (represents_val _ _ Ry). apply V.
Qed.

Example C16_examples :
  sound_unit degC /\
  (exists x, prefixed_unit (u "milli") (mkPrefix (u "milli") (u "1e-3") [u "m"]) (u "m") metre = Ok x) /\
  (exists x, prefixed_unit (u "m") (mkPrefix (u "milli") (u "1e-3") [u "m"]) (u "m") metre = Ok x /\
             udims x = Ok [((u "meter", false), 2)]).
Proof.
  split; [|split; eexists].
  - constructor; simpl; auto.
    + intros s ->. vm_compute. discriminate.
    + intros s y F _. eapply basics_sound, F.
  - vm_compute. reflexivity.
  - split; vm_compute; reflexivity.
Qed.

(** C17.  Between units (not dates) is_convertible_to is reflexive, symmetric, transitive. *)
Theorem C17_convertible_reflexive :
  forall x d, is_expr_unit x -> udims x = Ok d -> is_convertible_to (AUnit x) (AUnit x) = Ok true.
Proof.
  intros x d H E. destruct (convertible_dims x x d d H H E E) as (r & -> & R).
  f_equal. apply R, interconvertible_refl.
Qed.

Theorem C17_convertible_symmetric :
  forall x y r, is_expr_unit x -> is_expr_unit y ->
  is_convertible_to (AUnit x) (AUnit y) = Ok r -> is_convertible_to (AUnit y) (AUnit x) = Ok r.
Proof.
  intros x y r Hx Hy E. destruct (convertible_inv _ _ _ E) as (dx & dy & Ex & Ey).
  destruct (convertible_dims x y dx dy Hx Hy Ex Ey) as (r1 & E1 & R1).
  destruct (convertible_dims y x dy dx Hy Hx Ey Ex) as (r2 & E2 & R2).
  rewrite E in E1. injection E1 as <-. rewrite E2. f_equal.
  assert (r2 = true <-> r = true).
  { rewrite R1, R2. split; apply interconvertible_sym. }
  destruct r, r2; auto; [apply H; reflexivity|symmetry; apply H; reflexivity].
Qed.

Theorem C17_convertible_transitive :
  forall x y z, is_expr_unit x -> is_expr_unit y -> is_expr_unit z ->
  is_convertible_to (AUnit x) (AUnit y) = Ok true -> is_convertible_to (AUnit y) (AUnit z) = Ok true ->
  is_convertible_to (AUnit x) (AUnit z) = Ok true.
Proof.
  intros x y z Hx Hy Hz E F. destruct (convertible_inv _ _ _ E) as (dx & dy & Ex & Ey).
  destruct (convertible_inv _ _ _ F) as (dy' & dz & Ey' & Ez). rewrite Ey in Ey'. injection Ey' as <-.
  destruct (convertible_dims x y dx dy Hx Hy Ex Ey) as (r1 & E1 & R1).
  destruct (convertible_dims y z dy dz Hy Hz Ey Ez) as (r2 & E2 & R2).
  destruct (convertible_dims x z dx dz Hx Hz Ex Ez) as (r3 & E3 & R3).
  rewrite E in E1. injection E1 as <-. rewrite F in E2. injection E2 as <-.
  rewrite E3. f_equal. apply R3. eapply interconvertible_trans; [apply R1|apply R2]; auto.
Qed.

(** C17.  What it means: the exponents through all definitions are equal or opposite. *)
Theorem C17_convertible_means_same_or_inverse_dimension :
  forall x y, is_expr_unit x -> is_expr_unit y -> sound_unit x -> sound_unit y ->
  exists r, is_convertible_to (AUnit x) (AUnit y) = Ok r /\
    (r = true <-> interconvertible (exps x) (exps y)).
Proof.
  intros x y Hx Hy Sx Sy. destruct (udims_sound x Sx) as (dx & Ex & Rx). destruct (udims_sound y Sy) as (dy & Ey & Ry).
  destruct (convertible_dims x y dx dy Hx Hy Ex Ey) as (r & E & R). exists r. split; auto. rewrite R.
  unfold interconvertible. setoid_rewrite (represents_val _ _ Rx). setoid_rewrite (represents_val _ _ Ry). reflexivity.
Qed.

Example C17_example :
  is_convertible_to (AUnit km) (AUnit (UExpr (Raise (I "m") (Int (-1))) basics)) = Ok true /\
  is_convertible_to (AUnit km) (AUnit day) = Ok false.
Proof. split; vm_compute; reflexivity. Qed.

(** C73.  is_dimensionless: no basis has an exponent other than 0, through all definitions. *)
Theorem C73_dimensionless_means_no_exponent :
  forall x, sound_unit x ->
  exists r, is_dimensionless x = Ok r /\ (r = true <-> forall b, exps x b = 0).
Proof.
  intros x S. destruct (udims_sound x S) as (d & E & [N R]). unfold is_dimensionless. rewrite E. cbn [bind].
  eexists. split; [reflexivity|]. destruct d as [|[[k it] z] d].
  - split; auto. intros _ b. specialize (R b). cbn in R. destruct (Z.eqb_spec (exps x b) 0); [auto|discriminate].
  - split; [discriminate|]. intro H. specialize (R k). rewrite (H k) in R. cbn in R.
    rewrite RegexFacts.str_eqb_refl in R. discriminate.
Qed.

(** C73.  It is being convertible to a number, for every unit a system returns; errors alike. *)
Theorem C73_dimensionless_iff_convertible_to_a_number :
  forall x v r refs, is_expr_unit x ->
  is_dimensionless x = is_convertible_to (AUnit x) (AUnit (UExpr (Number v r) refs)).
Proof.
  intros [|d rs] v r refs H; [destruct H|]. destruct (udims (UExpr d rs)) as [m|e] eqn:E.
  - destruct (convertible_dims (UExpr d rs) (UExpr (Number v r) refs) m [] H H E eq_refl) as (b & Eb & R).
    rewrite Eb. unfold is_dimensionless. rewrite E. cbn [bind]. f_equal.
    assert (Z0 : interconvertible (dval m) (dval []) <-> forall k, dval m k = 0).
    { unfold interconvertible, dval. cbn. split.
      - intros [A|A] k; rewrite A; reflexivity.
      - intro A. now left. }
    destruct m as [|[[k it] z] m].
    + symmetry. apply R, Z0. reflexivity.
    + destruct b; auto. exfalso. assert (B : dval (((k, it), z) :: m) k = 0) by (apply Z0, R; reflexivity).
      destruct (udims_wf _ _ E) as [_ F]. inversion F as [|? ? F1 _]; subst. cbn [snd] in F1.
      unfold dval in B. cbn in B. rewrite RegexFacts.str_eqb_refl in B. contradiction.
  - unfold is_dimensionless, is_convertible_to, dimensionality. rewrite E. reflexivity.
Qed.

(** C73.  A unit is never both dimensionless and a time unit; a date unit is a time unit and
    not dimensionless, as the unit it counts in. *)
Theorem C73_time_units_are_not_dimensionless :
  forall e refs a, unit_from_expression e refs = Ok a ->
  (any_time_unit a = Ok true -> any_dimensionless a = Ok false) /\
  (forall x r, a = ADate x r -> any_time_unit a = Ok true /\ any_time_unit (AUnit x) = Ok true /\
                               any_dimensionless (AUnit x) = Ok false).
Proof.
  assert (T : forall x, is_expr_unit x -> is_time_unit x = Ok true -> is_dimensionless x = Ok false).
  { intros [|d rs] H; [destruct H|]. rewrite is_time_expr. unfold is_dimensionless.
    destruct (udims (UExpr d rs)) as [m|]; [|discriminate]. cbn [bind]. destruct m as [|x m]; [discriminate|reflexivity]. }
  intros e refs [x|x r] E.
  - split; [|discriminate]. cbn [any_time_unit any_dimensionless]. apply T.
    apply unit_iff in E as [-> _]. exact Logic.I.
  - split; [reflexivity|]. intros y q X. injection X as <- <-. split; [reflexivity|].
    apply date_iff in E as (a & s & _ & -> & _ & Ti & _). cbn [any_time_unit any_dimensionless].
    split; [exact Ti|]. apply T; [exact Logic.I|exact Ti].
Qed.

Example C73_example :
  is_dimensionless (UExpr (Divide (I "m") (I "m")) basics) = Ok true /\
  is_dimensionless (UExpr (I "rad") basics) = Ok true /\
  is_dimensionless accel = Ok false /\ sound_unit accel /\
  is_time_unit (UExpr (I "s") basics) = Ok true.
Proof.
  split; [vm_compute; reflexivity|]. split; [vm_compute; reflexivity|]. split; [vm_compute; reflexivity|].
  split; [exact C14_example_sound|vm_compute; reflexivity].
Qed.

(** C18.  Between units (not dates) IncompatibleUnitsError is raised iff is_convertible_to
    is False; if the dimensionality of one is undefined both raise the same exception. *)
Theorem C18_converter_refuses_exactly_the_inconvertible :
  forall x y, is_expr_unit x -> is_expr_unit y ->
  (mk_converter (AUnit x) (AUnit y) = Err EIncompatible <-> is_convertible_to (AUnit x) (AUnit y) = Ok false)
  \/ (exists e, (udims x = Err e \/ udims y = Err e) /\
        is_convertible_to (AUnit x) (AUnit y) = Err e /\ mk_converter (AUnit x) (AUnit y) = Err e).
Proof.
  intros x y Hx Hy. destruct (converter_incompatible x y Hx Hy) as [H|[(e & H1 & H2 & H3)|(e & H1 & H2 & H3)]]; eauto 7.
Qed.

(** C51 is false: not convertible, yet a Converter is built. *)
Theorem C51_date_units_refuted :
  exists a b, is_convertible_to a b = Ok false /\ exists c, mk_converter a b = Ok c.
Proof.
  exists (ADate day (u "2000-1-1")), (ADate day (u "2001-1-1")).
  split; [reflexivity|]. eexists. vm_compute. reflexivity.
Qed.

Example C18_example :
  mk_converter (AUnit km) (AUnit day) = Err EIncompatible /\ is_ok (mk_converter (AUnit km) (AUnit km)) = true.
Proof. split; vm_compute; reflexivity. Qed.

(** C47. *)
Theorem C47_dimension_part_is_pure :
  forall n t d, split_root n = Ok (t, d) ->
  forall m, sub m d -> (forall a b, m <> Shift a b) /\ (forall f a, m <> Logarithm f a).
Proof. intros n t d. exact (split_pure_part n true t d). Qed.

Theorem C47_plain_definitions_are_their_own_dimension_part :
  forall n, plain n -> split_root n = Ok (None, n).
Proof. intros n. exact (split_plain n true). Qed.

Theorem C47_substitutions_compose :
  forall m1 m2 n,
  subst m2 (subst m1 n) = subst (map (fun kv => (fst kv, subst m2 (snd kv))) m1 ++ m2) n.
Proof. exact subst_fusion. Qed.

Theorem C47_expansion_of_products :
  forall a b refs m, expand_refs refs = Ok m ->
  expanded (UExpr (Multiply a b) refs) = Ok (Multiply (subst m a) (subst m b)) /\
  expanded (UExpr (Divide a b) refs) = Ok (Divide (subst m a) (subst m b)) /\
  expanded (UExpr (Raise a b) refs) = Ok (Raise (subst m a) (subst m b)).
Proof. intros a b refs m E. rewrite !expanded_expr, E. auto. Qed.

Example C47_example : split_root (Multiply (Int 2) (Shift (Divide (I "K") (I "s")) (Int 5))) =
  Ok (Some (Multiply (Int 2) (I "value")), Divide (I "K") (I "s")).
Proof. vm_compute. reflexivity. Qed.

Print Assumptions C10_construction_is_validation_only.
Print Assumptions C11_dates_recognised_exactly.
Print Assumptions C11_other_units_are_the_expression.
Print Assumptions C12_nested_dates_refused.
Print Assumptions C13_date_units_convertible_to_nothing.
Print Assumptions C49_reference_dates_are_ignored_refuted.
Print Assumptions C14_dimensionality_homomorphism.
Print Assumptions C14_numbers_have_no_dimension.
Print Assumptions C14_no_zero_entries.
Print Assumptions C14_dimensionality_through_definitions.
Print Assumptions C15_dimensionality_of_expanded_definition.
Print Assumptions C16_scale_factors_keep_dimensionality.
Print Assumptions C16_prefix_keeps_dimensionality.
Print Assumptions C50_same_spelling_squares_dimensionality_refuted.
Print Assumptions C17_convertible_reflexive.
Print Assumptions C17_convertible_symmetric.
Print Assumptions C17_convertible_transitive.
Print Assumptions C17_convertible_means_same_or_inverse_dimension.
Print Assumptions C18_converter_refuses_exactly_the_inconvertible.
Print Assumptions C51_date_units_refuted.
Print Assumptions C47_dimension_part_is_pure.
Print Assumptions C47_plain_definitions_are_their_own_dimension_part.
Print Assumptions C47_substitutions_compose.
Print Assumptions C47_expansion_of_products.
Print Assumptions C73_dimensionless_means_no_exponent.
Print Assumptions C73_dimensionless_iff_convertible_to_a_number.
Print Assumptions C73_time_units_are_not_dimensionless.
