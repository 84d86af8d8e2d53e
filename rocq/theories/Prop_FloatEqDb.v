(** * C100, C101, C102: equality of units of the shipped database, with rounded numbers *)
From Verif Require Import PyBase PyNum Graph RegexFacts Visitor Expr Units UnitSystem UnitSpec
  SystemSpec SystemFacts SystemProofs SystemMore SystemKeep SystemOrd Prop_System Sympy Convert ConvertSpec ConvertFacts ConvertProofs ConvertMore Prop_Convert
  Xml XmlSpec XmlFacts XmlPrefix Prop_Xml XmlData Database Prop_Database Rounding Prop_Rounding BaseSpec BaseFacts Prop_Base Prop_BaseDb
  EqFacts FloatEq Prop_FloatEq Prop_Affine Prop_AffineDb.
From Coq Require Import Lia Lra QArith Reals Qreals.
Local Open Scope list_scope.

(** Powers rounded to the nearest number: what mpf_pow_int gives when it can compute exactly first *)
Definition nearest (p : Z) (f : Q) (n : Z) : Q := rnd p (Qpower f n).

Lemma nearest_accurate : accurate nearest.
Proof.
  intros p f n P F. unfold nearest. rewrite <- Q2R_power by exact F. now apply rounded_weaken.
Qed.

(** the definition of a unit that comes from a text is the text parsed *)
Lemma unit_definition ord f t s x d : fst (sys_unit ord f t s) = Ok (AUnit x) -> parse t = Ok d -> definition_of x = d.
Proof.
  intros U P. unfold sys_unit, mbind, lift in U. rewrite P in U.
  destruct (resolve_refs _ _ _ _) as [[refs | er] s1]; cbn [fst] in U; [| discriminate U].
  assert (K : forall e, mk_unit d refs = Ok e -> definition_of e = d).
  { intros e H. unfold mk_unit in H. destruct (normalised refs d) as [n |] eqn:E; cbn [bind] in H; [| discriminate H].
    apply (proj1 (proj2 (Prop_Units.C10_construction_is_validation_only d refs))) in E. injection H as <-. now subst. }
  assert (L : (do y <- mk_unit d refs ;; Ok (AUnit y)) = Ok (AUnit x) -> definition_of x = d).
  { intro H. destruct (mk_unit d refs) as [y |]; cbn [bind] in H; [| discriminate H]. injection H as <-. now apply K. }
  unfold unit_from_expression in U. destruct d; try (exact (L U)).
  destruct (mk_unit d1 refs) as [y |]; cbn [bind] in U; [| discriminate U].
  destruct (is_time_unit y) as [[] |]; cbn [bind] in U; [| exact (L U) | discriminate U].
  unfold mk_date in U. exfalso. destruct d2 as [| v [raw |] | | | | | |]; try discriminate U;
    destruct (is_time_unit y) as [[] |]; cbn [bind] in U; discriminate U.
Qed.

(** ** C100 is false: "3 dm" and "0.3 m" are the same length, and are not equal *)
Definition dm3 := Eval vm_compute in form_of (u "3 dm").
Definition m03 := Eval vm_compute in form_of (u "0.3 m").

Section Pair.
Variable sh s : system.
Variable rank : str -> nat.
Hypothesis C : clash_free sh.
Hypothesis D : depth_at_most sh rank 7.
Hypothesis O : orderly is_radian is_second sh.
Hypothesis R : par sh s.
Lemma text_unit t e : base_text sh t e -> rated e ->
  forall ord h f, rearranges ord -> (7 < f)%nat ->
  exists x, fst (sys_unit ord f t (after ord s h)) = Ok (AUnit x) /\ expanded x = Ok e /\ forall d, parse t = Ok d -> definition_of x = d.
Proof.
  intros B Ra ord h f Po L.
  destruct (text_verdict sh s rank C D O R ord h f t e Po L (par_base_text sh s t e R B)
    (levels_measurable _ (BaseFacts.rated_levels _ Ra)) (levels_timeless _ _ _ (BaseFacts.rated_levels _ Ra))) as (x & (_ & _ & _ & X & _) & U).
  exists x. split; [exact U |]. split; [exact X |]. intros d P. exact (unit_definition _ _ _ _ _ _ U P).
Qed.

Definition texts_differ (t1 t2 : str) : bool :=
  match parse t1, parse t2 with Ok d1, Ok d2 => negb (str_eqb (node_str d2) (node_str d1)) | _, _ => false end.
Definition verdict (fpow : Z -> Q -> Z -> Q) (e1 e2 : node) : option bool :=
  match fmono_of fpow e1, fmono_of fpow e2 with
  | Some a, Some b => Some (exps_eqb (snd a) (snd b) && scalar_same (fst a) (fst b))
  | _, _ => None
  end.

Lemma compared t1 t2 e1 e2 b fpow : base_text sh t1 e1 -> base_text sh t2 e2 -> rated e1 -> rated e2 ->
  texts_differ t1 t2 = true -> has_basis e1 -> verdict fpow e1 e2 = Some b ->
  forall ord h1 h2 f1 f2 x y, rearranges ord -> (7 < f1)%nat -> (7 < f2)%nat ->
  fst (sys_unit ord f1 t1 (after ord s h1)) = Ok (AUnit x) -> fst (sys_unit ord f2 t2 (after ord s h2)) = Ok (AUnit y) ->
  float_eq fpow x y = Ok b.
Proof.
  intros B1 B2 R1 R2 T Hb V ord h1 h2 f1 f2 x y Po L1 L2 U1 U2.
  destruct (text_unit t1 e1 B1 R1 ord h1 f1 Po L1) as (x' & U1' & X1 & D1). rewrite U1 in U1'. injection U1' as <-.
  destruct (text_unit t2 e2 B2 R2 ord h2 f2 Po L2) as (y' & U2' & X2 & D2). rewrite U2 in U2'. injection U2' as <-.
  unfold texts_differ in T. destruct (parse t1) as [d1 |]; [| discriminate T]. destruct (parse t2) as [d2 |]; [| discriminate T].
  destruct (float_eq_form fpow x y e1 e2 X1 X2 R1 R2 Hb) as (k1 & m1 & k2 & m2 & F1 & F2 & _ & _ & _ & _ & _ & _ & _ & _ & ->).
  { rewrite (D1 d1 eq_refl), (D2 d2 eq_refl). intro E. rewrite E, str_eqb_refl in T. discriminate T. }
  unfold verdict in V. rewrite F1, F2 in V. cbn [fst snd] in V. injection V as V. now rewrite V.
Qed.
End Pair.

Lemma dm3_shape : base_text shipped (u "3 dm") dm3 /\ base_text shipped (u "0.3 m") m03 /\ rated dm3 /\ rated m03 /\
  (forall b, symexp dm3 b = symexp m03 b) /\ factor dm3 = factor m03.
Proof.
  split; [apply (out_text_sound shipped 8); vm_compute; reflexivity |].
  split; [apply (out_text_sound shipped 8); vm_compute; reflexivity |].
  split; [apply rated_b_sound; vm_compute; reflexivity |]. split; [apply rated_b_sound; vm_compute; reflexivity |].
  split; [intro b; unfold symexp, dm3, m03; cbn [gdim]; lia |].
  unfold dm3, m03. cbn [factor num_R]. unfold Q2R. cbn. field.
Qed.
Lemma dm3_basis : has_basis dm3.
Proof. exists (u "meter"). assert (E : symexp dm3 (u "meter") = 1%Z) by (vm_compute; reflexivity). rewrite E. discriminate. Qed.
Lemma dm3_texts : texts_differ (u "3 dm") (u "0.3 m") = true. Proof. vm_compute. reflexivity. Qed.
Lemma dm3_verdict fpow : verdict fpow dm3 m03 = Some false. Proof. vm_compute. reflexivity. Qed.

(** the same for any two texts *)
Lemma both sh s rank t1 t2 e1 e2 : clash_free sh -> depth_at_most sh rank 7 -> orderly is_radian is_second sh -> par sh s ->
  base_text sh t1 e1 -> base_text sh t2 e2 -> rated e1 -> rated e2 -> texts_differ t1 t2 = true -> has_basis e1 ->
  forall ord h1 h2 f1 f2, rearranges ord -> (7 < f1)%nat -> (7 < f2)%nat ->
  exists x y, fst (sys_unit ord f1 t1 (after ord s h1)) = Ok (AUnit x) /\ fst (sys_unit ord f2 t2 (after ord s h2)) = Ok (AUnit y) /\
    expanded x = Ok e1 /\ expanded y = Ok e2 /\
    forall fpow b, verdict fpow e1 e2 = Some b -> float_eq fpow x y = Ok b.
Proof.
  intros C D O R B1 B2 R1 R2 T Hb ord h1 h2 f1 f2 Po L1 L2.
  destruct (text_unit sh s rank C D O R t1 e1 B1 R1 ord h1 f1 Po L1) as (x & U1 & X1 & _).
  destruct (text_unit sh s rank C D O R t2 e2 B2 R2 ord h2 f2 Po L2) as (y & U2 & X2 & _).
  exists x, y. split; [exact U1 |]. split; [exact U2 |]. split; [exact X1 |]. split; [exact X2 |]. intros fpow b V.
  exact (compared sh s rank C D O R t1 t2 e1 e2 b fpow B1 B2 R1 R2 T Hb V ord h1 h2 f1 f2 x y Po L1 L2 U1 U2).
Qed.

Theorem C100_three_decimetres_equal_0_3_metres_refuted :
  forall fpow strict set_order s, rearranges set_order -> read_system strict set_order db = Ok s ->
  forall ord history1 history2 stack1 stack2, rearranges ord -> (7 < stack1)%nat -> (7 < stack2)%nat ->
  exists x y e1 e2, fst (sys_unit ord stack1 (u "3 dm") (after ord s history1)) = Ok (AUnit x) /\
    fst (sys_unit ord stack2 (u "0.3 m") (after ord s history2)) = Ok (AUnit y) /\
    expanded x = Ok e1 /\ expanded y = Ok e2 /\ (forall b, symexp e1 b = symexp e2 b) /\ factor e1 = factor e2 /\
    float_eq fpow x y = Ok false.
Proof.
  intros fpow strict o s P E ord h1 h2 f1 f2 Po L1 L2.
  destruct (read_any strict o P) as (s' & E' & R). rewrite E in E'. injection E' as <-.
  destruct shipped_checks as (C & _ & D). destruct dm3_shape as (B1 & B2 & R1 & R2 & Sx & F).
  destruct (both shipped s _ _ _ _ _ C D shipped_orderly R B1 B2 R1 R2 dm3_texts dm3_basis ord h1 h2 f1 f2 Po L1 L2) as (x & y & U1 & U2 & X1 & X2 & V).
  exists x, y, dm3, m03. split; [exact U1 |]. split; [exact U2 |]. split; [exact X1 |]. split; [exact X2 |]. split; [exact Sx |]. split; [exact F |].
  exact (V fpow false (dm3_verdict fpow)).
Qed.

(** ** C101 is false: "m/3" == "1.0 m/3" == "6004799503160661 m/18014398509481984", but the first and
    the last are not equal *)
Local Notation third_1 := (u "m/3").
Local Notation third_2 := (u "1.0 m/3").
Local Notation third_3 := (u "6004799503160661 m/18014398509481984").
Definition third_e1 := Eval vm_compute in form_of third_1.
Definition third_e2 := Eval vm_compute in form_of third_2.
Definition third_e3 := Eval vm_compute in form_of third_3.
Lemma third_shape : base_text shipped third_1 third_e1 /\ base_text shipped third_2 third_e2 /\ base_text shipped third_3 third_e3 /\
  rated third_e1 /\ rated third_e2 /\ rated third_e3.
Proof.
  split; [apply (out_text_sound shipped 8); vm_compute; reflexivity |].
  split; [apply (out_text_sound shipped 8); vm_compute; reflexivity |].
  split; [apply (out_text_sound shipped 8); vm_compute; reflexivity |].
  split; [apply rated_b_sound; vm_compute; reflexivity |]. split; [apply rated_b_sound; vm_compute; reflexivity |].
  apply rated_b_sound; vm_compute; reflexivity.
Qed.
Lemma third_basis : has_basis third_e1 /\ has_basis third_e2.
Proof.
  split; exists (u "meter").
  - assert (E : symexp third_e1 (u "meter") = 1%Z) by (vm_compute; reflexivity). rewrite E. discriminate.
  - assert (E : symexp third_e2 (u "meter") = 1%Z) by (vm_compute; reflexivity). rewrite E. discriminate.
Qed.
Lemma third_texts : texts_differ third_1 third_2 = true /\ texts_differ third_2 third_3 = true /\ texts_differ third_1 third_3 = true.
Proof. vm_compute. auto. Qed.
Lemma third_verdicts fpow : verdict fpow third_e1 third_e2 = Some true /\ verdict fpow third_e2 third_e3 = Some true /\ verdict fpow third_e1 third_e3 = Some false.
Proof. vm_compute. auto. Qed.

Theorem C101_rounded_equality_is_transitive_refuted :
  forall fpow strict set_order s, rearranges set_order -> read_system strict set_order db = Ok s ->
  forall ord history1 history2 history3 stack, rearranges ord -> (7 < stack)%nat ->
  exists x y z,
    fst (sys_unit ord stack (u "m/3") (after ord s history1)) = Ok (AUnit x) /\
    fst (sys_unit ord stack (u "1.0 m/3") (after ord s history2)) = Ok (AUnit y) /\
    fst (sys_unit ord stack (u "6004799503160661 m/18014398509481984") (after ord s history3)) = Ok (AUnit z) /\
    float_eq fpow x y = Ok true /\ float_eq fpow y z = Ok true /\ float_eq fpow x z = Ok false.
Proof.
  intros fpow strict o s P E ord h1 h2 h3 f Po L.
  destruct (read_any strict o P) as (s' & E' & R). rewrite E in E'. injection E' as <-.
  destruct shipped_checks as (C & _ & D). destruct third_shape as (B1 & B2 & B3 & R1 & R2 & R3). destruct third_basis as [N1 N2].
  destruct third_texts as (T12 & T23 & T13). destruct (third_verdicts fpow) as (V12 & V23 & V13).
  destruct (both shipped s _ _ _ _ _ C D shipped_orderly R B1 B2 R1 R2 T12 N1 ord h1 h2 f f Po L L) as (x & y & U1 & U2 & _ & _ & K12).
  destruct (both shipped s _ _ _ _ _ C D shipped_orderly R B2 B3 R2 R3 T23 N2 ord h2 h3 f f Po L L) as (y' & z & U2' & U3 & _ & _ & K23).
  destruct (both shipped s _ _ _ _ _ C D shipped_orderly R B1 B3 R1 R3 T13 N1 ord h1 h3 f f Po L L) as (x' & z' & U1' & U3' & _ & _ & K13).
  rewrite U1 in U1'. injection U1' as <-. rewrite U2 in U2'. injection U2' as <-. rewrite U3 in U3'. injection U3' as <-.
  exists x, y, z. split; [exact U1 |]. split; [exact U2 |]. split; [exact U3 |].
  split; [exact (K12 _ _ V12) |]. split; [exact (K23 _ _ V23) | exact (K13 _ _ V13)].
Qed.

(** ** C102.  Units named by a word of the database compare exactly *)
Record row := mkRow { w_word : str; w_def : node; w_coef : scalar; w_exact : mono }.
Definition row_of (s : system) (w : str) : option row :=
  match out_name s 8 w with
  | Some e =>
    if rated_b e then
      match fmono_of nearest e, to_sympy e with
      | Some (c, _), Ok d => match mono_of d with Some m => Some (mkRow w e c m) | None => None end
      | _, _ => None
      end
    else None
  | None => None
  end.
Definition rows (s : system) : list row :=
  flat_map (fun w => match row_of s w with Some r => [r] | None => [] end) (all_words s).
Definition rows_agree (a b : row) : bool :=
  if exps_eqb (m_exps (w_exact a)) (m_exps (w_exact b))
  then Bool.eqb (scalar_same (w_coef a) (w_coef b)) (Qeq_bool (m_coef (w_exact a)) (m_coef (w_exact b)))
  else true.
Definition exact_b (s : system) : bool := let t := rows s in forallb (fun a => forallb (rows_agree a) t) t.
Lemma shipped_exact : exact_b shipped = true. Proof. vm_compute. reflexivity. Qed.

Section Words.
Variable sh s : system.
Hypothesis W : exact_b sh = true.
Hypothesis R : par sh s.

Hypothesis Aff : affines_b sh = true.

Lemma rated_b_complete n : rated n -> rated_b n = true.
Proof.
  induction n as [raw | v r | k | a IHa b IHb | a IHa b IHb | a IHa b IHb | a IHa b IHb | h a IHa]; cbn [rated_b rated]; try contradiction.
  - intros [N Z]. destruct v as [z | d | t]; cbn [numeric num_R nonzero_b] in *; [| | contradiction]; apply negb_true_iff, Z.eqb_neq; intro E; apply Z.
    + now subst.
    + unfold Q2R. rewrite E. lra.
  - intro N. unfold own_free. apply negb_true_iff. destruct (str_mem k own_names) eqn:E; [| reflexivity]. apply str_mem_In in E. contradiction.
  - destruct b as [| [z | |] raw | | | | | |]; try contradiction. exact IHa.
  - intros [A B]. now rewrite IHa, IHb.
  - intros [A B]. now rewrite IHa, IHb.
Qed.

Lemma in_rows w e : In w (all_words sh) -> out_name sh 8 w = Some e -> rated e ->
  exists r, In r (rows sh) /\ w_word r = w /\ w_def r = e /\
    exists x se, fmono_of nearest e = Some (w_coef r, x) /\ to_sympy e = Ok se /\ mono_of se = Some (w_exact r).
Proof.
  intros I Oe Re. destruct (fmono_exps nearest e Re) as (se & m & c & T & M & _ & F & _).
  exists (mkRow w e c m). split; [| split; [reflexivity | split; [reflexivity |]]].
  - unfold rows. apply in_flat_map. exists w. split; [exact I |]. unfold row_of. rewrite Oe, (rated_b_complete e Re), F, T, M. left. reflexivity.
  - exists (m_exps m), se. auto.
Qed.

Lemma word_out w : a_word s w -> usual w -> ~ In w bel_words ->
  exists e, base_text sh w e /\ out_name sh 8 w = Some e /\ In w (all_words sh) /\ parse w = Ok (Identifier w).
Proof.
  intros A [U T] Bl. apply (a_word_par sh s R) in A. unfold affines_b in Aff. rewrite forallb_forall in Aff. specialize (Aff w A) as H.
  unfold affine_b in H. rewrite (not_mem w _ U), (not_mem w _ T), (not_mem w _ Bl) in H.
  destruct (parse w) as [[| | k | | | | |] |] eqn:P; try discriminate H. destruct (str_eqb k w) eqn:K; [| discriminate H].
  apply str_eqb_eq in K. subst k. destruct (out_name sh 8 w) as [e |] eqn:Oe; [| discriminate H]. exists e.
  split; [exists (Identifier w); split; [exact P | constructor; exact (out_name_sound sh 8 w e Oe)] |]. auto.
Qed.

Lemma words_compare w1 w2 e1 e2 x y : In w1 (all_words sh) -> In w2 (all_words sh) -> out_name sh 8 w1 = Some e1 -> out_name sh 8 w2 = Some e2 ->
  rated e1 -> rated e2 -> has_basis e1 -> expanded x = Ok e1 -> expanded y = Ok e2 ->
  definition_of x = Identifier w1 -> definition_of y = Identifier w2 ->
  exists b, float_eq nearest x y = Ok b /\ (b = true <-> (forall k, symexp e1 k = symexp e2 k) /\ factor e1 = factor e2).
Proof.
  intros I1 I2 O1 O2 R1 R2 B X1 X2 D1 D2. destruct (text_dec x y) as [E | N].
  { rewrite D1, D2 in E. cbn [node_str] in E. subst w2. rewrite O1 in O2. injection O2 as <-. exists true.
    split; [| tauto]. now apply (C99_same_definition_is_equal nearest x y e1). }
  destruct (in_rows w1 e1 I1 O1 R1) as (r1 & J1 & _ & _ & x1 & se1 & F1 & T1 & M1).
  destruct (in_rows w2 e2 I2 O2 R2) as (r2 & J2 & _ & _ & x2 & se2 & F2 & T2 & M2).
  destruct (exps_of e1 se1 _ R1 T1 M1) as (G1 & K1 & S1). destruct (exps_of e2 se2 _ R2 T2 M2) as (G2 & K2 & S2).
  destruct (float_eq_form nearest x y e1 e2 X1 X2 R1 R2 B N) as (c1 & m1 & c2 & m2 & F1' & F2' & _ & _ & N1 & N2 & S1' & S2' & _ & _ & ->).
  destruct (normal_rated x e1 X1 R1) as (a1 & n1 & T1' & M1' & N1'). rewrite T1 in T1'. injection T1' as <-. rewrite M1 in M1'. injection M1' as <-.
  destruct (normal_rated y e2 X2 R2) as (a2 & n2 & T2' & M2' & N2'). rewrite T2 in T2'. injection T2' as <-. rewrite M2 in M2'. injection M2' as <-.
  rewrite N1 in N1'. injection N1' as ->. rewrite N2 in N2'. injection N2' as ->.
  rewrite F1 in F1'. injection F1' as <- _. rewrite F2 in F2'. injection F2' as <- _.
  eexists. split; [reflexivity |].
  unfold exact_b in W. cbv zeta in W. rewrite forallb_forall in W. specialize (W r1 J1). rewrite forallb_forall in W. specialize (W r2 J2).
  unfold rows_agree in W. pose proof (exps_eqb_iff _ _ (proj2 G1) (proj2 G2)) as Ex.
  destruct (exps_eqb (m_exps (w_exact r1)) (m_exps (w_exact r2))) eqn:Ee; cbn [andb].
  - apply Bool.eqb_prop in W. rewrite W, Qeq_bool_iff. split.
    + intro H. split; [intro k; rewrite <- S1, <- S2; now apply Ex |]. rewrite <- K1, <- K2. now apply Qeq_eqR.
    + intros [_ H]. apply eqR_Qeq. now rewrite K1, K2.
  - split; [intro H; discriminate H |]. intros [H _]. apply Ex. intro k. rewrite S1, S2. apply H.
Qed.
End Words.

Theorem C102_words_of_the_database_compare_exactly :
  forall strict set_order s, rearranges set_order -> read_system strict set_order db = Ok s ->
  forall w1 w2, a_word s w1 -> usual w1 -> ~ In w1 bel_words -> a_word s w2 -> usual w2 -> ~ In w2 bel_words ->
  exists e1 e2, base_text s w1 e1 /\ base_text s w2 e2 /\
  (rated e1 -> rated e2 -> has_basis e1 ->
   forall ord history1 history2 stack1 stack2, rearranges ord -> (7 < stack1)%nat -> (7 < stack2)%nat ->
   exists x y b, fst (sys_unit ord stack1 w1 (after ord s history1)) = Ok (AUnit x) /\
     fst (sys_unit ord stack2 w2 (after ord s history2)) = Ok (AUnit y) /\
     float_eq nearest x y = Ok b /\
     (b = true <-> (forall k, symexp e1 k = symexp e2 k) /\ factor e1 = factor e2)).
Proof.
  intros strict o s P E w1 w2 A1 U1 N1 A2 U2 N2.
  destruct (read_any strict o P) as (s' & E' & R). rewrite E in E'. injection E' as <-.
  destruct shipped_checks as (C & _ & D).
  destruct (word_out shipped s R shipped_affine w1 A1 U1 N1) as (e1 & B1 & O1 & I1 & P1).
  destruct (word_out shipped s R shipped_affine w2 A2 U2 N2) as (e2 & B2 & O2 & I2 & P2).
  exists e1, e2. split; [exact (par_base_text shipped s w1 e1 R B1) |]. split; [exact (par_base_text shipped s w2 e2 R B2) |].
  intros R1 R2 Hb ord h1 h2 f1 f2 Po L1 L2.
  destruct (text_unit shipped s _ C D shipped_orderly R w1 e1 B1 R1 ord h1 f1 Po L1) as (x & X & Xe & Xd).
  destruct (text_unit shipped s _ C D shipped_orderly R w2 e2 B2 R2 ord h2 f2 Po L2) as (y & Y & Ye & Yd).
  destruct (words_compare shipped shipped_exact w1 w2 e1 e2 x y I1 I2 O1 O2 R1 R2 Hb Xe Ye (Xd _ P1) (Yd _ P2)) as (b & Fb & V).
  exists x, y, b. split; [exact X |]. split; [exact Y |]. split; [exact Fb | exact V].
Qed.

(** ** The hypotheses are met *)
Definition ft := Eval vm_compute in form_of (u "foot").
Definition yd := Eval vm_compute in form_of (u "yard").
Example C102_example :
  (a_word shipped (u "foot") /\ usual (u "foot") /\ ~ In (u "foot") bel_words) /\
  (a_word shipped (u "yard") /\ usual (u "yard") /\ ~ In (u "yard") bel_words) /\
  base_text shipped (u "foot") ft /\ base_text shipped (u "yard") yd /\ rated ft /\ rated yd /\ has_basis ft /\ decimal ft = true /\ short ft = true.
Proof.
  split; [split; [apply word_by; vm_compute; reflexivity | apply not_bel; vm_compute; reflexivity] |].
  split; [split; [apply word_by; vm_compute; reflexivity | apply not_bel; vm_compute; reflexivity] |].
  split; [apply (out_text_sound shipped 8); vm_compute; reflexivity |].
  split; [apply (out_text_sound shipped 8); vm_compute; reflexivity |].
  split; [apply rated_b_sound; vm_compute; reflexivity |]. split; [apply rated_b_sound; vm_compute; reflexivity |].
  split; [exists (u "meter"); assert (E : symexp ft (u "meter") = 1%Z) by (vm_compute; reflexivity); rewrite E; discriminate |].
  split; vm_compute; reflexivity.
Qed.
(** C28, C74, C99: three thirds of a metre *)
Example C99_example : accurate nearest /\ rated third_e1 /\ rated third_e2 /\ has_basis third_e1 /\
  whole third_e1 = true /\ decimal third_e2 = true /\ short third_e2 = true /\ verdict nearest third_e1 third_e2 = Some true /\
  (INR (roundings third_e1 + roundings third_e2 + 1) * powerRZ 2 (-52) <= 1 / 2)%R.
Proof.
  split; [exact nearest_accurate |]. destruct third_shape as (_ & _ & _ & R1 & R2 & _). split; [exact R1 |]. split; [exact R2 |].
  split; [apply third_basis |]. split; [vm_compute; reflexivity |]. split; [vm_compute; reflexivity |]. split; [vm_compute; reflexivity |].
  split; [apply third_verdicts |].
  change (roundings third_e1 + roundings third_e2 + 1)%nat with 12%nat.
  replace (powerRZ 2 (-52)) with (/ IZR (2 ^ 52))%R. 2:{ rewrite IZR_pow2 by lia. reflexivity. }
  cbn. lra.
Qed.
