(** * C93 on the shipped database: temperatures *)
From Verif Require Import PyBase PyNum Graph RegexFacts Visitor Expr Units UnitSystem UnitSpec
  SystemSpec SystemFacts SystemProofs SystemMore SystemKeep SystemOrd Prop_System Sympy Convert ConvertSpec ConvertFacts ConvertProofs ConvertMore Prop_Convert
  Xml XmlSpec XmlFacts XmlPrefix Prop_Xml XmlData Database Prop_Database Rounding Prop_Rounding BaseSpec BaseFacts Prop_Base Prop_BaseDb
  Prop_Affine.
From Coq Require Import Lia Lra QArith Reals Qreals.
Local Open Scope list_scope.

(** the words with a logarithm *)
Definition bel_words : list str :=
  [u "BZ"; u "B_SPL"; u "BW"; u "Bm"; u "BV"; u "Bv"; [66; 181; 86]%N].

Definition affine_b (s : system) (w : str) : bool :=
  if str_mem w unusable_words then true else
  if str_mem w torr_words then true else
  if str_mem w bel_words then true else
  match parse w with
  | Ok (Identifier k) =>
    if str_eqb k w then
      match out_name s 8 w with
      | Some e => measurable_b e && timeless_b e && (rated_b (body e) && N.leb (N.of_nat (operations (body e))) 21)
      | None => false
      end
    else false
  | _ => false
  end.
Definition affines_b (s : system) : bool := forallb (affine_b s) (all_words s).
Lemma shipped_affine : affines_b shipped = true. Proof. vm_compute. reflexivity. Qed.

Section Words.
Variable sh s : system.
Hypothesis W : affines_b sh = true.
Hypothesis R : par sh s.
Lemma affine_out w : a_word s w -> usual w -> ~ In w bel_words ->
  exists e, base_text s w e /\ measurable e /\ timeless is_radian is_second e /\ rated (body e) /\ (operations (body e) <= 21)%nat.
Proof.
  intros A [U T] Bl. apply (a_word_par sh s R) in A. unfold affines_b in W. rewrite forallb_forall in W. specialize (W w A).
  unfold affine_b in W. rewrite (not_mem w _ U), (not_mem w _ T), (not_mem w _ Bl) in W.
  destruct (parse w) as [[| | k | | | | |] |] eqn:P; try discriminate W. destruct (str_eqb k w) eqn:K; [| discriminate W].
  apply str_eqb_eq in K. subst k. destruct (out_name sh 8 w) as [e |] eqn:O; [| discriminate W].
  apply andb_prop in W as [W1 W3]. apply andb_prop in W1 as [W1 W2]. apply andb_prop in W3 as [W3 W4]. exists e.
  split; [exists (Identifier w); split; [exact P | constructor; apply (par_base sh s R), (out_name_sound sh 8 w e O)] |].
  split; [now apply measurable_b_sound |]. split; [now apply timeless_b_sound |]. split; [now apply rated_b_sound |].
  apply N.leb_le in W4. lia.
Qed.
End Words.

(** Units named by a word of the database, temperatures included, convert into each other by a
    factor and two offsets; floating point arithmetic of relative accuracy [eps] finds the result to
    within 102 [eps] of the numbers added up. *)
Theorem C93_named_units_convert_accurately :
  forall strict set_order s, rearranges set_order -> read_system strict set_order db = Ok s ->
  forall w1 w2, a_word s w1 -> usual w1 -> ~ In w1 bel_words -> a_word s w2 -> usual w2 -> ~ In w2 bel_words ->
  exists e1 e2, base_text s w1 e1 /\ base_text s w2 e2 /\
  forall ord history1 history2 stack1 stack2, rearranges ord -> (7 < stack1)%nat -> (7 < stack2)%nat ->
  (forall b, symexp e1 b = symexp e2 b) ->
  exists x y cv, fst (sys_unit ord stack1 w1 (after ord s history1)) = Ok (AUnit x) /\
    fst (sys_unit ord stack2 w2 (after ord s history2)) = Ok (AUnit y) /\
    mk_converter (AUnit x) (AUnit y) = Ok cv /\
    let f := (factor (body e1) / factor (body e2))%R in
    forall v, convert cv v = Ok (f * (v + offset e1) - offset e2)%R /\
    forall eps w, (0 <= eps <= 1 / 102)%R -> rounded_offset_convert eps x y v w ->
      (Rabs (w - (f * (v + offset e1) - offset e2))
         <= 102 * eps * (Rabs (f * v) + Rabs (f * offset e1) + Rabs (offset e2)))%R.
Proof.
  intros strict o s P E w1 w2 A1 U1 N1 A2 U2 N2.
  destruct (read_any strict o P) as (s' & E' & R). rewrite E in E'. injection E' as <-.
  destruct (affine_out shipped s shipped_affine R w1 A1 U1 N1) as (e1 & B1 & M1 & T1 & R1 & O1).
  destruct (affine_out shipped s shipped_affine R w2 A2 U2 N2) as (e2 & B2 & M2 & T2 & R2 & O2).
  exists e1, e2. split; [exact B1 |]. split; [exact B2 |].
  intros ord h1 h2 f1 f2 Po L1 L2 S.
  destruct (C90_texts_on_the_shipped_database strict o s P E ord h1 f1 w1 e1 Po L1 B1 M1 T1) as (x & Dx & Ux).
  destruct (C90_texts_on_the_shipped_database strict o s P E ord h2 f2 w2 e2 Po L2 B2 M2 T2) as (y & Dy & Uy).
  destruct (C20_conversion_preserves_the_quantity is_radian x y e1 e2 Dx Dy S) as (cv & Cv & Q).
  exists x, y, cv. split; [exact Ux |]. split; [exact Uy |]. split; [exact Cv |].
  intros f v. split.
  { apply Q. rewrite !body_quantity by assumption. unfold f. field. now apply rated_factor. }
  intros eps w [E0 E1] Rc. assert (K : (INR (operations (body e1) + operations (body e2) + 9) <= 51)%R).
  { replace 51%R with (INR 51) by (simpl; lra). apply le_INR. lia. }
  assert (K0 := pos_INR (operations (body e1) + operations (body e2) + 9)).
  destruct (C93_offset_conversion_is_accurate eps is_radian x y e1 e2 v w E0 Dx Dy R1 R2 S ltac:(nra) Rc) as (cv' & exact & _ & _ & -> & A).
  eapply Rle_trans; [exact A |]. apply Rmult_le_compat_r; [| nra].
  apply Rplus_le_le_0_compat; [apply Rplus_le_le_0_compat |]; apply Rabs_pos.
Qed.

(** ** The hypotheses are met: Celsius to Fahrenheit *)
Lemma not_bel w : negb (str_mem w unusable_words) && negb (str_mem w torr_words) && negb (str_mem w bel_words) = true ->
  usual w /\ ~ In w bel_words.
Proof.
  assert (M : forall l, negb (str_mem w l) = true -> ~ In w l).
  { intros l H I. apply str_mem_In in I. rewrite I in H. discriminate H. }
  intros H. apply andb_prop in H as [H H3]. apply andb_prop in H as [H1 H2]. repeat split; auto.
Qed.
Definition cels := Eval vm_compute in form_of (u "celsius").
Example C93_example :
  (a_word shipped (u "celsius") /\ usual (u "celsius") /\ ~ In (u "celsius") bel_words) /\
  (a_word shipped (u "degF") /\ usual (u "degF") /\ ~ In (u "degF") bel_words) /\
  base_text shipped (u "celsius") cels /\ base_text shipped (u "degF") fahr /\
  (forall b, symexp cels b = symexp fahr b) /\
  offset cels = (27315 / 100)%R /\ offset fahr = (45967 / 100)%R /\
  (factor (body cels) / factor (body fahr) = 18 / 10)%R.
Proof.
  split; [split; [apply word_by; vm_compute; reflexivity | apply not_bel; vm_compute; reflexivity] |].
  split; [split; [apply word_by; vm_compute; reflexivity | apply not_bel; vm_compute; reflexivity] |].
  split; [apply (out_text_sound shipped 8); vm_compute; reflexivity |].
  split; [apply (out_text_sound shipped 8); vm_compute; reflexivity |].
  split; [intros b; unfold symexp, cels, fahr; cbn [gdim]; lia |].
  unfold cels, fahr. cbn [body offset factor num_R]. unfold Q2R. cbn.
  repeat split; lra.
Qed.
