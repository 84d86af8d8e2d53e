(** * C112 on the shipped database: bels *)
From Verif Require Import PyBase PyNum Graph RegexFacts Visitor Expr Units UnitSystem UnitSpec
  SystemSpec SystemFacts SystemProofs SystemMore SystemKeep SystemOrd Prop_System Sympy Convert ConvertSpec ConvertFacts ConvertProofs ConvertMore Prop_Convert
  Xml XmlSpec XmlFacts XmlPrefix Prop_Xml XmlData Database Prop_Database Rounding Prop_Rounding BaseSpec BaseFacts Prop_Base Prop_BaseDb
  Prop_AffineDb RoundingLog Prop_RoundingLog.
From Coq Require Import Lia Lra QArith Reals Qreals.
Local Open Scope list_scope.

(** words without an offset: those without offset and logarithm, and the seven bels *)
Definition no_offset (w : str) : Prop := ~ In w offset_words \/ In w bel_words.
Definition no_offset_b (w : str) : bool := negb (str_mem w offset_words) || str_mem w bel_words.

(** is it, written out, a logarithm or none of something rated? *)
Definition level_b (s : system) (w : str) : bool :=
  if str_mem w unusable_words then true else
  if str_mem w torr_words then true else
  if negb (no_offset_b w) then true else
  match parse w with
  | Ok (Identifier k) =>
    if str_eqb k w then
      match out_name s 8 w with
      | Some e => measurable_b e && timeless_b e && (rated_b (inner e) && N.leb (N.of_nat (operations (inner e))) 21)
      | None => false
      end
    else false
  | _ => false
  end.
Definition levels_b (s : system) : bool := forallb (level_b s) (all_words s).
Lemma shipped_levels : levels_b shipped = true. Proof. vm_compute. reflexivity. Qed.

Section Words.
Variable sh s : system.
Hypothesis W : levels_b sh = true.
Hypothesis R : par sh s.
Lemma level_out w : a_word s w -> usual w -> no_offset w ->
  exists e, base_text s w e /\ measurable e /\ timeless is_radian is_second e /\ rated (inner e) /\ (operations (inner e) <= 21)%nat.
Proof.
  intros A [U T] No. apply (a_word_par sh s R) in A. unfold levels_b in W. rewrite forallb_forall in W. specialize (W w A).
  unfold level_b in W. rewrite (not_mem w _ U), (not_mem w _ T) in W.
  assert (Nb : negb (no_offset_b w) = false).
  { unfold no_offset_b. destruct No as [No | Yes]; [rewrite (not_mem w _ No); reflexivity |].
    apply str_mem_In in Yes. rewrite Yes. destruct (str_mem w offset_words); reflexivity. }
  rewrite Nb in W.
  destruct (parse w) as [[| | k | | | | |] |] eqn:P; try discriminate W. destruct (str_eqb k w) eqn:K; [| discriminate W].
  apply str_eqb_eq in K. subst k. destruct (out_name sh 8 w) as [e |] eqn:O; [| discriminate W].
  apply andb_prop in W as [W1 W3]. apply andb_prop in W1 as [W1 W2]. apply andb_prop in W3 as [W3 W4]. exists e.
  split; [exists (Identifier w); split; [exact P | constructor; apply (par_base sh s R), (out_name_sound sh 8 w e O)] |].
  split; [now apply measurable_b_sound |]. split; [now apply timeless_b_sound |]. split; [now apply rated_b_sound |].
  apply N.leb_le in W4. lia.
Qed.
End Words.

(** Units named by a word of the database, bels included, convert into each other as their definitions
    say; floating point arithmetic of relative accuracy [eps] finds the result to within the bound. *)
Theorem C112_named_units_convert_accurately :
  forall strict set_order s, rearranges set_order -> read_system strict set_order db = Ok s ->
  forall w1 w2, a_word s w1 -> usual w1 -> no_offset w1 -> a_word s w2 -> usual w2 -> no_offset w2 ->
  exists e1 e2, base_text s w1 e1 /\ base_text s w2 e2 /\
  forall ord history1 history2 stack1 stack2, rearranges ord -> (7 < stack1)%nat -> (7 < stack2)%nat ->
  (forall b, symexp e1 b = symexp e2 b) ->
  exists x y cv, fst (sys_unit ord stack1 w1 (after ord s history1)) = Ok (AUnit x) /\
    fst (sys_unit ord stack2 w2 (after ord s history2)) = Ok (AUnit y) /\
    mk_converter (AUnit x) (AUnit y) = Ok cv /\
    forall v, let g := (factor (inner e1) / factor (inner e2) * power_of (level e1) v)%R in
    (level e2 <> None -> 0 < g)%R ->
    convert cv v = Ok (level_of (level e2) g) /\
    forall eps w, let d := (eps * (94 + 3 * stretch (level e1) v))%R in
      (0 <= eps)%R -> (d <= 1 / 2)%R -> rounded_log_convert eps x y v w ->
      (Rabs (w - level_of (level e2) g) <= error_bound eps (level e2) d (level_of (level e2) g))%R.
Proof.
  intros strict o s P E w1 w2 A1 U1 N1 A2 U2 N2.
  destruct (read_any strict o P) as (s' & E' & R). rewrite E in E'. injection E' as <-.
  destruct (level_out shipped s shipped_levels R w1 A1 U1 N1) as (e1 & B1 & M1 & T1 & R1 & O1).
  destruct (level_out shipped s shipped_levels R w2 A2 U2 N2) as (e2 & B2 & M2 & T2 & R2 & O2).
  exists e1, e2. split; [exact B1 |]. split; [exact B2 |].
  intros ord h1 h2 f1 f2 Po L1 L2 S.
  destruct (C90_texts_on_the_shipped_database strict o s P E ord h1 f1 w1 e1 Po L1 B1 M1 T1) as (x & Dx & Ux).
  destruct (C90_texts_on_the_shipped_database strict o s P E ord h2 f2 w2 e2 Po L2 B2 M2 T2) as (y & Dy & Uy).
  destruct (C20_conversion_preserves_the_quantity is_radian x y e1 e2 Dx Dy S) as (cv & Cv & Q).
  exists x, y, cv. split; [exact Ux |]. split; [exact Uy |]. split; [exact Cv |].
  intros v g G.
  assert (K : (INR (operations (inner e1) + operations (inner e2) + 5) <= 47)%R).
  { replace 47%R with (INR 47) by (simpl; lra). apply le_INR. lia. }
  assert (K0 := pos_INR (operations (inner e1) + operations (inner e2) + 5)).
  split.
  { destruct (C112_logarithmic_conversion_is_accurate 0 is_radian x y e1 e2 v _ ltac:(lra) Dx Dy R1 R2 S G ltac:(lra)
      (C112_exact_arithmetic_is_allowed 0 x y e1 e2 v ltac:(lra) ltac:(apply Dx) ltac:(apply Dy) M1 M2 R1 R2))
      as (cv' & exact & Cv' & V & -> & _).
    rewrite Cv in Cv'. injection Cv' as <-. exact V. }
  intros eps w d E0 D Rc.
  assert (St : (0 <= stretch (level e1) v)%R).
  { destruct (level e1) as [b |] eqn:L; cbn [stretch]; [| lra]. apply Rmult_le_pos; [apply Rabs_pos |].
    destruct e1 as [| | | | | | | f a]; try discriminate L. cbn [level] in L. destruct (log_base_spec _ _ L) as (b' & _ & <-).
    pose proof (ln_base b'). lra. }
  assert (D' : (eps * (2 * INR (operations (inner e1) + operations (inner e2) + 5) + 3 * stretch (level e1) v) <= d)%R).
  { unfold d. apply Rmult_le_compat_l; lra. }
  destruct (C112_logarithmic_conversion_is_accurate eps is_radian x y e1 e2 v w E0 Dx Dy R1 R2 S G ltac:(lra) Rc) as (cv' & exact & _ & _ & -> & A).
  fold g in A. eapply Rle_trans; [exact A |]. destruct (level e2) as [b |] eqn:L; cbn [error_bound].
  - assert (0 < ln b)%R.
    { destruct e2 as [| | | | | | | f a]; try discriminate L. cbn [level] in L. destruct (log_base_spec _ _ L) as (b' & _ & <-).
      apply ln_base. }
    apply Rplus_le_compat_r. unfold Rdiv. apply Rmult_le_compat_r; [left; now apply Rinv_0_lt_compat | lra].
  - apply Rmult_le_compat_r; [apply Rabs_pos | lra].
Qed.

(** ** The hypotheses are met: watts to bel-milliwatts *)
Lemma word_ok w : negb (str_mem w unusable_words) && negb (str_mem w torr_words) && no_offset_b w = true ->
  usual w /\ no_offset w.
Proof.
  assert (M : forall l, negb (str_mem w l) = true -> ~ In w l).
  { intros l H I. apply str_mem_In in I. rewrite I in H. discriminate H. }
  intros H. apply andb_prop in H as [H H3]. apply andb_prop in H as [H1 H2]. split; [split; auto |].
  apply orb_prop in H3 as [H3 | H3]; [left; auto | right; now apply str_mem_In].
Qed.
Definition watt := Eval vm_compute in form_of (u "watt").
Definition bm := Eval vm_compute in form_of (u "Bm").
Example C112_example :
  (a_word shipped (u "watt") /\ usual (u "watt") /\ no_offset (u "watt")) /\
  (a_word shipped (u "Bm") /\ usual (u "Bm") /\ no_offset (u "Bm")) /\
  base_text shipped (u "watt") watt /\ base_text shipped (u "Bm") bm /\
  (forall b, symexp watt b = symexp bm b) /\
  level watt = None /\ level bm = Some 10%R /\ (factor (inner watt) / factor (inner bm) = 1000)%R /\
  level_of (level bm) (factor (inner watt) / factor (inner bm) * power_of (level watt) 10)%R = 4%R.
Proof.
  split; [split; [apply word_by; vm_compute; reflexivity | apply word_ok; vm_compute; reflexivity] |].
  split; [split; [apply word_by; vm_compute; reflexivity | apply word_ok; vm_compute; reflexivity] |].
  split; [apply (out_text_sound shipped 8); vm_compute; reflexivity |].
  split; [apply (out_text_sound shipped 8); vm_compute; reflexivity |].
  split; [intros b; unfold symexp, watt, bm; cbn [gdim]; lia |].
  split; [reflexivity |]. split; [reflexivity |].
  assert (F : (factor (inner watt) / factor (inner bm) = 1000)%R).
  { unfold watt, bm. cbn [inner factor num_R]. unfold Q2R. cbn. rewrite !pow1. field. }
  split; [exact F |]. rewrite F. cbn [level watt bm power_of].
  change (log_base_R _) with (Some 10%R). cbn [level_of].
  replace (1000 * 10)%R with (10 ^ 4)%R by lra. rewrite ln_pow by lra. cbn [INR].
  assert (0 < ln 10)%R by (rewrite <- ln_1; apply ln_increasing; lra). field. lra.
Qed.
