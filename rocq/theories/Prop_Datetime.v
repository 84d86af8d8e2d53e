(** * Properties of DateTime and Time (C45, C46, C61, C62). *)
From Verif Require Import PyBase PyNum NumText Datetime SystemFacts.
From Coq Require Import QArith Lia.
Open Scope Z_scope.

Lemma time_eqb_iff a b : time_eqb a b = true <-> a = b.
Proof.
  unfold time_eqb. rewrite !Bool.andb_true_iff, !Z.eqb_eq. destruct a, b; cbn. split; [intros (((-> & ->) & ->) & ->); reflexivity|intros [= -> -> -> ->]; auto].
Qed.
Lemma offset_eqb_iff a b : offset_eqb a b = true <-> a = b.
Proof.
  destruct a as [x|x], b as [y|y]; cbn [offset_eqb]; try (split; discriminate).
  - rewrite time_eqb_iff. split; [now intros ->|now intros [= ->]].
  - rewrite SystemFacts.eqb_spec. split; [now intros ->|now intros [= ->]].
Qed.

(** C45: two DateTimes are equal exactly when they agree in all but the raw text. *)
Theorem C45_equality_ignores_exactly_the_raw_text a b :
  datetime_eqb a b = true <->
  year a = year b /\ month a = month b /\ day a = day b /\ dtime a = dtime b /\ tz_offset a = tz_offset b.
Proof. unfold datetime_eqb. rewrite !Bool.andb_true_iff, !Z.eqb_eq, time_eqb_iff, offset_eqb_iff. tauto. Qed.
Theorem C45_equality_is_an_equivalence :
  (forall a, datetime_eqb a a = true) /\ (forall a b, datetime_eqb a b = datetime_eqb b a) /\
  (forall a b c, datetime_eqb a b = true -> datetime_eqb b c = true -> datetime_eqb a c = true).
Proof.
  split; [|split].
  - intro a. apply C45_equality_ignores_exactly_the_raw_text. auto.
  - intros a b. apply Bool.eq_iff_eq_true. rewrite !C45_equality_ignores_exactly_the_raw_text. intuition congruence.
  - intros a b c. rewrite !C45_equality_ignores_exactly_the_raw_text. intuition congruence.
Qed.
Definition moment r := mkDateTime 2000 1 1 (mkTime 0 0 0 0) (OText (u "UTC")) r.
Example C45_nontrivial : datetime_eqb (moment None) (moment (Some (u "2000-01-01"))) = true /\ moment None <> moment (Some (u "2000-01-01")).
Proof. split; [reflexivity|discriminate]. Qed.

(** C62 is false: equal DateTimes need equal hashes, but the hash is taken over the raw text
    too.  It could only be kept by a hash of tuples that ignores their last component. *)
Theorem C62_equal_datetimes_hash_differently_refuted :
  (exists a b, datetime_eqb a b = true /\ hashed a <> hashed b) /\
  (forall H, (forall a b, datetime_eqb a b = true -> datetime_hash H a = datetime_hash H b) ->
     forall y m d t o r r', H (y, m, d, t, o, r) = H (y, m, d, t, o, r')).
Proof.
  split.
  - exists (moment None), (moment (Some (u "2000-01-01"))). split; [reflexivity|discriminate].
  - intros H C y m d t o r r'. apply (C (mkDateTime y m d t o r) (mkDateTime y m d t o r')).
    apply C45_equality_ignores_exactly_the_raw_text. cbn. auto.
Qed.

(** ** the text of a time *)
Definition numeral (s : str) : Prop := Forall (fun c => c = 45%N \/ (48 <= c <= 57)%N) s.
Lemma zfill_numeral w z : numeral (zfill w z).
Proof.
  assert (D : numeral (N_str (Z.abs_N z))) by (eapply Forall_impl; [|apply N_str_digits]; cbn; auto).
  assert (R : forall k, numeral (repeat 48%N k)) by (intro k; apply Forall_forall; intros c I; apply repeat_spec in I; subst; right; lia).
  unfold zfill. destruct (z <? 0); [constructor; [auto|]|]; apply Forall_app; split; auto; apply R.
Qed.
Definition read (s : str) : Z := match s with c :: r => if N.eqb c 45 then - Z.of_N (digits_value r) else Z.of_N (digits_value s) | [] => 0 end.
Lemma digits_value_zeros k ds : digits_value (repeat 48%N k ++ ds) = digits_value ds.
Proof. induction k as [|k IH]; [reflexivity|]. exact IH. Qed.
Lemma zfill_read w z : read (zfill w z) = z.
Proof.
  unfold zfill. destruct (Z.ltb_spec z 0) as [L|L].
  - cbn [read]. rewrite N.eqb_refl, digits_value_zeros, N_str_value. lia.
  - assert (D : Forall (fun c => 48 <= c <= 57)%N (repeat 48%N (w - List.length (N_str (Z.abs_N z))) ++ N_str (Z.abs_N z))).
    { apply Forall_app. split; [|apply N_str_digits]. apply Forall_forall; intros c I; apply repeat_spec in I; subst; lia. }
    pose proof (digits_value_zeros (w - List.length (N_str (Z.abs_N z))) (N_str (Z.abs_N z))) as V. rewrite N_str_value in V.
    destruct (repeat _ _ ++ _) as [|c r] eqn:E.
    + destruct (repeat _ _); [|discriminate E]. now destruct (N_str_nonempty (Z.abs_N z)).
    + cbn [read]. inversion D; subst. destruct (N.eqb_spec c 45); [lia|]. rewrite V. lia.
Qed.
Lemma zfill_inj w a b : zfill w a = zfill w b -> a = b.
Proof. intro H. rewrite <- (zfill_read w a), H. apply zfill_read. Qed.

(** cutting a text at the first character that is not of a numeral *)
Lemma numeral_cut a : forall b x y c d, numeral a -> numeral b -> (c = 58 \/ c = 46)%N -> (d = 58 \/ d = 46)%N ->
  (a ++ c :: x)%list = (b ++ d :: y)%list -> a = b /\ c = d /\ x = y.
Proof.
  induction a as [|e a IH]; intros [|f b] x y c d A B C D E; cbn [app] in E.
  - now injection E.
  - injection E as -> _. inversion B; subst. lia.
  - injection E as -> _. inversion A; subst. lia.
  - injection E as -> E. inversion A; inversion B; subst. destruct (IH b x y c d) as (-> & -> & ->); auto.
Qed.
Lemma numeral_end a b d y : numeral a -> (d = 58 \/ d = 46)%N -> a = (b ++ d :: y)%list -> False.
Proof. intros A D ->. apply Forall_app in A as [_ A]. inversion A; subst. lia. Qed.

(** C46: the text of a time determines it, for any int fields. *)
Theorem C46_text_determines_the_time a b : time_str a = time_str b -> a = b.
Proof.
  destruct a as [h m s x], b as [h' m' s' x']. unfold time_str. cbn [hour minute second microseconds].
  pose proof (zfill_numeral 2) as N2. pose proof (zfill_numeral 8) as N8.
  change (u ":") with [58%N]. change (u ".") with [46%N]. cbn [app]. intro E.
  apply numeral_cut in E as (H & _ & E); auto. apply zfill_inj in H. subst h'.
  destruct (Z.eqb_spec x 0) as [X|X], (Z.eqb_spec x' 0) as [X'|X'], (Z.eqb_spec s 0) as [S|S], (Z.eqb_spec s' 0) as [S'|S'];
    subst; cbn [negb orb app] in E; rewrite ?app_nil_r in E.
  all: try (exfalso; apply (numeral_end _ _ _ _ (N2 _) (or_introl eq_refl) E)).
  all: try (symmetry in E; exfalso; apply (numeral_end _ _ _ _ (N2 _) (or_introl eq_refl) E)).
  all: try (apply zfill_inj in E; now subst).
  all: apply numeral_cut in E as (M & _ & E); auto; apply zfill_inj in M; subst.
  all: try (exfalso; apply (numeral_end _ _ _ _ (N2 _) (or_intror eq_refl) E)).
  all: try (symmetry in E; exfalso; apply (numeral_end _ _ _ _ (N2 _) (or_intror eq_refl) E)).
  all: try (apply zfill_inj in E; now subst).
  all: apply numeral_cut in E as (M & _ & E); auto; apply zfill_inj in M; apply zfill_inj in E; subst; try reflexivity; contradiction.
Qed.
Example C46_nontrivial : time_str (mkTime 1 2 0 0) = u "01:02" /\ time_str (mkTime 1 2 3 0) = u "01:02:03" /\ time_str (mkTime 23 59 0 7) = u "23:59:00.00000007".
Proof. repeat split. Qed.

(** C61 is false: the digits after the point are not the fraction of a second: for every
    number of microseconds below a second they show one hundredth of it. *)
Theorem C61_fraction_of_a_second_refuted :
  forall t, 0 < microseconds t < 1000000 ->
  exists before ds, time_str t = (before ++ u "." ++ ds)%list /\ List.length ds = 8%nat /\
    (Qmake (Z.of_N (digits_value ds)) (10 ^ 8) == Qmake (microseconds t) (10 ^ 6) * (1 # 100))%Q.
Proof.
  intros [h m s x]. cbn [microseconds]. intro X. unfold time_str. cbn [hour minute second microseconds].
  assert (Z.eqb x 0 = false) as -> by (apply Z.eqb_neq; lia). cbn [negb]. rewrite Bool.orb_true_r.
  exists (zfill 2 h ++ u ":" ++ zfill 2 m ++ u ":" ++ zfill 2 s)%list, (zfill 8 x). split; [rewrite <- !app_assoc; reflexivity|]. unfold zfill.
  assert (Z.ltb x 0 = false) as -> by (apply Z.ltb_ge; lia). rewrite digits_value_zeros, N_str_value. split.
  - rewrite app_length, repeat_length. assert (List.length (N_str (Z.abs_N x)) <= 6)%nat by (apply N_str_length; lia). lia.
  - unfold Qeq. cbn. lia.
Qed.
Example C61_witness : time_str (mkTime 1 2 3 500000) = u "01:02:03.00500000".
Proof. reflexivity. Qed.


Print Assumptions C45_equality_ignores_exactly_the_raw_text.
Print Assumptions C45_equality_is_an_equivalence.
Print Assumptions C62_equal_datetimes_hash_differently_refuted.
Print Assumptions C46_text_determines_the_time.
Print Assumptions C61_fraction_of_a_second_refuted.
