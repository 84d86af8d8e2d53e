(** * The generated parser computes the preferred parse *)
From Verif Require Import PyBase Lexer Parser GrammarSpec ParserFacts ParserComplete PAtn PSpec
  PSim PSimFacts PSimMore PGen PGenSound PGenRun PGenProgress.
Local Open Scope Z_scope.

Lemma follows : follow_of 22 = 24 /\ follow_of 27 = 49 /\ follow_of 28 = 30 /\ follow_of 38 = 40
  /\ follow_of 46 = 47 /\ follow_of 51 = 52 /\ follow_of 54 = 69 /\ follow_of 57 = 69
  /\ follow_of 60 = 69 /\ follow_of 67 = 69 /\ follow_of 73 = 74 /\ follow_of 76 = 85
  /\ follow_of 77 = 78 /\ follow_of 81 = 82 /\ follow_of 86 = 92 /\ follow_of 88 = 89
  /\ follow_of 95 = 96.
Proof. vm_compute. repeat split; reflexivity. Qed.

Ltac fol n v H := change (follow_of n) with v in H.

Lemma number_pref : forall c t, derives Number_r c t -> preferred t.
Proof.
  intros c t D. inversion D; subst.
  - inversion H; subst. apply preferred_node. split; [exact I |]. constructor; [| constructor].
    apply int_pref.
  - apply preferred_node. split; [exact I |]. constructor; [apply leaf_pref | constructor].
Qed.

Lemma one_pref : forall r t, local_ok r [t] -> preferred t -> preferred (PNode r [t]).
Proof.
  intros r t L P. apply preferred_node. split; [exact L |]. constructor; [exact P | constructor].
Qed.

Lemma two_pref : forall r a b, local_ok r [a; b] -> preferred a -> preferred b ->
  preferred (PNode r [a; b]).
Proof.
  intros r a b L P Q. apply preferred_node. split; [exact L |].
  constructor; [exact P | constructor; [exact Q | constructor]].
Qed.

Lemma three_pref : forall r a b c, local_ok r [a; b; c] -> preferred a -> preferred b ->
  preferred c -> preferred (PNode r [a; b; c]).
Proof.
  intros r a b c L P Q R. apply preferred_node. split; [exact L |].
  constructor; [exact P | constructor; [exact Q | constructor; [exact R | constructor]]].
Qed.

Definition enough (f k : nat) (ts : list token) : Prop :=
  (8 * List.length ts + k <= f)%nat.

Lemma power_nonempty : forall c t, derives Power c t -> (1 <= List.length c)%nat.
Proof.
  intros c t D. apply power_starts in D. destruct D as [x [c' [E _]]]. subst c. cbn [List.length].
  lia.
Qed.

(** no integer that could still be an exponent is left *)
Definition settled (f : Z) (st : list Z) (t : ptree) (r : list token) : Prop :=
  has_exponent t = false ->
  forall i r', r = i :: r' -> integer_token i -> ~ accepts f st (syms r').

Definition good_shift (f : nat) : Prop := forall fo st ts x,
  gives (g_shift f (fo :: st) ts) x ->
  accepts 2 (fo :: st) (syms ts) -> wf true 2 (fo :: st) -> enough f 6 ts ->
  exists t r, x = Some (t, r) /\ accepts fo st (syms r)
              /\ preferred t.
Definition good_product (f : nat) : Prop := forall fo st ts x,
  gives (g_product f (fo :: st) ts) x ->
  accepts 4 (fo :: st) (syms ts) -> wf true 4 (fo :: st) -> enough f 5 ts ->
  exists t r, x = Some (t, r) /\ accepts fo st (syms r)
              /\ preferred t.
Definition good_loop (f : nat) : Prop := forall n c0 p fo st ts x,
  gives (g_loop f n p (fo :: st) ts) x ->
  n = 70 \/ n = 72 ->
  accepts 70 (fo :: st) (syms ts) -> wf true 70 (fo :: st) -> enough f 5 ts ->
  derives Product c0 p -> preferred p -> settled 70 (fo :: st) (last_power p) ts ->
  exists t r, x = Some (t, r) /\ accepts fo st (syms r)
              /\ preferred t.
Definition good_power (f : nat) : Prop := forall fo st ts x,
  gives (g_power f (fo :: st) ts) x ->
  accepts 6 (fo :: st) (syms ts) -> wf true 6 (fo :: st) -> enough f 4 ts ->
  exists t r, x = Some (t, r) /\ accepts fo st (syms r)
              /\ preferred t /\ settled fo st t r.
Definition good_logarithm (f : nat) : Prop := forall fo st ts x,
  gives (g_logarithm f (fo :: st) ts) x ->
  accepts 8 (fo :: st) (syms ts) -> wf true 8 (fo :: st) -> enough f 3 ts ->
  exists t r, x = Some (t, r) /\ accepts fo st (syms r)
              /\ preferred t.
Definition good_basic (f : nat) : Prop := forall fo st ts x,
  gives (g_basic f (fo :: st) ts) x ->
  accepts 10 (fo :: st) (syms ts) -> wf true 10 (fo :: st) -> enough f 2 ts ->
  exists t r, x = Some (t, r) /\ accepts fo st (syms r)
              /\ preferred t.

(** the result of a call; the end *)
Ltac called H y Hy := apply gives_bind in H; destruct H as [y [Hy H]].
Ltac done H := apply gives_ret in H; lazymatch type of H with _ = ?x => subst x end.

Ltac callwf n W := apply (wf_call n); [edge | wfs W].

Lemma basic_ok : forall f, good_shift f -> good_basic (S f).
Proof.
  intros f IHs fo st ts x H A W N. unf H. inv A. rewrite (sync_ok _ _ _ A) in H. inv A.
  destruct A as [A | [A | A]].
  - destruct (acc_take 93 100 16 _ _ A) as [t [r [E [K [T A1]]]]];
      [reflexivity | reflexivity | lia |].
    subst ts. rewrite la_cons, K in H.
    cbn [one_of existsb Z.eqb Pos.eqb orb] in H. rewrite T in H. done H.
    exists (PNode Basic_spec [PLeaf t]), r. split; [reflexivity |].
    split; [inv A1; back A1; exact A1 |]. apply one_pref; [exact I | apply leaf_pref].
  - destruct (acc_take 94 95 6 _ _ A) as [t [r [E [K [T A1]]]]];
      [reflexivity | reflexivity | lia |].
    subst ts. rewrite la_cons, K in H. cbn [one_of existsb Z.eqb Pos.eqb orb] in H. rewrite T in H.
    fol 95 96 H. inv A1.
    called H y G.
    destruct (IHs _ _ _ y G A1) as [s [r2 [Y [A2 P]]]].
    { callwf 95 W. }
    { unfold enough in *. cbn [List.length] in N. lia. }
    subst y. cbv beta iota in H.
    destruct (acc_take 96 97 7 _ _ A2) as [t2 [r3 [E2 [K2 [T2 A3]]]]];
      [reflexivity | reflexivity | lia |].
    rewrite T2 in H. done H. eexists _, r3. split; [reflexivity |].
    split; [inv A3; inv A3; back A3; exact A3 |].
    apply three_pref; [exact I | apply leaf_pref | exact P | apply leaf_pref].
  - inv A. destruct (acc_g_number _ _ _ A) as [i [t [r [E [G A1]]]]]; [callwf 98 W |].
    first_of A (wf_call 98 14 100 (fo :: st) ltac:(edge) ltac:(wfs W)) F.
    assert (Q : one_of (la ts) [16] = false /\ one_of (la ts) [6] = false
                /\ one_of (la ts) [1; 9; 11] = true).
    { each F; rewrite <- F; repeat split; reflexivity. }
    destruct Q as [Q1 [Q2 Q3]]. rewrite Q1, Q2, Q3, G in H. done H.
    exists (PNode Basic_spec [t]), r. split; [reflexivity |].
    split; [inv A1; back A1; exact A1 |]. apply one_pref; [exact I |].
    apply g_number_sound in G. destruct G as [j [_ D]]. exact (number_pref _ _ D).
Qed.

Lemma logarithm_ok : forall f, good_shift f -> good_basic f -> good_logarithm (S f).
Proof.
  intros f IHs IHb fo st ts x H A W N. unf H. inv A. rewrite (sync_ok _ _ _ A) in H. inv A.
  destruct A as [A | A].
  - inv A. fol 86 92 H.
    assert (W10 : wf true 10 (92 :: fo :: st)) by callwf 86 W.
    first_of A W10 F.
    assert (Q : one_of (la ts) [1; 6; 9; 11; 16] = true)
      by (each F; rewrite <- F; reflexivity).
    rewrite Q in H. called H y G.
    destruct (IHb _ _ _ y G A W10) as [b [r [Y [A1 P]]]].
    { unfold enough in *. lia. }
    subst y. cbv beta iota in H. done H. eexists _, r. split; [reflexivity |].
    split; [inv A1; back A1; exact A1 |]. apply one_pref; [exact I | exact P].
  - destruct (acc_take 87 88 15 _ _ A) as [t [r [E [K [T A1]]]]];
      [reflexivity | reflexivity | lia |].
    subst ts. rewrite la_cons, K in H. cbn [one_of existsb Z.eqb Pos.eqb orb] in H. rewrite T in H.
    fol 88 89 H. inv A1.
    called H y G.
    destruct (IHs _ _ _ y G A1) as [s [r2 [Y [A2 P]]]].
    { callwf 88 W. }
    { unfold enough in *. cbn [List.length] in N. lia. }
    subst y. cbv beta iota in H.
    destruct (acc_take 89 90 7 _ _ A2) as [t2 [r3 [E2 [K2 [T2 A3]]]]];
      [reflexivity | reflexivity | lia |].
    rewrite T2 in H. done H. eexists _, r3. split; [reflexivity |].
    split; [inv A3; inv A3; back A3; exact A3 |].
    apply three_pref; [exact I | apply leaf_pref | exact P | apply leaf_pref].
Qed.

Lemma logarithm_derives : forall f st ts t r, gives (g_logarithm f st ts) (Some (t, r)) ->
  exists c, ts = c ++ r /\ derives Logarithm_r c t.
Proof. intros f. apply (generated_sound f). Qed.
Lemma power_derives : forall f st ts t r, gives (g_power f st ts) (Some (t, r)) ->
  exists c, ts = c ++ r /\ derives Power c t.
Proof. intros f. apply (generated_sound f). Qed.
Lemma product_derives : forall f st ts t r, gives (g_product f st ts) (Some (t, r)) ->
  exists c, ts = c ++ r /\ derives Product c t.
Proof. intros f. apply (generated_sound f). Qed.

Lemma power_ok : forall f, good_logarithm f -> good_power (S f).
Proof.
  intros f IHg fo st ts x H A W N. unf H. inv A. rewrite (sync_ok _ _ _ A) in H.
  assert (N' : enough f 3 ts) by (unfold enough in *; lia).
  apply gives_ask in H. destruct H as [pick [pick_ok H]].
  destruct (predicted pick 9 (fo :: st) ts) as [m [P [V L]]];
    [unfold decisions; cbn [In]; tauto | wfs W | exact A |].
  rewrite P in H. clear A.
  assert (F85 : forall r, accepts 85 (fo :: st) (syms r) -> accepts fo st (syms r)).
  { intros r A. inv A. back A. exact A. }
  destruct (cases9 pick pick_ok _ _ _ P) as [M | [M | [M | M]]]; subst m; cbv beta iota in H.
  - chosen V t A. inv A. fol 73 74 H.
    called H y G.
    destruct (IHg _ _ _ y G A) as [l [r [Y [A1 Pl]]]]; [callwf 73 W | exact N' |].
    subst y. cbv beta iota in H. inv A1. destruct (acc_g_integer _ _ _ A1) as [i [r2 [E [I1 [G2 A2]]]]].
    rewrite G2 in H. done H. eexists _, r2. split; [reflexivity |]. split; [inv A2; now apply F85 |].
    split; [apply two_pref; [exact I | exact Pl | apply int_pref] |].
    intros X. discriminate X.
  - chosen V t A. inv A. fol 76 85 H.
    called H y G.
    destruct (IHg _ _ _ y G A) as [l [r [Y [A1 Pl]]]]; [callwf 76 W | exact N' |].
    subst y. cbv beta iota in H. done H. eexists _, r. split; [reflexivity |]. split; [now apply F85 |].
    split; [apply one_pref; [exact I | exact Pl] |].
    intros _ i r' E Hi A2. apply logarithm_derives in G. destruct G as [c [E2 D]].
    assert (V1 : viable 9 1 (fo :: st) (syms ts)).
    { exists 73. split; [lia |]. split; [vm_compute; reflexivity |]. r_call 8 74.
      rewrite E2, E, syms_app, syms_cons. apply (derivation_runs _ _ _ D).
      r_call 12 75. apply run_integer; [exact Hi |]. r_eps 85. r_eps 7. r_ret. exact A2. }
    apply L in V1. lia.
  - chosen V t A. inv A. fol 77 78 H.
    called H y G.
    destruct (IHg _ _ _ y G A) as [l [r [Y [A1 Pl]]]]; [callwf 77 W | exact N' |].
    subst y. cbv beta iota in H.
    destruct (acc_take 78 79 14 _ _ A1) as [t2 [r3 [E2 [K2 [T2 A3]]]]];
      [reflexivity | reflexivity | lia |].
    rewrite T2 in H. inv A3. destruct (acc_g_integer _ _ _ A3) as [i [r2 [E [I1 [G2 A2]]]]].
    rewrite G2 in H. done H. eexists _, r2. split; [reflexivity |]. split; [inv A2; now apply F85 |].
    split; [apply three_pref; [exact I | exact Pl | apply leaf_pref | apply int_pref] |].
    intros X. discriminate X.
  - chosen V t A. inv A. fol 81 82 H.
    called H y G.
    destruct (IHg _ _ _ y G A) as [l [r [Y [A1 Pl]]]]; [callwf 81 W | exact N' |].
    subst y. cbv beta iota in H.
    destruct (acc_take 82 83 13 _ _ A1) as [t2 [r3 [E2 [K2 [T2 A3]]]]];
      [reflexivity | reflexivity | lia |].
    rewrite T2 in H. done H. eexists _, r3. split; [reflexivity |]. split; [inv A3; now apply F85 |].
    split; [apply two_pref; [exact I | exact Pl | apply leaf_pref] |].
    intros X. discriminate X.
Qed.

Lemma product_ok : forall f, good_power f -> good_loop f -> good_product (S f).
Proof.
  intros f IHw IHl fo st ts x H A W N. unf H. fol 51 52 H. inv A. inv A. inv A.
  called H y G.
  destruct (IHw _ _ _ y G A) as [p [r [Y [A1 [Pp Sp]]]]].
  { callwf 51 W. }
  { unfold enough in *. lia. }
  subst y. cbv beta iota in H. apply power_derives in G. destruct G as [c [E D]]. pose proof (power_nonempty _ _ D).
  apply (IHl 70 c _ _ _ _ _ H); [now left | inv A1; exact A1 | wfs W | | now apply D_product_power | |].
  - unfold enough in *. subst ts. rewrite app_length in N. lia.
  - apply one_pref; [exact I | exact Pp].
  - intros X i r' E2 Hi A2. apply (Sp X i r' E2 Hi). r_eps 70. exact A2.
Qed.

Lemma loop_ok : forall f, good_power f -> good_loop f -> good_loop (S f).
Proof.
  intros f IHw IHl n c0 p fo st ts x H Hn A W N D Pp Sp. unf H.
  assert (An : accepts n (fo :: st) (syms ts)).
  { destruct Hn as [Hn | Hn]; subst n; [exact A | r_eps 70; exact A]. }
  rewrite (sync_ok _ _ _ An) in H. clear An.
  apply gives_ask in H. destruct H as [pick [pick_ok H]].
  destruct (predicted pick 8 (fo :: st) ts) as [m [P [V L]]];
    [unfold decisions; cbn [In]; tauto | exact W | exact A |].
  rewrite P in H. clear A L.
  assert (F69 : forall r, accepts 69 (fo :: st) (syms r) -> accepts 70 (fo :: st) (syms r)).
  { intros r A. inv A. inv A. exact A. }
  assert (S69 : forall q r, settled 69 (fo :: st) q r -> settled 70 (fo :: st) q r).
  { intros q r Sq X i r' E Hi A2. apply (Sq X i r' E Hi). now apply loop_again. }
  destruct (cases8 pick pick_ok _ _ _ P) as [M | M]; subst m; cbv beta iota in H.
  2:{ chosen V t A. inv A. back A. done H. exists p, ts. split; [reflexivity |]. now split. }
  chosen V t A. rewrite (sync_ok _ _ _ A) in H.
  apply gives_ask in H. destruct H as [pick7 [pick7_ok H]].
  destruct (predicted pick7 7 (fo :: st) ts) as [m [P7 [V _]]];
    [unfold decisions; cbn [In]; tauto | wfs W | exact A |].
  rewrite P7 in H. clear A.
  destruct (cases7 pick7 pick7_ok _ _ _ P7) as [M | [M | [M | M]]]; subst m; cbv beta iota in H.
  - chosen V t A. inv A. destruct A as [_ A]. inv A. fol 54 69 H.
    called H y G.
    destruct (IHw _ _ _ y G A) as [q [r [Y [A1 [Pq Sq]]]]].
    { callwf 54 W. }
    { unfold enough in *. lia. }
    subst y. cbv beta iota in H. apply power_derives in G. destruct G as [c [E Dq]].
    pose proof (power_nonempty _ _ Dq).
    apply (IHl 72 (c0 ++ c) _ _ _ _ _ H); [now right | now apply F69 | exact W | | | | now apply S69].
    + unfold enough in *. subst ts. rewrite app_length in N. lia.
    + now apply D_product_juxtaposed.
    + apply two_pref; [| exact Pp | exact Pq]. cbn [local_ok]. intros B.
      destruct (has_exponent (last_power p)) eqn:X; [reflexivity | exfalso].
      destruct (bare_shape _ _ Dq B) as [i [Hi [Ec | [j [Ec Hj]]]]]; subst c ts.
      * apply (Sp X i r eq_refl Hi). now apply F69.
      * apply (Sp X i (j :: r) eq_refl Hi). r_eps 68. r_eps 53. r_prec 54 4. r_call 6 69.
        change (syms (j :: r)) with (map sym [j] ++ syms r).
        assert (Dj : derives Power [j] (PNode Power [PNode Logarithm_r [PNode Basic_spec
                       [PNode Number_r [PNode Integer_r [PLeaf j]]]]])).
        { apply D_power_plain, D_log_basic, D_basic_number, D_number_integer, D_integer.
          exact Hj. }
        exact (derivation_runs _ _ _ Dj _ _ _ A1).
  - chosen V t A. inv A. destruct A as [_ A].
    destruct (acc_take 56 57 3 _ _ A) as [o [r1 [E1 [K1 [T1 A1]]]]];
      [reflexivity | reflexivity | lia |].
    rewrite T1 in H. apply (take1 MULTIPLY) in T1. destruct T1 as [_ T1]. inv A1. fol 57 69 H.
    called H y G.
    destruct (IHw _ _ _ y G A1) as [q [r [Y [A2 [Pq Sq]]]]].
    { callwf 57 W. }
    { unfold enough in *. subst ts. cbn [List.length] in N. lia. }
    subst y. cbv beta iota in H. apply power_derives in G. destruct G as [c [E Dq]].
    apply (IHl 72 (c0 ++ o :: c) _ _ _ _ _ H); [now right | now apply F69 | exact W | | | | now apply S69].
    + unfold enough in *. subst ts r1. cbn [List.length] in N. rewrite app_length in N. lia.
    + now apply D_product_multiply.
    + apply three_pref; [exact I | exact Pp | apply leaf_pref | exact Pq].
  - chosen V t A. inv A. destruct A as [_ A].
    destruct (acc_take 59 60 4 _ _ A) as [o [r1 [E1 [K1 [T1 A1]]]]];
      [reflexivity | reflexivity | lia |].
    rewrite T1 in H. apply (take1 DIVIDE) in T1. destruct T1 as [_ T1]. inv A1. fol 60 69 H.
    called H y G.
    destruct (IHw _ _ _ y G A1) as [q [r [Y [A2 [Pq Sq]]]]].
    { callwf 60 W. }
    { unfold enough in *. subst ts. cbn [List.length] in N. lia. }
    subst y. cbv beta iota in H. apply power_derives in G. destruct G as [c [E Dq]].
    apply (IHl 72 (c0 ++ o :: c) _ _ _ _ _ H); [now right | now apply F69 | exact W | | | | now apply S69].
    + unfold enough in *. subst ts r1. cbn [List.length] in N. rewrite app_length in N. lia.
    + now apply D_product_divide.
    + apply three_pref; [exact I | exact Pp | apply leaf_pref | exact Pq].
  - chosen V t A. inv A. destruct A as [_ A]. rewrite (sync_ok _ _ _ A) in H.
    destruct (acc_spaces _ _ A) as [ws [r1 [G1 A1]]]; [wfs W |].
    rewrite G1 in H. apply g_spaces_sound in G1. destruct G1 as [E1 [N1 F1]]. inv A1. inv A1. fol 67 69 H.
    called H y G.
    destruct (IHw _ _ _ y G A1) as [q [r [Y [A2 [Pq Sq]]]]].
    { callwf 67 W. }
    { unfold enough in *. subst ts. rewrite app_length in N. lia. }
    subst y. cbv beta iota in H. apply power_derives in G. destruct G as [c [E Dq]].
    pose proof (power_nonempty _ _ Dq).
    apply (IHl 72 (c0 ++ ws ++ c) _ _ _ _ _ H); [now right | now apply F69 | exact W | | | |].
    + unfold enough in *. subst ts r1. rewrite !app_length in N. lia.
    + now apply D_product_space.
    + apply preferred_node. split.
      * destruct ws as [| w ws]; [congruence |]. cbn [map app local_ok].
        destruct (map PLeaf ws); exact I.
      * constructor; [exact Pp |]. apply Forall_app. split; [apply Forall_leaf |].
        constructor; [exact Pq | constructor].
    + apply S69. unfold last_power. rewrite last_cons_app. exact Sq.
Qed.

Lemma shift_ok : forall f, good_product f -> good_shift (S f).
Proof.
  intros f IHp fo st ts x H A W N. unf H. inv A. rewrite (sync_ok _ _ _ A) in H.
  assert (N' : enough f 5 ts) by (unfold enough in *; lia).
  apply gives_ask in H. destruct H as [pick [pick_ok H]].
  destruct (predicted pick 5 (fo :: st) ts) as [m [P [V L]]];
    [unfold decisions; cbn [In]; tauto | wfs W | exact A |].
  rewrite P in H. clear A.
  assert (F49 : forall r, accepts 49 (fo :: st) (syms r) -> accepts fo st (syms r)).
  { intros r A. inv A. back A. exact A. }
  destruct (cases5 pick pick_ok _ _ _ P) as [M | [M | M]]; subst m; cbv beta iota in H.
  - chosen V t A. inv A. fol 27 49 H.
    called H y G.
    destruct (IHp _ _ _ y G A) as [p [r [Y [A1 Pp]]]]; [callwf 27 W | exact N' |].
    subst y. cbv beta iota in H. done H. eexists _, r. split; [reflexivity |]. split; [now apply F49 |].
    apply one_pref; [| exact Pp]. apply product_derives in G. destruct G as [c [_ D]].
    inversion D; exact I.
  - chosen V t A. inv A. fol 28 30 H.
    called H y G.
    destruct (IHp _ _ _ y G A) as [p [r [Y [A1 Pp]]]]; [callwf 28 W | exact N' |].
    subst y. cbv beta iota in H.
    destruct (acc_space 30 29 31 _ _ A1) as [w1 [r1 [G1 A2]]]; [wfs W | reflexivity .. |].
    rewrite G1 in H. inv A2.
    destruct (acc_take 32 34 12 _ _ A2) as [o [r2 [E2 [K2 [T2 A3]]]]];
      [reflexivity | reflexivity | lia |].
    rewrite T2 in H.
    destruct (acc_space 34 33 35 _ _ A3) as [w2 [r3 [G3 A4]]]; [wfs W | reflexivity .. |].
    rewrite G3 in H. inv A4. inv A4.
    destruct (acc_g_number _ _ _ A4) as [i [t [r4 [E4 [G4 A5]]]]]; [callwf 36 W |].
    rewrite G4 in H. done H. eexists _, r4. split; [reflexivity |]. split; [inv A5; now apply F49 |].
    apply g_number_sound in G4. destruct G4 as [j [_ Dn]].
    apply preferred_node. split.
    + unfold local_ok. rewrite <- app_comm_cons, last_cons_app. inversion Dn; exact I.
    + apply Forall_shift; [exact Pp | exact (number_pref _ _ Dn)].
  - chosen V t A. inv A. fol 38 40 H.
    called H y G.
    destruct (IHp _ _ _ y G A) as [p [r [Y [A1 Pp]]]]; [callwf 38 W | exact N' |].
    subst y. cbv beta iota in H.
    destruct (acc_space 40 39 41 _ _ A1) as [w1 [r1 [G1 A2]]]; [wfs W | reflexivity .. |].
    rewrite G1 in H. inv A2.
    destruct (acc_take 42 44 12 _ _ A2) as [o [r2 [E2 [K2 [T2 A3]]]]];
      [reflexivity | reflexivity | lia |].
    rewrite T2 in H.
    destruct (acc_space 44 43 45 _ _ A3) as [w2 [r3 [G3 A4]]]; [wfs W | reflexivity .. |].
    rewrite G3 in H. inv A4. inv A4. fol 46 47 H.
    called H y G4.
    destruct (acc_timestamp _ _ _ y G4 A4) as [b [r4 [Y4 A5]]]; [callwf 46 W |].
    subst y. cbv beta iota in H. done H. eexists _, r4. split; [reflexivity |]. split; [inv A5; now apply F49 |].
    apply preferred_node. split.
    + unfold local_ok. rewrite <- app_comm_cons, last_cons_app.
      destruct b as [| i [| j b]]; cbn [map]; [exact I | | exact I].
      intros Hi. apply product_derives in G. destruct G as [c [Ec D]].
      apply g_space_sound in G1. destruct G1 as [Ew1 Hw1].
      apply (take1 SHIFT_OP) in T2. destruct T2 as [Eo Ho].
      apply g_space_sound in G3. destruct G3 as [Ew2 Hw2].
      apply g_timestamp_sound in G4. destruct G4 as [Eb _].
      assert (V2 : viable 5 2 (fo :: st) (syms ts)).
      { exists 28. split; [lia |]. split; [vm_compute; reflexivity |]. r_call 4 30.
        rewrite Ec, Ew1, Eo, Ew2, Eb. rewrite syms_app. apply (derivation_runs _ _ _ D).
        apply product_done. rewrite syms_app.
        apply (run_opt_space w1 29 31); [edge | edge | edge | exact Hw1 |].
        r_eps 32. rewrite syms_cons. known SHIFT_OP o. r_tok 34. rewrite syms_app.
        apply (run_opt_space w2 33 35); [edge | edge | edge | exact Hw2 |].
        r_eps 36. r_call 14 37. rewrite syms_app.
        apply (run_number [i] (PNode Number_r [PNode Integer_r [PLeaf i]])).
        - apply D_number_integer, D_integer. exact Hi.
        - r_eps 49. inv A5. exact A5. }
      apply L in V2. lia.
    + apply Forall_shift; [exact Pp |]. apply preferred_node. split; [exact I | apply Forall_leaf].
Qed.

Theorem progress : forall f, good_shift f /\ good_product f /\ good_loop f /\ good_power f
  /\ good_logarithm f /\ good_basic f.
Proof.
  induction f as [| f (IHs & IHp & IHl & IHw & IHg & IHb)].
  - unfold good_shift, good_product, good_loop, good_power, good_logarithm, good_basic, enough.
    split; [| split; [| split; [| split; [| split]]]]; intros; exfalso; lia.
  - split; [now apply shift_ok |]. split; [now apply product_ok |].
    split; [now apply loop_ok |]. split; [now apply power_ok |].
    split; [now apply logarithm_ok | now apply basic_ok].
Qed.

Lemma unit_starts_first : forall x, In x [1; 6; 9; 11; 15; 16] -> unit_starts x = true.
Proof. intros x H. each H; subst x; reflexivity. Qed.

Theorem g_unit_complete : forall ts x, gives (g_unit ts) x -> accepts 0 [] (syms ts) ->
  exists t, x = Some t /\ preferred t.
Proof.
  intros ts x H A. unfold g_unit in H. inv A. rewrite (sync_ok _ _ _ A) in H. inv A.
  destruct A as [A | A].
  - inv A. fol 22 24 H.
    assert (W : wf true 2 [24]) by (vm_compute; tauto).
    first_of A W F.
    assert (Q : unit_starts (la ts) = true) by (each F; rewrite <- F; reflexivity).
    rewrite Q in H. destruct (progress (g_fuel ts)) as [IHs _].
    called H y G.
    destruct (IHs _ _ _ y G A W) as [t [r [Y [A1 P]]]].
    { unfold enough, g_fuel. lia. }
    subst y. cbv beta iota in H. inv A1. inv A1.
    destruct r as [| z r].
    + done H. eexists. split; [reflexivity |].
      apply two_pref; [exact I | exact P | exact eof_pref].
    + rewrite syms_cons in A1. destruct A1 as [A1 _]. pose proof (sym_nonneg z). lia.
  - inv A. inv A. destruct ts as [| z r].
    + change (la []) with (-1) in H. change (unit_starts (-1)) with false in H. done H.
      eexists. split; [reflexivity |]. apply one_pref; [exact I | exact eof_pref].
    + rewrite syms_cons in A. destruct A as [A _]. pose proof (sym_nonneg z). lia.
Qed.

(** The parser of the repository and the reference parser agree on every list of tokens,
    whatever [pick] returns, call by call. *)
Theorem gives_exact : forall ts x, gives (g_unit ts) x -> x = p_unit ts.
Proof.
  intros ts x H. destruct x as [t |].
  - pose proof (g_unit_sound ts t H) as D.
    destruct (g_unit_complete ts _ H (derivation_runs _ _ _ D)) as [t' [E' P]].
    injection E' as E'. subst t'. symmetry. apply p_unit_exact. now split.
  - destruct (p_unit ts) as [t |] eqn:E2; [| reflexivity].
    apply p_unit_exact in E2. destruct E2 as [D _].
    destruct (g_unit_complete ts _ H (derivation_runs _ _ _ D)) as [t' [E' _]]. discriminate E'.
Qed.

Theorem generated_parser_exact : forall pick ts, picks_from_set pick ->
  generated_parser pick ts = p_unit ts.
Proof. intros pick ts P. apply gives_exact. now apply gives_run. Qed.
