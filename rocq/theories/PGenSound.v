(** * The generated parser: whatever it accepts is derived by the grammar *)
From Verif Require Import PyBase Lexer Parser GrammarSpec PAtn PSpec PSim PSimFacts PSimMore PGen.
Local Open Scope Z_scope.

Lemma gives_ret : forall {A} (a b : A), gives (Ret a) b -> a = b.
Proof. intros A a b H. now inversion H. Qed.

Lemma gives_ask : forall {A} d st w (k : option Z -> code A) a, gives (Ask d st w k) a ->
  exists pick, picks_from_set pick /\ gives (k (predict pick d st w)) a.
Proof. intros A d st w k a H. inversion H; subst. now exists pick. Qed.

Lemma gives_bind : forall {A B} (c : code A) (f : A -> code B) b, gives (bind c f) b ->
  exists a, gives c a /\ gives (f a) b.
Proof.
  intros A B. induction c as [a | d st w k IH]; intros f b H; cbn [bind] in H.
  - exists a. split; [apply Gives_ret | exact H].
  - apply gives_ask in H. destruct H as [pick [P H]]. apply IH in H.
    destruct H as [a [H1 H2]]. exists a. split; [| exact H2]. now apply (Gives_ask d st w k pick).
Qed.

Lemma gives_run : forall {A} (c : code A) pick, picks_from_set pick -> gives c (run pick c).
Proof.
  intros A c pick P. induction c as [a | d st w k IH]; cbn [run]; [apply Gives_ret |].
  now apply (Gives_ask d st w k pick).
Qed.

(** ** Predictions are alternatives of the decision *)
Definition alt_of (cs : list pcfg) (m : Z) : Prop := exists c, In c cs /\ pc_alt c = m.

Lemma alt_close_all : forall b cs r m, close_all b cs = Some r -> alt_of r m -> alt_of cs m.
Proof.
  intros b cs r m C [d [I E]]. destruct (close_all_In b cs r d C I) as [c [l0 [Ic [_ [_ Ha]]]]].
  exists c. split; [exact Ic | congruence].
Qed.

Lemma alt_reach : forall b cs x r m, reach b cs x = Some r -> alt_of r m -> alt_of cs m.
Proof.
  intros b cs x r m H A. unfold reach in H.
  assert (S : forall i m, alt_of (add_all b (flat_map (moves x) i) []) m -> alt_of i m).
  { intros i m0 [c [I E]]. apply add_all_In in I. destruct I as [I | []].
    apply in_flat_map in I. destruct I as [d [I1 I2]]. apply moves_In in I2.
    destruct I2 as [tr [t [_ [_ E2]]]]. subst c. now exists d. }
  assert (F : forall m, alt_of (filter (fun c => negb (stopped c)) cs) m -> alt_of cs m).
  { intros m0 [c [I E]]. apply filter_In in I. exists c. tauto. }
  cbv zeta in H.
  match type of H with match ?e with _ => _ end = _ =>
    assert (K : forall r0, e = Some r0 -> forall m, alt_of r0 m -> alt_of cs m);
    [| destruct e as [r0 |]; [| discriminate H]]
  end.
  { intros r0 H0 m0 A0.
    match type of H0 with (if ?d then _ else _) = _ => destruct d end.
    - injection H0 as H0; subst r0. apply F, S, A0.
    - apply (alt_close_all _ _ _ _ H0) in A0. apply F, S, A0. }
  assert (A1 : alt_of r0 m \/ alt_of cs m).
  { injection H as H. subst r. destruct A as [c [I Ec]].
    assert (R1 : In c (if x =? -1 then filter stopped r0 else r0) -> In c r0).
    { destruct (x =? -1); [intros J; apply filter_In in J; tauto | tauto]. }
    destruct (negb b || _).
    - apply add_all_In in I. destruct I as [I | I].
      + right. exists c. split; [| exact Ec].
        destruct (b || (x =? -1)); [apply filter_In in I; tauto | destruct I].
      + left. exists c. split; [now apply R1 | exact Ec].
    - left. exists c. split; [now apply R1 | exact Ec]. }
  destruct A1 as [A1 | A1]; [now apply (K r0 eq_refl) | exact A1].
Qed.

Lemma alt_unique : forall cs m, unique_alt cs = Some m -> alt_of cs m.
Proof.
  intros [| c cs] m H; [discriminate H |]. cbn [unique_alt] in H.
  destruct (forallb _ cs); [| discriminate H]. injection H as H.
  exists c. split; [now left | exact H].
Qed.

Lemma alt_single : forall cs m, single_viable cs = Some m -> alt_of cs m.
Proof.
  intros cs m H. unfold single_viable in H.
  destruct cs as [| c cs]; [discriminate H |]. cbn [map] in H.
  destruct (forallb _ _); [| discriminate H]. injection H as H. subst m.
  destruct (least_le (alt_subset (c :: cs) c) (pc_alt c)) as [_ [_ [E | E]]].
  - exists c. split; [now left | now symmetry].
  - unfold alt_subset in E. apply in_map_iff in E. destruct E as [d [E I]].
    apply filter_In in I. exists d. split; [tauto | exact E].
Qed.

Section Range.
  Variable pick : list pcfg -> option Z.
  Hypothesis pick_ok : picks_from_set pick.

  Lemma alt_full : forall w cs m, exec_full pick cs w = Some m -> alt_of cs m.
  Proof.
    induction w as [| x w IH]; intros cs m H; [discriminate H |]. cbn [exec_full] in H.
    destruct (reach true cs x) as [r |] eqn:R; [| discriminate H].
    destruct r as [| c0 r0] eqn:Er; [now apply pick_ok |]. rewrite <- Er in *. clear Er c0 r0.
    apply (alt_reach true cs x r m R).
    destruct (unique_alt r) as [m0 |] eqn:U.
    - injection H as H; subst m0. now apply alt_unique.
    - destruct (single_viable r) as [m0 |] eqn:V.
      + injection H as H; subst m0. now apply alt_single.
      + now apply IH.
  Qed.

  Lemma alt_sll : forall again w cs m, exec_sll pick again cs w = Some m ->
    alt_of cs m \/ again = Some m.
  Proof.
    intros again. induction w as [| x w IH]; intros cs m H; [discriminate H |].
    cbn [exec_sll] in H.
    destruct (reach false cs x) as [r |] eqn:R; [| discriminate H].
    destruct r as [| c0 r0] eqn:Er; [left; now apply pick_ok |].
    rewrite <- Er in *. clear Er c0 r0.
    destruct (unique_alt r) as [m0 |] eqn:U.
    - left. injection H as H; subst m0. apply (alt_reach false cs x r m R).
      now apply alt_unique.
    - destruct (sll_conflict r); [now right |].
      destruct (IH r m H) as [A | A]; [| now right].
      left. now apply (alt_reach false cs x r m R).
  Qed.

  Lemma predict_range : forall d st w m, In d decisions -> predict pick d st w = Some m ->
    1 <= m <= Z.of_nat (List.length (edges (decision_state d))).
  Proof.
    intros d st w m D H. unfold predict in H.
    destruct (start_set false d []) as [cs |] eqn:S; [| discriminate H].
    cbv zeta in H. rewrite (filter_keeps_all d cs D S) in H.
    assert (N : forall ctx, alt_of (numbered 1 (edges (decision_state d)) ctx) m ->
                1 <= m <= Z.of_nat (List.length (edges (decision_state d)))).
    { intros ctx [c [I E]]. apply numbered_In in I. destruct I as [k [t [I1 I2]]]. subst c.
      cbn [pc_alt] in E. assert (k < List.length (edges (decision_state d)))%nat.
      { apply nth_error_Some. congruence. }
      lia. }
    apply alt_sll in H. destruct H as [A | A].
    - unfold start_set in S. apply (alt_close_all _ _ _ _ S) in A. now apply N in A.
    - destruct (start_set true d st) as [fs |] eqn:F; [| discriminate A].
      apply alt_full in A. unfold start_set in F.
      apply (alt_close_all _ _ _ _ F) in A. now apply N in A.
  Qed.
End Range.

(** ** Tokens *)
Lemma sym_kinded : forall k t, sym t = Z.of_N (kind_id k) <-> kinded k t.
Proof.
  intros k t. unfold sym, kinded. split.
  - intros H. apply N2Z.inj in H.
    destruct (tkind t), k; first [reflexivity | discriminate H].
  - intros H. now rewrite H.
Qed.

Lemma one_of_In : forall x ks, one_of x ks = true <-> In x ks.
Proof. intros x ks. exact (zin_In x ks). Qed.

Lemma take_some : forall ks ts t r, take ks ts = Some (t, r) -> ts = t :: r /\ In (sym t) ks.
Proof.
  intros ks ts t r H. destruct ts as [| t0 r0]; [discriminate H |]. cbn [take] in H.
  destruct (one_of (sym t0) ks) eqn:E; [| discriminate H].
  injection H as H1 H2; subst. split; [reflexivity | now apply one_of_In].
Qed.

Lemma take1 : forall k ts t r, take [Z.of_N (kind_id k)] ts = Some (t, r) ->
  ts = t :: r /\ kinded k t.
Proof.
  intros k ts t r H. apply take_some in H. destruct H as [H1 [H2 | []]].
  split; [exact H1 |]. apply sym_kinded. now symmetry.
Qed.

Lemma take_integer : forall ts t r, take [1; 9] ts = Some (t, r) ->
  ts = t :: r /\ integer_token t.
Proof.
  intros ts t r H. apply take_some in H. destruct H as [H1 H2]. split; [exact H1 |].
  destruct H2 as [H2 | [H2 | []]].
  - right. now apply (sym_kinded SIGNED_INT).
  - left. now apply (sym_kinded INT).
Qed.

Lemma g_integer_sound : forall ts t r, g_integer ts = Some (t, r) ->
  exists i, ts = i :: r /\ integer_token i /\ t = mk_integer i.
Proof.
  intros ts t r H. unfold g_integer in H.
  destruct (take [1; 9] ts) as [[i r0] |] eqn:E; [| discriminate H].
  apply take_integer in E. destruct E as [E1 E2]. injection H as H1 H2; subst.
  now exists i.
Qed.

Lemma g_number_sound : forall ts t r, g_number ts = Some (t, r) ->
  exists i, ts = i :: r /\ derives Number_r [i] t.
Proof.
  intros ts t r H. unfold g_number in H.
  destruct (sync 105 ts); [| discriminate H].
  destruct (one_of (la ts) [1; 9]).
  - destruct (g_integer ts) as [[i r0] |] eqn:E; [| discriminate H].
    apply g_integer_sound in E. destruct E as [i0 [E1 [E2 E3]]].
    injection H as H1 H2; subst. exists i0. split; [reflexivity |].
    apply D_number_integer. now apply D_integer.
  - destruct (one_of (la ts) [11]); [| discriminate H].
    destruct (take [11] ts) as [[f r0] |] eqn:E; [| discriminate H].
    apply (take1 FLOAT) in E. destruct E as [E1 E2]. injection H as H1 H2; subst.
    exists f. split; [reflexivity |]. now apply D_number_float.
Qed.

Lemma g_space_sound : forall n ts w r, g_space n ts = Some (w, r) ->
  ts = w ++ r /\ opt_space w.
Proof.
  intros n ts w r H. unfold g_space in H. destruct (sync n ts); [| discriminate H].
  destruct (la ts =? 18).
  - destruct (take [18] ts) as [[t r0] |] eqn:E; [| discriminate H].
    apply (take1 WS) in E. destruct E as [E1 E2]. injection H as H1 H2; subst.
    split; [reflexivity | now apply Os_one].
  - injection H as H1 H2; subst. split; [reflexivity | apply Os_none].
Qed.

Lemma g_spaces_sound : forall ts w r, g_spaces ts = Some (w, r) ->
  ts = w ++ r /\ w <> [] /\ Forall (kinded WS) w.
Proof.
  induction ts as [| t ts IH]; intros w r H; [discriminate H |]. cbn [g_spaces] in H.
  destruct (one_of (sym t) [18]) eqn:E; [| discriminate H].
  apply one_of_In in E. destruct E as [E | []]. symmetry in E.
  apply (sym_kinded WS) in E.
  destruct (sync 65 ts); [| discriminate H].
  destruct (la ts =? 18).
  - destruct (g_spaces ts) as [[ws r'] |] eqn:G; [| discriminate H].
    destruct (IH ws r' eq_refl) as [G1 [G2 G3]]. injection H as H1 H2; subst.
    split; [reflexivity |]. split; [discriminate | now constructor].
  - injection H as H1 H2; subst. split; [reflexivity |].
    split; [discriminate | now repeat constructor].
Qed.

Lemma g_date_sound : forall n ts d r, g_date n ts = Some (d, r) ->
  exists t, d = [t] /\ ts = t :: r /\ date_or_integer t.
Proof.
  intros n ts d r H. unfold g_date in H. destruct (sync n ts); [| discriminate H].
  destruct (one_of (la ts) [25]).
  - destruct (take [25] ts) as [[t r0] |] eqn:E; [| discriminate H].
    apply (take1 DATE) in E. destruct E as [E1 E2]. injection H as H1 H2; subst.
    exists t. split; [reflexivity |]. split; [reflexivity | now left].
  - destruct (one_of (la ts) [1; 9]); [| discriminate H].
    destruct (take [1; 9] ts) as [[t r0] |] eqn:E; [| discriminate H].
    apply take_integer in E. destruct E as [E1 E2]. injection H as H1 H2; subst.
    exists t. split; [reflexivity |]. split; [reflexivity | now right].
Qed.

Lemma g_offset_sound : forall ts d r, g_offset ts = Some (d, r) ->
  exists t, d = [t] /\ ts = t :: r /\ offset_or_zone t.
Proof.
  intros ts d r H. unfold g_offset in H. destruct (sync 156 ts); [| discriminate H].
  destruct (one_of (la ts) [23]).
  - destruct (take [23] ts) as [[t r0] |] eqn:E; [| discriminate H].
    apply (take1 HOUR_MINUTE) in E. destruct E as [E1 E2]. injection H as H1 H2; subst.
    exists t. split; [reflexivity |]. split; [reflexivity | left; now left].
  - destruct (one_of (la ts) [1; 9]); [| discriminate H].
    destruct (take [1; 9] ts) as [[t r0] |] eqn:E; [| discriminate H].
    apply take_integer in E. destruct E as [E1 E2]. injection H as H1 H2; subst.
    exists t. split; [reflexivity |]. split; [reflexivity | left; now right].
Qed.

Lemma g_clock_sound : forall ts d r, g_clock ts = Some (d, r) ->
  exists t, d = [t] /\ ts = t :: r /\ signed_clock t.
Proof.
  intros ts d r H. unfold g_clock in H. destruct (sync 152 ts); [| discriminate H].
  destruct (one_of (la ts) [22]); [| destruct (one_of (la ts) [23])].
  - destruct (take [22] ts) as [[t r0] |] eqn:E; [| discriminate H].
    apply (take1 HOUR_MINUTE_SECOND) in E. destruct E as [E1 E2]. injection H as H1 H2; subst.
    exists t. split; [reflexivity |]. split; [reflexivity | now left].
  - destruct (take [23] ts) as [[t r0] |] eqn:E; [| discriminate H].
    apply (take1 HOUR_MINUTE) in E. destruct E as [E1 E2]. injection H as H1 H2; subst.
    exists t. split; [reflexivity |]. split; [reflexivity | right; now left].
  - destruct (one_of (la ts) [1; 9]); [| discriminate H].
    destruct (take [1; 9] ts) as [[t r0] |] eqn:E; [| discriminate H].
    apply take_integer in E. destruct E as [E1 E2]. injection H as H1 H2; subst.
    exists t. split; [reflexivity |]. split; [reflexivity | right; now right].
Qed.

Lemma g_zone_sound : forall n ts z r, g_zone n ts = Some (z, r) ->
  ts = z ++ r /\ opt_zone z.
Proof.
  intros n ts z r H. unfold g_zone in H. destruct (sync n ts); [| discriminate H].
  destruct (one_of (la ts) [1; 9; 23]); [| destruct (one_of (la ts) [20])].
  - apply g_offset_sound in H. destruct H as [t [H1 [H2 H3]]]. subst.
    split; [reflexivity | now apply Oz_one].
  - destruct (take [20] ts) as [[t r0] |] eqn:E; [| discriminate H].
    apply (take1 TIMEZONE) in E. destruct E as [E1 E2]. injection H as H1 H2; subst.
    split; [reflexivity |]. apply Oz_one. now right.
  - injection H as H1 H2; subst. split; [reflexivity | apply Oz_none].
Qed.

Lemma g_space_or_T_sound : forall ts z r, g_space_or_T ts = Some (z, r) ->
  ts = z ++ r /\ opt_space_or_T z.
Proof.
  intros ts z r H. unfold g_space_or_T in H. destruct (sync 116 ts); [| discriminate H].
  destruct ((la ts =? 18) || (la ts =? 26)).
  - destruct (take [18; 26] ts) as [[t r0] |] eqn:E; [| discriminate H].
    apply take_some in E. destruct E as [E1 E2]. injection H as H1 H2; subst.
    split; [reflexivity |]. destruct E2 as [E2 | [E2 | []]].
    + apply Ot_ws. now apply (sym_kinded WS).
    + apply Ot_T. now apply (sym_kinded T).
  - injection H as H1 H2; subst. split; [reflexivity | apply Ot_none].
Qed.

(** inverts one step of the generated code in [H] *)
Ltac step H :=
  lazymatch type of H with
  | gives (bind _ _) _ =>
    let x := fresh "x" in let r := fresh "r" in let E := fresh "E" in
    apply gives_bind in H; destruct H as [[[x r] |] [E H]];
    [cbv beta iota in H | apply gives_ret in H; discriminate H]
  | gives (match ?e with Some _ => _ | None => Ret None end) _ =>
    let x := fresh "x" in let r := fresh "r" in let E := fresh "E" in
    destruct e as [[x r] |] eqn:E; [| apply gives_ret in H; discriminate H]
  end.

(** a synchronisation that must have succeeded *)
Ltac synced H :=
  lazymatch type of H with
  | gives (if ?b then _ else Ret None) _ =>
    destruct b; [| apply gives_ret in H; discriminate H]
  end.

(** a prediction *)
Ltac asked H pick Hp m P :=
  apply gives_ask in H; destruct H as [pick [Hp H]];
  lazymatch type of H with
  | context [predict ?p ?d ?st ?w] => destruct (predict p d st w) as [m |] eqn:P
  end;
  [cbv beta in H | cbv beta iota in H; apply gives_ret in H; discriminate H].

(** the end *)
Ltac done H := apply gives_ret in H; injection H as H1 H2; subst.

Ltac unf H := cbn [g_shift g_product g_loop g_power g_logarithm g_basic] in H;
  fold g_shift in H; fold g_product in H; fold g_loop in H; fold g_power in H;
  fold g_logarithm in H; fold g_basic in H.

Section Sound.
  Variable pick : list pcfg -> option Z.
  Hypothesis pick_ok : picks_from_set pick.

  Lemma cases23 : forall st w m, predict pick 23 st w = Some m ->
    m = 1 \/ m = 2 \/ m = 3 \/ m = 4 \/ m = 5.
  Proof.
    intros st w m H. apply (predict_range pick pick_ok 23 st w m) in H.
    - change (List.length (edges (decision_state 23))) with 5%nat in H. lia.
    - unfold decisions. cbn [In]. tauto.
  Qed.
  Lemma cases5 : forall st w m, predict pick 5 st w = Some m -> m = 1 \/ m = 2 \/ m = 3.
  Proof.
    intros st w m H. apply (predict_range pick pick_ok 5 st w m) in H.
    - change (List.length (edges (decision_state 5))) with 3%nat in H. lia.
    - unfold decisions. cbn [In]. tauto.
  Qed.
  Lemma cases8 : forall st w m, predict pick 8 st w = Some m -> m = 1 \/ m = 2.
  Proof.
    intros st w m H. apply (predict_range pick pick_ok 8 st w m) in H.
    - change (List.length (edges (decision_state 8))) with 2%nat in H. lia.
    - unfold decisions. cbn [In]. tauto.
  Qed.
  Lemma cases7 : forall st w m, predict pick 7 st w = Some m ->
    m = 1 \/ m = 2 \/ m = 3 \/ m = 4.
  Proof.
    intros st w m H. apply (predict_range pick pick_ok 7 st w m) in H.
    - change (List.length (edges (decision_state 7))) with 4%nat in H. lia.
    - unfold decisions. cbn [In]. tauto.
  Qed.
  Lemma cases9 : forall st w m, predict pick 9 st w = Some m ->
    m = 1 \/ m = 2 \/ m = 3 \/ m = 4.
  Proof.
    intros st w m H. apply (predict_range pick pick_ok 9 st w m) in H.
    - change (List.length (edges (decision_state 9))) with 4%nat in H. lia.
    - unfold decisions. cbn [In]. tauto.
  Qed.
End Sound.

Lemma g_timestamp_sound : forall st ts b r, gives (g_timestamp st ts) (Some (b, r)) ->
  ts = b ++ r /\ timestamp b.
Proof.
  intros st ts b r H. unfold g_timestamp in H. synced H.
  asked H pickP OP m P.
  destruct (cases23 pickP OP _ _ _ P) as [M | [M | [M | [M | M]]]]; subst m; cbv beta iota in H.
  - apply gives_ret in H. apply g_date_sound in H. destruct H as [t [H1 [H2 H3]]]. subst.
    split; [reflexivity | now apply Ts_date].
  - do 5 step H. done H.
    apply g_date_sound in E. destruct E as [d [Ed1 [Ed2 Ed3]]].
    apply g_space_or_T_sound in E0. destruct E0 as [Ew1 Ew2].
    apply g_clock_sound in E1. destruct E1 as [c [Ec1 [Ec2 Ec3]]].
    apply g_space_sound in E2. destruct E2 as [Es1 Es2].
    apply g_zone_sound in E3. destruct E3 as [Ez1 Ez2].
    subst. split.
    + cbn [app]. rewrite <- !app_assoc. cbn [app]. now rewrite <- !app_assoc.
    + exact (Ts_clock d x0 c x2 x3 Ed3 Ew2 Ec3 Es2 Ez2).
  - do 2 step H. done H.
    apply take_integer in E. destruct E as [E1 E2].
    apply g_zone_sound in E0. destruct E0 as [E3 E4]. subst.
    split; [reflexivity | now apply Ts_integer].
  - do 3 step H. done H.
    apply (take1 TIMESTAMP) in E. destruct E as [E2 E3].
    apply g_space_sound in E0. destruct E0 as [E4 E5].
    apply g_zone_sound in E1. destruct E1 as [E6 E7]. subst.
    split; [cbn [app]; now rewrite <- !app_assoc | now apply Ts_stamp].
  - do 3 step H. done H.
    apply g_date_sound in E. destruct E as [d [Ed1 [Ed2 Ed3]]].
    apply g_space_sound in E0. destruct E0 as [E4 E5].
    apply take_some in E1. destruct E1 as [E6 E7]. subst.
    split; [cbn [app]; now rewrite <- !app_assoc |]. apply Ts_zone; [exact Ed3 | exact E5 |].
    destruct E7 as [E7 | [E7 | []]].
    + left. now apply (sym_kinded TIMEZONE).
    + right. now apply (sym_kinded TZ).
Qed.

Theorem generated_sound : forall f,
  (forall st ts t r, gives (g_shift f st ts) (Some (t, r)) ->
     exists c, ts = c ++ r /\ derives Shift_spec c t)
  /\ (forall st ts t r, gives (g_product f st ts) (Some (t, r)) ->
     exists c, ts = c ++ r /\ derives Product c t)
  /\ (forall n c0 p st ts t r, gives (g_loop f n p st ts) (Some (t, r)) -> derives Product c0 p ->
     exists c, ts = c ++ r /\ derives Product (c0 ++ c) t)
  /\ (forall st ts t r, gives (g_power f st ts) (Some (t, r)) ->
     exists c, ts = c ++ r /\ derives Power c t)
  /\ (forall st ts t r, gives (g_logarithm f st ts) (Some (t, r)) ->
     exists c, ts = c ++ r /\ derives Logarithm_r c t)
  /\ (forall st ts t r, gives (g_basic f st ts) (Some (t, r)) ->
     exists c, ts = c ++ r /\ derives Basic_spec c t).
Proof.
  induction f as [| f (IHs & IHp & IHl & IHw & IHg & IHb)];
    [split; [| split; [| split; [| split; [| split]]]]; intros;
     match goal with H : gives _ _ |- _ => apply gives_ret in H; discriminate H end |].
  split; [| split; [| split; [| split; [| split]]]].
  - intros st ts t r H. unf H. synced H.
    asked H pickP OP m P.
    destruct (cases5 pickP OP _ _ _ P) as [M | [M | M]]; subst m; cbv beta iota in H.
    + step H. done H. apply IHp in E. destruct E as [c [E1 E2]].
      exists c. split; [exact E1 | now apply D_shift_product].
    + do 5 step H. done H. apply IHp in E. destruct E as [c [Ea Eb]].
      apply g_space_sound in E0. destruct E0 as [Ec Ed].
      apply (take1 SHIFT_OP) in E1. destruct E1 as [Ee Ef].
      apply g_space_sound in E2. destruct E2 as [Eg Eh].
      apply g_number_sound in E3. destruct E3 as [i [Ei Ej]]. subst.
      exists (c ++ x0 ++ x1 :: x2 ++ [i]). split.
      * rewrite <- !app_assoc. cbn [app]. now rewrite <- !app_assoc.
      * apply D_shift_number; assumption.
    + do 5 step H. done H. apply IHp in E. destruct E as [c [Ea Eb]].
      apply g_space_sound in E0. destruct E0 as [Ec Ed].
      apply (take1 SHIFT_OP) in E1. destruct E1 as [Ee Ef].
      apply g_space_sound in E2. destruct E2 as [Eg Eh].
      apply g_timestamp_sound in E3. destruct E3 as [Ei Ej]. subst.
      exists (c ++ x0 ++ x1 :: x2 ++ x3). split.
      * rewrite <- !app_assoc. cbn [app]. now rewrite <- !app_assoc.
      * now apply D_shift_timestamp.
  - intros st ts t r H. unf H. step H.
    apply IHw in E. destruct E as [c [E1 E2]].
    apply (IHl _ c) in H; [| now apply D_product_power]. destruct H as [c' [H1 H2]].
    subst. exists (c ++ c'). split; [now rewrite app_assoc | exact H2].
  - intros n c0 p st ts t r H D. unf H.
    synced H.
    asked H pickP OP m P.
    destruct (cases8 pickP OP _ _ _ P) as [M | M]; subst m; cbv beta iota in H.
    + synced H.
      asked H pickP7 OP7 m P7.
      destruct (cases7 pickP7 OP7 _ _ _ P7) as [M | [M | [M | M]]]; subst m; cbv beta iota in H.
      * step H. apply IHw in E. destruct E as [c [E1 E2]].
        apply (IHl _ (c0 ++ c)) in H; [| now apply D_product_juxtaposed].
        destruct H as [c' [H1 H2]]. subst. exists (c ++ c').
        rewrite <- app_assoc in H2. split; [apply app_assoc | exact H2].
      * do 2 step H. apply (take1 MULTIPLY) in E. destruct E as [Ea Eb].
        apply IHw in E0. destruct E0 as [c [E1 E2]].
        apply (IHl _ (c0 ++ x :: c)) in H; [| now apply D_product_multiply].
        destruct H as [c' [H1 H2]]. subst. exists (x :: c ++ c').
        rewrite <- app_assoc in H2. cbn [app] in *. split; [now rewrite app_assoc | exact H2].
      * do 2 step H. apply (take1 DIVIDE) in E. destruct E as [Ea Eb].
        apply IHw in E0. destruct E0 as [c [E1 E2]].
        apply (IHl _ (c0 ++ x :: c)) in H; [| now apply D_product_divide].
        destruct H as [c' [H1 H2]]. subst. exists (x :: c ++ c').
        rewrite <- app_assoc in H2. cbn [app] in *. split; [now rewrite app_assoc | exact H2].
      * synced H. do 2 step H.
        apply g_spaces_sound in E. destruct E as [Ea [Eb Ec]].
        apply IHw in E0. destruct E0 as [c [E1 E2]].
        apply (IHl _ (c0 ++ x ++ c)) in H; [| now apply D_product_space].
        destruct H as [c' [H1 H2]]. subst. exists (x ++ c ++ c').
        rewrite <- !app_assoc in *. split; [reflexivity | exact H2].
    + done H. exists []. rewrite app_nil_r. now split.
  - intros st ts t r H. unf H. synced H.
    asked H pickP OP m P.
    destruct (cases9 pickP OP _ _ _ P) as [M | [M | [M | M]]]; subst m; cbv beta iota in H.
    + do 2 step H. done H. apply IHg in E. destruct E as [c [E1 E2]].
      apply g_integer_sound in E0. destruct E0 as [i [E3 [E4 E5]]]. subst.
      exists (c ++ [i]). split; [now rewrite <- app_assoc |].
      apply D_power_integer; [exact E2 | now apply D_integer].
    + step H. done H. apply IHg in E. destruct E as [c [E1 E2]].
      exists c. split; [exact E1 | now apply D_power_plain].
    + do 3 step H. done H. apply IHg in E. destruct E as [c [Ea Eb]].
      apply (take1 RAISE) in E0. destruct E0 as [Ec Ed].
      apply g_integer_sound in E1. destruct E1 as [i [E3 [E4 E5]]]. subst.
      exists (c ++ x0 :: [i]). split; [now rewrite <- app_assoc |].
      apply D_power_raise; [exact Eb | exact Ed | now apply D_integer].
    + do 2 step H. done H. apply IHg in E. destruct E as [c [Ea Eb]].
      apply (take1 UNICODE_EXPONENT) in E0. destruct E0 as [Ec Ed]. subst.
      exists (c ++ [x0]). split; [now rewrite <- app_assoc |]. now apply D_power_unicode.
  - intros st ts t r H. unf H. synced H.
    destruct (one_of (la ts) [1; 6; 9; 11; 16]).
    + step H. done H. apply IHb in E. destruct E as [c [E1 E2]].
      exists c. split; [exact E1 | now apply D_log_basic].
    + synced H.
      do 3 step H. done H.
      apply (take1 LOG) in E. destruct E as [Ea Eb].
      apply IHs in E0. destruct E0 as [c [Ec Ed]].
      apply (take1 CLOSE_PAREN) in E1. destruct E1 as [Ee Ef]. subst.
      exists (x :: c ++ [x1]). split; [cbn [app]; now rewrite <- app_assoc |].
      now apply D_log.
  - intros st ts t r H. unf H. synced H.
    destruct (one_of (la ts) [16]); [| destruct (one_of (la ts) [6])].
    + step H. done H.
      apply (take1 ID) in E. destruct E as [Ea Eb]. subst.
      exists [x]. split; [reflexivity | now apply D_basic_id].
    + do 3 step H. done H.
      apply (take1 OPEN_PAREN) in E. destruct E as [Ea Eb].
      apply IHs in E0. destruct E0 as [c [Ec Ed]].
      apply (take1 CLOSE_PAREN) in E1. destruct E1 as [Ee Ef]. subst.
      exists (x :: c ++ [x1]). split; [cbn [app]; now rewrite <- app_assoc |].
      now apply D_basic_paren.
    + synced H.
      step H. done H.
      apply g_number_sound in E. destruct E as [i [Ea Eb]]. subst.
      exists [i]. split; [reflexivity | now apply D_basic_number].
Qed.

Theorem g_unit_sound : forall ts t, gives (g_unit ts) (Some t) -> derives Unit_spec ts t.
Proof.
  intros ts t H. unfold g_unit in H. synced H. destruct (unit_starts (la ts)).
  - apply gives_bind in H. destruct H as [[[s [| x r]] |] [E H]]; cbv beta iota in H;
      apply gives_ret in H; [| discriminate H | discriminate H].
    injection H as H; subst t.
    destruct (generated_sound (g_fuel ts)) as [Hs _]. apply Hs in E.
    destruct E as [c [E1 E2]]. rewrite app_nil_r in E1. subst c. now apply D_unit.
  - destruct ts; apply gives_ret in H; [| discriminate H].
    injection H as H; subst t. apply D_unit_empty.
Qed.
