(** * Units and prefixes registered while others look units up: the answers *)
From Verif Require Import PyBase PyNum LexSpec Graph Visitor Expr Units UnitSystem SystemSpec SystemFacts SystemProofs SystemMore SystemKeep SystemGrow
  Process ProcessFacts SysShared SysSharedFacts SysGrow SysPrefix SysGrowFacts.
From Verif Require PShared Prop_System Prop_Shared.
Import Prop_Shared.

Lemma lift_steps ord units new w w' : g_steps ord units w w' -> forall ps, q_steps ord units new (w, ps) (w', ps).
Proof. intros S ps. induction S as [w|w1 w2 w3 S1 _ IH]; [apply Qs_refl|]. eapply Qs_step; [apply Q_other; exact S1|exact IH]. Qed.
Lemma q_trans ord units new w1 w2 w3 : q_steps ord units new w1 w2 -> q_steps ord units new w2 w3 -> q_steps ord units new w1 w3.
Proof. intros S S'. induction S as [w|a b c S1 _ IH]; [exact S'|]. eapply Qs_step; eauto. Qed.

Lemma new_words_no_prefixes units s : new_words units s -> new_words_and_prefixes units [] s.
Proof.
  intros (H1 & H2 & H3). unfold new_words_and_prefixes, everything_and_prefixes, with_prefixes. cbn [fold_left].
  destruct (everything_prefixes units s) as (P1 & P2 & _).
  assert (W : forall q, ways (everything units s) q = ways s q) by (intro q; unfold ways; now rewrite P1, P2).
  split; [exact H1|]. split; [exact H2|]. split; [intros p t k []|]. split; [intros p p' t k []|]. split; [|intros p t key k q []].
  intros e r k q I A. rewrite W. exact (H3 e r k q I A).
Qed.

Section Setting.
Variable ord : list str -> list str.
Variables (s : system) (units : list (entry * reference)) (new : list prefix).
Hypothesis P : rearranges ord.
Hypothesis NW : new_words_and_prefixes units new s.
Let all := everything_and_prefixes units new s.
Hypothesis C : clash_free all.
Hypothesis T : str_definitions s.

Lemma all_texts : forall i l, nth_error (s_lazies all) i = Some l -> is_text (lz_def l).
Proof. unfold all. rewrite (end_lazies units new s). exact T. Qed.

Ltac given := first [exact P | exact C | exact all_texts | exact (end_prefixes units new s NW) | exact (end_prefix_keys new) | exact (end_prefix_new units new s NW)
  | exact (end_lazies units new s) | exact (end_old units new s NW) | exact (end_one units new s NW) | exact (end_way units new s NW)
  | exact (end_prefix_way units new s NW) | exact (end_reg units new s NW) | exact (end_prefix_reg units new s NW)].

Notation reached := (q_steps ord units new (q_begin s)).

Lemma fair w b r x : reached w -> In (b, mkThread r (Running (Done x))) (g_threads (fst w)) ->
  now ord s all (added_prefixes new) b /\ fair_answer ord all b r x.
Proof. intros W I. eapply (q_answers ord P s all (added_prefixes new)); try given; eassumption. Qed.

Lemma answer_agree r : match r with
  | Lookup f q => agree f (fst (lookup ord f q all)) (fun n => p_lookup ord all n q)
  | UnitOf f t => agree f (fst (sys_unit ord f t all)) (fun n => SystemProofs.p_unit ord all n t)
  end.
Proof. destruct r as [f q|f t]; [exact (lookup_agree ord all [] f q C)|exact (unit_agree ord all [] f t C)]. Qed.

(** the exceptions of a look-up that began too early *)
Definition early (b : system) (r : request) (e : exn) : Prop :=
  (exists k, needed_for all r k /\ unreadable b k /\ ~ unreadable all k /\ e = EUnresolvable k) \/
  (e = ERuntime /\ exists t key p, In (key, p) (prefixes t all) /\ ~ In (key, p) (prefixes t b)).
Lemma bad_early b r e : bad all b (late all b r) e -> early b r e.
Proof. intros [(k & (L1 & L2 & L3) & E)|H]; [left; exists k; auto|right; exact H]. Qed.

Lemma fair_means b r x : fair_answer ord all b r x -> x <> Err ERecursion -> answer ord all r <> Err ERecursion ->
  x = answer ord all r \/ exists e, early b r e /\ x = Err e.
Proof.
  intros F N1 N2. pose proof (answer_agree r) as A0. destruct r as [f q|f t]; cbn [fair_answer answer] in *.
  - destruct F as (y & -> & [A|(e & Be & ->)]); [left|right; exists e; split; [now apply bad_early|reflexivity]].
    assert (E : y = fst (lookup ord f q all)).
    { eapply agree_same; [apply mono_lookup|exact A|exact A0| |].
      - intros ->. now apply N1.
      - intro E. rewrite E in N2. now apply N2. }
    rewrite <- E. destruct y; reflexivity.
  - destruct F as [A|(e & Be & ->)]; [left|right; exists e; split; [now apply bad_early|reflexivity]].
    eapply agree_same; [apply mono_unit|exact A|exact A0|exact N1|exact N2].
Qed.

Lemma fair_deep rank n b r x : depth_at_most all rank n -> (n < stack_of r)%nat -> fair_answer ord all b r x ->
  x = answer ord all r \/ exists e, early b r e /\ x = Err e.
Proof.
  intros D L F. destruct r as [f q|f t]; cbn [fair_answer answer stack_of] in *.
  - destruct F as (y & -> & [(_ & A)|(e & Be & ->)]); [left|right; exists e; split; [now apply bad_early|reflexivity]].
    destruct (Prop_System.depth_lookup ord all rank n P C D [] f q L) as [E N]. cbn [after fold_left] in E. rewrite E, (A N). destruct y; reflexivity.
  - destruct F as [(_ & A)|(e & Be & ->)]; [left|right; exists e; split; [now apply bad_early|reflexivity]].
    destruct (Prop_System.depth_unit ord all rank n P C D [] f t L) as [E N]. cbn [after fold_left] in E. rewrite E, (A N). reflexivity.
Qed.

Lemma old_answer r a : clash_free s -> answer ord s r = Ok a -> forall b x, now ord s all (added_prefixes new) b -> fair_answer ord all b r x ->
  x = Ok a \/ x = Err ERecursion \/ (x = Err ERuntime /\ exists t key p, In (key, p) (prefixes t all) /\ ~ In (key, p) (prefixes t b)).
Proof.
  intros Cs E b x Nb F.
  assert (G : SystemGrow.grows s all) by (apply (full_grows ord s all (added_prefixes new)); given).
  assert (X : forall A (Q : nat -> res A) f y z, mono Q -> agree f y Q -> (exists m, Q m = Ok z) -> y = Ok z \/ y = Err ERecursion).
  { intros A Q f y z M [[H|[m' H]] _] (m & Hm); [now right|]. pose proof (M m (Nat.max m m') ltac:(lia)) as M1. pose proof (M m' (Nat.max m m') ltac:(lia)) as M2.
    unfold le_res in *. rewrite Hm in M1. specialize (M1 ltac:(discriminate)). rewrite H in M2. destruct y as [z'|e].
    - specialize (M2 ltac:(discriminate)). left. congruence.
    - destruct e; try (specialize (M2 ltac:(discriminate)); congruence). now right. }
  assert (NL : match r with
    | Lookup _ q => exists F x, p_lookup ord s F q = Ok x
    | UnitOf _ t => exists F x, SystemProofs.p_unit ord s F t = Ok x
    end -> forall e, bad all b (late all b r) e -> e = ERuntime /\ exists t key p, In (key, p) (prefixes t all) /\ ~ In (key, p) (prefixes t b)).
  { intros H e [(k & Lk & _)|Be]; [|exact Be]. exfalso. revert Lk. apply (never_late ord P s all (added_prefixes new)); try given; assumption. }
  destruct r as [f q|f t]; cbn [answer fair_answer] in *.
  - destruct (lookup_agree ord s [] f q Cs) as [[A|[m A]] _]; cbn [after fold_left] in A; destruct (fst (lookup ord f q s)) as [z|] eqn:Ez; try discriminate.
    injection E as <-. destruct F as (y & -> & [A1|(e & Be & ->)]).
    + assert (Y : exists m, p_lookup ord all m q = Ok z) by (exists m; now apply (grow_lookup ord s all G)).
      destruct (X _ _ f y z (mono_lookup ord all q) A1 Y) as [-> | ->]; [now left|right; now left].
    + right. right. destruct (NL ltac:(eauto) e Be) as [-> H]. now split.
  - destruct (unit_agree ord s [] f t Cs) as [[A|[m A]] _]; cbn [after fold_left] in A; rewrite E in A; [discriminate|].
    destruct F as [A1|(e & Be & ->)].
    + destruct (X _ _ f x a (mono_unit ord all t) A1) as [-> | ->]; [|now left|right; now left]. exists m. now apply (grow_unit ord s all G).
    + right. right. destruct (NL ltac:(eauto) e Be) as [-> H]. now split.
Qed.

Lemma reached_ok w : reached w -> q_ok ord s all (added_prefixes new) units new w.
Proof.
  intro W. refine (proj1 (q_reached_ok ord P s all (added_prefixes new) _ _ _ _ _ _ _ _ _ units _ new _ (q_begin s) w W _)); try given.
  apply begin_ok; given.
Qed.
Lemma reached_follows w1 w2 : reached w1 -> q_steps ord units new w1 w2 -> follows (fst (g_memory (fst w1))) (fst (g_memory (fst w2))).
Proof. intros W1 W2. eapply (q_follows ord P s all (added_prefixes new)); try given; eassumption. Qed.
Lemma reached_added w e r x : reached w -> In (mkReg e r (Done x)) (g_adds (fst w)) -> added r x (fun t k => here t k (fst (g_memory (fst w)))).
Proof. intros W I. eapply (q_added ord P s all (added_prefixes new)); try given; eassumption. Qed.
Lemma reached_prefixed w p t k : reached w -> In (p, []) (snd w) -> a_key t k p -> In (k, p) (prefixes t (fst (g_memory (fst w)))).
Proof. intros W I J. eapply (q_prefixed ord P s all (added_prefixes new)); try given; try eassumption. now apply key_put. Qed.

Lemma known_later w1 w2 : reached w1 -> q_steps ord units new w1 w2 ->
  (forall e r k, In (mkReg e r (Done (Ok tt))) (g_adds (fst w1)) -> a_word k r -> ~ unknown (fst (g_memory (fst w2))) k) /\
  (forall k, ~ unknown (fst (g_memory (fst w1))) k -> ~ unknown (fst (g_memory (fst w2))) k).
Proof.
  intros W1 W2. destruct (reached_follows w1 w2 W1 W2) as (St & _). split.
  - intros e r k I (t & J). rewrite unknown_iff. apply (table_known _ k t). apply St.
    destruct (reached_added w1 e r (Ok tt) W1 I) as [(_ & H)|(v & t' & k' & E & _)]; [|discriminate]. exact (H t k J).
  - intros k K. rewrite unknown_iff in *. destruct (known_opt (fst (g_memory (fst w1))) k) as [e|] eqn:E; [|contradiction]. apply known_in_table in E as (t & E).
    apply (table_known _ k t). apply St. congruence.
Qed.
Lemma prefixes_later w1 w2 : reached w1 -> q_steps ord units new w1 w2 ->
  (forall p t k, In (p, []) (snd w1) -> a_key t k p -> In (k, p) (prefixes t (fst (g_memory (fst w2))))) /\
  (forall t x, In x (prefixes t (fst (g_memory (fst w1)))) -> In x (prefixes t (fst (g_memory (fst w2))))).
Proof.
  intros W1 W2. destruct (reached_follows w1 w2 W1 W2) as (_ & _ & St).
  assert (H : forall t x, In x (prefixes t (fst (g_memory (fst w1)))) -> In x (prefixes t (fst (g_memory (fst w2))))).
  { intros t x I. destruct (St t) as (e & ->). apply in_or_app. now left. }
  split; [|exact H]. intros p t k I J. apply H. now apply reached_prefixed.
Qed.
Lemma second_add w e r x : reached w -> In (mkReg e r (Done x)) (g_adds (fst w)) ->
  x = Ok tt \/ exists v k, x = Err (EValue v) /\ a_word k r /\ ~ unknown (fst (g_memory (fst w))) k.
Proof.
  intros W I. destruct (reached_added w e r x W I) as [(E & _)|(v & t & k & E & J & H)]; [now left|right].
  exists v, k. split; [exact E|]. split; [now exists t|]. rewrite unknown_iff. now apply (table_known _ k t).
Qed.

Lemma later_lookups w1 w2 : reached w1 ->
  (forall e r, In (e, r) units -> In (mkReg e r (Done (Ok tt))) (g_adds (fst w1))) ->
  (forall p, In p new -> In (p, []) (snd w1)) ->
  q_steps ord units new w1 w2 ->
  forall i before r x, (List.length (g_threads (fst w1)) <= i)%nat -> nth_error (g_threads (fst w2)) i = Some (before, mkThread r (Running (Done x))) ->
  forall e, ~ early before r e.
Proof.
  intros W1 A AP W2 i b r x L N e Ea.
  assert (W : reached w2) by (eapply q_trans; eassumption).
  destruct (fair w2 b r x W (nth_error_In _ _ N)) as [Nb _].
  assert (St : follows (fst (g_memory (fst w1))) b).
  { pose proof (reached_ok w1 W1) as OK. edestruct (begun_later ord P s all (added_prefixes new)) with (i := i) (b := b) (w := w1) (w' := w2) (units := units) (new := new) as [(t0 & X)|St]; try given; try eassumption.
    assert (Y : nth_error (g_threads (fst w1)) i <> None) by congruence. apply nth_error_Some in Y. lia. }
  destruct St as (St & _ & SP).
  assert (PB : forall t key p, In (key, p) (prefixes t all) -> In (key, p) (prefixes t b)).
  { intros t key p I. unfold all in I. rewrite (end_prefixes units new s NW t) in I. apply in_app_or in I. destruct I as [I|I].
    - destruct Nb as (PX & _). destruct (PX t) as (ex & -> & _). apply in_or_app. now left.
    - apply end_prefix_from in I as [I K]. destruct (SP t) as (ex & ->). apply in_or_app. left. apply reached_prefixed; auto. }
  destruct Ea as [(k & _ & U & R & _)|(_ & t & key & p & I & J)]; [|apply J, PB, I].
  apply R. rewrite unreadable_ways in *. intros k' I.
  assert (I' : In k' (ways b k)).
  { unfold ways in *. destruct I as [I|I]; [now left|]. right. apply in_app_or in I. apply in_or_app.
    assert (RI : forall t, In k' (rests k (prefixes t all)) -> In k' (rests k (prefixes t b))).
    { intros t J. unfold rests in *. apply in_flat_map in J as ([key p] & J1 & J2). apply in_flat_map. exists (key, p). split; [now apply PB|exact J2]. }
    destruct I as [I|I]; [left; exact (RI PNames I)|right; exact (RI PSymbols I)]. }
  specialize (U k' I'). destruct (known_opt all k') as [e'|] eqn:E; [|reflexivity]. exfalso. apply known_in_table in E as (t & E).
  unfold all in E. rewrite (proj1 (end_tables units new s)) in E.
  destruct (everything_from units t k' s e' E) as [(r' & J & Jw)|G].
  - destruct (reached_added w1 e' r' (Ok tt) W1 (A e' r' J)) as [(_ & H)|(v & t' & k0 & X & _)]; [|discriminate].
    apply (table_known b k' t); [|exact U]. apply St. exact (H t k' Jw).
  - apply (now_old ord s all (added_prefixes new) (end_old units new s NW) b k' Nb); [|exact U]. apply (table_known s k' t). congruence.
Qed.

Lemma threads_never_wait w : reached w ->
  (forall before t, In (before, t) (g_threads (fst w)) ->
     (exists x, t_state t = Running (Done x)) \/ exists m' t', thread_step (g_memory (fst w)) t m' t') /\
  (forall e r p, In (mkReg e r p) (g_adds (fst w)) ->
     (exists x, p = Done x) \/ exists p' s', next p (fst (g_memory (fst w))) = Some (p', s')).
Proof.
  intro W. split.
  - intros b t I. eapply (q_progress ord P s all (added_prefixes new)); try given; eassumption.
  - intros e r p I. eapply (q_add_progress ord P s all (added_prefixes new)); try given; eassumption.
Qed.
Lemma threads_end :
  (forall f : nat -> thread,
    ~ (forall n, exists w before m', reached w /\ In (before, f n) (g_threads (fst w)) /\ thread_step (g_memory (fst w)) (f n) m' (f (S n)))) /\
  (forall f : nat -> prog Datatypes.unit, ~ (forall n, exists s1 s2, next (f n) s1 = Some (f (S n), s2))).
Proof.
  split.
  - intros f H.
    assert (X : forall t, Acc (q_own ord s units new) t -> forall n, f n = t -> False).
    { intros t A. induction A as [t _ IH]. intros n E. subst t. apply (IH (f (S n)) (H n) (S n)). reflexivity. }
    refine (X (f 0%nat) _ 0%nat eq_refl). eapply (q_ends ord P s all (added_prefixes new)); given.
  - intros f H. assert (X : forall p n, f n = p -> False); [|exact (X _ 0%nat eq_refl)].
    induction p as [x|B a k IH|t k _]; intros n E; destruct (H n) as (s1 & s2 & N); rewrite E in N; cbn [next] in N; try discriminate.
    destruct (does a s1) as [v s3]. injection N as N1 _. symmetry in N1. exact (IH v (S n) N1).
Qed.
End Setting.
