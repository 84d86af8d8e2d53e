(** * C118, C119: which exception a query or a text raises. *)
From Verif Require Import PyBase PyNum Graph Visitor Expr Units UnitSystem SystemSpec SystemFacts SystemProofs SystemMore SystemKeep SystemOrd
  Prop_System RaisesSpec RaisesFacts Xml XmlSpec XmlFacts XmlPrefix XmlStrict Prop_Xml XmlData Database Prop_Database.
From Coq Require Import Permutation.
Local Open Scope list_scope.

(** ** C118.  An exception is always a fault of the query or text itself (or the stack ran
    out): whatever the order in which identifiers are visited, the calls made before, and
    the stack. *)
Theorem C118_every_exception_is_a_fault :
  forall ord s, rearranges ord -> clash_free s -> whole s ->
  forall history stack,
  (forall q e, fst (lookup ord stack q (after ord s history)) = Err e -> e = ERecursion \/ fault s q e) /\
  (forall t e, fst (sys_unit ord stack t (after ord s history)) = Err e -> e = ERecursion \/ text_fault s t e).
Proof.
  intros ord s P C W cs f. split.
  - intros q e E. destruct (lookup_agree ord s cs f q C) as [[A|[F A]] _]; [left; congruence|].
    apply (p_lookup_fault ord s P W F). congruence.
  - intros t e E. destruct (unit_agree ord s cs f t C) as [[A|[F A]] _]; [left; congruence|].
    apply (p_unit_fault ord s P W F). congruence.
Qed.

(** Conversely every fault is raised, in some visiting order, after any history. *)
Theorem C118_every_fault_is_raised :
  forall s rank n, clash_free s -> depth_at_most s rank n ->
  (forall q e, fault s q e -> exists ord, rearranges ord /\
     forall history stack, (n < stack)%nat -> fst (lookup ord stack q (after ord s history)) = Err e) /\
  (forall t e, text_fault s t e -> exists ord, rearranges ord /\
     forall history stack, (n < stack)%nat -> fst (sys_unit ord stack t (after ord s history)) = Err e).
Proof.
  intros s rank n C D. split; intros t e F.
  - destruct (fault_raised s rank n D t e F) as (ord & P & f & E). exists ord. split; auto. intros cs k L.
    destruct (depth_lookup ord s rank n P C D cs k t L) as [-> N].
    eapply (mono_agree (fun f => p_lookup ord s f t)); eauto using mono_lookup, fault_routine.
  - destruct (text_fault_raised s rank n D t e F) as (ord & P & f & E). exists ord. split; auto. intros cs k L.
    destruct (depth_unit ord s rank n P C D cs k t L) as [-> N].
    eapply (mono_agree (fun f => p_unit ord s f t)); eauto using mono_unit, text_fault_routine.
Qed.

(** A text either has no fault and has a unit in every order, or has one and has a unit in
    none. *)
Theorem C118_faulty_in_all_orders_or_in_none :
  forall s rank n, clash_free s -> proper_system s -> whole s -> depth_at_most s rank n ->
  forall ord history stack, rearranges ord -> (n < stack)%nat ->
  (forall q, (exists e, fault s q e) <-> (exists e, fst (lookup ord stack q (after ord s history)) = Err e)) /\
  (forall t, (exists e, text_fault s t e) <-> (exists e, fst (sys_unit ord stack t (after ord s history)) = Err e)).
Proof.
  intros s rank n C Pr W D ord cs f P L. destruct (C118_every_fault_is_raised s rank n C D) as [H1 H2].
  destruct (C118_every_exception_is_a_fault ord s P C W cs f) as [G1 G2].
  split; intro t; split.
  - intros [e F]. destruct (H1 t e F) as (o & P' & E). specialize (E [] f L). cbn [after fold_left] in E.
    destruct (depth_lookup o s rank n P' C D [] f t L) as [A _]. cbn [after fold_left] in A. rewrite A in E.
    pose proof (lookup_rel s ord o P P' Pr f t) as R. rewrite E in R.
    destruct (depth_lookup ord s rank n P C D cs f t L) as [B _]. rewrite B.
    destruct (p_lookup ord s f t) as [x|e']; [contradiction|]. now exists e'.
  - intros [e E]. destruct (G1 t e E) as [->|F]; [|now exists e].
    destruct (depth_lookup ord s rank n P C D cs f t L) as [A N]. congruence.
  - intros [e F]. destruct (H2 t e F) as (o & P' & E). specialize (E [] f L). cbn [after fold_left] in E.
    destruct (depth_unit o s rank n P' C D [] f t L) as [A _]. cbn [after fold_left] in A. rewrite A in E.
    pose proof (unit_rel s ord o P P' Pr f t) as R. rewrite E in R.
    destruct (depth_unit ord s rank n P C D cs f t L) as [B _]. rewrite B.
    destruct (p_unit ord s f t) as [x|e']; [contradiction|]. now exists e'.
  - intros [e E]. destruct (G2 t e E) as [->|F]; [|now exists e].
    destruct (depth_unit ord s rank n P C D cs f t L) as [A N]. congruence.
Qed.

(** Hence the exception of a text is the same in every order iff the text has one fault. *)
Theorem C118_same_exception_iff_one_fault :
  forall s rank n, clash_free s -> whole s -> depth_at_most s rank n ->
  forall t,
  (forall e e', text_fault s t e -> text_fault s t e' -> e = e') <->
  (forall ord ord' history history' stack stack' e e', rearranges ord -> rearranges ord' -> (n < stack)%nat -> (n < stack')%nat ->
     fst (sys_unit ord stack t (after ord s history)) = Err e ->
     fst (sys_unit ord' stack' t (after ord' s history')) = Err e' -> e = e').
Proof.
  intros s rank n C W D t. split.
  - intros U ord ord' cs cs' f f' e e' P P' L L' E E'. apply U.
    + destruct (proj2 (C118_every_exception_is_a_fault ord s P C W cs f) t e E) as [->|F]; auto.
      destruct (depth_unit ord s rank n P C D cs f t L) as [A N]. congruence.
    + destruct (proj2 (C118_every_exception_is_a_fault ord' s P' C W cs' f') t e' E') as [->|F]; auto.
      destruct (depth_unit ord' s rank n P' C D cs' f' t L') as [A N]. congruence.
  - intros H e e' F F'. destruct (C118_every_fault_is_raised s rank n C D) as [_ R].
    destruct (R t e F) as (o & P & E), (R t e' F') as (o' & P' & E').
    exact (H o o' [] [] (S n) (S n) e e' P P' (le_n _) (le_n _) (E [] (S n) (le_n _)) (E' [] (S n) (le_n _))).
Qed.

(** ** Computing the faults of a word: used for the shipped database. *)
Definition bad (ok : str -> bool) (ids : list str) : list str := filter (fun k => negb (ok k)) ids.
Fixpoint blamed (s : system) (ok : str -> bool) (f : nat) (q : str) : option exn :=
  match f with
  | O => None
  | S f =>
    match reading_opt s q with
    | None => Some (EUnresolvable q)
    | Some (_, EUnit _ _) => None
    | Some (_, ELazy i) =>
      match nth_error (s_lazies s) i with
      | None => None
      | Some l =>
        match lz_resolved l with
        | Some _ => None
        | None =>
          match parse (lz_def l) with
          | Err e => Some e
          | Ok g => match bad ok (identifiers g) with [k] => blamed s ok f k | _ => None end
          end
        end
      end
    end
  end.
Fixpoint all_some {A} (l : list (option A)) : option (list A) :=
  match l with
  | [] => Some []
  | None :: _ => None
  | Some a :: r => option_map (cons a) (all_some r)
  end.
Definition blamed_text (s : system) (ok : str -> bool) (f : nat) (t : str) : option (list exn) :=
  match parse t with
  | Err e => Some [e]
  | Ok g => match bad ok (identifiers g) with [] => None | ks => all_some (map (blamed s ok f) ks) end
  end.

Lemma all_some_spec {A} (l : list (option A)) r : all_some l = Some r -> l = map Some r.
Proof.
  revert r. induction l as [|[a|] l IH]; cbn [all_some]; intro r; [injection 1 as <-; reflexivity| |discriminate].
  destruct (all_some l) as [r'|]; [|discriminate]. cbn. injection 1 as <-. cbn [map]. f_equal. now apply IH.
Qed.

Section Blame.
Variable s : system.
Variable rank : str -> nat.
Variable n : nat.
Variable o : list str -> list str.
Hypothesis Po : rearranges o.
Hypothesis C : clash_free s.
Hypothesis Pr : proper_system s.
Hypothesis W : whole s.
Hypothesis D : depth_at_most s rank n.
Let ok (k : str) := is_ok (p_lookup o s (S n) k).

Lemma ok_no_fault k : ok k = true <-> forall e, ~ fault s k e.
Proof.
  pose proof (proj1 (C118_faulty_in_all_orders_or_in_none s rank n C Pr W D o [] (S n) Po (le_n _)) k) as H.
  cbn [after fold_left] in H. destruct (depth_lookup o s rank n Po C D [] (S n) k (le_n _)) as [A _]. cbn [after fold_left] in A.
  rewrite A in H. unfold ok. destruct (p_lookup o s (S n) k) as [x|e]; cbn [is_ok].
  - split; [intros _ e F|reflexivity]. destruct (proj1 H (ex_intro _ e F)) as [e' X]. discriminate.
  - split; [intro X; discriminate X|intro N]. destruct (proj2 H (ex_intro _ e eq_refl)) as [e' X]. destruct (N e' X).
Qed.
Lemma means_ok ord k x : rearranges ord -> means ord s k x -> ok k = true.
Proof.
  intros P M. apply ok_no_fault. intros e F. destruct (fault_raised s rank n D k e F) as (o' & P' & f & E).
  apply means_iff in M as [f' E']. pose proof (lookup_rel s ord o' P P' Pr (Nat.max f f') k) as R.
  rewrite (p_lookup_mono ord s f' (Nat.max f f') k) in R by (lia || (rewrite E'; discriminate)).
  rewrite (p_lookup_mono o' s f (Nat.max f f') k) in R by (try lia; rewrite E; intro X; injection X as ->; now apply (fault_routine s k ERecursion F)).
  rewrite E, E' in R. exact R.
Qed.
Lemma refs_ok ord g refs : rearranges ord -> refs_mean ord s (ord (identifiers g)) refs -> bad ok (identifiers g) = [].
Proof.
  intros P M. assert (H : forall k, In k (identifiers g) -> ok k = true).
  { assert (G : forall k, In k (ord (identifiers g)) -> ok k = true).
    { clear -M P Po C Pr W D. induction M as [|k ks y refs My M IH]; [intros k []|]. intros k' [<-|I]; [eapply means_ok; eauto|auto]. }
    intros k I. apply G. apply (Permutation_in _ (Permutation_sym (P _))). exact I. }
  unfold bad. clear -H. induction (identifiers g) as [|k l IH]; cbn [filter]; auto. rewrite H by now left. cbn [negb].
  apply IH. intros k' I. apply H. now right.
Qed.
Lemma bad_in k ids : In k (bad ok ids) <-> In k ids /\ ok k = false.
Proof. unfold bad. rewrite filter_In, negb_true_iff. reflexivity. Qed.
Lemma faulty_bad k e g : In k (identifiers g) -> fault s k e -> In k (bad ok (identifiers g)).
Proof.
  intros I F. apply bad_in. split; auto. destruct (ok k) eqn:E; auto. destruct (proj1 (ok_no_fault k) E e F).
Qed.

Lemma blamed_spec f : forall q e, blamed s ok f q = Some e -> forall e', fault s q e' <-> e' = e.
Proof.
  induction f as [|f IH]; intros q e; cbn [blamed]; [discriminate|].
  destruct (reading_opt s q) as [[pre en]|] eqn:Rd.
  - apply reading_iff in Rd. destruct en as [i|x r]; [|discriminate]. destruct (nth_error (s_lazies s) i) as [l|] eqn:N; [|discriminate].
    destruct (lz_resolved l) eqn:Z; [discriminate|]. assert (Dq : defined_by s q l) by (eapply Db; eauto).
    assert (Dl : forall l', defined_by s q l' -> l' = l).
    { intros l' [pre' i' Rd' N' Z']. destruct (reading_unique _ _ _ _ _ _ Rd Rd') as [_ E]. congruence. }
    destruct (parse (lz_def l)) as [g|e0] eqn:P.
    + destruct (bad ok (identifiers g)) as [|k [|]] eqn:B; try discriminate. intros Bk e'. specialize (IH k e Bk).
      assert (Ik : In k (identifiers g)) by (apply (proj1 (bad_in k (identifiers g))); rewrite B; now left).
      split; [|intros ->; apply Fa_mentioned with k; [now exists l, g|now apply IH]].
      intro F. inversion F as [q0 U|q0 l' e1 D' P'|q0 k' e1 M F'|q0 l' g' ord refs e1 D' P' R' X U|q0 key p k' en' ord x e1 Rd' R' X U]; subst.
      * exfalso. apply unreadable_iff in U. apply reading_iff in Rd. congruence.
      * rewrite (Dl _ D') in P'. congruence.
      * destruct M as (l' & g' & D' & P' & I'). rewrite (Dl _ D'), P in P'. injection P' as <-.
        pose proof (faulty_bad k' e' g I' F') as J. rewrite B in J. destruct J as [<-|[]]. now apply IH.
      * exfalso. rewrite (Dl _ D'), P in P'. injection P' as <-. rewrite (refs_ok ord g refs R' X) in B. discriminate.
      * exfalso. destruct (reading_unique _ _ _ _ _ _ Rd Rd') as [_ E]. subst en'.
        inversion X as [|i0 l0 x0 N0 Z0|i0 l0 g0 refs x0 N0 Z0 P0 M0 U0]; subst; [congruence|].
        assert (l0 = l) by congruence. subst l0. assert (g0 = g) by congruence. subst g0. rewrite (refs_ok ord g refs R' M0) in B. discriminate.
    + injection 1 as ->. intro e'. split; [|intros ->; eapply Fa_syntax; eauto].
      intro F. inversion F as [q0 U|q0 l' e1 D' P'|q0 k' e1 M F'|q0 l' g' ord refs e1 D' P' R' X U|q0 key p k' en' ord x e1 Rd' R' X U]; subst.
      * exfalso. apply unreadable_iff in U. apply reading_iff in Rd. congruence.
      * rewrite (Dl _ D') in P'. congruence.
      * exfalso. destruct M as (l' & g' & D' & P' & I'). rewrite (Dl _ D') in P'. congruence.
      * exfalso. rewrite (Dl _ D') in P'. congruence.
      * exfalso. destruct (reading_unique _ _ _ _ _ _ Rd Rd') as [_ E]. subst en'.
        inversion X as [|i0 l0 x0 N0 Z0|i0 l0 g0 refs x0 N0 Z0 P0 M0 U0]; subst; congruence.
  - injection 1 as <-. intro e'. split; [|intros ->; apply Fa_no_reading; now apply unreadable_iff].
    assert (NR : forall pre en, ~ reading s q pre en).
    { intros pre en X. apply reading_iff in X. congruence. }
    intro F. inversion F as [q0 U|q0 l' e1 D' P'|q0 k' e1 M F'|q0 l' g' ord refs e1 D' P' R' X U|q0 key p k' en' ord x e1 Rd' R' X U]; subst; auto; exfalso.
    + destruct D'. eapply NR; eauto.
    + destruct M as (l' & g' & [] & _). eapply NR; eauto.
    + destruct D'. eapply NR; eauto.
    + eapply NR; eauto.
Qed.

Lemma blamed_text_spec f t es : blamed_text s ok f t = Some es -> forall e, text_fault s t e <-> In e es.
Proof.
  unfold blamed_text. destruct (parse t) as [g|e0] eqn:P.
  - destruct (bad ok (identifiers g)) as [|k0 ks0] eqn:B; [discriminate|]. rewrite <- B. intros A e. apply all_some_spec in A. split.
    + intros [e' P'|g' k e' P' I F|g' ord refs e' P' R X U]; [congruence| |].
      * assert (g' = g) by congruence. subst g'. pose proof (faulty_bad k e' g I F) as J. rewrite B in A. rewrite B in J.
        apply (in_map (blamed s ok f)) in J. rewrite A in J. apply in_map_iff in J as (e1 & E1 & I1).
        symmetry in E1. now rewrite (proj1 (blamed_spec f k e1 E1 e') F).
      * exfalso. assert (g' = g) by congruence. subst g'. rewrite (refs_ok ord g refs R X) in B. discriminate.
    + intro I. apply (in_map Some) in I. rewrite <- A in I. apply in_map_iff in I as (k & E & I). apply bad_in in I as [I _].
      apply Tf_mentioned with g k; auto. now apply (blamed_spec f k e E).
  - injection 1 as <-. intro e. split.
    + intros [e' P'|g' k e' P' I F|g' ord refs e' P' R X U]; try congruence. left. congruence.
    + intros [<-|[]]. now apply Tf_syntax.
Qed.
End Blame.

(** ** The shipped database. *)
(** what [unit_by_name_or_symbol] raises for the words it cannot resolve *)
Definition word_exceptions : list (str * exn) :=
  [(u "arc_second", ESyntax);
   (u "arc_seconds", ESyntax);
   (u "angular_second", ESyntax);
   (u "angular_seconds", ESyntax);
   (u "arcsecond", ESyntax);
   (u "arcseconds", ESyntax);
   (u "arcsec", ESyntax);
   (u "arcsecs", ESyntax);
   (u "inch_H2O_39F", EUnresolvable (u "water_"));
   (u "inches_H2O_39F", EUnresolvable (u "water_"));
   (u "inch_H2O_60F", EUnresolvable (u "water_"));
   (u "inches_H2O_60F", EUnresolvable (u "water_"));
   (u "millimeter_Hg_0C", EUnresolvable (u "mercury_"));
   (u "millimeters_Hg_0C", EUnresolvable (u "mercury_"));
   (u "inch_Hg_32F", EUnresolvable (u "mercury_"));
   (u "inches_Hg_32F", EUnresolvable (u "mercury_"));
   (u "inch_Hg_60F", EUnresolvable (u "mercury_"));
   (u "inches_Hg_60F", EUnresolvable (u "mercury_"));
   ([34%N], ESyntax);
   (u "″", ESyntax);
   (u "cm_H2O", EUnresolvable (u "O"));
   (u "cmH2O", EUnresolvable (u "O"))].

(** what [unit(w)] raises for the words that cannot be written as a text; twelve words have two rows *)
Definition text_exceptions : list (str * exn) :=
  [(u "arc_second", ESyntax);
   (u "arc_seconds", ESyntax);
   (u "angular_second", ESyntax);
   (u "angular_seconds", ESyntax);
   (u "arcsecond", ESyntax);
   (u "arcseconds", ESyntax);
   (u "arcsec", ESyntax);
   (u "arcsecs", ESyntax);
   (u "astronomical_unit_BIPM_2006", EUnresolvable (u "astronomical_unit_BIPM_"));
   (u "astronomical_unit_BIPM_2006s", EUnresolvable (u "astronomical_unit_BIPM_"));
   (u "perm_0C", EUnresolvable (u "perm_"));
   (u "perms_0C", EUnresolvable (u "perms_"));
   (u "perm_23C", EUnresolvable (u "perm_"));
   (u "perms_23C", EUnresolvable (u "perms_"));
   (u "water_4C", EUnresolvable (u "water_"));
   (u "waters_4C", EUnresolvable (u "waters_"));
   (u "water_39F", EUnresolvable (u "water_"));
   (u "waters_39F", EUnresolvable (u "waters_"));
   (u "water_60F", EUnresolvable (u "water_"));
   (u "waters_60F", EUnresolvable (u "waters_"));
   (u "mercury_0C", EUnresolvable (u "mercury_"));
   (u "mercuries_0C", EUnresolvable (u "mercuries_"));
   (u "mercury_32F", EUnresolvable (u "mercury_"));
   (u "mercuries_32F", EUnresolvable (u "mercuries_"));
   (u "mercury_60F", EUnresolvable (u "mercury_"));
   (u "mercuries_60F", EUnresolvable (u "mercuries_"));
   (u "inch_H2O_39F", EUnresolvable (u "inch_H"));
   (u "inch_H2O_39F", EUnresolvable (u "O_"));
   (u "inches_H2O_39F", EUnresolvable (u "inches_H"));
   (u "inches_H2O_39F", EUnresolvable (u "O_"));
   (u "inch_H2O_60F", EUnresolvable (u "inch_H"));
   (u "inch_H2O_60F", EUnresolvable (u "O_"));
   (u "inches_H2O_60F", EUnresolvable (u "inches_H"));
   (u "inches_H2O_60F", EUnresolvable (u "O_"));
   (u "foot_H2O", EUnresolvable (u "foot_H"));
   (u "foot_H2O", EUnresolvable (u "O"));
   (u "feet_H2O", EUnresolvable (u "feet_H"));
   (u "feet_H2O", EUnresolvable (u "O"));
   (u "footH2O", EUnresolvable (u "footH"));
   (u "footH2O", EUnresolvable (u "O"));
   (u "feetH2O", EUnresolvable (u "feetH"));
   (u "feetH2O", EUnresolvable (u "O"));
   (u "millimeter_Hg_0C", EUnresolvable (u "millimeter_Hg_"));
   (u "millimeters_Hg_0C", EUnresolvable (u "millimeters_Hg_"));
   (u "inch_Hg_32F", EUnresolvable (u "inch_Hg_"));
   (u "inches_Hg_32F", EUnresolvable (u "inches_Hg_"));
   (u "inch_Hg_60F", EUnresolvable (u "inch_Hg_"));
   (u "inches_Hg_60F", EUnresolvable (u "inches_Hg_"));
   (u "C12_faraday", EUnresolvable (u "_faraday"));
   (u "C12_faradays", EUnresolvable (u "_faradays"));
   (u "'", ESyntax);
   (u "′", ESyntax);
   ([34%N], ESyntax);
   (u "″", ESyntax);
   (u "Ω", ESyntax);
   (u "Å", ESyntax);
   (u "℃", ESyntax);
   (u "%", ESyntax);
   (u "H2O", EUnresolvable (u "O"));
   (u "h2o", EUnresolvable (u "o"));
   (u "cm_H2O", EUnresolvable (u "cm_H"));
   (u "cm_H2O", EUnresolvable (u "O"));
   (u "cmH2O", EUnresolvable (u "cmH"));
   (u "cmH2O", EUnresolvable (u "O"));
   (u "ftH2O", EUnresolvable (u "ftH"));
   (u "ftH2O", EUnresolvable (u "O"));
   (u "fth2o", EUnresolvable (u "fth"));
   (u "fth2o", EUnresolvable (u "o"));
   (u "℉", ESyntax)].


Definition exn_same (a b : exn) : bool :=
  match a, b with
  | ESyntax, ESyntax => true
  | EUnresolvable v, EUnresolvable w => str_eqb v w
  | _, _ => false
  end.
Lemma exn_same_eq a b : exn_same a b = true -> a = b.
Proof. destruct a, b; cbn; try discriminate; auto. intro H. apply eqb_spec in H. now subst. Qed.
Definition in_table (tb : list (str * exn)) (w : str) (e : exn) : bool :=
  existsb (fun r => str_eqb (fst r) w && exn_same (snd r) e) tb.
Lemma in_table_In tb w e : in_table tb w e = true -> In (w, e) tb.
Proof.
  intro H. apply existsb_exists in H as ([w' e'] & I & E). apply andb_prop in E as [E1 E2]. apply eqb_spec in E1. apply exn_same_eq in E2.
  cbn [fst snd] in E1, E2. now subst.
Qed.
Fixpoint different (l : list str) : bool := match l with [] => true | w :: r => negb (str_mem w r) && different r end.
Lemma different_sound l : different l = true -> NoDup l.
Proof.
  induction l as [|w l IH]; cbn [different]; intro H; constructor; apply andb_prop in H as [H1 H2]; auto.
  apply negb_true_iff in H1. intro I. apply str_mem_In in I. congruence.
Qed.
Definition ok_word (s : system) (k : str) : bool := is_ok (p_lookup in_order s 8 k).
Definition check_word (s : system) (w : str) : bool :=
  match ok_word s w with true => true | false =>
  match blamed s (ok_word s) 8 w with Some e => in_table word_exceptions w e | None => false end end.
Definition check_text (s : system) (w : str) : bool :=
  match is_ok (p_unit in_order s 8 w) with true => true | false =>
  match blamed_text s (ok_word s) 8 w with Some es => forallb (in_table text_exceptions w) es | None => false end end.
Definition check_row (s : system) (r : str * exn) : bool :=
  match blamed_text s (ok_word s) 8 (fst r) with Some es => existsb (exn_same (snd r)) es | None => false end.
Definition whole_b (s : system) : bool :=
  forallb (fun d : dict entry => forallb (fun ke => match snd ke with ELazy i => Nat.ltb i (List.length (s_lazies s)) | EUnit _ _ => true end) d)
    [s_names s; s_alias_names s; s_symbols s; s_alias_symbols s].

Lemma whole_sound s : whole_b s = true -> whole s.
Proof.
  unfold whole_b. intros H k i K.
  assert (G : forall d, In d [s_names s; s_alias_names s; s_symbols s; s_alias_symbols s] -> dget k d = Some (ELazy i) ->
    exists l, nth_error (s_lazies s) i = Some l).
  { intros d I E. rewrite forallb_forall in H. specialize (H d I). clear I. induction d as [|[k' e] d IH]; cbn [dget] in E; [discriminate|].
    cbn [forallb snd] in H. apply andb_prop in H as [H1 H2]. destruct (str_eqb k k'); [|auto]. injection E as ->.
    apply Nat.ltb_lt in H1. apply nth_error_Some in H1. destruct (nth_error (s_lazies s) i); [eauto|congruence]. }
  destruct K as [K|_ K|_ _ K|_ _ _ K]; eapply G; eauto; cbn; auto.
Qed.

Lemma raises_checked : whole_b shipped = true /\
  forallb (check_word shipped) (all_words shipped) = true /\
  forallb (check_text shipped) (all_words shipped) = true /\ forallb (check_row shipped) text_exceptions = true.
Proof. split; [|split; [|split]]; vm_compute; reflexivity. Qed.

Section Shipped.
Variables sh s : system.
Variable rank : str -> nat.
Hypothesis C : clash_free sh.
Hypothesis Pr : proper_system sh.
Hypothesis W : whole sh.
Hypothesis D : depth_at_most sh rank 7.
Hypothesis R : par sh s.

Lemma call_lookup ord cs f w : fst (lookup ord f w (after ord s cs)) = fst (lookup ord f w (after ord sh cs)).
Proof. symmetry. exact (proj1 (parm_lookup ord f w _ _ (par_after ord cs _ _ R))). Qed.
Lemma call_unit ord cs f w : fst (sys_unit ord f w (after ord s cs)) = fst (sys_unit ord f w (after ord sh cs)).
Proof. symmetry. exact (proj1 (parm_unit ord f w _ _ (par_after ord cs _ _ R))). Qed.

Lemma word_raises ord cs f w e : rearranges ord -> (7 < f)%nat -> check_word sh w = true ->
  fst (lookup ord f w (after ord s cs)) = Err e -> In (w, e) word_exceptions.
Proof.
  intros P L K. rewrite call_lookup. intro E.
  assert (F : fault sh w e).
  { destruct (proj1 (C118_every_exception_is_a_fault ord sh P C W cs f) w e E) as [->|F]; auto.
    destruct (depth_lookup ord sh rank 7 P C D cs f w L) as [A N]. congruence. }
  unfold check_word in K. destruct (ok_word sh w) eqn:O.
  - destruct (proj1 (ok_no_fault sh rank 7 in_order in_order_rearranges C Pr W D w) O e F).
  - destruct (blamed sh (ok_word sh) 8 w) as [e'|] eqn:B; [|discriminate].
    apply (blamed_spec sh rank 7 in_order in_order_rearranges C Pr W D 8 w e' B) in F. subst e'. now apply in_table_In.
Qed.

Lemma text_raises ord cs f w e : rearranges ord -> (7 < f)%nat -> check_text sh w = true ->
  fst (sys_unit ord f w (after ord s cs)) = Err e -> In (w, e) text_exceptions.
Proof.
  intros P L K. rewrite call_unit. intro E.
  assert (F : text_fault sh w e).
  { destruct (proj2 (C118_every_exception_is_a_fault ord sh P C W cs f) w e E) as [->|F]; auto.
    destruct (depth_unit ord sh rank 7 P C D cs f w L) as [A N]. congruence. }
  unfold check_text in K. destruct (is_ok (p_unit in_order sh 8 w)) eqn:O.
  - exfalso. destruct (proj1 (proj2 (C118_faulty_in_all_orders_or_in_none sh rank 7 C Pr W D in_order [] 8%nat in_order_rearranges (le_n _)) w)
      (ex_intro _ e F)) as [e' X]. destruct (depth_unit in_order sh rank 7 in_order_rearranges C D [] 8%nat w (le_n _)) as [A _].
    rewrite A in X. rewrite X in O. discriminate O.
  - destruct (blamed_text sh (ok_word sh) 8 w) as [es|] eqn:B; [|discriminate].
    apply (blamed_text_spec sh rank 7 in_order in_order_rearranges C Pr W D 8 w es B) in F.
    rewrite forallb_forall in K. apply in_table_In. now apply K.
Qed.

Lemma row_raised w e : check_row sh (w, e) = true -> exists ord, rearranges ord /\
  forall cs f, (7 < f)%nat -> fst (sys_unit ord f w (after ord s cs)) = Err e.
Proof.
  unfold check_row. cbn [fst snd]. destruct (blamed_text sh (ok_word sh) 8 w) as [es|] eqn:B; [|discriminate].
  intro K. apply existsb_exists in K as (e' & I & E). apply exn_same_eq in E. subst e'.
  apply (blamed_text_spec sh rank 7 in_order in_order_rearranges C Pr W D 8 w es B) in I.
  destruct (proj2 (C118_every_fault_is_raised sh rank 7 C D) w e I) as (ord & P & H). exists ord. split; auto.
  intros cs f L. rewrite call_unit. auto.
Qed.
End Shipped.

(** For either reader and every storage order, visiting order and history, and enough stack:
    the exceptions for the words of the database are those of the two tables; and every row
    of the second is raised in some visiting order. *)
Theorem C118_shipped_words :
  forall strict set_order s, rearranges set_order -> read_system strict set_order db = Ok s ->
  (forall ord history stack w e, rearranges ord -> (7 < stack)%nat -> a_word s w ->
     (fst (lookup ord stack w (after ord s history)) = Err e -> In (w, e) word_exceptions) /\
     (fst (sys_unit ord stack w (after ord s history)) = Err e -> In (w, e) text_exceptions)) /\
  (forall w e, In (w, e) text_exceptions -> exists ord, rearranges ord /\
     forall history stack, (7 < stack)%nat -> fst (sys_unit ord stack w (after ord s history)) = Err e) /\
  NoDup (map fst word_exceptions).
Proof.
  intros strict o s P E. destruct (read_any strict o P) as (s' & E' & R). rewrite E in E'. injection E' as <-. clear E.
  destruct shipped_checks as (C & Pr & D). destruct raises_checked as (W & K1 & K2 & K3). apply whole_sound in W.
  revert R C Pr D W K1 K2 K3. generalize (query_rank shipped ranks). generalize shipped. intros sh rank R C Pr D W K1 K2 K3.
  rewrite forallb_forall in K1, K2, K3. split; [|split].
  - intros ord cs f w e Po L Aw. pose proof (a_word_par sh s R w Aw) as I. split.
    + apply (word_raises sh s rank C Pr W D R ord cs f w e Po L (K1 w I)).
    + apply (text_raises sh s rank C Pr W D R ord cs f w e Po L (K2 w I)).
  - intros w e I. exact (row_raised sh s rank C Pr W D R w e (K3 (w, e) I)).
  - clear. apply different_sound. vm_compute. reflexivity.
Qed.

(** ** C119, as one would expect it: the exception does not depend on the order in which a
    set of words is visited (the hash seed of the process).  False: it does for every text
    with two different words that cannot be read, and for twelve words of the shipped
    database, each on its own. *)
Theorem C119_two_unknown_words_refuted :
  forall s rank n, clash_free s -> depth_at_most s rank n ->
  forall t g k k', parse t = Ok g -> In k (identifiers g) -> In k' (identifiers g) -> k <> k' ->
  unreadable s k -> unreadable s k' ->
  exists ord ord', rearranges ord /\ rearranges ord' /\ forall history history' stack, (n < stack)%nat ->
    fst (sys_unit ord stack t (after ord s history)) = Err (EUnresolvable k) /\
    fst (sys_unit ord' stack t (after ord' s history')) = Err (EUnresolvable k') /\ k <> k'.
Proof.
  intros s rank n C D t g k k' P I I' N U U'. destruct (C118_every_fault_is_raised s rank n C D) as [_ H].
  destruct (H t (EUnresolvable k)) as (o & Po & E). { apply Tf_mentioned with g k; auto. now apply Fa_no_reading. }
  destruct (H t (EUnresolvable k')) as (o' & Po' & E'). { apply Tf_mentioned with g k'; auto. now apply Fa_no_reading. }
  exists o, o'. auto 6.
Qed.

(* on the shipped database: a registered word, and a syntax error hiding a missing word *)
Lemma two_exceptions :
  fst (sys_unit in_order 8 (u "cmH2O") shipped) = Err (EUnresolvable (u "cmH")) /\
  fst (sys_unit (@rev str) 8 (u "cmH2O") shipped) = Err (EUnresolvable (u "O")) /\
  fst (sys_unit in_order 8 (u "arc_second nosuch") shipped) = Err ESyntax /\
  fst (sys_unit (@rev str) 8 (u "arc_second nosuch") shipped) = Err (EUnresolvable (u "nosuch")).
Proof. vm_compute. auto. Qed.

Theorem C119_exception_order_independent_refuted :
  exists s w ord ord' e e', read_system true in_order db = Ok s /\ a_word s w /\
  rearranges ord /\ rearranges ord' /\ e <> e' /\
  fst (sys_unit ord 8 w s) = Err e /\ fst (sys_unit ord' 8 w s) = Err e'.
Proof.
  exists shipped, (u "cmH2O"), in_order, (@rev str), (EUnresolvable (u "cmH")), (EUnresolvable (u "O")).
  split; [exact shipped_ok|]. split; [apply word_by_mem; vm_compute; reflexivity|].
  split; [exact in_order_rearranges|]. split; [exact rev_rearranges|]. split; [intro E; discriminate E|].
  destruct two_exceptions as (A & B & _). split; [exact A|exact B].
Qed.

(* the hypotheses are met by the demonstration system, where a text can have one fault, two
   or none; a circular definition has no fault, and exhausts the stack *)
Lemma demo_whole : whole demo /\ whole circular.
Proof. split; apply whole_sound; vm_compute; reflexivity. Qed.
Example C118_example :
  clash_free demo /\ proper_system demo /\ whole demo /\ depth_at_most demo (query_rank demo [0; 1; 2]%nat) 3 /\
  blamed_text demo (fun k => is_ok (p_lookup same_order demo 4 k)) 4 (u "kilometer nosuch") = Some [EUnresolvable (u "nosuch")] /\
  text_fault demo (u "kiloh foo bar") (EUnresolvable (u "foo")) /\ text_fault demo (u "kiloh foo bar") (EUnresolvable (u "bar")) /\
  (forall e, ~ text_fault demo (u "speed") e).
Proof.
  split; [exact demo_clash_free|]. split; [exact demo_proper|]. split; [apply demo_whole|]. split; [exact demo_depth|].
  split; [vm_compute; reflexivity|].
  assert (U : unreadable demo (u "foo") /\ unreadable demo (u "bar")) by (split; apply unreadable_iff; vm_compute; reflexivity).
  assert (P : exists g, parse (u "kiloh foo bar") = Ok g /\ In (u "foo") (identifiers g) /\ In (u "bar") (identifiers g)).
  { eexists. split; [vm_compute; reflexivity|]. split; vm_compute; auto. }
  destruct P as (g & P & I & I'), U as [U U'].
  split; [apply Tf_mentioned with g (u "foo"); auto; now apply Fa_no_reading|].
  split; [apply Tf_mentioned with g (u "bar"); auto; now apply Fa_no_reading|].
  intros e F. pose proof (proj1 (proj2 (C118_faulty_in_all_orders_or_in_none demo _ 3 demo_clash_free demo_proper (proj1 demo_whole) demo_depth
    same_order [] 4%nat same_order_rearranges (le_n _)) (u "speed")) (ex_intro _ e F)) as [e' X]. revert X. vm_compute. intro X; discriminate X.
Qed.

Print Assumptions C118_every_exception_is_a_fault.
Print Assumptions C118_every_fault_is_raised.
Print Assumptions C118_faulty_in_all_orders_or_in_none.
Print Assumptions C118_same_exception_iff_one_fault.
Print Assumptions C118_shipped_words.
Print Assumptions C119_two_unknown_words_refuted.
Print Assumptions C119_exception_order_independent_refuted.
