(** * Unrecognised content (C40). *)
From Verif Require Import PyBase PyNum Graph Visitor Expr Units UnitSystem SystemSpec SystemFacts SystemMore SystemKeep Xml XmlSpec XmlFacts XmlPrefix.
From Coq Require Import Permutation.

(** ** The strict reader against the default one *)
Definition refines {A} (lax strict : res A) (C : Prop) : Prop :=
  match lax with
  | Ok a => (C /\ strict = Ok a) \/ (~ C /\ strict = Err (EValue VE_xml_unhandled))
  | Err e => strict = Err e \/ strict = Err (EValue VE_xml_unhandled)
  end.

Lemma refines_same {A} (r : res A) : refines r r True.
Proof. destruct r; cbn; tauto. Qed.
Lemma refines_iff {A} (l s : res A) C D : (C <-> D) -> refines l s C -> refines l s D.
Proof. intros H. destruct l; cbn; tauto. Qed.
Lemma refines_bind {A B} (l s : res A) (f g : A -> res B) C D : refines l s C -> (forall a, l = Ok a -> refines (f a) (g a) D) ->
  refines (bind l f) (bind s g) (C /\ D).
Proof.
  intros H K. destruct l as [a|e]; cbn [refines bind] in *.
  - specialize (K a eq_refl). destruct H as [[HC ->]|[HC ->]]; cbn [bind].
    + destruct (f a); cbn [refines] in *; tauto.
    + destruct (f a); cbn [refines]; [right; tauto|tauto].
  - destruct H as [->| ->]; cbn; tauto.
Qed.
Lemma refines_unhandled b : refines (unhandled false b) (unhandled true b) (b = false).
Proof. unfold unhandled. destruct b; cbn; [right|left]; split; auto; discriminate. Qed.
Lemma refines_bind_same {A B} (r : res A) (f g : A -> res B) D : (forall a, r = Ok a -> refines (f a) (g a) D) -> refines (bind r f) (bind r g) D.
Proof. intro H. destruct r; cbn; [now apply H|tauto]. Qed.
Lemma refines_bind' {A B} (l s : res A) (f g : A -> res B) C : refines l s C -> (forall a, f a = g a) -> refines (bind l f) (bind s g) C.
Proof.
  intros H K. apply (refines_iff _ _ (C /\ True)); [tauto|]. apply refines_bind; auto. intros a _. rewrite K. apply refines_same.
Qed.

(** ** What is left after taking out children *)
Definition few (multi ns : list string) (cs : list tag) : Prop :=
  only (multi ++ ns) cs /\ Forall (fun n => (number_of n cs <= 1)%nat) ns.

Lemma few_nil cs : nonempty cs = false <-> few [] [] cs.
Proof.
  unfold few, only. cbn [app]. split.
  - destruct cs; [|discriminate]. split; constructor.
  - intros [H _]. destruct H as [|c cs E]; [reflexivity|discriminate].
Qed.

Lemma called_iff ns c : called ns c = true <-> exists n, In n ns /\ t_name c = u n.
Proof. unfold called. rewrite existsb_exists. split; intros (n & I & E); exists n; (split; [exact I|now apply is_named_iff]). Qed.

Lemma number_pop_other n m cs : u n <> u m -> number_of m (snd (pop_first (u n) cs)) = number_of m cs.
Proof.
  intro D. unfold number_of. destruct (pop_first (u n) cs) as [o r] eqn:P. cbn [snd]. now rewrite (pop_first_ext n m cs o r P D).
Qed.
Lemma number_pop n cs : number_of n (snd (pop_first (u n) cs)) = pred (number_of n cs).
Proof.
  unfold number_of. induction cs as [|x cs IH]; cbn [pop_first]; [reflexivity|]. cbn [filter].
  change (str_eqb (t_name x) (u n)) with (is_named n x). destruct (is_named n x) eqn:E; [reflexivity|].
  destruct (pop_first (u n) cs) as [o r]. cbn [snd filter] in *. now rewrite E.
Qed.
Lemma pop_incl n cs c : In c (snd (pop_first (u n) cs)) -> In c cs.
Proof.
  induction cs as [|x cs IH]; cbn [pop_first]; [auto|]. destruct (str_eqb (t_name x) (u n)); [now right|].
  destruct (pop_first (u n) cs) as [o r]. cbn [snd In] in *. tauto.
Qed.
Lemma pop_keeps n cs c : In c cs -> In c (snd (pop_first (u n) cs)) \/ t_name c = u n.
Proof.
  induction cs as [|x cs IH]; cbn [pop_first In]; [tauto|]. destruct (str_eqb (t_name x) (u n)) eqn:E; cbn [snd].
  - apply eqb_spec in E. intros [<-|I]; auto.
  - destruct (pop_first (u n) cs) as [o r]. cbn [snd In] in *. tauto.
Qed.
Lemma number_in n cs : (1 <= number_of n cs)%nat <-> exists c, In c cs /\ t_name c = u n.
Proof.
  unfold number_of. split.
  - destruct (filter (is_named n) cs) as [|c l] eqn:E; cbn [List.length]; [lia|]. intros _. exists c.
    assert (I : In c (filter (is_named n) cs)) by (rewrite E; now left). apply filter_In in I as [I E']. split; auto. now apply is_named_iff.
  - intros (c & I & E). assert (I' : In c (filter (is_named n) cs)) by (apply filter_In; split; [auto|now apply is_named_iff]).
    destruct (filter (is_named n) cs); [destruct I'|cbn; lia].
Qed.

Definition apart (n : string) (ns : list string) : Prop := Forall (fun m => u n <> u m) ns.

Lemma few_pop multi ns n cs : apart n (multi ++ ns) -> few multi ns (snd (pop_first (u n) cs)) <-> few multi (n :: ns) cs.
Proof.
  intro A. unfold few, only. rewrite !Forall_forall. unfold apart in A. rewrite Forall_forall in A.
  assert (A' : forall m, In m ns -> u n <> u m) by (intros; apply A, in_or_app; auto).
  assert (O : forall c, (exists m, In m (multi ++ n :: ns) /\ t_name c = u m) <-> ((exists m, In m (multi ++ ns) /\ t_name c = u m) \/ t_name c = u n)).
  { intro c. split.
    - intros (m & I & E). apply in_app_or in I as [I|[<-|I]]; [left; exists m; split; auto; apply in_or_app; now left|now right|left; exists m; split; auto; apply in_or_app; now right].
    - intros [(m & I & E)|E]; [exists m|exists n]; (split; [|auto]); apply in_or_app; [apply in_app_or in I as [I|I]; [now left|right; now right]|right; now left]. }
  split; intros [H1 H2]; split.
  - intros c I. apply called_iff. apply O. apply (pop_keeps n) in I as [I|I]; auto. left. apply called_iff. now apply H1.
  - intros m [<-|I].
    + destruct (Nat.le_gt_cases (number_of n cs) 1) as [L|L]; auto. exfalso.
      pose proof (number_pop n cs) as Q. assert (L' : (1 <= number_of n (snd (pop_first (u n) cs)))%nat) by lia.
      apply number_in in L' as (c & I & E). apply H1 in I. apply called_iff in I as (m & I & E'). apply (A m I). congruence.
    + rewrite <- (number_pop_other n m cs); auto.
  - intros c I. apply called_iff. pose proof (pop_incl n cs c I) as I'. apply H1 in I'. apply called_iff, O in I' as [I'|E]; auto.
    exfalso. pose proof (number_pop n cs) as Q. specialize (H2 n (or_introl eq_refl)).
    assert (L : (1 <= number_of n (snd (pop_first (u n) cs)))%nat) by (apply number_in; eauto). lia.
  - intros m I. rewrite (number_pop_other n m cs); auto. apply H2. now right.
Qed.

Lemma few_all ns n cs : apart n ns -> few [] ns (filter (fun c => negb (is_named n c)) cs) <-> few [n] ns cs.
Proof.
  intro A. unfold few, only. cbn [app]. unfold apart in A. rewrite Forall_forall in A. rewrite !Forall_forall.
  assert (N : forall m, In m ns -> number_of m (filter (fun c => negb (is_named n c)) cs) = number_of m cs).
  { intros m I. unfold number_of. f_equal. induction cs as [|x cs IH]; cbn [filter]; [reflexivity|].
    destruct (is_named n x) eqn:E; cbn [negb].
    - assert (Z : is_named m x = false) by (apply is_named_false; apply is_named_iff in E; rewrite E; apply A; auto). now rewrite Z.
    - cbn [filter]. destruct (is_named m x); now rewrite IH. }
  split; intros [H1 H2]; split.
  - intros c I. destruct (is_named n c) eqn:E; [apply called_iff; exists n; split; [now left|now apply is_named_iff]|].
    assert (J : In c (filter (fun c => negb (is_named n c)) cs)) by (apply filter_In; now rewrite E).
    apply H1, called_iff in J as (m & J & E'). apply called_iff. exists m. split; [now right|auto].
  - intros m I. rewrite <- N; auto.
  - intros c I. apply filter_In in I as [I E]. apply negb_true_iff in E. apply H1, called_iff in I as (m & [<-|I] & E').
    + apply is_named_iff in E'. congruence.
    + apply called_iff. eauto.
  - intros m I. rewrite N; auto.
Qed.

Ltac apart := repeat (constructor; [discriminate|]); constructor.

(** ** Names *)
Lemma strict_name t : refines (handle_name false t) (handle_name true t) (clean_name t).
Proof.
  unfold handle_name. destruct (pop_first (u "singular") (t_children t)) as [sing cs1] eqn:P1.
  destruct sing as [st|]; [|cbn; tauto]. apply refines_bind_same. intros _ _.
  destruct (pop_first (u "plural") cs1) as [pl cs2] eqn:P2.
  destruct (pop_first (u "noplural") cs2) as [np cs3] eqn:P3.
  apply refines_bind_same. intros plural _. apply refines_bind'; [|reflexivity].
  apply (refines_iff _ _ _ _) with (2 := refines_unhandled _).
  rewrite orb_false_iff, few_nil.
  replace cs3 with (snd (pop_first (u "noplural") cs2)) by (now rewrite P3). rewrite few_pop by apart.
  replace cs2 with (snd (pop_first (u "plural") cs1)) by (now rewrite P2). rewrite few_pop by apart.
  replace cs1 with (snd (pop_first (u "singular") (t_children t))) by (now rewrite P1). rewrite few_pop by apart.
  unfold few. cbn [app]. split.
  - intros [[O F] T]. constructor; auto.
    + destruct (t_text t); [auto|discriminate].
    + intro n. destruct (Nat.le_gt_cases (number_of n (t_children t)) 1) as [L|L]; auto. exfalso.
      assert (L' : (1 <= number_of n (t_children t))%nat) by lia. apply number_in in L' as (c & I & E).
      unfold only in O. rewrite Forall_forall in O, F. apply O, called_iff in I as (m & I & E'). specialize (F m I).
      unfold number_of, is_named in *. rewrite <- E, E' in L. lia.
  - intros [T O F]. split; [split; auto|now rewrite T].
Qed.

(** ** Prefixes *)
Lemma strict_prefix o t : refines (handle_prefix false o t) (handle_prefix true o t) (clean_prefix t).
Proof.
  unfold handle_prefix. destruct (pop_first (u "name") (t_children t)) as [nt cs1] eqn:P1.
  destruct (pop_first (u "value") cs1) as [vt cs2] eqn:P2.
  destruct nt as [n|]; [|cbn; tauto]. apply refines_bind_same. intros _ _.
  destruct vt as [v|]; [|cbn; tauto]. apply refines_bind_same. intros _ _.
  unfold pop_all. apply refines_bind'; [|reflexivity].
  apply (refines_iff _ _ _ _) with (2 := refines_unhandled _).
  rewrite orb_false_iff, few_nil. change (fun c => negb (str_eqb (t_name c) (u "symbol"))) with (fun c => negb (is_named "symbol" c)).
  rewrite few_all by apart.
  replace cs2 with (snd (pop_first (u "value") cs1)) by (now rewrite P2). rewrite few_pop by apart.
  replace cs1 with (snd (pop_first (u "name") (t_children t))) by (now rewrite P1). rewrite few_pop by apart.
  unfold few. cbn [app].
  assert (E : only ["symbol"; "name"; "value"]%string (t_children t) <-> only ["name"; "value"; "symbol"]%string (t_children t)).
  { unfold only. rewrite !Forall_forall. split; intros H c I; specialize (H c I); unfold called in *; cbn [existsb] in *;
      destruct (is_named "name" c), (is_named "value" c), (is_named "symbol" c); auto. }
  split.
  - intros [[O F] T]. inversion F as [|? ? F1 F2]; subst. inversion F2; subst. constructor; auto; [destruct (t_text t); [auto|discriminate]|now apply E].
  - intros [T O F1 F2]. split; [split; [now apply E|auto]|now rewrite T].
Qed.

(** ** Aliases *)
Definition clean_aliases (cs : list tag) : Prop :=
  only ["name"; "symbol"; "noplural"]%string cs /\ forall c, In c cs -> is_named "name" c = true -> clean_name c.

Lemma strict_aliases cs : refines (handle_aliases false cs) (handle_aliases true cs) (clean_aliases cs).
Proof.
  induction cs as [|c cs IH]; cbn [handle_aliases].
  { left. split; [|reflexivity]. split; [constructor|intros ? []]. }
  assert (X : clean_aliases (c :: cs) <-> (called ["name"; "symbol"; "noplural"]%string c = true /\ (is_named "name" c = true -> clean_name c)) /\ clean_aliases cs).
  { unfold clean_aliases, only. split.
    - intros [H K]. inversion H; subst. split; [split; [assumption|intro; apply K; [now left|assumption]]|].
      split; [assumption|]. intros x I. apply K. now right.
    - intros [[H1 H2] [H3 H4]]. split; [now constructor|]. intros x [<-|I]; auto. }
  change (str_eqb (t_name c) (u "name")) with (is_named "name" c). change (str_eqb (t_name c) (u "symbol")) with (is_named "symbol" c).
  change (str_eqb (t_name c) (u "noplural")) with (is_named "noplural" c).
  destruct (is_named "name" c) eqn:E1.
  - apply (refines_iff _ _ (clean_name c /\ clean_aliases cs)).
    { rewrite X. unfold called. cbn [existsb]. rewrite E1. cbn. tauto. }
    apply refines_bind; [apply strict_name|]. intros n _. apply refines_bind'; [apply IH|reflexivity].
  - destruct (is_named "symbol" c) eqn:E2.
    + apply (refines_iff _ _ (clean_aliases cs)).
      { rewrite X. unfold called. cbn [existsb]. rewrite E1, E2. cbn. intuition discriminate. }
      apply refines_bind_same. intros _ _. apply refines_bind'; [apply IH|reflexivity].
    + destruct (is_named "noplural" c) eqn:E3.
      * apply (refines_iff _ _ (clean_aliases cs)); [|exact IH].
        rewrite X. unfold called. cbn [existsb]. rewrite E1, E2, E3. cbn. intuition discriminate.
      * apply (refines_iff _ _ (false = true /\ clean_aliases cs)).
        { rewrite X. unfold called. cbn [existsb]. rewrite E1, E2, E3. cbn. intuition discriminate. }
        apply (refines_bind (unhandled false true) (unhandled true true)); [|intros _ _; exact IH].
        apply (refines_iff _ _ (true = false)); [split; discriminate|]. apply refines_unhandled.
Qed.

(** ** Units *)
Lemma few_one multi ns cs : few multi ns cs -> forall n, In n ns -> (number_of n cs <= 1)%nat.
Proof. intros [_ F] n I. rewrite Forall_forall in F. auto. Qed.
Lemma few_zero multi ns n cs : few multi ns cs -> (forall m, In m (multi ++ ns) -> u m <> u n) -> number_of n cs = O.
Proof.
  intros [O _] A. destruct (number_of n cs) eqn:E; auto. exfalso. assert (L : (1 <= number_of n cs)%nat) by lia.
  apply number_in in L as (c & I & E'). unfold only in O. rewrite Forall_forall in O. apply O, called_iff in I as (m & I & E2).
  apply (A m I). congruence.
Qed.
Lemma no_child_zero n cs : no_child n cs -> number_of n cs = O.
Proof.
  intro H. destruct (number_of n cs) eqn:E; auto. exfalso. assert (L : (1 <= number_of n cs)%nat) by lia.
  apply number_in in L as (c & I & E'). unfold no_child in H. rewrite Forall_forall in H. exact (H c I E').
Qed.
Lemma first_child_one n cs c : first_child n cs c -> (1 <= number_of n cs)%nat.
Proof. intros (b & a & -> & E & _). apply number_in. exists c. split; auto. apply in_or_app. right. now left. Qed.
Lemma first_child_unique n cs c : first_child n cs c -> (number_of n cs <= 1)%nat -> forall x, In x cs -> is_named n x = true -> x = c.
Proof.
  intros (b & a & -> & E & F) L x I N. unfold number_of in L. rewrite filter_app in L. cbn [filter] in L.
  rewrite (proj2 (is_named_iff n c) E) in L. rewrite app_length in L. cbn [List.length] in L.
  apply is_named_iff in N. apply in_app_or in I as [I|[I|I]]; auto.
  - rewrite Forall_forall in F. exfalso. exact (F x I N).
  - exfalso. assert (J : In x (filter (is_named n) a)) by (apply filter_In; split; [auto|now apply is_named_iff]).
    destruct (filter (is_named n) a); [destruct J|cbn [List.length] in L; lia].
Qed.

Definition base_words : list string := ["name"; "aliases"; "comment"; "definition"]%string.

Lemma strict_unit t s : refines (handle_unit false t s) (handle_unit true t s) (clean_unit t).
Proof.
  unfold handle_unit.
  destruct (pop_first (u "name") (t_children t)) as [nt c1] eqn:P1.
  assert (N : nt = fst (pop_first (u "name") (t_children t))) by (now rewrite P1).
  destruct (pop_all (u "symbol") c1) as [sts c2] eqn:P2.
  assert (E2 : c2 = filter (fun c => negb (is_named "symbol" c)) c1) by (unfold pop_all in P2; now injection P2 as _ <-).
  destruct (pop_first (u "aliases") c2) as [al c3] eqn:P3.
  assert (A : al = fst (pop_first (u "aliases") (t_children t))).
  { rewrite <- (pop_first_other "name" "aliases") by discriminate. rewrite P1. cbn [snd].
    rewrite <- (pop_all_other "symbol" "aliases" c1) by discriminate. rewrite P2. cbn [snd]. now rewrite P3. }
  destruct (pop_first (u "comment") c3) as [cm c4] eqn:P4.
  destruct (pop_first (u "definition") c4) as [df c5] eqn:P5.
  assert (Q : forall ns, apart "definition" ns -> apart "comment" ns -> apart "aliases" ns -> apart "name" ns -> apart "symbol" ns ->
    (few [] ns c5 <-> few ["symbol"]%string (base_words ++ ns) (t_children t))).
  { intros ns A1 A2 A3 A4 A5. replace c5 with (snd (pop_first (u "definition") c4)) by (now rewrite P5). rewrite few_pop by assumption.
    replace c4 with (snd (pop_first (u "comment") c3)) by (now rewrite P4). rewrite few_pop by (constructor; [discriminate|assumption]).
    replace c3 with (snd (pop_first (u "aliases") c2)) by (now rewrite P3). rewrite few_pop by (repeat (constructor; [discriminate|]); assumption).
    rewrite E2, few_all by (repeat (constructor; [discriminate|]); assumption).
    replace c1 with (snd (pop_first (u "name") (t_children t))) by (now rewrite P1). rewrite few_pop by (cbn [app]; repeat (constructor; [discriminate|]); assumption).
    reflexivity. }
  destruct (pop_first (u "def") c5) as [bd c6] eqn:P6.
  assert (B : bd = fst (pop_first (u "def") (t_children t))).
  { rewrite <- (pop_first_other "name" "def") by discriminate. rewrite P1. cbn [snd].
    rewrite <- (pop_all_other "symbol" "def" c1) by discriminate. rewrite P2. cbn [snd].
    rewrite <- (pop_first_other "aliases" "def") by discriminate. rewrite P3. cbn [snd].
    rewrite <- (pop_first_other "comment" "def") by discriminate. rewrite P4. cbn [snd].
    rewrite <- (pop_first_other "definition" "def") by discriminate. rewrite P5. cbn [snd]. now rewrite P6. }
  assert (B2 : fst (pop_first (u "dimensionless") c6) = fst (pop_first (u "dimensionless") (t_children t))).
  { rewrite <- (pop_first_other "name" "dimensionless" (t_children t)) by discriminate. rewrite P1. cbn [snd].
    rewrite <- (pop_all_other "symbol" "dimensionless" c1) by discriminate. rewrite P2. cbn [snd].
    rewrite <- (pop_first_other "aliases" "dimensionless" c2) by discriminate. rewrite P3. cbn [snd].
    rewrite <- (pop_first_other "comment" "dimensionless" c3) by discriminate. rewrite P4. cbn [snd].
    rewrite <- (pop_first_other "definition" "dimensionless" c4) by discriminate. rewrite P5. cbn [snd].
    rewrite <- (pop_first_other "def" "dimensionless" c5) by discriminate. now rewrite P6. }
  (* the three parts of cleanliness *)
  set (C1 := forall c, nt = Some c -> clean_name c). set (C2 := forall a, al = Some a -> clean_aliases (t_children a)).
  assert (Parts : forall rest, (forall n, In n rest -> In n ["def"; "dimensionless"; "base"]%string) ->
    (few ["symbol"]%string (base_words ++ rest) (t_children t) -> (number_of "def" (t_children t) + number_of "dimensionless" (t_children t) + number_of "base" (t_children t) <= 1)%nat) ->
    (clean_unit t -> only (["symbol"]%string ++ base_words ++ rest) (t_children t)) ->
    (C1 /\ C2 /\ few ["symbol"]%string (base_words ++ rest) (t_children t) <-> clean_unit t)).
  { intros rest R K W. split.
    - intros (H1 & H2 & F). assert (L := few_one _ _ _ F). constructor.
      + destruct F as [O _]. unfold only in *. rewrite Forall_forall in *. intros c I. specialize (O c I). apply called_iff in O as (n & J & E).
        apply called_iff. exists n. split; auto. apply in_app_or in J as [[<-|[]]|J]; [cbn; tauto|].
        apply in_app_or in J as [J|J]; [unfold base_words in J; cbn in J |- *; tauto|]. apply R in J. cbn in J |- *. tauto.
      + intros n Nn. destruct (Nat.le_gt_cases (number_of n (t_children t)) 1) as [L1|L1]; auto. exfalso.
        assert (L' : (1 <= number_of n (t_children t))%nat) by lia. apply number_in in L' as (c & I & E).
        destruct F as [O _]. unfold only in O. rewrite Forall_forall in O. apply O, called_iff in I as (m & I & E').
        apply in_app_or in I as [[<-|[]]|I].
        * congruence.
        * specialize (L m I). unfold number_of, is_named in *. rewrite <- E, E' in L1. lia.
      + now apply K.
      + intros c I E. destruct (pop_kind "name" (t_children t)) as [(c' & E' & F')|[E' F']].
        * rewrite (first_child_unique _ _ _ F') with (x := c); auto; [apply H1; congruence|]. apply L. cbn; auto.
        * unfold no_child in F'. rewrite Forall_forall in F'. apply is_named_iff in E. exfalso. exact (F' c I E).
      + intros a I E. destruct (pop_kind "aliases" (t_children t)) as [(c' & E' & F')|[E' F']].
        * rewrite (first_child_unique _ _ _ F') with (x := a); auto; [apply H2; congruence|]. apply L. cbn; auto.
        * unfold no_child in F'. rewrite Forall_forall in F'. apply is_named_iff in E. exfalso. exact (F' a I E).
    - intro H. pose proof (W H) as O. destruct H as [_ F Kd Hn Ha]. split; [|split].
      + intros c E. destruct (pop_kind "name" (t_children t)) as [(c' & E' & F')|[E' F']]; [|congruence].
        assert (c' = c) by congruence. subst c'. destruct F' as (b & a & Ec & En & _). apply Hn; [rewrite Ec; apply in_or_app; right; now left|now apply is_named_iff].
      + intros c E. destruct (pop_kind "aliases" (t_children t)) as [(c' & E' & F')|[E' F']]; [|congruence].
        assert (c' = c) by congruence. subst c'. destruct F' as (b & a & Ec & En & _). apply Ha; [rewrite Ec; apply in_or_app; right; now left|now apply is_named_iff].
      + split; [exact O|]. rewrite Forall_forall. intros n I. apply F. apply in_app_or in I as [I|I].
        * unfold base_words in I. cbn in I. intuition (subst; discriminate).
        * apply R in I. cbn in I. intuition (subst; discriminate). }
  (* names *)
  assert (R1 : refines (match nt with None => Ok None | Some n => do x <- handle_name false n;; Ok (Some x) end)
                       (match nt with None => Ok None | Some n => do x <- handle_name true n;; Ok (Some x) end) C1).
  { unfold C1. destruct nt as [n|].
    - apply (refines_iff _ _ (clean_name n)); [split; [intros H c E; now injection E as <-|auto]|].
      apply refines_bind'; [apply strict_name|reflexivity].
    - left. split; [discriminate|reflexivity]. }
  assert (R2 : refines (match al with None => Ok ([], []) | Some a => do _ <- assert (negb (nonempty (t_text a)));; handle_aliases false (t_children a) end)
                       (match al with None => Ok ([], []) | Some a => do _ <- assert (negb (nonempty (t_text a)));; handle_aliases true (t_children a) end) C2).
  { unfold C2. destruct al as [n|].
    - apply (refines_iff _ _ (clean_aliases (t_children n))); [split; [intros H c E; now injection E as <-|auto]|].
      apply refines_bind_same. intros _ _. apply strict_aliases.
    - left. split; [discriminate|reflexivity]. }
  assert (Z : forall n m, In m (t_children t) -> t_name m = u n -> (1 <= number_of n (t_children t))%nat) by (intros; apply number_in; eauto).
  assert (Drop : clean_unit t -> forall rest, (forall n, In n ["def"; "dimensionless"; "base"]%string -> In n rest \/ number_of n (t_children t) = O) ->
    only (["symbol"]%string ++ base_words ++ rest) (t_children t)).
  { intros [O _ _ _ _] rest R. unfold only in *. rewrite Forall_forall in *. intros c I. specialize (O c I).
    apply called_iff in O as (n & J & E). apply called_iff. exists n. split; auto.
    assert (Y : In n rest \/ number_of n (t_children t) <> O \/ True) by tauto. clear Y.
    pose proof (Z n c I E) as L. pose proof (R n) as Rn. cbn in J. unfold base_words. apply in_or_app.
    destruct J as [<-|[<-|[<-|[<-|[<-|J]]]]]; [right; cbn; tauto|left; cbn; tauto|right; cbn; tauto|right; cbn; tauto|right; cbn; tauto|].
    right. apply in_or_app. right. destruct Rn as [Rn|Rn]; [cbn; tauto|exact Rn|lia]. }
  destruct (pop_kind "def" (t_children t)) as [(d & D1 & D2)|[D1 D2]]; rewrite D1 in B; subst bd.
  - (* a definition *)
    apply first_child_one in D2.
    apply (refines_iff _ _ (C1 /\ C2 /\ few ["symbol"]%string (base_words ++ ["def"%string]) (t_children t))).
    { apply Parts.
      - intros n [<-|[]]. cbn; tauto.
      - intro F. pose proof (few_one _ _ _ F "def"%string ltac:(cbn; tauto)).
        rewrite (few_zero _ _ "dimensionless"%string _ F), (few_zero _ _ "base"%string _ F); [lia| |]; unfold base_words; cbn; intuition (subst; discriminate).
      - intro H. apply (Drop H). pose proof (cu_kind t H). cbn. intros n [<-|[<-|[<-|[]]]]; [tauto|right; lia|right; lia]. }
    apply refines_bind; [exact R1|]. intros nm _. apply refines_bind; [exact R2|]. intros als _.
    apply refines_bind_same. intros _ _. apply refines_bind'; [|reflexivity].
    apply (refines_iff _ _ _ _) with (2 := refines_unhandled _). rewrite few_nil.
    replace c6 with (snd (pop_first (u "def") c5)) by (now rewrite P6). rewrite few_pop by apart. apply Q; apart.
  - apply no_child_zero in D2.
    destruct (pop_first (u "dimensionless") c6) as [dl c7] eqn:P7. cbn [fst] in B2.
    destruct (pop_kind "dimensionless" (t_children t)) as [(d & D3 & D4)|[D3 D4]]; rewrite D3 in B2; subst dl.
    + apply first_child_one in D4.
      apply (refines_iff _ _ (C1 /\ C2 /\ few ["symbol"]%string (base_words ++ ["def"; "dimensionless"]%string) (t_children t))).
      { apply Parts.
        - intros n [<-|[<-|[]]]; cbn; tauto.
        - intro F. pose proof (few_one _ _ _ F "dimensionless"%string ltac:(cbn; tauto)).
          rewrite D2, (few_zero _ _ "base"%string _ F); [lia|]; unfold base_words; cbn; intuition (subst; discriminate).
        - intro H. apply (Drop H). pose proof (cu_kind t H). cbn. intros n [<-|[<-|[<-|[]]]]; [tauto|tauto|right; lia]. }
      apply refines_bind; [exact R1|]. intros nm _. apply refines_bind; [exact R2|]. intros als _.
      cbn [bind fst snd]. apply refines_bind_same. intros it _. apply refines_bind_same. intros x _. apply refines_bind'; [|reflexivity].
      apply (refines_iff _ _ _ _) with (2 := refines_unhandled _). rewrite few_nil.
      replace c7 with (snd (pop_first (u "dimensionless") c6)) by (now rewrite P7). rewrite few_pop by apart.
      replace c6 with (snd (pop_first (u "def") c5)) by (now rewrite P6). rewrite few_pop by apart. apply Q; apart.
    + apply no_child_zero in D4.
      apply (refines_iff _ _ (C1 /\ C2 /\ few ["symbol"]%string (base_words ++ ["def"; "dimensionless"; "base"]%string) (t_children t))).
      { apply Parts.
        - intros n [<-|[<-|[<-|[]]]]; cbn; tauto.
        - intro F. pose proof (few_one _ _ _ F "base"%string ltac:(cbn; tauto)). lia.
        - intro H. apply (Drop H). cbn. tauto. }
      apply refines_bind; [exact R1|]. intros nm _. apply refines_bind; [exact R2|]. intros als _.
      destruct (pop_first (u "base") c7) as [[b|] c8] eqn:P8; [|cbn; tauto].
      destruct (assert _); cbn [bind fst snd]; [|cbn; tauto]. apply refines_bind_same. intros it _. apply refines_bind_same. intros x _. apply refines_bind'; [|reflexivity].
      apply (refines_iff _ _ _ _) with (2 := refines_unhandled _). rewrite few_nil.
      replace c8 with (snd (pop_first (u "base") c7)) by (now rewrite P8). rewrite few_pop by apart.
      replace c7 with (snd (pop_first (u "dimensionless") c6)) by (now rewrite P7). rewrite few_pop by apart.
      replace c6 with (snd (pop_first (u "def") c5)) by (now rewrite P6). rewrite few_pop by apart. apply Q; apart.
Qed.

(** ** Documents *)
Lemma strict_fold {A S} (f g : A -> S -> res S) (C : A -> Prop) l : (forall a s, refines (f a s) (g a s) (C a)) ->
  forall s, refines (fold_res f l s) (fold_res g l s) (Forall C l).
Proof.
  intro H. induction l as [|a l IH]; intro s; cbn [fold_res].
  - left. auto.
  - apply (refines_iff _ _ (C a /\ Forall C l)).
    { split; [intros [X Y]; now constructor|intro X; inversion X; auto]. }
    apply refines_bind; auto.
Qed.

Lemma strict_system o t : refines (read_system false o t) (read_system true o t) (clean_system t).
Proof.
  unfold read_system, pop_all.
  change (fun c => str_eqb (t_name c) (u "prefix")) with (is_named "prefix").
  change (fun c => str_eqb (t_name c) (u "unit")) with (is_named "unit").
  change (fun c => negb (str_eqb (t_name c) (u "prefix"))) with (fun c => negb (is_named "prefix" c)).
  change (fun c => negb (str_eqb (t_name c) (u "unit"))) with (fun c => negb (is_named "unit" c)).
  set (ps := filter (is_named "prefix") (t_children t)). set (rest := filter (fun c => negb (is_named "prefix" c)) (t_children t)).
  apply (refines_iff _ _ (Forall clean_prefix ps /\ Forall clean_unit (filter (is_named "unit") rest) /\
    nonempty (filter (fun c => negb (is_named "unit" c)) rest) = false)).
  { split.
    - intros (H1 & H2 & H3). rewrite Forall_forall in H1, H2. rewrite few_nil, few_all in H3 by apart. destruct H3 as [H3 _].
      unfold only in H3. cbn [app] in H3. rewrite Forall_forall in H3.
      constructor.
      + unfold only. rewrite Forall_forall. intros c I. unfold called. cbn [existsb]. destruct (is_named "prefix" c) eqn:E; [reflexivity|].
        assert (J : In c rest) by (apply filter_In; now rewrite E). specialize (H3 c J). unfold called in H3. cbn [existsb orb] in *. exact H3.
      + intros c I E. apply H1. now apply filter_In.
      + intros c I E. apply H2. apply filter_In. split; auto. apply filter_In. split; auto.
        apply is_named_iff in E. rewrite (proj2 (is_named_false "prefix" c)); [reflexivity|]. rewrite E. discriminate.
    - intros [H1 H2 H3]. rewrite !Forall_forall. split; [|split].
      + intros c I. apply filter_In in I as [I E]. auto.
      + intros c I. apply filter_In in I as [I E]. apply filter_In in I as [I _]. auto.
      + rewrite few_nil, few_all by apart. split; [|constructor]. unfold only in *. rewrite Forall_forall in *. cbn [app].
        intros c I. apply filter_In in I as [I E]. specialize (H1 c I). unfold called in *. cbn [existsb orb] in *.
        apply negb_true_iff in E. rewrite E in H1. exact H1. }
  apply refines_bind.
  - apply strict_fold. intros pt s. apply refines_bind'; [apply strict_prefix|reflexivity].
  - intros s1 _. apply refines_bind; [apply strict_fold, strict_unit|]. intros s2 _.
    apply refines_bind'; [apply refines_unhandled|reflexivity].
Qed.

(** ** The default reader sees only the recognised content *)
Lemma pop_filter n P cs : (forall c, t_name c = u n -> P c = true) -> fst (pop_first (u n) (filter P cs)) = fst (pop_first (u n) cs).
Proof.
  intro H. induction cs as [|x cs IH]; cbn [filter pop_first]; [reflexivity|].
  destruct (str_eqb (t_name x) (u n)) eqn:E.
  - apply eqb_spec in E. rewrite (H x E). cbn [pop_first]. rewrite (proj2 (eqb_spec _ _) E). reflexivity.
  - destruct (P x); [cbn [pop_first]; rewrite E|].
    + destruct (pop_first (u n) (filter P cs)), (pop_first (u n) cs). exact IH.
    + destruct (pop_first (u n) (filter P cs)), (pop_first (u n) cs). exact IH.
Qed.
Lemma pop_map n f cs : (forall c, t_name (f c) = t_name c) -> fst (pop_first (u n) (map f cs)) = option_map f (fst (pop_first (u n) cs)).
Proof.
  intro H. induction cs as [|x cs IH]; cbn [map pop_first]; [reflexivity|]. rewrite H.
  destruct (str_eqb (t_name x) (u n)); [reflexivity|].
  destruct (pop_first (u n) (map f cs)), (pop_first (u n) cs). exact IH.
Qed.
Lemma keep_called ns n c : In n ns -> t_name c = u n -> called ns c = true.
Proof. intros I E. apply called_iff. eauto. Qed.

(** the parts the default reader looks at *)
Definition name_of_parts (sing pl np : option tag) : res name :=
  match sing with
  | None => Err (EValue VE_xml_missing)
  | Some st =>
    do _ <- assert (negb (nonempty (t_children st))) ;;
    do plural <-
      match np with
      | Some nt =>
        do _ <- assert (match option_map t_text pl with None => true | Some _ => false end) ;;
        do _ <- assert (negb (nonempty (t_children nt)) && negb (nonempty (t_text nt))) ;;
        Ok None
      | None =>
        match option_map t_text pl with
        | Some p => Ok (Some p)
        | None => Ok (Some (t_text st ++ (if takes_es (t_text st) then u "es" else u "s")))
        end
      end ;;
    Ok (mkName (t_text st) plural)
  end.

Lemma lax_name t : handle_name false t = name_of_parts (fst (pop_first (u "singular") (t_children t)))
  (fst (pop_first (u "plural") (t_children t))) (fst (pop_first (u "noplural") (t_children t))).
Proof.
  unfold handle_name, name_of_parts.
  assert (E1 := pop_first_other "singular" "plural" (t_children t) ltac:(discriminate)).
  assert (E2 := pop_first_other "singular" "noplural" (t_children t) ltac:(discriminate)).
  destruct (pop_first (u "singular") (t_children t)) as [[st|] cs1]; [|reflexivity]. cbn [fst snd] in *.
  assert (E3 := pop_first_other "plural" "noplural" cs1 ltac:(discriminate)).
  destruct (pop_first (u "plural") cs1) as [pl cs2]. cbn [fst snd] in *.
  destruct (pop_first (u "noplural") cs2) as [np cs3]. cbn [fst] in *. rewrite <- E1, <- E2, <- E3. reflexivity.
Qed.

Lemma lax_trim_name t : handle_name false (trim_name t) = handle_name false t.
Proof.
  rewrite !lax_name. unfold trim_name, keep. cbn [t_children].
  rewrite !pop_filter; [reflexivity|..]; intros c E; (eapply keep_called; [|exact E]; cbn; tauto).
Qed.
Lemma trim_name_name t : t_name (trim_name t) = t_name t. Proof. reflexivity. Qed.

Lemma lax_aliases_keep cs : handle_aliases false (filter (called ["name"; "symbol"]%string) cs) = handle_aliases false cs.
Proof.
  induction cs as [|c cs IH]; cbn [filter handle_aliases]; [reflexivity|].
  change (str_eqb (t_name c) (u "name")) with (is_named "name" c). change (str_eqb (t_name c) (u "symbol")) with (is_named "symbol" c).
  unfold called at 1. cbn [existsb].
  destruct (is_named "name" c) eqn:E1; cbn [orb].
  - cbn [handle_aliases]. change (str_eqb (t_name c) (u "name")) with (is_named "name" c). rewrite E1, IH. reflexivity.
  - destruct (is_named "symbol" c) eqn:E2; cbn [orb].
    + cbn [handle_aliases]. change (str_eqb (t_name c) (u "name")) with (is_named "name" c). change (str_eqb (t_name c) (u "symbol")) with (is_named "symbol" c).
      rewrite E1, E2, IH. reflexivity.
    + rewrite IH. destruct (str_eqb (t_name c) (u "noplural")); [reflexivity|]. unfold unhandled. reflexivity.
Qed.
Lemma lax_aliases_map cs : handle_aliases false (map (fun c => if is_named "name" c then trim_name c else c) cs) = handle_aliases false cs.
Proof.
  induction cs as [|c cs IH]; cbn [map handle_aliases]; [reflexivity|].
  destruct (is_named "name" c) eqn:E1.
  - rewrite trim_name_name. change (str_eqb (t_name c) (u "name")) with (is_named "name" c). rewrite E1, lax_trim_name, IH. reflexivity.
  - rewrite IH. reflexivity.
Qed.

Definition unit_of_parts (nt al bd dl bt : option tag) (syms : list str) (s : system) : res system :=
  do nm <- match nt with
           | None => Ok None
           | Some n => do x <- handle_name false n ;; Ok (Some x)
           end ;;
  do aliases <- match al with
                | None => Ok ([], [])
                | Some a => do _ <- assert (negb (nonempty (t_text a))) ;;
                            handle_aliases false (t_children a)
                end ;;
  let r := mkRef nm syms (fst aliases) (snd aliases) in
  match bd with
  | Some d =>
    do _ <- assert (negb (nonempty (t_children d))) ;;
    add_lazy (t_text d) r s
  | None =>
    do dimless <-
      match dl with
      | Some _ => Ok true
      | None =>
        match bt with
        | None => Err EAssertion
        | Some b => do _ <- assert (negb (nonempty (t_text b)) && negb (nonempty (t_children b))) ;; Ok false
        end
      end ;;
    do it <- match nm with
             | None => Err EAttribute
             | Some n => Ok (str_eqb (n_singular n) (u "second"))
             end ;;
    do x <- mk_basis r dimless it ;;
    add_unit (EUnit x r) r false s
  end.

Lemma lax_unit t s : handle_unit false t s = unit_of_parts
  (fst (pop_first (u "name") (t_children t))) (fst (pop_first (u "aliases") (t_children t)))
  (fst (pop_first (u "def") (t_children t))) (fst (pop_first (u "dimensionless") (t_children t)))
  (fst (pop_first (u "base") (t_children t))) (symbol_texts (t_children t)) s.
Proof.
  unfold handle_unit, unit_of_parts.
  assert (O : forall m, u "name" <> u m -> u "symbol" <> u m -> fst (pop_first (u m) (snd (pop_all (u "symbol") (snd (pop_first (u "name") (t_children t)))))) = fst (pop_first (u m) (t_children t))).
  { intros m D1 D2. rewrite pop_all_other, pop_first_other; auto. }
  assert (Sy : fst (pop_all (u "symbol") (snd (pop_first (u "name") (t_children t)))) = filter (is_named "symbol") (t_children t)).
  { unfold pop_all. cbn [fst]. destruct (pop_first (u "name") (t_children t)) as [o r] eqn:P. cbn [snd].
    apply (pop_first_ext "name" "symbol" _ _ _ P). discriminate. }
  destruct (pop_first (u "name") (t_children t)) as [nt c1]. cbn [fst snd] in *.
  destruct (match nt with None => Ok None | Some n => do x <- handle_name false n;; Ok (Some x) end) as [nm|e]; cbn [bind]; [|reflexivity].
  destruct (pop_all (u "symbol") c1) as [sts c2]. cbn [fst snd] in *. subst sts.
  pose proof (O "aliases"%string ltac:(discriminate) ltac:(discriminate)) as OA.
  pose proof (O "def"%string ltac:(discriminate) ltac:(discriminate)) as OD.
  pose proof (O "dimensionless"%string ltac:(discriminate) ltac:(discriminate)) as OL.
  pose proof (O "base"%string ltac:(discriminate) ltac:(discriminate)) as OB. clear O.
  rewrite <- OA, <- OD, <- OL, <- OB. clear OA OD OL OB.
  rewrite <- (pop_first_other "aliases" "def" c2), <- (pop_first_other "aliases" "dimensionless" c2), <- (pop_first_other "aliases" "base" c2) by discriminate.
  destruct (pop_first (u "aliases") c2) as [al c3]. cbn [fst snd].
  destruct (match al with None => Ok ([], []) | Some a => do _ <- assert (negb (nonempty (t_text a)));; handle_aliases false (t_children a) end) as [[ans ass]|e]; cbn [bind fst snd]; [|reflexivity].
  rewrite <- (pop_first_other "comment" "def" c3), <- (pop_first_other "comment" "dimensionless" c3), <- (pop_first_other "comment" "base" c3) by discriminate.
  destruct (pop_first (u "comment") c3) as [cm c4]. cbn [fst snd].
  rewrite <- (pop_first_other "definition" "def" c4), <- (pop_first_other "definition" "dimensionless" c4), <- (pop_first_other "definition" "base" c4) by discriminate.
  destruct (pop_first (u "definition") c4) as [df c5]. cbn [fst snd].
  rewrite <- (pop_first_other "def" "dimensionless" c5), <- (pop_first_other "def" "base" c5) by discriminate.
  destruct (pop_first (u "def") c5) as [[d|] c6]; cbn [fst snd].
  - destruct (assert _); cbn [bind]; reflexivity.
  - rewrite <- (pop_first_other "dimensionless" "base" c6) by discriminate.
    destruct (pop_first (u "dimensionless") c6) as [[l|] c7]; cbn [fst snd bind].
    + destruct nm; cbn [bind]; [|reflexivity]. destruct (mk_basis _ _ _); cbn [bind]; reflexivity.
    + destruct (pop_first (u "base") c7) as [[b|] c8]; cbn [fst snd bind]; [|reflexivity].
      destruct (assert _); cbn [bind fst snd]; [|reflexivity]. destruct nm; cbn [bind]; [|reflexivity]. destruct (mk_basis _ _ _); cbn [bind]; reflexivity.
Qed.

Lemma unit_of_parts_map nt al bd dl bt syms s f :
  (forall c, t_name c = u "name" -> handle_name false (f c) = handle_name false c) ->
  (forall c, t_name c = u "aliases" -> t_text (f c) = t_text c /\ handle_aliases false (t_children (f c)) = handle_aliases false (t_children c)) ->
  (forall c, t_name c = u "def" \/ t_name c = u "base" -> f c = c) ->
  (forall c, nt = Some c -> t_name c = u "name") -> (forall c, al = Some c -> t_name c = u "aliases") ->
  (forall c, bd = Some c -> t_name c = u "def") -> (forall c, bt = Some c -> t_name c = u "base") ->
  unit_of_parts (option_map f nt) (option_map f al) (option_map f bd) (option_map f dl) (option_map f bt) syms s = unit_of_parts nt al bd dl bt syms s.
Proof.
  intros H1 H2 H3 N1 N2 N3 N4. unfold unit_of_parts.
  replace (match option_map f nt with None => Ok None | Some n => do x <- handle_name false n;; Ok (Some x) end)
    with (match nt with None => Ok None | Some n => do x <- handle_name false n;; Ok (Some x) end).
  2: { destruct nt as [c|]; cbn [option_map]; [|reflexivity]. now rewrite H1 by auto. }
  destruct (match nt with None => Ok None | Some n => do x <- handle_name false n;; Ok (Some x) end); cbn [bind]; [|reflexivity].
  replace (match option_map f al with None => Ok ([], []) | Some a => do _ <- assert (negb (nonempty (t_text a)));; handle_aliases false (t_children a) end)
    with (match al with None => Ok ([], []) | Some a => do _ <- assert (negb (nonempty (t_text a)));; handle_aliases false (t_children a) end).
  2: { destruct al as [c|]; cbn [option_map]; [|reflexivity]. destruct (H2 c (N2 c eq_refl)) as [-> ->]. reflexivity. }
  destruct (match al with None => Ok ([], []) | Some a => do _ <- assert (negb (nonempty (t_text a)));; handle_aliases false (t_children a) end); cbn [bind]; [|reflexivity].
  destruct bd as [d|]; cbn [option_map]; [rewrite H3 by auto; reflexivity|].
  destruct dl as [l|]; cbn [option_map bind]; [reflexivity|].
  destruct bt as [b|]; cbn [option_map bind]; [rewrite H3 by auto; reflexivity|reflexivity].
Qed.

Lemma lax_trim_unit t s : handle_unit false (trim_unit t) s = handle_unit false t s.
Proof.
  rewrite !lax_unit. unfold trim_unit, keep. cbn [t_children].
  set (f := fun c => if is_named "name" c then trim_name c else if is_named "aliases" c then trim_aliases c else c).
  assert (Nf : forall c, t_name (f c) = t_name c) by (intro c; unfold f; destruct (is_named "name" c); [reflexivity|destruct (is_named "aliases" c); reflexivity]).
  rewrite !pop_map by exact Nf.
  rewrite !pop_filter; try (intros c E; (eapply keep_called; [|exact E]; cbn; tauto)).
  assert (Sy : symbol_texts (map f (filter (called ["name"; "symbol"; "aliases"; "def"; "dimensionless"; "base"]%string) (t_children t))) = symbol_texts (t_children t)).
  { unfold symbol_texts. induction (t_children t) as [|c cs IH]; cbn [filter]; [reflexivity|].
    destruct (called _ c) eqn:K.
    - cbn [map filter]. assert (E : is_named "symbol" (f c) = is_named "symbol" c) by (unfold is_named; now rewrite Nf). rewrite E.
      destruct (is_named "symbol" c) eqn:S1; cbn [map]; rewrite IH; [|reflexivity]. f_equal. unfold f.
      apply is_named_iff in S1. rewrite (proj2 (is_named_false "name" c)), (proj2 (is_named_false "aliases" c)); [reflexivity|rewrite S1; discriminate..].
    - destruct (is_named "symbol" c) eqn:S1; [|exact IH]. exfalso. apply is_named_iff in S1.
      rewrite (keep_called _ "symbol" c) in K; [discriminate|cbn; tauto|exact S1]. }
  rewrite Sy.
  assert (PK : forall n c, fst (pop_first (u n) (t_children t)) = Some c -> t_name c = u n).
  { intros n c E. destruct (pop_kind n (t_children t)) as [(c' & E' & F)|[E' _]]; [|congruence].
    assert (c' = c) by congruence. subst. now destruct F as (b & a & _ & En & _). }
  apply unit_of_parts_map; auto.
  - intros c E. unfold f. apply is_named_iff in E. rewrite E. apply lax_trim_name.
  - intros c E. unfold f. rewrite (proj2 (is_named_false "name" c)) by (rewrite E; discriminate). apply is_named_iff in E. rewrite E.
    unfold trim_aliases, keep. cbn [t_text t_children]. split; auto. now rewrite lax_aliases_map, lax_aliases_keep.
  - intros c E. unfold f. rewrite (proj2 (is_named_false "name" c)), (proj2 (is_named_false "aliases" c)); [reflexivity|destruct E as [->| ->]; discriminate..].
Qed.

Lemma lax_trim_prefix o t : handle_prefix false o (trim_prefix t) = handle_prefix false o t.
Proof.
  assert (G : forall t, handle_prefix false o t =
    match fst (pop_first (u "name") (t_children t)) with
    | None => Err (EValue VE_xml_missing)
    | Some n => do _ <- assert (negb (nonempty (t_children n))) ;;
      match fst (pop_first (u "value") (t_children t)) with
      | None => Err (EValue VE_xml_missing)
      | Some v => do _ <- assert (negb (nonempty (t_children v))) ;;
        Ok (mkPrefix (t_text n) (t_text v) (o (fold_left (fun acc x => set_union acc [x]) (symbol_texts (t_children t)) [])))
      end
    end).
  { clear t. intro t. unfold handle_prefix. rewrite <- (pop_first_other "name" "value" (t_children t)) by discriminate.
    assert (X1 := pop_first_ext "name" "symbol" (t_children t)).
    destruct (pop_first (u "name") (t_children t)) as [nt c1]. cbn [fst snd]. specialize (X1 _ _ eq_refl ltac:(discriminate)).
    assert (X2 := pop_first_ext "value" "symbol" c1).
    destruct (pop_first (u "value") c1) as [vt c2]. cbn [fst snd]. specialize (X2 _ _ eq_refl ltac:(discriminate)).
    destruct nt as [n|]; [|reflexivity]. destruct (assert _); cbn [bind]; [|reflexivity].
    destruct vt as [v|]; [|reflexivity]. destruct (assert _); cbn [bind]; [|reflexivity].
    unfold pop_all, unhandled. cbn [andb bind]. unfold symbol_texts. rewrite <- X1, <- X2. reflexivity. }
  rewrite !G. unfold trim_prefix, keep. cbn [t_children].
  rewrite !pop_filter; try (intros c E; (eapply keep_called; [|exact E]; cbn; tauto)).
  assert (Sy : symbol_texts (filter (called ["name"; "value"; "symbol"]%string) (t_children t)) = symbol_texts (t_children t)).
  { unfold symbol_texts. f_equal. induction (t_children t) as [|c cs IH]; cbn [filter]; [reflexivity|].
    destruct (called _ c) eqn:K; [cbn [filter]; now rewrite IH|].
    destruct (is_named "symbol" c) eqn:S1; [|exact IH]. exfalso. apply is_named_iff in S1.
    rewrite (keep_called _ "symbol" c) in K; [discriminate|cbn; tauto|exact S1]. }
  now rewrite Sy.
Qed.

Lemma fold_res_map {A B S} (h : A -> B) (f : B -> S -> res S) (g : A -> S -> res S) l : (forall a s, In a l -> f (h a) s = g a s) ->
  forall s, fold_res f (map h l) s = fold_res g l s.
Proof.
  induction l as [|a l IH]; intros H s; cbn [map fold_res]; [reflexivity|]. rewrite H by (now left).
  destruct (g a s); cbn [bind]; [|reflexivity]. apply IH. intros a' s' I. apply H. now right.
Qed.

Lemma lax_trim_system o t : read_system false o (trim_system t) = read_system false o t.
Proof.
  unfold read_system, pop_all, unhandled. cbn [andb bind].
  change (fun c => str_eqb (t_name c) (u "prefix")) with (is_named "prefix").
  change (fun c => str_eqb (t_name c) (u "unit")) with (is_named "unit").
  change (fun c => negb (str_eqb (t_name c) (u "prefix"))) with (fun c => negb (is_named "prefix" c)).
  unfold trim_system, keep. cbn [t_children].
  set (f := fun c => if is_named "prefix" c then trim_prefix c else trim_unit c).
  assert (Nf : forall n c, is_named n (f c) = is_named n c) by (intros n c; unfold f; destruct (is_named "prefix" c); reflexivity).
  assert (E1 : filter (is_named "prefix") (map f (filter (called ["prefix"; "unit"]%string) (t_children t))) = map trim_prefix (filter (is_named "prefix") (t_children t))).
  { induction (t_children t) as [|c cs IH]; cbn [filter map]; [reflexivity|]. unfold called at 1. cbn [existsb].
    destruct (is_named "prefix" c) eqn:E; cbn [orb].
    - cbn [map filter]. rewrite Nf, E, IH. unfold f. rewrite E. reflexivity.
    - destruct (is_named "unit" c); cbn [orb map filter]; [rewrite Nf, E|]; exact IH. }
  assert (E2 : filter (is_named "unit") (filter (fun c => negb (is_named "prefix" c)) (map f (filter (called ["prefix"; "unit"]%string) (t_children t)))) =
    map trim_unit (filter (is_named "unit") (filter (fun c => negb (is_named "prefix" c)) (t_children t)))).
  { clear E1. induction (t_children t) as [|c cs IH]; cbn [filter map]; [reflexivity|]. unfold called at 1. cbn [existsb].
    destruct (is_named "prefix" c) eqn:E; cbn [orb negb].
    - cbn [map filter]. rewrite Nf, E. cbn [negb]. exact IH.
    - destruct (is_named "unit" c) eqn:E'; cbn [orb map filter]; rewrite ?Nf, ?E; cbn [negb filter]; rewrite ?Nf, ?E', IH; [|reflexivity].
      cbn [map]. unfold f at 1. now rewrite E. }
  rewrite E1, E2. rewrite (fold_res_map trim_prefix _ (fun pt s => do p <- handle_prefix false o pt;; Ok (add_prefix p s))).
  2: { intros a s _. now rewrite lax_trim_prefix. }
  destruct (fold_res _ (filter (is_named "prefix") (t_children t)) empty_system); cbn [bind]; [|reflexivity].
  rewrite (fold_res_map trim_unit _ (handle_unit false)); [reflexivity|]. intros ? ? _. apply lax_trim_unit.
Qed.
