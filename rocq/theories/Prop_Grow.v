(** * C77, C78: registering units and prefixes after look-ups. *)
From Verif Require Import PyBase PyNum Graph Visitor Expr Units UnitSpec UnitFacts UnitProofs UnitSystem
  SystemSpec SystemFacts SystemProofs SystemMore SystemKeep SystemGrow Prop_System.
From Coq Require Import Permutation.

(** ** C77.  Look-ups and registrations in any order: a call then returns what it returns on
    the system that got the same registrations and was never asked before. *)
Theorem C77_answers_do_not_depend_on_when_units_are_added :
  forall ord s history, clash_free s -> harmless s history -> forall stack,
  let asked := play ord s history in
  let unasked := play ord s (only_additions history) in
  (forall q, fst (lookup ord stack q unasked) <> Err ERecursion -> fst (lookup ord stack q asked) <> Err ERecursion ->
     fst (lookup ord stack q asked) = fst (lookup ord stack q unasked)) /\
  (forall text, fst (sys_unit ord stack text unasked) <> Err ERecursion -> fst (sys_unit ord stack text asked) <> Err ERecursion ->
     fst (sys_unit ord stack text asked) = fst (sys_unit ord stack text unasked)).
Proof.
  intros ord s es C H f asked unasked.
  destruct (later_play ord es s s C (later_refl ord s C) H) as [C' L]. fold asked unasked in C', L.
  split; intros t N N'.
  - eapply agree_same; [apply mono_lookup|apply (proj2 (sim_lookup ord unasked C' f t) asked L)|apply (lookup_agree ord unasked [] f t C')|exact N'|exact N].
  - eapply agree_same; [apply mono_unit|apply (proj2 (sim_unit ord unasked C' f t) asked L)|apply (unit_agree ord unasked [] f t C')|exact N'|exact N].
Qed.

(** With definitions at most [n] deep in the end and a stack deeper than that, outright. *)
Theorem C77_answers_do_not_depend_when_stack_suffices :
  forall ord s history rank n, rearranges ord -> clash_free s -> harmless s history ->
  let asked := play ord s history in
  let unasked := play ord s (only_additions history) in
  depth_at_most unasked rank n -> forall stack, (n < stack)%nat ->
  (forall q, fst (lookup ord stack q asked) = fst (lookup ord stack q unasked)) /\
  (forall text, fst (sys_unit ord stack text asked) = fst (sys_unit ord stack text unasked)).
Proof.
  intros ord s es rank n P C H asked unasked D f Lt.
  destruct (later_play ord es s s C (later_refl ord s C) H) as [C' L]. fold asked unasked in C', L.
  split; intro t.
  - destruct (depth_lookup ord unasked rank n P C' D [] f t Lt) as [E N]. cbn [after fold_left] in E. rewrite E.
    destruct (proj2 (sim_lookup ord unasked C' f t) asked L) as [_ [_ A]]. symmetry. now apply A.
  - destruct (depth_unit ord unasked rank n P C' D [] f t Lt) as [E N]. cbn [after fold_left] in E. rewrite E.
    destruct (proj2 (sim_unit ord unasked C' f t) asked L) as [_ [_ A]]. symmetry. now apply A.
Qed.

(** Whatever a text stood for, it still stands for the very same unit afterwards. *)
Theorem C77_texts_keep_their_units :
  forall ord s history, clash_free s -> harmless s history -> forall stack,
  (forall q x, fst (lookup ord stack q s) = Ok x ->
     (forall later_stack, fst (lookup ord later_stack q (play ord s history)) = Ok x \/
        fst (lookup ord later_stack q (play ord s history)) = Err ERecursion) /\
     exists enough, forall later_stack, (enough <= later_stack)%nat -> fst (lookup ord later_stack q (play ord s history)) = Ok x) /\
  (forall text a, fst (sys_unit ord stack text s) = Ok a ->
     (forall later_stack, fst (sys_unit ord later_stack text (play ord s history)) = Ok a \/
        fst (sys_unit ord later_stack text (play ord s history)) = Err ERecursion) /\
     exists enough, forall later_stack, (enough <= later_stack)%nat -> fst (sys_unit ord later_stack text (play ord s history)) = Ok a).
Proof.
  intros ord s es C H f.
  destruct (later_play ord es s s C (later_refl ord s C) H) as [C' L].
  pose proof (grows_play ord es s H) as G.
  set (asked := play ord s es) in *. set (unasked := play ord s (only_additions es)) in *.
  assert (X : forall A (m : nat -> M A) (P P0 : nat -> res A) a, mono P ->
    (forall n, agree n (fst (m n asked)) P) -> (forall n, P0 n = Ok a -> P n = Ok a) -> (exists F, P0 F = Ok a) ->
    (forall n, fst (m n asked) = Ok a \/ fst (m n asked) = Err ERecursion) /\
    exists enough, forall n, (enough <= n)%nat -> fst (m n asked) = Ok a).
  { intros A m P P0 a MP Ag Gr (F & E). apply Gr in E. split.
    - intro n. destruct (Ag n) as [[R|(F' & R)] _]; [now right|].
      pose proof (MP F (Nat.max F F') ltac:(lia)) as M1. pose proof (MP F' (Nat.max F F') ltac:(lia)) as M2. unfold le_res in *.
      rewrite E in M1. specialize (M1 ltac:(discriminate)). rewrite R in M2.
      destruct (fst (m n asked)) as [b|e] eqn:Q.
      + specialize (M2 ltac:(discriminate)). left. congruence.
      + destruct e; try (specialize (M2 ltac:(discriminate)); congruence). now right.
    - exists F. intros n Le. destruct (Ag n) as [_ A2]. pose proof (MP F n Le) as M1. unfold le_res in M1. rewrite E in M1.
      specialize (M1 ltac:(discriminate)). rewrite M1 in A2. symmetry. apply A2. discriminate. }
  split.
  - intros q x E. apply (X _ (fun n => lookup ord n q) (fun n => p_lookup ord unasked n q) (fun n => p_lookup ord s n q)).
    + apply mono_lookup.
    + intro n. apply (proj2 (sim_lookup ord unasked C' n q) asked L).
    + intro n. now apply grow_lookup.
    + destruct (lookup_agree ord s [] f q C) as [[A|[F A]] _]; cbn [after fold_left] in A; rewrite E in A; [discriminate|eauto].
  - intros t a E. apply (X _ (fun n => sys_unit ord n t) (fun n => p_unit ord unasked n t) (fun n => p_unit ord s n t)).
    + apply mono_unit.
    + intro n. apply (proj2 (sim_unit ord unasked C' n t) asked L).
    + intro n. now apply grow_unit.
    + destruct (unit_agree ord s [] f t C) as [[A|[F A]] _]; cbn [after fold_left] in A; rewrite E in A; [discriminate|eauto].
Qed.

(** Which additions are harmless: those of words that could not be read before, neither alone
    nor behind a prefix; those of prefixes with new spellings whose name in front of a word
    could not be read before. *)
Lemma unheard_fresh r s : unheard r s -> fresh_words r s.
Proof.
  intro U. assert (K : forall k, In k (words r) -> known_opt s k = None).
  { intros k I. destruct (U k I) as [[N _] _]. now apply unknown_iff. }
  unfold known_opt, get_or in K. unfold fresh_words, dmem, words in *.
  repeat split; intros k I.
  - specialize (K k ltac:(rewrite !in_app_iff; tauto)). destruct (dget k (s_names s)); [discriminate|]. destruct (dget k (s_alias_names s)); [discriminate|].
    now destruct (dget k (s_symbols s)).
  - specialize (K k ltac:(rewrite !in_app_iff; tauto)). now destruct (dget k (s_names s)).
  - specialize (K k ltac:(rewrite !in_app_iff; tauto)). destruct (dget k (s_names s)); [discriminate|]. now destruct (dget k (s_alias_names s)).
  - specialize (K k ltac:(rewrite !in_app_iff; tauto)). destruct (dget k (s_names s)); [discriminate|]. destruct (dget k (s_alias_names s)); [discriminate|].
    destruct (dget k (s_symbols s)); [discriminate|]. now destruct (dget k (s_alias_symbols s)).
Qed.

Lemma fresh_accepted e r s : fresh_words r s -> add_unit e r false s = Ok (register e r s).
Proof.
  intros (F1 & F2 & _). unfold add_unit. cbn [negb andb].
  destruct (existsb (fun k => dmem k (s_names s)) (ref_names r)) eqn:E1; [apply existsb_exists in E1 as (k & I & X); rewrite (F2 k I) in X; discriminate|].
  destruct (existsb (fun k => dmem k (s_symbols s)) (r_symbols r)) eqn:E2; [apply existsb_exists in E2 as (k & I & X); rewrite (F1 k I) in X; discriminate|].
  reflexivity.
Qed.

Theorem C77_new_words_are_harmless :
  forall s, 
  (forall r a, unheard r s -> (exists x, a = Add_unit x r) \/ (exists text, a = Add_definition text r) -> harmless s [Add a]) /\
  (forall p, unheard_prefix p s -> harmless s [Add (Add_prefix p)]).
Proof.
  intro s. split.
  - intros r a U [(x & ->)|(t & ->)]; pose proof (unheard_fresh r s U) as F; cbn [harmless add unclaimed].
    + exists (register (EUnit x r) r s). split; [now apply fresh_accepted|]. split; [exact F|]. split; [|exact Logic.I].
      replace s with (with_lazies (s_lazies s) s) at 2 by (now destruct s). now apply keeps_register.
    + unfold add_lazy. eexists. split; [apply (fresh_accepted (ELazy (List.length (s_lazies s))) r (with_lazies (s_lazies s ++ [mkLazy t r None]) s)); exact F|].
      split; [exact F|]. split; [|exact Logic.I]. now apply keeps_register.
  - intros p U. cbn [harmless add unclaimed]. eexists. split; [reflexivity|]. split; [exact Logic.I|]. split; [|exact Logic.I]. now apply keeps_add_prefix.
Qed.

(** ** Example: "furlong" is asked for in vain, registered, asked for; then a prefix *)
Definition furlong_r := ref1 "furlong" "furlongs" "fur".
Definition demo_events : list event :=
  [Do (Call_lookup 9 (u "furlong")); Do (Call_unit 9 (u "speed")); Add (Add_definition (u "201 m") furlong_r);
   Do (Call_unit 9 (u "kilofurlong / h")); Add (Add_prefix (mkPrefix (u "giga") (u "1e9") [u "G"]))].

Definition unreadable_b (s : system) (q : str) : bool := match reading_opt s q with None => true | Some _ => false end.
Lemma unreadable_b_sound s q : unreadable_b s q = true -> unreadable s q.
Proof. unfold unreadable_b. intro H. apply unreadable_iff. now destruct (reading_opt s q). Qed.

Definition unheard_b (r : reference) (s : system) : bool :=
  forallb (fun k => unreadable_b s k && forallb (fun kp : str * prefix => unreadable_b s (fst kp ++ k)) (s_prefix_names s ++ s_prefix_symbols s)) (words r).
Lemma unheard_b_sound r s : unheard_b r s = true -> unheard r s.
Proof.
  unfold unheard_b. rewrite forallb_forall. intros H k I. specialize (H k I). apply andb_prop in H as [H1 H2].
  split; [now apply unreadable_b_sound|]. rewrite forallb_forall in H2. intros key p J. apply unreadable_b_sound.
  apply (H2 (key, p)). apply in_or_app. destruct J; auto.
Qed.

Definition all_words (s : system) : list str := dkeys (s_names s) ++ dkeys (s_alias_names s) ++ dkeys (s_symbols s) ++ dkeys (s_alias_symbols s).
Lemma known_all s k e : known s k e -> In k (all_words s).
Proof.
  assert (D : forall (d : dict entry), dget k d = Some e -> In k (dkeys d)).
  { intros d H. apply dmem_In. unfold dmem. now rewrite H. }
  unfold all_words. rewrite !in_app_iff. intros []; auto.
Qed.
Definition unheard_prefix_b (p : prefix) (s : system) : bool :=
  negb (dmem (pf_name p) (s_prefix_names s)) && forallb (fun y => negb (dmem y (s_prefix_symbols s))) (pf_symbols p) &&
  forallb (fun k => unreadable_b s (pf_name p ++ k)) (all_words s).
Lemma unheard_prefix_b_sound p s : unheard_prefix_b p s = true -> unheard_prefix p s.
Proof.
  unfold unheard_prefix_b. intro H. apply andb_prop in H as [H H3]. apply andb_prop in H as [H1 H2].
  rewrite forallb_forall in H2, H3. split; [now apply negb_true_iff|]. split.
  - intros y I. apply negb_true_iff. now apply H2.
  - intros k e K. apply unreadable_b_sound, H3. eapply known_all; eauto.
Qed.

Example C77_example :
  harmless demo demo_events /\
  fst (lookup same_order 9 (u "furlong") demo) = Err (EUnresolvable (u "furlong")) /\
  is_ok (fst (sys_unit same_order 9 (u "Gfurlong / h") (play same_order demo demo_events))) = true.
Proof.
  split; [|split; vm_compute; reflexivity].
  destruct (C77_new_words_are_harmless demo) as [A _].
  assert (U0 : unheard furlong_r demo) by (apply unheard_b_sound; vm_compute; reflexivity).
  specialize (A furlong_r (Add_definition (u "201 m") furlong_r) U0 (or_intror (ex_intro _ _ eq_refl))).
  cbn [harmless demo_events] in *. destruct A as (s' & E & U & K & _). exists s'. split; [exact E|]. split; [exact U|]. split; [exact K|].
  assert (Es : s' = try_ (add (Add_definition (u "201 m") furlong_r) demo)) by (rewrite E; reflexivity).
  destruct (C77_new_words_are_harmless s') as [_ B].
  apply (B (mkPrefix (u "giga") (u "1e9") [u "G"])). apply unheard_prefix_b_sound. rewrite Es. vm_compute. reflexivity.
Qed.

(** ** C78.  An addition that gives a new meaning to a text that could already be read is
    noticed by what is looked up afterwards for the first time, and not by what was looked up
    before: "road" = "3 km" stays 3 kilo-metre if asked for before "km" is registered. *)
Definition with_road : system := try_ (add_lazy (u "3 km") (mkRef (Some (nm "road" None)) [] [] []) base_sys).
Definition km_r : reference := mkRef None [u "km"] [] [].
Theorem C78_registration_order_matters_refuted :
  exists s a history, clash_free s /\ history = [Do (Call_lookup 9 (u "road")); Add a] /\
    is_ok (add a s) = true /\ unclaimed a s /\
    exists x y, fst (lookup same_order 9 (u "road") (play same_order s history)) = Ok x /\
      fst (lookup same_order 9 (u "road") (play same_order s (only_additions history))) = Ok y /\
      udims x <> udims y.
Proof.
  exists with_road, (Add_unit (UBasis (u "kelvinmol") false false) km_r). eexists.
  split; [apply clash_free_b_sound; vm_compute; reflexivity|]. split; [reflexivity|]. split; [vm_compute; reflexivity|].
  split. { repeat split; intros k I; vm_compute in I; repeat (destruct I as [<-|I]; [vm_compute; reflexivity|]); destruct I. }
  eexists. eexists. split; [vm_compute; reflexivity|]. split; [vm_compute; reflexivity|]. vm_compute. discriminate.
Qed.

Print Assumptions C77_answers_do_not_depend_on_when_units_are_added.
Print Assumptions C77_answers_do_not_depend_when_stack_suffices.
Print Assumptions C77_texts_keep_their_units.
Print Assumptions C77_new_words_are_harmless.
Print Assumptions C78_registration_order_matters_refuted.
