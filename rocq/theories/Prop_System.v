(** * C29-C35, C54: unit systems: histories, look-up, registration, termination. *)
From Verif Require Import PyBase PyNum Graph Visitor Expr Units UnitSpec UnitFacts UnitProofs Sympy Convert UnitSystem
  SystemSpec SystemFacts SystemProofs SystemMore SystemKeep SystemOrd.
From Coq Require Import Permutation.

(** ** A small system for the examples, built with the public operations:
    meter (m), second (s); minute (min) = "60 s", hour (h; alias hr) = "60 min",
    speed = "m / h"; prefixes kilo (k), milli (m). *)
Definition nm (a : string) (b : option string) : name := mkName (u a) (option_map u b).
Definition ref1 (n p sym : string) : reference := mkRef (Some (nm n (Some p))) [u sym] [] [].
Definition try_ (r : res system) : system := match r with Ok s => s | Err _ => empty_system end.
Definition same_order : list str -> list str := fun l => l.

Definition metre_r := ref1 "meter" "meters" "m".
Definition second_r := ref1 "second" "seconds" "s".
Definition hour_r := mkRef (Some (nm "hour" (Some "hours"%string))) [u "h"] [nm "hr" None] [].
Definition base_sys : system :=
  add_prefix (mkPrefix (u "milli") (u "1e-3") [u "m"]) (add_prefix (mkPrefix (u "kilo") (u "1e3") [u "k"])
    (try_ (add_unit (EUnit (UBasis (u "second") false true) second_r) second_r false
      (try_ (add_unit (EUnit (UBasis (u "meter") false false) metre_r) metre_r false empty_system))))).
Definition demo : system :=
  try_ (add_lazy (u "m / h") (ref1 "speed" "speeds" "v")
    (try_ (add_lazy (u "60 min") hour_r
      (try_ (add_lazy (u "60 s") (ref1 "minute" "minutes" "min") base_sys))))).

Lemma built_lazy ord d r s : built ord s -> built ord (try_ (add_lazy d r s)).
Proof. intro B. destruct (add_lazy d r s) as [s'|] eqn:E; [eapply Bu_lazy; eauto|constructor]. Qed.
Lemma built_unit ord x r s : built ord s -> built ord (try_ (add_unit (EUnit x r) r false s)).
Proof. intro B. destruct (add_unit (EUnit x r) r false s) as [s'|] eqn:E; [eapply Bu_unit; eauto|constructor]. Qed.

Lemma demo_clash_free : clash_free demo.
Proof. apply clash_free_b_sound. vm_compute. reflexivity. Qed.

Lemma demo_depth : depth_at_most demo (query_rank demo [0; 1; 2]%nat) 3.
Proof. apply (ranked_b_sound demo [0; 1; 2]%nat). vm_compute. reflexivity. Qed.

Lemma same_order_rearranges : rearranges same_order.
Proof. intro l. apply Permutation_refl. Qed.

(** ** C29.  What was looked up before, successfully or not, never changes what a call
    returns: unless one of the two calls runs out of stack, they agree. *)
Theorem C29_history_independent :
  forall ord s, clash_free s -> forall history stack,
  (forall q, let fresh := fst (lookup ord stack q s) in
     let later := fst (lookup ord stack q (after ord s history)) in
     fresh <> Err ERecursion -> later <> Err ERecursion -> later = fresh) /\
  (forall text, let fresh := fst (sys_unit ord stack text s) in
     let later := fst (sys_unit ord stack text (after ord s history)) in
     fresh <> Err ERecursion -> later <> Err ERecursion -> later = fresh).
Proof.
  intros ord s C cs f. split; intros t fresh later N N'; subst fresh later.
  - eapply agree_same; [apply mono_lookup|now apply lookup_agree|apply (lookup_agree ord s [] f t C)|exact N'|exact N].
  - eapply agree_same; [apply mono_unit|now apply unit_agree|apply (unit_agree ord s [] f t C)|exact N'|exact N].
Qed.

(** With definitions at most [n] deep and a stack deeper than that, they agree outright. *)
Lemma depth_lookup ord s rank n : rearranges ord -> clash_free s -> depth_at_most s rank n ->
  forall history stack q, (n < stack)%nat ->
  fst (lookup ord stack q (after ord s history)) = p_lookup ord s stack q /\ p_lookup ord s stack q <> Err ERecursion.
Proof.
  intros P C D cs f q L. assert (N : p_lookup ord s f q <> Err ERecursion).
  { apply (depth_enough ord s P rank n D). destruct D as [D _]. specialize (D q). lia. }
  split; auto. destruct (lookup_agree ord s cs f q C) as [_ A]. symmetry. now apply A.
Qed.

Lemma depth_unit ord s rank n : rearranges ord -> clash_free s -> depth_at_most s rank n ->
  forall history stack t, (n < stack)%nat ->
  fst (sys_unit ord stack t (after ord s history)) = p_unit ord s stack t /\ p_unit ord s stack t <> Err ERecursion.
Proof.
  intros P C D cs f t L. assert (N : p_unit ord s f t <> Err ERecursion).
  { unfold p_unit. pose proof (ro_parse t) as X. destruct (parse t) as [g|e]; cbn [bind]; [|destruct e; try discriminate; contradiction].
    destruct (p_refs ord (p_lookup ord s f) (identifiers g)) as [refs|e] eqn:E; cbn [bind].
    - pose proof (ro_unit_from g refs) as Y. intro Z. rewrite Z in Y. contradiction.
    - intro Z. injection Z as ->. apply mapM_err in E as (k & _ & E).
      destruct (p_lookup ord s f k) as [x|e] eqn:El; cbn [bind] in E; [discriminate|]. injection E as ->.
      revert El. apply (depth_enough ord s P rank n D). destruct D as [D _]. specialize (D k). lia. }
  split; auto. destruct (unit_agree ord s cs f t C) as [_ A]. symmetry. now apply A.
Qed.

Theorem C29_history_independent_when_stack_suffices :
  forall ord s rank n, rearranges ord -> clash_free s -> depth_at_most s rank n ->
  forall history stack, (n < stack)%nat ->
  (forall q, fst (lookup ord stack q (after ord s history)) = fst (lookup ord stack q s)) /\
  (forall text, fst (sys_unit ord stack text (after ord s history)) = fst (sys_unit ord stack text s)).
Proof.
  intros ord s rank n P C D cs f L. split; intro t.
  - destruct (depth_lookup ord s rank n P C D cs f t L) as [-> _]. symmetry. apply (depth_lookup ord s rank n P C D [] f t L).
  - destruct (depth_unit ord s rank n P C D cs f t L) as [-> _]. symmetry. apply (depth_unit ord s rank n P C D [] f t L).
Qed.

(** The hypotheses hold of every system built without claiming a word twice. *)
Theorem C29_built_systems_are_clash_free :
  forall ord s, built_fresh ord s -> clash_free s.
Proof. exact built_fresh_clash_free. Qed.

(* "speed" after failing and succeeding calls; the history has changed the state *)
Definition demo_history := [Call_lookup 0 (u "h"); Call_unit 9 (u "kiloh nosuch"); Call_unit 9 (u "m//s"); Call_lookup 9 (u "hr")].
Example C29_example :
  fst (lookup same_order 9 (u "speed") (after same_order demo demo_history)) = fst (lookup same_order 9 (u "speed") demo) /\
  is_ok (fst (lookup same_order 9 (u "speed") demo)) = true /\
  map (fun l => is_ok (match lz_resolved l with Some x => Ok x | None => Err EKey end))
    (s_lazies (after same_order demo demo_history)) = [true; true; false].
Proof. vm_compute. auto. Qed.

(** ** C54.  Without clash-freedom it is false: with an alias claimed by two definitions the
    answer depends on what was looked up before. *)
Definition two_x : system :=
  let def t n := add_lazy (u t) (mkRef (Some (nm n None)) [] [nm "x" None] []) in
  try_ (def "3 m"%string "b"%string (try_ (def "2 m"%string "a"%string base_sys))).

Theorem C54_history_matters_with_clashing_aliases_refuted :
  exists s q history, built same_order s /\
    is_ok (fst (lookup same_order 9 q s)) = true /\
    is_ok (fst (lookup same_order 9 q (after same_order s history))) = true /\
    fst (lookup same_order 9 q (after same_order s history)) <> fst (lookup same_order 9 q s).
Proof.
  exists two_x, (u "x"), [Call_lookup 9 (u "a")]. split.
  - unfold two_x, base_sys. repeat first [ apply built_lazy | apply Bu_prefix | apply built_unit | apply Bu_empty ].
  - vm_compute. repeat split; auto. discriminate.
Qed.

(** ** C30.  Two visiting orders of the identifier sets: a query is resolved under one iff
    under the other, and to the same unit up to the order of its references. *)
Theorem C30_visiting_order_irrelevant :
  forall ord ord' s, rearranges ord -> rearranges ord' -> proper_system s ->
  (forall q x, means ord s q x -> exists y, means ord' s q y /\ same_unit x y) /\
  (forall t a, text_means ord s t a -> exists b, text_means ord' s t b /\ same_any a b).
Proof.
  intros ord ord' s P P' T. split.
  - intros q x M. apply means_iff in M as [f E]. pose proof (lookup_rel s ord ord' P P' T f q) as R. rewrite E in R.
    destruct (p_lookup ord' s f q) as [y|] eqn:E'; [|contradiction]. exists y. split; auto. apply means_iff. eauto.
  - intros t a M. apply text_means_iff in M as [f E]. pose proof (unit_rel s ord ord' P P' T f t) as R. rewrite E in R.
    destruct (p_unit ord' s f t) as [y|] eqn:E'; [|contradiction]. exists y. split; auto. apply text_means_iff. eauto.
Qed.

(** Nothing that can be asked of a unit tells two such units apart. *)
Theorem C30_same_units_are_indistinguishable :
  forall x y, same_unit x y ->
  udims x = udims y /\ is_time_unit x = is_time_unit y /\ is_dimensionless x = is_dimensionless y /\
  unit_str x = unit_str y /\ (forall e, expanded x = Ok e <-> expanded y = Ok e).
Proof.
  intros x y H. pose proof (same_udims x y H) as E.
  split; [exact E|]. split; [now apply same_time|]. split; [unfold is_dimensionless; now rewrite E|].
  split; [now apply same_str|apply (same_expanded x y H)].
Qed.

Theorem C30_same_units_convert_alike :
  forall a a' b b', same_any a a' -> same_any b b' ->
  is_convertible_to a b = is_convertible_to a' b' /\
  (forall c, mk_converter a b = Ok c <-> mk_converter a' b' = Ok c).
Proof.
  assert (S := same_unit_sym).
  assert (SA : forall a b, same_any a b -> same_any b a) by (intros a b []; constructor; auto).
  intros a a' b b' A B. split; [now apply same_convertible|].
  intro c. split; apply same_converter; auto.
Qed.

(* backwards and forwards: different reference dictionaries, same unit *)
Lemma rev_rearranges : rearranges (@rev str).
Proof. intro l. apply Permutation_sym, Permutation_rev. Qed.
Lemma demo_proper : proper_system demo.
Proof.
  split.
  - intros k x r K. apply known_iff in K. unfold known_opt, get_or in K.
    assert (G : forall d, In d [s_names demo; s_alias_names demo; s_symbols demo; s_alias_symbols demo] -> dget k d = Some (EUnit x r) -> proper x).
    { clear K. intros d I. assert (F : forallb (fun e => match snd e with EUnit (UExpr _ _) _ => false | _ => true end) d = true).
      { destruct I as [<-|[<-|[<-|[<-|[]]]]]; vm_compute; reflexivity. }
      clear I. induction d as [|[k' e] d IH]; cbn [dget]; [discriminate|]. cbn [forallb snd] in F. apply andb_prop in F as [F1 F2].
      destruct (str_eqb k k'); [|auto]. injection 1 as ->. destruct x; [constructor|discriminate]. }
    destruct (dget k (s_names demo)) eqn:E1; [injection K as ->; eapply G; [|exact E1]; cbn; auto|].
    destruct (dget k (s_alias_names demo)) eqn:E2; [injection K as ->; eapply G; [|exact E2]; cbn; auto|].
    destruct (dget k (s_symbols demo)) eqn:E3; [injection K as ->; eapply G; [|exact E3]; cbn; auto|].
    eapply G; [|exact K]; cbn; auto.
  - intros i l x N R. assert (F : forallb (fun l => match lz_resolved l with Some _ => false | None => true end) (s_lazies demo) = true) by (vm_compute; reflexivity).
    rewrite forallb_forall in F. apply nth_error_In in N. specialize (F l N). rewrite R in F. discriminate.
Qed.
Example C30_example :
  fst (lookup (@rev str) 9 (u "speed") demo) <> fst (lookup same_order 9 (u "speed") demo) /\
  exists x y, fst (lookup (@rev str) 9 (u "speed") demo) = Ok x /\ fst (lookup same_order 9 (u "speed") demo) = Ok y /\ udims x = udims y.
Proof. split; [vm_compute; discriminate|]. eexists. eexists. split; [vm_compute; reflexivity|]. split; vm_compute; reflexivity. Qed.

(** ** C31.  add_unit, statement by statement: it raises ValueError exactly when a name or
    symbol of the unit is taken (and replace is off), leaving the system as it was; else the
    unit's words, and no others, now lead to it. *)
Definition taken (r : reference) (s : system) : Prop :=
  (exists k, In k (ref_names r) /\ dmem k (s_names s) = true) \/
  (exists k, In k (r_symbols r) /\ dmem k (s_symbols s) = true).

Lemma existsb_taken (d : dict entry) ks : existsb (fun k => dmem k d) ks = true <-> exists k, In k ks /\ dmem k d = true.
Proof. apply existsb_exists. Qed.

Theorem C31_add_unit_atomic :
  forall e r replace s,
  (replace = false /\ taken r s /\ exists v, add_unit_prog e r replace s = (Err (EValue v), s)) \/
  ((replace = true \/ ~ taken r s) /\ exists s', add_unit_prog e r replace s = (Ok tt, s') /\
    (forall k, dget k (s_names s') = if str_mem k (ref_names r) then Some e else dget k (s_names s)) /\
    (forall k, dget k (s_symbols s') = if str_mem k (r_symbols r) then Some e else dget k (s_symbols s)) /\
    (forall k, dget k (s_alias_names s') = if str_mem k (ref_alias_names r) then Some e else dget k (s_alias_names s)) /\
    (forall k, dget k (s_alias_symbols s') = if str_mem k (r_alias_symbols r) then Some e else dget k (s_alias_symbols s)) /\
    s_prefix_names s' = s_prefix_names s /\ s_prefix_symbols s' = s_prefix_symbols s /\ s_lazies s' = s_lazies s).
Proof.
  intros e r rep s. rewrite add_unit_prog_spec. unfold add_unit.
  assert (R : exists s', register e r s = s' /\
    (forall k, dget k (s_names s') = if str_mem k (ref_names r) then Some e else dget k (s_names s)) /\
    (forall k, dget k (s_symbols s') = if str_mem k (r_symbols r) then Some e else dget k (s_symbols s)) /\
    (forall k, dget k (s_alias_names s') = if str_mem k (ref_alias_names r) then Some e else dget k (s_alias_names s)) /\
    (forall k, dget k (s_alias_symbols s') = if str_mem k (r_alias_symbols r) then Some e else dget k (s_alias_symbols s)) /\
    s_prefix_names s' = s_prefix_names s /\ s_prefix_symbols s' = s_prefix_symbols s /\ s_lazies s' = s_lazies s).
  { exists (register e r s). split; [reflexivity|].
    cbn [register s_symbols s_names s_alias_names s_alias_symbols s_prefix_names s_prefix_symbols s_lazies].
    repeat split; intro k; apply dget_dset_all. }
  destruct R as (s' & Es & R). rewrite Es.
  destruct (existsb (fun k => dmem k (s_names s)) (ref_names r)) eqn:T1.
  - destruct rep; cbn [negb andb].
    + right. split; [now left|]. exists s'. auto.
    + left. split; auto. split; [left; now apply existsb_taken|]. now exists VE_dup_name.
  - rewrite andb_false_r. destruct (existsb (fun k => dmem k (s_symbols s)) (r_symbols r)) eqn:T2.
    + destruct rep; cbn [negb andb].
      * right. split; [now left|]. exists s'. auto.
      * left. split; auto. split; [right; now apply existsb_taken|]. now exists VE_dup_symbol.
    + rewrite andb_false_r. right. split.
      * right. intros [X|X]; apply existsb_taken in X; congruence.
      * exists s'. auto.
Qed.

(** Without replace, no name or symbol changes its unit, whatever the outcome. *)
Theorem C31_primary_words_never_stolen :
  forall e r s k e0,
  (dget k (s_names s) = Some e0 -> dget k (s_names (snd (add_unit_prog e r false s))) = Some e0) /\
  (dget k (s_symbols s) = Some e0 -> dget k (s_symbols (snd (add_unit_prog e r false s))) = Some e0).
Proof.
  intros e r s k e0. destruct (C31_add_unit_atomic e r false s) as [(_ & _ & v & ->)|([X|T] & s' & -> & N & S & _)]; [auto|discriminate|].
  cbn [snd]. rewrite N, S. split; intro G.
  - destruct (str_mem k (ref_names r)) eqn:M; auto. exfalso. apply T. left. exists k. split; [now apply str_mem_In|]. unfold dmem. now rewrite G.
  - destruct (str_mem k (r_symbols r)) eqn:M; auto. exfalso. apply T. right. exists k. split; [now apply str_mem_In|]. unfold dmem. now rewrite G.
Qed.

Example C31_example :
  add_unit_prog (ELazy 0) (ref1 "foot" "feet" "m") false demo = (Err (EValue VE_dup_symbol), demo) /\
  fst (add_unit_prog (ELazy 0) (ref1 "foot" "feet" "ft") false demo) = Ok tt.
Proof. vm_compute. auto. Qed.

(** ** C32.  A look-up returns what the query means: names before alias names before symbols
    before alias symbols, the whole word before any prefixed reading, prefix names before
    prefix symbols, the first registered fitting prefix of each kind ([reading]). *)
Theorem C32_lookup_returns_the_meaning :
  forall ord s, clash_free s ->
  (forall stack q x, fst (lookup ord stack q s) = Ok x -> means ord s q x) /\
  (forall q x, means ord s q x -> exists enough, forall stack, (enough <= stack)%nat -> fst (lookup ord stack q s) = Ok x) /\
  (forall stack t a, fst (sys_unit ord stack t s) = Ok a -> text_means ord s t a) /\
  (forall t a, text_means ord s t a -> exists enough, forall stack, (enough <= stack)%nat -> fst (sys_unit ord stack t s) = Ok a).
Proof.
  intros ord s C. repeat split.
  - intros f q x E. destruct (lookup_agree ord s [] f q C) as [[A|[F A]] _]; cbn [after fold_left] in A; rewrite E in A; [discriminate|].
    apply means_iff. eauto.
  - intros q x M. apply means_iff in M as [f E]. exists f. intros f' L. destruct (lookup_agree ord s [] f' q C) as [_ A].
    cbn beta in A. rewrite (p_lookup_mono ord s f f' q L) in A by (rewrite E; discriminate). rewrite E in A. symmetry. apply A. discriminate.
  - intros f t a E. destruct (unit_agree ord s [] f t C) as [[A|[F A]] _]; cbn [after fold_left] in A; rewrite E in A; [discriminate|].
    apply text_means_iff. eauto.
  - intros t a M. apply text_means_iff in M as [f E]. exists f. intros f' L. destruct (unit_agree ord s [] f' t C) as [_ A].
    cbn beta in A. rewrite (mono_unit ord s t f f' L) in A by (rewrite E; discriminate). rewrite E in A. symmetry. apply A. discriminate.
Qed.

Theorem C32_one_reading_and_one_meaning :
  forall ord s q,
  (forall pre e pre' e', reading s q pre e -> reading s q pre' e' -> pre = pre' /\ e = e') /\
  (forall x y, means ord s q x -> means ord s q y -> x = y).
Proof. intros ord s q. split; [apply reading_unique|apply means_unique]. Qed.

(** The priorities spelled out, for any system whatever. *)
Theorem C32_priority :
  forall ord s q x r f,
  (dget q (s_names s) = Some (EUnit x r) -> lookup ord (S f) q s = (Ok x, s)) /\
  (dget q (s_names s) = None -> dget q (s_alias_names s) = Some (EUnit x r) -> lookup ord (S f) q s = (Ok x, s)) /\
  (dget q (s_names s) = None -> dget q (s_alias_names s) = None ->
   dget q (s_symbols s) = Some (EUnit x r) -> lookup ord (S f) q s = (Ok x, s)) /\
  (dget q (s_names s) = None -> dget q (s_alias_names s) = None -> dget q (s_symbols s) = None ->
   dget q (s_alias_symbols s) = Some (EUnit x r) -> lookup ord (S f) q s = (Ok x, s)).
Proof.
  intros ord s q x r f. cbn [lookup]. unfold lookup_body, unit_by_either, unit_by_name, unit_by_symbol, get_or, mbind.
  repeat split.
  - intros ->. reflexivity.
  - intros -> ->. reflexivity.
  - intros -> ->. cbn [force_entry ret]. intros ->. reflexivity.
  - intros -> ->. cbn [force_entry ret]. intros -> ->. reflexivity.
Qed.

(* "m" is the metre although milli has the symbol "m"; "mm" is milli-metre; "min" the minute *)
Example C32_example :
  fst (lookup same_order 9 (u "m") demo) = Ok (UBasis (u "meter") false false) /\
  reading demo (u "kiloh") (Some (u "kilo", mkPrefix (u "kilo") (u "1e3") [u "k"], u "h")) (ELazy 1) /\
  reading demo (u "min") None (ELazy 0).
Proof. split; [vm_compute; reflexivity|]. split; apply reading_iff; vm_compute; reflexivity. Qed.

(** ** C33.  UnresolvableUnitException, for every system the API can build. *)
Theorem C33_unresolvable_iff_no_reading :
  forall ord s, built ord s ->
  (forall stack q, fst (lookup ord (S stack) q s) = Err (EUnresolvable q) <-> unreadable s q) /\
  (forall stack q, unreadable s q -> snd (lookup ord (S stack) q s) = s) /\
  (forall stack q q', fst (lookup ord stack q s) = Err (EUnresolvable q') -> unreadable s q') /\
  (forall stack t q', fst (sys_unit ord stack t s) = Err (EUnresolvable q') -> unreadable s q') /\
  (forall q, unreadable s q \/ exists pre e, reading s q pre e).
Proof.
  intros ord s B. pose proof (built_closed ord s B) as C.
  split; [|split; [|split; [|split]]].
  - intros stack q. split.
    + intro E. now apply (proj2 (keeps_lookup ord s C (S stack) q s (kept_refl s))).
    + intro U. cbn [lookup]. now rewrite body_unreadable.
  - intros stack q U. cbn [lookup]. now rewrite body_unreadable.
  - intros f q q' E. now apply (proj2 (keeps_lookup ord s C f q s (kept_refl s))).
  - intros f t q' E. now apply (proj2 (keeps_unit ord s C f t s (kept_refl s))).
  - intro q. apply readable_or_not.
Qed.

(** The word it names is the query or occurs, however deep, in the definitions used. *)
Theorem C33_the_missing_word_is_mentioned :
  forall ord s stack q q', rearranges ord -> clash_free s ->
  fst (lookup ord stack q s) = Err (EUnresolvable q') -> q' = q \/ depends s q q'.
Proof.
  intros ord s f q q' P C E. destruct (lookup_agree ord s [] f q C) as [[A|[F A]] _]; cbn [after fold_left] in A; rewrite E in A; [discriminate|].
  now apply (p_lookup_unresolvable ord s P F).
Qed.

Example C33_example :
  fst (lookup same_order 9 (u "kilomillim") demo) = Err (EUnresolvable (u "kilomillim")) /\
  fst (lookup same_order 9 (u "kilo") demo) = Err (EUnresolvable (u "kilo")) /\
  fst (lookup same_order 9 (u "Meter") demo) = Err (EUnresolvable (u "Meter")) /\
  is_ok (fst (lookup same_order 9 (u "kilometers") demo)) = true.
Proof. vm_compute. auto. Qed.

(** ** C34.  Calls never change the vocabulary; and, without clashes, no meaning either. *)
Theorem C34_vocabulary_unchanged :
  forall ord s history, built ord s -> same_vocabulary s (after ord s history).
Proof. intros ord s cs B. apply (kept_after ord s (built_closed ord s B) cs s (kept_refl s)). Qed.

Theorem C34_meanings_unchanged :
  forall ord s history, clash_free s ->
  (forall q x, means ord (after ord s history) q x <-> means ord s q x) /\
  (forall t a, text_means ord (after ord s history) t a <-> text_means ord s t a).
Proof.
  intros ord s cs C. pose proof (after_clash_free ord s cs C) as C'. set (s' := after ord s cs) in *.
  split; intros t a.
  - split; intro M.
    + destruct (C32_lookup_returns_the_meaning ord s' C') as (_ & H & _). destruct (H t a M) as [F E]. specialize (E F ltac:(lia)).
      destruct (lookup_agree ord s cs F t C) as [[A|[F' A]] _]; fold s' in A; rewrite E in A; [discriminate|]. apply means_iff. eauto.
    + apply means_iff in M as [F E]. destruct (lookup_agree ord s cs F t C) as [_ A]. cbn beta in A. rewrite E in A. fold s' in A.
      destruct (C32_lookup_returns_the_meaning ord s' C') as (H & _). apply (H F). symmetry. apply A. discriminate.
  - split; intro M.
    + destruct (C32_lookup_returns_the_meaning ord s' C') as (_ & _ & _ & H). destruct (H t a M) as [F E]. specialize (E F ltac:(lia)).
      destruct (unit_agree ord s cs F t C) as [[A|[F' A]] _]; fold s' in A; rewrite E in A; [discriminate|]. apply text_means_iff. eauto.
    + apply text_means_iff in M as [F E]. destruct (unit_agree ord s cs F t C) as [_ A]. cbn beta in A. rewrite E in A. fold s' in A.
      destruct (C32_lookup_returns_the_meaning ord s' C') as (_ & _ & H & _). apply (H F). symmetry. apply A. discriminate.
Qed.

Example C34_example : built same_order demo /\ dkeys (s_names demo) <> [] /\
  s_names (after same_order demo demo_history) <> s_names demo.
Proof.
  split; [unfold demo, base_sys; repeat first [ apply built_lazy | apply Bu_prefix | apply built_unit | apply Bu_empty ]|].
  split; vm_compute; discriminate.
Qed.

(** ** C35.  A deeper stack never changes an outcome (nor the state reached). *)
Theorem C35_more_stack_same_outcome :
  forall ord s stack stack', (stack <= stack')%nat ->
  (forall q, fst (lookup ord stack q s) <> Err ERecursion -> lookup ord stack' q s = lookup ord stack q s) /\
  (forall t, fst (sys_unit ord stack t s) <> Err ERecursion -> sys_unit ord stack' t s = sys_unit ord stack t s).
Proof. intros ord s f f' L. split; intros t N; [now apply lookup_extends|now apply unit_extends]. Qed.

(** Definitions at most [n] deep never exhaust a stack deeper than [n], in any state. *)
Theorem C35_acyclic_definitions_terminate :
  forall ord s rank n, rearranges ord -> clash_free s -> depth_at_most s rank n ->
  forall history stack, (n < stack)%nat ->
  (forall q, fst (lookup ord stack q (after ord s history)) <> Err ERecursion) /\
  (forall t, fst (sys_unit ord stack t (after ord s history)) <> Err ERecursion).
Proof.
  intros ord s rank n P C D cs f L. split; intro t.
  - destruct (depth_lookup ord s rank n P C D cs f t L) as [-> N]. exact N.
  - destruct (depth_unit ord s rank n P C D cs f t L) as [-> N]. exact N.
Qed.

(** A word whose definition leads back to itself is never given a unit, in any state. *)
Theorem C35_circular_definitions_never_resolve :
  forall ord s q, rearranges ord -> clash_free s -> depends s q q ->
  forall history stack x, fst (lookup ord stack q (after ord s history)) <> Ok x.
Proof.
  intros ord s q P C D cs f x E. destruct (lookup_agree ord s cs f q C) as [[A|[F A]] _]; rewrite E in A; [discriminate|].
  apply (circular_never ord s P q x D). apply means_iff. eauto.
Qed.

Definition circular : system :=
  try_ (add_lazy (u "2 egg") (ref1 "chicken" "chickens" "c") (try_ (add_lazy (u "chicken / 7") (ref1 "egg" "eggs" "g") base_sys))).
Example C35_example :
  clash_free circular /\ depends circular (u "egg") (u "egg") /\
  fst (lookup same_order 50 (u "egg") circular) = Err ERecursion /\
  fst (lookup same_order 4 (u "speed") demo) <> Err ERecursion /\ fst (lookup same_order 2 (u "speed") demo) = Err ERecursion.
Proof.
  split; [apply clash_free_b_sound; vm_compute; reflexivity|]. split.
  - assert (M : forall a b i l g, reading_opt circular (u a) = Some (None, ELazy i) -> nth_error (s_lazies circular) i = Some l ->
      lz_resolved l = None -> parse (lz_def l) = Ok g -> In (u b) (identifiers g) -> mentions circular (u a) (u b)).
    { intros a b i l g R N Z P I. exists l, g. split; [|auto]. apply Db with None i; auto. now apply reading_iff. }
    apply Dep_more with (u "chicken"); [|apply Dep_one].
    + eapply (M "egg"%string "chicken"%string 0%nat); try (vm_compute; reflexivity). vm_compute. auto.
    + eapply (M "chicken"%string "egg"%string 1%nat); try (vm_compute; reflexivity). vm_compute. auto.
  - vm_compute. repeat split; discriminate.
Qed.

Print Assumptions C29_history_independent.
Print Assumptions C29_history_independent_when_stack_suffices.
Print Assumptions C30_visiting_order_irrelevant.
Print Assumptions C31_add_unit_atomic.
Print Assumptions C32_lookup_returns_the_meaning.
Print Assumptions C33_unresolvable_iff_no_reading.
Print Assumptions C34_meanings_unchanged.
Print Assumptions C35_circular_definitions_never_resolve.
