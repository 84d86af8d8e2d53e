(** * C96: texts with a reference date *)
From Verif Require Import PyBase PyNum Graph Regex Lexer RegexFacts Visitor Expr Units UnitSystem UnitSpec UnitFacts UnitProofs
  SystemSpec SystemFacts SystemProofs SystemMore SystemKeep SystemOrd Prop_System Sympy Convert ConvertSpec ConvertFacts ConvertProofs ConvertMore Prop_Convert
  Xml XmlSpec XmlFacts XmlPrefix Prop_Xml XmlData Database Prop_Database BaseSpec BaseFacts Prop_Base Prop_BaseDb
  LexSpec GrammarSpec PrintSpec PrintParse PrintMore PrintDate Cli Prop_Print Prop_Expanded Prop_ExpandedDb.
From Coq Require Import Permutation Lia Lra QArith Reals Qreals.
Local Open Scope list_scope.

(** What follows the shift operator, as the text [raw]. *)
Definition dated (r : node) (raw : str) : Prop := (exists v, r = Number v (Some raw)) \/ r = Unhandled raw.

Lemma time_spec_yes dl tm d refs e : sound_unit (UExpr d refs) -> bases_agree dl (UExpr d refs) -> times_agree tm (UExpr d refs) ->
  expanded (UExpr d refs) = Ok e -> a_time dl tm e -> is_time_unit (UExpr d refs) = Ok true.
Proof.
  intros S B T X (r & Tr & G). unfold is_time_unit. destruct (udims_sound _ S) as (m & U & Nd & R). rewrite U. cbn [bind]. f_equal.
  assert (V : forall b, dims_get b m = if str_eqb r b then Some 1%Z else None).
  { intros b. rewrite R, (exps_expanded dl _ S B _ X b), G. now destruct (str_eqb r b). }
  pose proof (flags_udims tm _ T _ U) as F.
  destruct m as [| [[b it] z] m].
  - specialize (V r). rewrite str_eqb_refl in V. discriminate V.
  - assert (Eb : r = b).
    { specialize (V b). cbn [dims_get] in V. rewrite str_eqb_refl in V. destruct (str_eqb r b) eqn:E; [now apply str_eqb_eq | discriminate V]. }
    subst b. assert (z = 1%Z) as ->.
    { specialize (V r). cbn [dims_get] in V. rewrite !str_eqb_refl in V. now injection V. }
    destruct m as [| [[b it'] z'] m].
    + cbn [dims_time]. inversion F as [| ? ? F1 _]; subst. cbn [fst snd] in F1. now rewrite F1, Tr.
    + exfalso. cbn [map fst] in Nd. inversion Nd as [| ? ? N1 N2]; subst. cbn [map] in N1.
      assert (Nb : str_eqb b r = false).
      { destruct (str_eqb b r) eqn:E; [| reflexivity]. apply str_eqb_eq in E. subst b. exfalso. apply N1. now left. }
      specialize (V b). cbn [dims_get] in V. rewrite Nb, str_eqb_refl, str_eqb_sym, Nb in V. discriminate V.
Qed.

Scheme refs_mean_only := Minimality for refs_mean Sort Prop.

Section Base.
Variable ord : list str -> list str.
Variable s : system.
Variable dl tm : str -> bool.
Hypothesis Po : rearranges ord.
Hypothesis Or : orderly dl tm s.

Lemma refs_mean_unique ids refs : refs_mean ord s ids refs -> forall refs', refs_mean ord s ids refs' -> refs = refs'.
Proof.
  intros R. induction R as [| k ks y refs M R IH] using refs_mean_only; intros refs' R'; inversion R' as [| k' ks' y' rf M' R'']; subst; [reflexivity |].
  rewrite (means_unique ord s k y y' M M'), (IH rf R''). reflexivity.
Qed.

Lemma date_gather g r raw e : dated r raw -> base_expr s g e -> levels e ->
  exists refs, refs_mean ord s (ord (identifiers (Shift g r))) refs /\ acceptable refs g /\ describable dl (UExpr g refs) e /\
    times_agree tm (UExpr g refs).
Proof.
  intros Dr B L. destruct (base_good ord s dl tm Po Or) as [_ G].
  assert (Me := levels_measurable e L). assert (Ti := levels_timeless dl tm e L).
  destruct (assemble ord s dl tm Po g e (G g e B Me Ti) Ti) as (refs & R & Ac & X & So & Ba & Ta).
  exists refs. split.
  - replace (identifiers (Shift g r)) with (identifiers g); [exact R |].
    destruct Dr as [[v ->] | ->]; cbn [identifiers]; unfold set_union; cbn [filter]; now rewrite app_nil_r.
  - split; [exact Ac |]. split; [| exact Ta]. split; [exact Logic.I | auto].
Qed.

Lemma date_text_means t g r raw e : parse t = Ok (Shift g r) -> dated r raw -> base_expr s g e -> levels e -> a_time dl tm e ->
  exists x, text_means ord s t (ADate x raw) /\ describable dl x e.
Proof.
  intros P Dr B L A. destruct (date_gather g r raw e Dr B L) as (refs & R & Ac & D & Ta).
  exists (UExpr g refs). split; [| exact D]. exists (Shift g r), refs. split; [exact P |]. split; [exact R |].
  apply date_iff. exists g, r. destruct D as (_ & So & Ba & X & _). split; [reflexivity |]. split; [reflexivity |]. split; [exact Ac |].
  split; [exact (time_spec_yes dl tm g refs e So Ba Ta X A) | exact Dr].
Qed.

Lemma undated_text t g raw e a : parse t = Ok (Shift g (Unhandled raw)) -> base_expr s g e -> levels e -> ~ a_time dl tm e ->
  ~ text_means ord s t a.
Proof.
  intros P B L A (g' & refs' & P' & R' & U). rewrite P in P'. injection P' as <-.
  destruct (date_gather g (Unhandled raw) raw e (or_intror eq_refl) B L) as (refs & R & Ac & D & Ta).
  pose proof (refs_mean_unique _ _ R _ R') as <-. destruct D as (_ & So & Ba & X & _).
  pose proof (time_spec dl tm g refs e So Ba Ta X A) as Ft. destruct a as [x | x r].
  - apply unit_iff in U as [_ U]. inversion U.
  - apply date_iff in U as (a & q & E & _ & _ & It & _). injection E as <- <-. rewrite Ft in It. discriminate It.
Qed.
End Base.

Section Shipped.
Variable sh s : system.
Variable rank : str -> nat.
Hypothesis C : clash_free sh.
Hypothesis D : depth_at_most sh rank 7.
Hypothesis O : orderly is_radian is_second sh.
Hypothesis R : par sh s.

Lemma date_verdict ord history stack t g r raw e : rearranges ord -> (7 < stack)%nat ->
  parse t = Ok (Shift g r) -> dated r raw -> base_expr s g e -> levels e -> a_time is_radian is_second e ->
  exists x, describable is_radian x e /\ fst (sys_unit ord stack t (after ord s history)) = Ok (ADate x raw).
Proof.
  intros Po L P Dr B Le At.
  pose proof (proj2 (par_base s sh (par_sym sh s R)) g e B) as B'.
  destruct (date_text_means ord sh _ _ Po O t g r raw e P Dr B' Le At) as (x & M & Dx). exists x. split; [exact Dx |].
  apply text_means_iff in M as [f M].
  pose proof (par_after ord history _ _ R) as Ra. rewrite <- (proj1 (parm_unit ord stack t _ _ Ra)).
  destruct (depth_unit ord sh _ _ Po C D history stack t L) as [-> N].
  pose proof (mono_unit ord sh t stack (Nat.max stack f) ltac:(lia) N) as E1. cbn beta in E1.
  assert (M' : p_unit ord sh f t <> Err ERecursion) by (rewrite M; discriminate).
  pose proof (mono_unit ord sh t f (Nat.max stack f) ltac:(lia) M') as E2. cbn beta in E2. congruence.
Qed.

Lemma undated_verdict ord history stack t g raw e a : rearranges ord -> (7 < stack)%nat ->
  parse t = Ok (Shift g (Unhandled raw)) -> base_expr s g e -> levels e -> ~ a_time is_radian is_second e ->
  fst (sys_unit ord stack t (after ord s history)) <> Ok a.
Proof.
  intros Po L P B Le At E.
  pose proof (proj2 (par_base s sh (par_sym sh s R)) g e B) as B'.
  apply (undated_text ord sh _ _ Po O t g raw e a P B' Le At). apply text_means_iff. exists stack.
  pose proof (par_after ord history _ _ R) as Ra. rewrite <- (proj1 (parm_unit ord stack t _ _ Ra)) in E.
  destruct (depth_unit ord sh _ _ Po C D history stack t L) as [F _]. now rewrite F in E.
Qed.
End Shipped.

(** C96.  A text whose last part is a date or a number after a shift operator, what is before it
    being written out to a time: unit(text) is the date unit with that time and that date. *)
Theorem C96_date_texts :
  forall strict set_order s, rearranges set_order -> read_system strict set_order db = Ok s ->
  forall ord history stack t g r raw e, rearranges ord -> (7 < stack)%nat ->
  parse t = Ok (Shift g r) -> dated r raw -> base_expr s g e -> levels e -> a_time is_radian is_second e ->
  exists x, describable is_radian x e /\ fst (sys_unit ord stack t (after ord s history)) = Ok (ADate x raw).
Proof.
  intros strict o s P E. destruct (read_any strict o P) as (s' & E' & R). rewrite E in E'. injection E' as <-.
  destruct shipped_checks as (C & _ & D). exact (date_verdict shipped s _ C D shipped_orderly R).
Qed.

(** A date after anything else is refused. *)
Theorem C96_dates_of_other_units_refused :
  forall strict set_order s, rearranges set_order -> read_system strict set_order db = Ok s ->
  forall ord history stack t g raw e a, rearranges ord -> (7 < stack)%nat ->
  parse t = Ok (Shift g (Unhandled raw)) -> base_expr s g e -> levels e -> ~ a_time is_radian is_second e ->
  fst (sys_unit ord stack t (after ord s history)) <> Ok a.
Proof.
  intros strict o s P E. destruct (read_any strict o P) as (s' & E' & R). rewrite E in E'. injection E' as <-.
  destruct shipped_checks as (C & _ & D). exact (undated_verdict shipped s _ C D shipped_orderly R).
Qed.

(** The text of expanded() of a date unit gives the same date unit, if its brackets do not matter. *)
Theorem C96_expanded_date_is_the_date_unit :
  forall strict set_order s, rearranges set_order -> read_system strict set_order db = Ok s ->
  forall ord history1 history2 stack t g raw e, rearranges ord -> (7 < stack)%nat ->
  parse t = Ok (Shift g (Unhandled raw)) -> base_expr s g e -> levels e -> a_time is_radian is_second e ->
  writable false e -> brackets_moot e -> date_ok raw -> ends_clean raw ->
  exists x y text cv, fst (sys_unit ord stack t (after ord s history1)) = Ok (ADate x raw) /\
    expanded_text (ADate x raw) = Ok text /\
    fst (sys_unit ord stack text (after ord s history2)) = Ok (ADate y raw) /\
    mk_converter (AUnit x) (AUnit y) = Ok cv /\ forall v, convert cv v = Ok v.
Proof.
  intros strict o s P E ord h1 h2 f t g raw e Po L Pt B Le At W Bf Dr Ec.
  destruct (C96_date_texts strict o s P E ord h1 f t g (Unhandled raw) raw e Po L Pt (or_intror eq_refl) B Le At) as (x & Dx & Ux).
  destruct (moot_levels e Le Bf) as (h & Eh & L' & Q & G).
  assert (Hs : has_shift e = false).
  { clear - Le. assert (Pl : forall n, rated n -> has_shift n = false).
    { induction n as [y | v q | y | a IHa b IHb | a IHa b IHb | a IHa b IHb | a IHa b IHb | k a IHa]; cbn [rated has_shift]; intros H;
        try contradiction; try reflexivity.
      - destruct b as [| [z | |] | | | | | |]; try contradiction. cbn [has_shift]. now rewrite IHa.
      - now rewrite IHa, IHb.
      - now rewrite IHa, IHb. }
    induction e; try (now apply Pl). cbn [levels has_shift] in *. apply IHe. tauto. }
  pose proof (parse_since e _ raw W Hs Dr Ec Eh) as Ps.
  assert (Be : base_expr s h h).
  { apply settled_base. apply (settled_reread s e); [| exact Eh].
    now apply (base_settled s (read_self_named strict o s P E)) in B. }
  assert (At' : a_time is_radian is_second h).
  { destruct At as (r & Tr & Gr). exists r. split; [exact Tr |]. intros b. now rewrite G. }
  destruct (C96_date_texts strict o s P E ord h2 f _ _ (Unhandled raw) raw _ Po L Ps (or_intror eq_refl) Be L' At') as (y & Dy & Uy).
  destruct (C20_conversion_preserves_the_quantity is_radian x y e _ Dx Dy (fun b => eq_sym (G _ b))) as (cv & Cv & V).
  exists x, y, (node_str e ++ u " since " ++ raw), cv. split; [exact Ux |].
  split; [unfold expanded_text; destruct Dx as (_ & _ & _ & -> & _); reflexivity |].
  split; [exact Uy |]. split; [exact Cv |]. intros v. apply V. apply Q.
Qed.

(** ** The hypotheses are met *)
Definition ex_time := u "hours since 2000-01-01 12:00".
Definition hour_form := Eval vm_compute in form_of (u "hours").
Example C96_example :
  exists g, parse ex_time = Ok (Shift g (Unhandled (u "2000-01-01 12:00"))) /\ base_expr shipped g hour_form /\ levels hour_form /\
    a_time is_radian is_second hour_form /\ writable false hour_form /\ brackets_moot hour_form /\
    date_ok (u "2000-01-01 12:00") /\ ends_clean (u "2000-01-01 12:00") /\ node_str hour_form = u "60·60·second".
Proof.
  eexists. split; [vm_compute; reflexivity |].
  split; [apply (out_expr_sound shipped (out_name shipped 8)); [exact (out_name_sound shipped 8) | vm_compute; reflexivity] |].
  split; [apply levels_b_sound; vm_compute; reflexivity |].
  split; [exists (u "second"); split; [vm_compute; reflexivity | intros b; unfold hour_form; cbn [gdim]; unfold basis_exps;
    change (is_radian _) with false; cbn iota; change [115%N; 101%N; 99%N; 111%N; 110%N; 100%N] with (u "second"); destruct (str_eqb (u "second") b); reflexivity] |].
  split; [apply writable_b_sound; vm_compute; reflexivity |].
  split; [unfold hour_form; cbn [brackets_moot is_product is_power]; tauto |].
  split; [| split; [exists (u "2000-01-01 12:0"), 48%N; split; vm_compute; reflexivity | vm_compute; reflexivity]].
  apply (Prop_Print.date_by_lexer _ [mkTok DATE (u "2000-01-01"); mkTok WS [32%N]; mkTok HOUR_MINUTE (u "12:00")]);
    [apply Prop_Print.text_check; vm_compute; reflexivity | vm_compute; reflexivity | | discriminate].
  apply (Ts_clock _ [mkTok WS [32%N]] _ [] []);
    [left; reflexivity | apply Ot_ws; reflexivity | right; left; reflexivity | constructor | constructor].
Qed.
Example C96_example_refused :
  exists g, parse (u "km since 2000-01-01") = Ok (Shift g (Unhandled (u "2000-01-01"))) /\ base_expr shipped g (form_of (u "km")) /\
    levels (form_of (u "km")) /\ ~ a_time is_radian is_second (form_of (u "km")).
Proof.
  eexists. split; [vm_compute; reflexivity |].
  split; [apply (out_expr_sound shipped (out_name shipped 8)); [exact (out_name_sound shipped 8) | vm_compute; reflexivity] |].
  split; [apply levels_b_sound; vm_compute; reflexivity |].
  intros (r & T & G). apply str_eqb_eq in T. subst r. specialize (G (u "second")). vm_compute in G. discriminate G.
Qed.

Print Assumptions C96_date_texts.
Print Assumptions C96_dates_of_other_units_refused.
Print Assumptions C96_expanded_date_is_the_date_unit.
