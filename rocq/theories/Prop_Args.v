(** * C115, C116: which command lines mean what. *)
From Verif Require Import PyBase PyNum Regex RegexFacts Graph Lexer LexSpec LexerFacts Parser ParserFacts Visitor ParseFacts Expr Units Sympy Convert
  UnitSystem SystemSpec SystemFacts SystemMore SystemKeep SystemOrd Xml XmlSpec XmlData Database Prop_Database Argparse ArgSpec ArgFacts Cli Prop_Cli.
From Coq Require Import Lia.
Local Open Scope list_scope.

(** What differs between Python versions, or is left out: the program's name begins with
    "-"; an argument like -hx; two "--"; a "--" before the subcommand. *)
Definition version_dependent (negnum : str -> bool) (prog : str) (args : list str) : Prop :=
  begins_dash prog \/
  (exists a, In a args /\ exists c r, a = u "-h" ++ c :: r) \/
  (exists l1 l2 l3, args = l1 ++ u "--" :: l2 ++ u "--" :: l3) \/
  (exists pre post, args = pre ++ u "--" :: post /\ forall a, In a pre -> foreign_option negnum a).

(** Help is asked for: an option -h or --help (or --h, --he, --hel) before any "--", after
    options the program does not have only ([None]: the program's help), or after a
    subcommand and no other request for help (that subcommand's help). *)
Definition help_is_shown (negnum : str -> bool) (args : list str) (who : option str) : Prop :=
  exists pre, (forall a, In a pre -> foreign_option negnum a) /\
  match who with
  | None => exists x post, args = pre ++ x :: post /\ gets_help x
  | Some cmd => exists mid x post, args = pre ++ cmd :: mid ++ x :: post /\ In cmd (map fst wants) /\
                  (forall a, In a mid -> ~ asks_help a /\ a <> u "--") /\ gets_help x
  end.

Section Args.
Variable g : str -> bool.

Lemma scan_unclear args : scan g args = Unclear ->
  (exists a, In a args /\ exists c r, a = u "-h" ++ c :: r) \/
  (exists l1 l2 l3, args = l1 ++ u "--" :: l2 ++ u "--" :: l3).
Proof.
  induction args as [|a r IH]; [discriminate|]. cbn [scan]. destruct (is_str a dashes) eqn:D.
  - apply dashes_b in D as ->. destruct (existsb (is_str dashes) r) eqn:X; [|discriminate]. intros _. apply dashes_in in X.
    apply in_split in X as (l2 & l3 & ->). right. exists [], l2, l3. reflexivity.
  - assert (Step : scan g r = Unclear -> (exists b, In b (a :: r) /\ exists c r, b = u "-h" ++ c :: r) \/
      (exists l1 l2 l3, a :: r = l1 ++ u "--" :: l2 ++ u "--" :: l3)).
    { intro S0. destruct (IH S0) as [(b & I & B)|(l1 & l2 & l3 & ->)].
      - left. exists b. split; [now right|exact B].
      - right. exists (a :: l1), l2, l3. reflexivity. }
    destruct (arg_kind_of g a) eqn:K; try discriminate.
    + destruct (scan g r); try discriminate. auto.
    + intros _. left. exists a. split; [now left|]. clear - K. unfold arg_kind_of in K.
      change (u "-") with [45%N] in K. change (u "h") with [104%N] in K.
      destruct a as [|c a]; [discriminate K|]. cbn [strip_prefix] in K. destruct (N.eqb 45 c) eqn:C; [|discriminate K].
      apply N.eqb_eq in C as <-. destruct a as [|d a]; [discriminate K|]. unfold startswith at 1 in K. cbn [strip_prefix] in K.
      destruct (N.eqb 104 d) eqn:Dd.
      * apply N.eqb_eq in Dd as <-. destruct a as [|e a]; [discriminate K|]. exists e, a. reflexivity.
      * destruct (_ && _); [destruct (has_char _ _); discriminate K|]. destruct (g _); [discriminate K|].
        destruct (has_char _ _); discriminate K.
    + destruct (scan g r); try discriminate. auto.
Qed.

Lemma undecided prog args : parse_args g (prog :: args) = Undecided -> version_dependent g prog args.
Proof.
  cbn [parse_args]. destruct (startswith (u "-") prog) eqn:P; [intros _; left; now apply starts_iff|]. intro H. right. clear P prog.
  revert H. induction args as [|a r IH]; [discriminate|]. cbn [top]. destruct (is_str a dashes) eqn:D.
  { apply dashes_b in D as ->. intros _. right. right. exists [], r. split; [reflexivity|intros ? []]. }
  destruct (arg_kind_of g a) eqn:K; try discriminate.
  - unfold subcommand. destruct (arity a); [|discriminate]. destruct (scan g r) eqn:S0; try discriminate.
    { destruct (Nat.eqb _ _); discriminate. }
    intros _. apply scan_unclear in S0 as [(b & I & B)|(l1 & l2 & l3 & ->)].
    + left. exists b. split; [now right|exact B].
    + right. left. exists (a :: l1), l2, l3. reflexivity.
  - intros _. assert (S1 : scan g [a] = Unclear) by (cbn [scan]; now rewrite D, K).
    apply scan_unclear in S1 as [(b & [<-|[]] & B)|(l1 & l2 & l3 & E)].
    + left. exists a. split; [now left|exact B].
    + destruct l1 as [|x [|y l1]]; [destruct l2; discriminate E|discriminate E|discriminate E].
  - destruct (top g r); try discriminate. intros _. destruct (IH eq_refl) as [(b & I & B)|[(l1 & l2 & l3 & ->)|(pre & post & -> & Q)]].
    + left. exists b. split; [now right|exact B].
    + right. left. exists (a :: l1), l2, l3. reflexivity.
    + right. right. exists (a :: pre), post. split; [reflexivity|]. intros b [<-|I]; auto. now apply kind_unknown.
Qed.

(** ** C115.  Every command line: a subcommand is given its values, or nothing is given, or
    help is shown, or status 2 with nothing on stdout.  (Only what version_dependent
    describes is left out.) *)
Theorem C115_every_command_line :
  forall load ord stack prog args, ~ version_dependent g prog args ->
  let r := main load ord stack g (prog :: args) in
  (exists cmd n given l, args = cmd :: given /\ In (cmd, n) wants /\ passes g given l /\ List.length l = n) \/
  (args = [] /\ r = stop (ESystemExit 1)) \/
  (exists who, help_is_shown g args who /\ r = mkOut [[HelpOf who]] (Some (ESystemExit 0))) \/
  r = stop (ESystemExit 2).
Proof.
  intros ld ord f prog args NV r. subst r.
  assert (N : named prog) by (intro B; apply NV; now left). unfold main.
  destruct (parse_args g (prog :: args)) as [cmd l| |who| |] eqn:E.
  - left. apply (run_iff g prog args cmd l N) in E as (given & n & -> & W & P & L). exists cmd, n, given, l. auto.
  - right. left. apply (no_command_iff g prog args N) in E. auto.
  - right. right. left. exists who. split; [|reflexivity]. now apply (help_iff g prog args who N).
  - auto.
  - exfalso. now apply NV, undecided.
Qed.

(** ** C115.  A subcommand sees the values and nothing else: the same values passed in another
    way give the same result. *)
Theorem C115_only_the_values_matter :
  forall load ord stack prog prog' cmd given given' l, ~ begins_dash prog -> ~ begins_dash prog' ->
  In cmd (map fst wants) -> passes g given l -> passes g given' l ->
  main load ord stack g (prog :: cmd :: given) = main load ord stack g (prog' :: cmd :: given').
Proof.
  intros ld ord f p p' cmd a b l N N' W A B. apply in_map_iff in W as ([c n] & E & W). cbn in E. subst c. unfold main.
  rewrite !parse_named by auto. rewrite !(top_ordinary g cmd _ (command_ordinary g cmd n W)). unfold subcommand.
  rewrite (proj2 (scan_values g a l) A), (proj2 (scan_values g b l) B). reflexivity.
Qed.

(** ** C115.  Help: printed on stdout, status 0, whatever else is wrong later on the line. *)
Theorem C115_help :
  forall load ord stack prog args who, ~ begins_dash prog -> help_is_shown g args who ->
  main load ord stack g (prog :: args) = mkOut [[HelpOf who]] (Some (ESystemExit 0)).
Proof.
  intros ld ord f prog args who N H. unfold main. now rewrite (proj2 (help_iff g prog args who N) H).
Qed.

Lemma scan_no_help args : (forall a, In a args -> ~ asks_help a) -> (exists l, scan g args = Values l) \/ scan g args = BadUsage.
Proof.
  induction args as [|a r IH]; intro H; [left; now exists []|]. destruct IH as [[l E]|E]; [intros b I; apply H; now right|..].
  - destruct (plain_step g a r (H a (or_introl eq_refl))) as [[_ ->]|[_ ->]].
    + intros ->. now apply (H (u "--") (or_introl eq_refl)), dashes_ask.
    + rewrite E. eauto.
    + rewrite E. auto.
  - destruct (plain_step g a r (H a (or_introl eq_refl))) as [[_ ->]|[_ ->]].
    + intros ->. now apply (H (u "--") (or_introl eq_refl)), dashes_ask.
    + rewrite E. auto.
    + rewrite E. auto.
Qed.

(** ** C115.  Errors: an option the program does not have, anywhere on a line without request
    for help. *)
Theorem C115_foreign_options :
  forall load ord stack prog args a, ~ begins_dash prog -> (forall b, In b args -> ~ asks_help b) ->
  In a args -> foreign_option g a -> main load ord stack g (prog :: args) = stop (ESystemExit 2).
Proof.
  intros ld ord f prog args a N H I F. unfold main. rewrite parse_named by auto.
  assert (E : top g args = Usage); [|now rewrite E].
  assert (ND : forall b, ~ asks_help b -> b <> u "--") by (intros b A ->; now apply A, dashes_ask).
  clear N prog. revert H I. induction args as [|c r IH]; [intros _ []|]. intros H I.
  assert (Hc : ~ asks_help c) by (apply H; now left). assert (Hr : forall b, In b r -> ~ asks_help b) by (intros; apply H; now right).
  pose proof (kind_cases g c) as K. destruct (arg_kind_of g c) eqn:Kc; try (exfalso; tauto).
  - rewrite (top_ordinary g c r K). unfold subcommand. destruct (arity c) as [n|]; auto.
    destruct I as [<-|I]; [destruct F; contradiction|]. apply in_split in I as (l1 & l2 & ->).
    destruct (scan_no_help l2) as [[l E]|E]; [intros b J; apply Hr; apply in_or_app; right; now right|..].
    + rewrite (scan_foreign g l1 a l2 l); auto.
      intro J. apply (ND (u "--")); [apply Hr; apply in_or_app; now left|reflexivity].
    + rewrite (scan_foreign g l1 a l2 []); auto.
      intro J. apply (ND (u "--")); [apply Hr; apply in_or_app; now left|reflexivity].
  - rewrite (top_foreign g c r K). destruct I as [<-|I]; [|now rewrite (IH Hr I)].
    assert (T : forall r, (forall b, In b r -> ~ asks_help b) -> match top g r with Help _ | Undecided => False | _ => True end).
    { clear - ND. induction r as [|c r IH]; intro H; [exact I|].
      assert (Hc : ~ asks_help c) by (apply H; now left). assert (Hr : forall b, In b r -> ~ asks_help b) by (intros; apply H; now right).
      pose proof (kind_cases g c) as K. destruct (arg_kind_of g c) eqn:Kc; try (exfalso; tauto).
      - rewrite (top_ordinary g c r K). unfold subcommand. destruct (arity c) as [n|]; [|exact I].
        destruct (scan_no_help r Hr) as [[l ->] | ->]; [destruct (Nat.eqb _ _)|]; exact I.
      - rewrite (top_foreign g c r K). specialize (IH Hr). destruct (top g r); try exact I; destruct IH. }
    specialize (T r Hr). destruct (top g r); try reflexivity; destruct T.
Qed.
End Args.

(** ** C115: unit texts.  A text that is a unit is never taken for a request for help. *)
Definition dead_rules (c : N) : bool :=
  forallb (fun e => match step c (step 45%N [snd e]) with [] => true | _ => false end) (rules DEFAULT_MODE).
Definition first_rule (w : str) : option (kind * re) := find (fun e => full_match [snd e] w) (rules DEFAULT_MODE).
Lemma first_token c s ts : dead_rules c = true -> tokenises DEFAULT_MODE (45%N :: c :: s) ts ->
  exists ts', ts = mkTok MULTIPLY [45%N] :: ts'.
Proof.
  intros D T. inversion T as [|m k w rest ts' Tk T' E1 E2 E3]. subst ts m.
  destruct Tk as [NE _ (before & r & after & R & M & B)].
  assert (W : w = [45%N]).
  { destruct w as [|x w]; [now destruct NE|]. injection E2 as -> E2. destruct w as [|y w]; [reflexivity|exfalso].
    injection E2 as -> E2. unfold dead_rules in D. rewrite forallb_forall in D. specialize (D (k, r)). cbn [snd] in D.
    assert (X : matches_any [r] (45 :: c :: w)%N) by (exists r; split; [now left|exact M]).
    apply (proj1 (step_ok _ _ _)) in X. apply (proj1 (step_ok _ _ _)) in X. assert (I : In (k, r) (rules DEFAULT_MODE)) by (rewrite R; apply in_or_app; right; now left). specialize (D I).
    destruct (step c _); [destruct X as (? & [] & _)|discriminate D]. }
  subst w. exists ts'. f_equal. f_equal.
  assert (F : first_rule [45%N] = Some (k, r)).
  { unfold first_rule. rewrite R. clear R T T'. induction before as [|[k' r'] before IH]; cbn [app find snd].
    - now rewrite (proj2 (full_match1 r [45%N]) M).
    - destruct (full_match [r'] [45%N]) eqn:Fm; [exfalso; apply (B k' r' (or_introl eq_refl)); now apply full_match1|].
      apply IH. intros k2 r2 I. apply (B k2 r2). now right. }
  assert (F' : option_map fst (first_rule [45%N]) = Some MULTIPLY) by (vm_compute; reflexivity).
  rewrite F in F'. now injection F'.
Qed.
Lemma no_multiply_first ts w : Parser.p_unit (mkTok MULTIPLY w :: ts) = None.
Proof.
  unfold p_unit, fuel_for. cbn [List.length]. replace (2 * S (List.length ts) + 2)%nat with (S (S (S (S (2 * List.length ts)))))%nat by lia.
  reflexivity.
Qed.
Lemma strip_two c d s : is_space c = false -> is_space d = false -> exists s', strip (c :: d :: s) = c :: d :: s'.
Proof.
  intros C D. destruct (strip_split (c :: d :: s)) as (w1 & w2 & B1 & B2 & E).
  destruct w1 as [|x w1]; [|exfalso; injection E as <- _; cbn in B1; unfold blank in B1; inversion B1; congruence].
  cbn [app] in E. destruct (strip (c :: d :: s)) as [|x [|y t]].
  - exfalso. cbn [app] in E. subst w2. inversion B2. congruence.
  - exfalso. cbn [app] in E. injection E as <- <-. inversion B2. congruence.
  - injection E as <- <- _. exists t. reflexivity.
Qed.
Lemma not_a_unit c s ex : is_text (45%N :: c :: s) -> is_space c = false -> dead_rules c = true -> parse (45%N :: c :: s) <> Ok ex.
Proof.
  intros T C D P. destruct (strip_two 45%N c s eq_refl C) as [s' E]. unfold parse in P.
  assert (Ts : is_text (strip (45%N :: c :: s))) by now apply is_text_strip.
  destruct (lex_total _ Ts) as (ts & L & TK). rewrite L in P. rewrite E in TK.
  destruct (first_token c s' ts D TK) as [ts' ->]. rewrite no_multiply_first in P. discriminate P.
Qed.

Theorem C115_unit_texts_are_no_help_requests :
  forall text g, is_text text -> parse text = Ok g -> ~ asks_help text.
Proof.
  intros t ex T P [[r ->]|(p & q & H & L & G)].
  - revert P. change (u "-h" ++ r) with (45 :: 104 :: r)%N in *. apply not_a_unit; auto; vm_compute; reflexivity.
  - destruct p as [|x [|y p]]; cbn in L; try lia. injection H as <- <- _.
    assert (X : exists r, t = (45 :: 45 :: r)%N) by (destruct G as [-> | [v ->]]; eexists; reflexivity).
    destruct X as [r ->]. revert P. apply not_a_unit; auto; vm_compute; reflexivity.
Qed.

(** ** C115.  Hence every unit text can be passed after "--"; and without it exactly when it
    does not begin with "-", or the Python version takes it for a negative number, or it
    contains a space. *)
Theorem C115_unit_texts_as_arguments :
  forall negnum text g, is_text text -> parse text = Ok g ->
  passes negnum [u "--"; text] [text] /\
  (passes negnum [text] [text] <-> (~ begins_dash text \/ negnum text = true \/ In 32%N text)).
Proof.
  intros ng t ex T P. pose proof (C115_unit_texts_are_no_help_requests t ex T P) as NH.
  assert (ND : t <> u "--") by (intros ->; now apply NH, dashes_ask).
  split; [constructor; intros [I|[]]; auto|]. split.
  - intro H. inversion H as [|a l v O _ E1 E2|]; subst.
    destruct O as [O|[->|[_ O]]]; auto. exfalso. revert P. assert (X : is_ok (parse (u "-")) = false) by (vm_compute; reflexivity).
    intro P. rewrite P in X. discriminate X.
  - intro H. constructor; [|constructor]. destruct H as [H|H]; [now left|right; right; auto].
Qed.

(** ** C116 is false: not every unit text can be given as an argument as it is.  -5m is a
    unit, but up to Python 3.13 explain-unit -5m is an error of usage, while -5 m, -5 and
    -- -5m are read. *)
Theorem C116_unit_texts_can_be_given_as_they_are_refuted :
  exists text, (exists g, parse text = Ok g) /\ is_ok (fst (sys_unit in_order 8 text shipped)) = true /\
  forall load ord stack negnum prog, ~ begins_dash prog -> negnum text = false ->
    main load ord stack negnum [prog; u "explain-unit"; text] = stop (ESystemExit 2) /\
    main load ord stack negnum [prog; u "explain-unit"; u "--"; text] = explain_handler load ord stack text.
Proof.
  exists (u "-5m"). split; [eexists; vm_compute; reflexivity|]. split; [vm_compute; reflexivity|].
  intros ld ord f ng prog N G. split.
  - unfold main. rewrite parse_named by auto. rewrite (top_ordinary ng _ _ (command_ordinary ng (u "explain-unit") 1 ltac:(right; right; now left))).
    assert (F : foreign_option ng (u "-5m")).
    { split; [intros [O|[O|[_ [O|O]]]]|intros [[r R]|(p & q & H & L & E)]].
      - apply O. exists (u "5m"). reflexivity.
      - discriminate O.
      - congruence.
      - change (In 32%N [45; 53; 109]%N) in O. repeat (destruct O as [O|O]; [discriminate O|]). destruct O.
      - discriminate R.
      - destruct p as [|x [|y p]]; cbn in L; try lia. injection H as <- <- _. destruct E as [E|[v E]]; discriminate E. }
    unfold subcommand. cbn [scan]. rewrite (foreign_not_dashes ng _ F), (proj2 (kind_unknown ng _) F). reflexivity.
  - apply main_explain. split; [exact N|]. constructor. intros [E|[]]. discriminate E.
Qed.

(** The hypotheses are met. *)
Example C115_example :
  cli [u "pyudunits2"; u "explain-unit"; u "-x"; u "--he"; u "--"] = mkOut [[HelpOf (Some (u "explain-unit"))]] (Some (ESystemExit 0)) /\
  cli [u "pyudunits2"; u "-x"; u "-h"; u "explain-unit"] = mkOut [[HelpOf None]] (Some (ESystemExit 0)) /\
  help_is_shown python313 [u "-x"; u "-h"; u "explain-unit"] None /\
  help_is_shown python313 [u "explain-unit"; u "-x"; u "--he"; u "--"] (Some (u "explain-unit")) /\
  ~ version_dependent python313 (u "pyudunits2") [u "explain-unit"; u "-5 m"] /\
  passes python313 [u "-5 m"] [u "-5 m"] /\ ~ passes python313 [u "-5m"] [u "-5m"].
Proof.
  assert (N : named (u "pyudunits2")) by (intros [r R]; discriminate R).
  split; [vm_compute; reflexivity|]. split; [vm_compute; reflexivity|].
  split; [apply (help_iff python313 (u "pyudunits2")); [exact N|vm_compute; reflexivity]|].
  split; [apply (help_iff python313 (u "pyudunits2")); [exact N|vm_compute; reflexivity]|].
  split.
  - intros [B|[(a & [<-|[<-|[]]] & c & r & E)|[(l1 & l2 & l3 & E)|(pre & post & E & Q)]]].
    + now apply N.
    + discriminate E.
    + discriminate E.
    + destruct l1 as [|x [|y [|z l1]]]; try discriminate E; destruct l2 as [|? l2]; discriminate E.
    + destruct pre as [|x [|y [|z pre]]]; try discriminate E.
  - split; [apply (scan_values python313); reflexivity|]. intro P. apply (scan_values python313) in P. discriminate P.
Qed.

Print Assumptions C115_every_command_line.
Print Assumptions C115_only_the_values_matter.
Print Assumptions C115_help.
Print Assumptions C115_foreign_options.
Print Assumptions C115_unit_texts_are_no_help_requests.
Print Assumptions C115_unit_texts_as_arguments.
Print Assumptions C116_unit_texts_can_be_given_as_they_are_refuted.
