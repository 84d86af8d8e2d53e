(** * C41, C42, C58, C59: the command line and the legacy methods. *)
From Verif Require Import PyBase PyNum Regex RegexFacts Graph Lexer LexSpec LexerFacts Parser ParserFacts ParserComplete Visitor VisitorFacts ParseFacts Expr Units UnitSpec UnitFacts UnitProofs Sympy Convert
  UnitSystem SystemSpec SystemFacts SystemMore SystemKeep SystemOrd Xml XmlSpec XmlData Database Prop_Database Argparse ArgSpec ArgFacts Cli.
Local Open Scope list_scope.

(** [reads negnum prog args l]: the program's name does not begin with "-" and the arguments
    after the subcommand pass the values [l] (ArgSpec.v). *)
Definition reads (negnum : str -> bool) (prog : str) (args l : list str) : Prop :=
  ~ begins_dash prog /\ passes negnum args l.

(** the two texts; [dq] is a double quote character *)
Definition dq : str := [34%N].
Definition impossible_line (a b : anyunit) : line :=
  [Text (u "It is not possible to convert from "); Text dq; shown a; Text dq; Text (u " to "); Text dq; shown b; Text dq].
Definition possible_line (a b : anyunit) : line :=
  [Text (u "To convert from "); Text dq; shown a; Text dq; Text (u " to "); Text dq; shown b; Text dq;
   Text (u ", apply the following expression:")].

Lemma core_expr e refs a : unit_from_expression e refs = Ok a -> is_expr_unit (core a).
Proof.
  destruct a as [x|x r]; intro E.
  - apply unit_iff in E as [-> _]. exact Logic.I.
  - apply date_iff in E as (? & ? & _ & -> & _). exact Logic.I.
Qed.
Lemma sys_unit_core ord f t s a : fst (sys_unit ord f t s) = Ok a -> is_expr_unit (core a).
Proof.
  unfold sys_unit, mbind, lift. destruct (parse t) as [e|]; [|discriminate].
  destruct (resolve_refs ord (lookup ord f) (identifiers e) s) as [[refs|] s']; [|discriminate]. cbn [fst]. apply core_expr.
Qed.
Lemma converter_core a b : is_expr_unit (core a) -> is_expr_unit (core b) ->
  mk_converter a b = mk_converter (AUnit (core a)) (AUnit (core b)).
Proof.
  destruct a as [[]|[] ra], b as [[]|[] rb]; cbn [core is_expr_unit]; intros A B; try contradiction; reflexivity.
Qed.

Lemma interconvertible_dec x y dx dy : is_expr_unit (core x) -> is_expr_unit (core y) -> udims (core x) = Ok dx -> udims (core y) = Ok dy ->
  interconvertible (dval dx) (dval dy) \/ ~ interconvertible (dval dx) (dval dy).
Proof.
  intros A B Dx Dy. destruct (convertible_dims _ _ _ _ A B Dx Dy) as ([] & E & R); [left; now apply R|right].
  intro Y. apply R in Y. discriminate.
Qed.

(** refused exactly when the exponents are neither equal nor opposite *)
Lemma refused_iff a b dx dy : is_expr_unit (core a) -> is_expr_unit (core b) ->
  udims (core a) = Ok dx -> udims (core b) = Ok dy ->
  (mk_converter a b = Err EIncompatible <-> ~ interconvertible (dval dx) (dval dy)).
Proof.
  intros A B Dx Dy. rewrite (converter_core a b A B). destruct (convertible_dims _ _ _ _ A B Dx Dy) as (r & E & R).
  destruct (converter_incompatible _ _ A B) as [H|[(e & H & _)|(e & H & _)]]; try congruence.
  rewrite H, E. destruct r.
  - split; [discriminate|]. intro X. exfalso. apply X, R. reflexivity.
  - split; [|auto]. intros _ Y. apply R in Y. discriminate.
Qed.

Lemma ni_merge op : (forall a b, not_incompatible (op a b)) -> forall r l, not_incompatible (scope_merge op l r).
Proof. intros H r. induction r as [|[k o] r IH]; intro l; [discriminate|]. cbn [scope_merge]. apply ni_bind; auto. Qed.
Lemma ni_count n : not_incompatible (count n).
Proof.
  induction n; cbn [count]; try discriminate; auto.
  - destruct n2; try discriminate. apply ni_bind; auto. intros l _. induction l as [|[k o] l IH]; [discriminate|]. cbn [scope_scale].
    apply ni_bind; [|intros; apply ni_bind; [apply IH|discriminate]]. destruct o, v; discriminate.
  - apply ni_bind; auto. intros l _. apply ni_bind; auto. intros r _. apply ni_merge. intros [] []; discriminate.
  - apply ni_bind; auto. intros l _. apply ni_bind; auto. intros r _. apply ni_merge. intros [] []; discriminate.
Qed.

Lemma ni_udims x : not_incompatible (udims x).
Proof.
  revert x. fix IH 1. intros [r dl it|d refs]; [destruct dl; discriminate|].
  cbn [udims]. apply ni_bind; [apply ni_split|]. intros [t d'] _. cbn [snd]. apply ni_bind; [apply ni_count|]. intros sc _.
  apply ni_bind; [|discriminate]. generalize (@nil ((str * bool) * Z)). induction sc as [|[k o] sc IHs]; intro acc; [discriminate|].
  apply ni_bind; [|intros; apply IHs].
  clear IHs. induction refs as [|[k' v] rs IHr]; [discriminate|]. destruct (str_eqb k k'); [|exact IHr]. destruct v as [p|y]; [discriminate|].
  apply ni_bind; [apply IH|]. intros m _. generalize acc. induction m as [|[b z] m IHm]; intro acc'; [discriminate|]. cbn [dims_add_all].
  destruct o; [apply IHm|discriminate].
Qed.

Lemma main_reads ld ord f g prog args l cmd n : reads g prog args l -> In (cmd, n) wants -> List.length l = n ->
  main ld ord f g (prog :: cmd :: args) = handle ld ord f cmd l.
Proof.
  intros [N P] W L. unfold main. rewrite (proj2 (run_iff g prog (cmd :: args) cmd l N)); [reflexivity|].
  exists args, n. auto.
Qed.
Lemma main_conv ld ord f g prog args a b : reads g prog args [a; b] ->
  main ld ord f g (prog :: u "conversion-expr" :: args) = conv_expr_handler ld ord f a b.
Proof. intro R. apply (main_reads ld ord f g prog args [a; b] (u "conversion-expr") 2 R); [right; now left|reflexivity]. Qed.
Lemma main_explain ld ord f g prog args a : reads g prog args [a] ->
  main ld ord f g (prog :: u "explain-unit" :: args) = explain_handler ld ord f a.
Proof. intro R. apply (main_reads ld ord f g prog args [a] (u "explain-unit") 1 R); [right; right; now left|reflexivity]. Qed.
Lemma main_debug ld ord f g prog args a : reads g prog args [a] ->
  main ld ord f g (prog :: u "debug-parser" :: args) = debug_handler a.
Proof. intro R. apply (main_reads ld ord f g prog args [a] (u "debug-parser") 1 R); [right; right; right; now left|reflexivity]. Qed.
Lemma main_convert ld ord f g prog args v a b : reads g prog args [v; a; b] ->
  main ld ord f g (prog :: u "convert" :: args) = stop ENotImplemented.
Proof. intro R. apply (main_reads ld ord f g prog args [v; a; b] (u "convert") 3 R); [now left|reflexivity]. Qed.

(** ** C41.  conversion-expr, for every pair of unit texts: the exception of the first text
    that is not a unit; else, when both dimensionalities are defined, the one "not possible"
    line and status 1 if they are neither equal nor opposite, and the two lines with the
    expression if they are (or the exception raised while building the expression).  The
    units are those the freshly loaded system gives for each text alone. *)
Theorem C41_conversion_expr_outcomes :
  forall set_order ord stack negnum s prog args a b, rearranges set_order -> rearranges ord -> (7 < stack)%nat ->
  read_system false set_order db = Ok s -> reads negnum prog args [a; b] ->
  let r := main (read_system false set_order db) ord stack negnum (prog :: u "conversion-expr" :: args) in
  (exists e, fst (sys_unit ord stack a s) = Err e /\ r = stop e) \/
  (exists x e, fst (sys_unit ord stack a s) = Ok x /\ fst (sys_unit ord stack b s) = Err e /\ r = stop e) \/
  (exists x y, fst (sys_unit ord stack a s) = Ok x /\ fst (sys_unit ord stack b s) = Ok y /\
    ((exists e, (udims (core x) = Err e \/ udims (core y) = Err e) /\ r = stop e) \/
     (exists dx dy, udims (core x) = Ok dx /\ udims (core y) = Ok dy /\
       (~ interconvertible (dval dx) (dval dy) /\ r = mkOut [impossible_line x y] (Some (ESystemExit 1)) \/
        interconvertible (dval dx) (dval dy) /\
          ((exists c, mk_converter x y = Ok c /\ r = mkOut [possible_line x y; [ExpressionOf c]] None) \/
           (exists e, mk_converter x y = Err e /\ e <> EIncompatible /\ r = stop e)))))).
Proof.
  intros so ord f ng s prog args a b Ps Po L E NO r. subst r. rewrite (main_conv _ ord f ng prog args a b NO). unfold conv_expr_handler. rewrite E.
  destruct (C36_shipped_database_is_history_independent false so s Ps E ord [Call_unit f a] f Po L) as [_ H].
  specialize (H b) as [H N]. pose proof (proj1 (proj2 (C36_shipped_database_is_history_independent false so s Ps E ord [] f Po L) b)) as H0.
  cbn [after fold_left run] in H, H0. rewrite <- H0 in H. clear H0.
  destruct (sys_unit ord f a s) as [[x|e] s1] eqn:Ea; cbn [fst snd] in *.
  2:{ left. eauto. }
  destruct (sys_unit ord f b s1) as [[y|e] s2] eqn:Eb; cbn [fst snd] in *.
  2:{ right. left. exists x, e. rewrite <- H. auto. }
  right. right. exists x, y. split; [reflexivity|]. split; [congruence|].
  assert (Cx : is_expr_unit (core x)) by (apply (sys_unit_core ord f a s); now rewrite Ea).
  assert (Cy : is_expr_unit (core y)) by (apply (sys_unit_core ord f b s1); now rewrite Eb).
  destruct (udims (core x)) as [dx|e] eqn:Dx.
  2:{ left. exists e. split; auto. rewrite (converter_core x y Cx Cy). destruct (core x) as [|ex rx]; [destruct Cx|].
      unfold mk_converter, dimensionality. rewrite Dx. cbn [bind]. pose proof (ni_udims (UExpr ex rx)) as NI. rewrite Dx in NI. destruct e; try reflexivity. contradiction NI; reflexivity. }
  destruct (udims (core y)) as [dy|e] eqn:Dy.
  2:{ left. exists e. split; auto. rewrite (converter_core x y Cx Cy). destruct (core x) as [|ex rx]; [destruct Cx|]. destruct (core y) as [|ey ry]; [destruct Cy|].
      unfold mk_converter, dimensionality. rewrite Dx, Dy. cbn [bind]. pose proof (ni_udims (UExpr ey ry)) as NI. rewrite Dy in NI. destruct e; try reflexivity. contradiction NI; reflexivity. }
  right. exists dx, dy. split; [reflexivity|]. split; [reflexivity|].
  pose proof (refused_iff x y dx dy Cx Cy Dx Dy) as RI. pose proof (interconvertible_dec x y dx dy Cx Cy Dx Dy) as ID.
  clear E H N Ps Po NO Ea Eb. destruct (mk_converter x y) as [c|e] eqn:K.
  - right. split; [|left; exists c; auto]. destruct ID as [ID|ID]; auto. apply RI in ID. discriminate.
  - destruct ID as [ID|ID]; [right|left].
    + split; auto. right. exists e. split; auto. assert (e <> EIncompatible) by (intros ->; now apply RI in ID). split; auto. destruct e; try reflexivity. congruence.
    + split; auto. apply RI in ID. injection ID as ->. reflexivity.
Qed.

(** ** C41.  Hence status 1 with the "not possible" line exactly for incompatible units. *)
Theorem C41_not_possible_iff_incompatible :
  forall set_order ord stack negnum s prog args a b, rearranges set_order -> rearranges ord -> (7 < stack)%nat ->
  read_system false set_order db = Ok s -> reads negnum prog args [a; b] ->
  let r := main (read_system false set_order db) ord stack negnum (prog :: u "conversion-expr" :: args) in
  (exists x y, r = mkOut [impossible_line x y] (Some (ESystemExit 1))) <->
  (exists x y dx dy, fst (sys_unit ord stack a s) = Ok x /\ fst (sys_unit ord stack b s) = Ok y /\
     udims (core x) = Ok dx /\ udims (core y) = Ok dy /\ ~ interconvertible (dval dx) (dval dy)).
Proof.
  intros so ord f ng s prog args a b Ps Po L E NO r.
  destruct (C41_conversion_expr_outcomes so ord f ng s prog args a b Ps Po L E NO)
    as [(e & A & R)|[(x & e & A & B & R)|(x & y & A & B & [(e & D & R)|(dx & dy & Dx & Dy & [[I R]|[I [(c & K & R)|(e & K & N & R)]]])])]];
    fold r in R; rewrite R; clear E; (split; [intros (x0 & y0 & X)|intros (x0 & y0 & dx0 & dy0 & A0 & B0 & Dx0 & Dy0 & N0)]).
  all: try (exfalso; discriminate X).
  all: try (exfalso; congruence).
  - exfalso. destruct D as [D|D]; congruence.
  - exists x, y, dx, dy. auto.
  - exists x, y. reflexivity.
Qed.

(** "convert" is never available; without subcommand status 1, with an unknown one or a wrong
    number of arguments status 2, nothing on stdout. *)
Theorem C41_other_commands :
  forall load ord stack negnum prog, ~ begins_dash prog ->
  (forall args v a b, reads negnum prog args [v; a; b] ->
     main load ord stack negnum (prog :: u "convert" :: args) = stop ENotImplemented) /\
  (main load ord stack negnum [prog] = stop (ESystemExit 1)) /\
  (forall cmd args, ordinary negnum cmd ->
     ~ In cmd [u "convert"; u "conversion-expr"; u "explain-unit"; u "debug-parser"] ->
     main load ord stack negnum (prog :: cmd :: args) = stop (ESystemExit 2)) /\
  (forall cmd args l n, reads negnum prog args l ->
     In (cmd, n) [(u "convert", 3); (u "conversion-expr", 2); (u "explain-unit", 1); (u "debug-parser", 1)]%nat ->
     List.length l <> n -> main load ord stack negnum (prog :: cmd :: args) = stop (ESystemExit 2)).
Proof.
  intros ld ord f g prog N. split; [intros; eapply main_convert; eauto|]. split.
  - unfold main. now rewrite (proj2 (no_command_iff g prog [] N)).
  - split.
    + intros cmd args O W. unfold main. now rewrite (no_such_command g prog cmd args N O W).
    + intros cmd args l n [_ P] W L. unfold main. now rewrite (wrong_number g prog cmd n args l N W P L).
Qed.

(** ** C58.  explain-unit: the unit's text, its expansion and its dimensionality, unless one
    of them is undefined. *)
Theorem C58_explain_unit_outcomes :
  forall set_order ord stack negnum s prog args text, read_system false set_order db = Ok s -> reads negnum prog args [text] ->
  let r := main (read_system false set_order db) ord stack negnum (prog :: u "explain-unit" :: args) in
  match fst (sys_unit ord stack text s) with
  | Err e => r = stop e
  | Ok a =>
    match expanded (core a), udims (core a) with
    | Err e, _ => r = stop e
    | Ok g, d =>
      let form := match a with AUnit _ => node_str g | ADate _ date => node_str g ++ u " since " ++ date end in
      let two := [[Text (u "Unit: "); shown a]; [Text (u "In basis form: "); Text form]] in
      match d with
      | Ok d => r = mkOut (two ++ [[Text (u "Dimensionality: "); DictOf d]]) None
      | Err e => r = mkOut two (Some e)
      end
    end
  end.
Proof.
  intros so ord f ng s prog args t E NO r. subst r. rewrite (main_explain _ ord f ng prog args t NO). unfold explain_handler. rewrite E. clear E.
  destruct (fst (sys_unit ord f t s)) as [a|e] eqn:A; [|reflexivity].
  destruct a as [[rr dl it|d refs]|x dt]; cbn [core expanded_text].
  - apply sys_unit_core in A. destruct A.
  - destruct (expanded (UExpr d refs)); [|reflexivity]. cbn [bind dimensionality]. destruct (udims (UExpr d refs)); reflexivity.
  - destruct (expanded x); [|reflexivity]. cbn [bind dimensionality]. destruct (udims x); reflexivity.
Qed.

(** ** C59.  debug-parser prints, for a text the grammar accepts, one line per token of its
    unique tokenisation, with the name the grammar gives to the token; the token texts make
    up the stripped text. *)
Definition grammar_name (k : kind) : str :=
  match k with
  | SIGNED_INT => u "SIGNED_INT" | PLUS => u "PLUS" | MULTIPLY => u "MULTIPLY" | DIVIDE => u "DIVIDE"
  | PERIOD => u "PERIOD" | OPEN_PAREN => u "OPEN_PAREN" | CLOSE_PAREN => u "CLOSE_PAREN"
  | SEMICOLON => u "SEMICOLON" | INT => u "INT" | E_POWER => u "E_POWER" | FLOAT => u "FLOAT"
  | SHIFT_OP => u "SHIFT_OP" | UNICODE_EXPONENT => u "UNICODE_EXPONENT" | RAISE => u "RAISE"
  | LOG => u "LOG" | ID => u "ID" | LATIN_SUBSET => u "LATIN_SUBSET" | WS => u "WS"
  | ERRORCHARACTER => u "ERRORCHARACTER" | TIMEZONE => u "TIMEZONE" | TZ => u "TZ"
  | HOUR_MINUTE_SECOND => u "HOUR_MINUTE_SECOND" | HOUR_MINUTE => u "HOUR_MINUTE"
  | M_MINUS => u "M_MINUS" | DATE => u "DATE" | T => u "T" | TIMESTAMP => u "TIMESTAMP"
  end.

Lemma token_names k : token_id_name (Z.of_N (kind_id k)) lexer_rule_names = Some (grammar_name k).
Proof. destruct k; vm_compute; reflexivity. Qed.

(** no token is the text <EOF> *)
Lemma takes_not_eof m k w rest : takes m k w rest -> str_eqb w (u "<EOF>") = false.
Proof.
  intros [_ _ (b & r & a & R & M & _)]. apply str_eqb_neq. intros ->.
  assert (F : forallb (fun e => negb (full_match [snd e] (u "<EOF>"))) (rules m) = true) by (destruct m; vm_compute; reflexivity).
  rewrite forallb_forall in F. specialize (F (k, r)). cbn [snd] in F. rewrite (proj2 (full_match1 r _) M) in F.
  discriminate F. rewrite R. apply in_or_app. right. now left.
Qed.

Lemma token_lines_all m s ts : tokenises m s ts ->
  token_lines ts = mkOut (map (fun t => [Text (ttext t ++ u ": " ++ grammar_name (tkind t))]) ts) None.
Proof.
  induction 1 as [m|m k w rest ts Tk _ IH]; [reflexivity|]. cbn [token_lines map ttext tkind].
  rewrite (takes_not_eof m k w rest Tk), token_names, IH. reflexivity.
Qed.

Theorem C59_debug_parser_shows_the_tokens :
  forall load ord stack negnum prog args text g, is_text text -> reads negnum prog args [text] -> parse text = Ok g ->
  exists ts, tokenises DEFAULT_MODE (strip text) ts /\ text_of ts = strip text /\
    main load ord stack negnum (prog :: u "debug-parser" :: args) =
    mkOut (map (fun t => [Text (ttext t ++ u ": " ++ grammar_name (tkind t))]) ts) None.
Proof.
  intros ld ord f ng prog args t g T NO P. rewrite (main_debug ld ord f ng prog args t NO). unfold debug_handler. unfold parse in P.
  destruct (lex (strip t)) as [ts|] eqn:Lx; [|discriminate]. destruct (Parser.p_unit ts) as [tr|] eqn:Pu; [|discriminate].
  assert (Ts : is_text (strip t)) by (apply is_text_strip; auto).
  destruct (lex_total (strip t) Ts) as (ts' & E' & TK). assert (ts' = ts) by congruence. subst ts'.
  exists ts. split; [exact TK|]. split; [now apply (tokenises_concat DEFAULT_MODE)|now apply (token_lines_all DEFAULT_MODE (strip t))].
Qed.

(** ** Examples *)
(** the negative numbers of Python 3.13, in ASCII digits: "-" digits, or "-" digits "." digits *)
Definition is_digit (c : N) : bool := (48 <=? c)%N && (c <=? 57)%N.
Fixpoint digits_dot (seen : bool) (a : str) : bool :=
  match a with
  | [] => false
  | [c] => is_digit c
  | c :: a' => if is_digit c then digits_dot seen a'
               else if negb seen && N.eqb c 46 then digits_dot true a' else false
  end.
Definition python313 (a : str) : bool := match a with 45%N :: r => digits_dot false r | _ => false end.
Definition cli (argv : list str) : outcome := main (Ok shipped) in_order 8 python313 argv.

Example C41_example :
  cli [u "pyudunits2"; u "conversion-expr"; u "mg"; u "meters"] =
    mkOut [[Text (u "It is not possible to convert from "); Text dq; Text (u "mg"); Text dq; Text (u " to "); Text dq;
            Text (u "meters"); Text dq]] (Some (ESystemExit 1)) /\
  cli [u "pyudunits2"; u "conversion-expr"; u "m/s"; u "s/m"] =
    mkOut [[Text (u "To convert from "); Text dq; Text (u "m/s"); Text dq; Text (u " to "); Text dq;
            Text (u "s/m"); Text dq; Text (u ", apply the following expression:")];
           [ExpressionOf (mkConv [OpRecip])]] None /\
  cli [u "pyudunits2"; u "conversion-expr"; u "mg"; u "m//s"] = stop ESyntax /\
  reads python313 (u "pyudunits2") [u "mg"; u "meters"] [u "mg"; u "meters"] /\
  cli [u "pyudunits2"; u "conversion-expr"; u "-5"; u "--"; u "-5m"] =
  cli [u "pyudunits2"; u "conversion-expr"; u "--"; u "-5"; u "-5m"] /\
  reads python313 (u "pyudunits2") [u "-5"; u "--"; u "-5m"] [u "-5"; u "-5m"].
Proof.
  split; [vm_compute; reflexivity|]. split; [vm_compute; reflexivity|]. split; [vm_compute; reflexivity|].
  split.
  { split; [intros [r R]; discriminate R|]. apply (scan_values python313). reflexivity. }
  split; [vm_compute; reflexivity|].
  split; [intros [r R]; discriminate R|]. apply (scan_values python313). reflexivity.
Qed.
Example C58_example :
  cli [u "pyudunits2"; u "explain-unit"; u "mg"] =
  mkOut [[Text (u "Unit: "); Text (u "mg")]; [Text (u "In basis form: "); Text (u "0.001·0.001·kilogram")];
         [Text (u "Dimensionality: "); DictOf [((u "kilogram", false), 1%Z)]]] None.
Proof. vm_compute. reflexivity. Qed.
Example C59_example :
  printed (cli [u "pyudunits2"; u "debug-parser"; u " m2 per s "]) =
  [[Text (u "m: ID")]; [Text (u "2: INT")]; [Text (u " per : DIVIDE")]; [Text (u "s: ID")]].
Proof. vm_compute. reflexivity. Qed.

(** ** C42 is false: basis_of and conversion_expr fail whatever they are given, importing
    modules that do not exist. *)
Theorem C42_legacy_methods_refuted :
  forall s a b, fst (basis_of a s) = Err EModuleNotFound /\ fst (conversion_expr a b s) = Err EModuleNotFound.
Proof. split; reflexivity. Qed.

Print Assumptions C41_conversion_expr_outcomes.
Print Assumptions C41_not_possible_iff_incompatible.
Print Assumptions C41_other_commands.
Print Assumptions C58_explain_unit_outcomes.
Print Assumptions C59_debug_parser_shows_the_tokens.
Print Assumptions C42_legacy_methods_refuted.
