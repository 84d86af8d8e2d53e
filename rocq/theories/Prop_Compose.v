(** * C120, C121: unit texts built from unit texts *)
From Verif Require Import PyBase PyNum Graph Regex RegexFacts Lexer LexSpec LexerFacts Parser GrammarSpec Visitor
  VisitSpec VisitorFacts ParserFacts ParserComplete ParseFacts NumFacts ReDisjoint PrintSpec PrintNum PrintLex PrintParse
  ShiftSpec ShiftFacts Units UnitSystem UnitSpec SystemSpec SystemOrd ConvertSpec BaseSpec Prop_Base
  Xml XmlSpec XmlData Database Prop_Database Prop_BaseDb ComposeSpec.
From Coq Require Import Lia.
Open Scope list_scope.

(** ** Operations between brackets *)
Definition good (t : str) (ts : list token) (g : node) : Prop :=
  is_text t /\ t <> [] /\ strip t = t /\ tokenises DEFAULT_MODE t ts /\ Forall (fun k => tkind k <> SHIFT_OP) ts /\
  read_as Shift_spec ts g.
Definition brk (ts : list token) : list token := tk_open :: ts ++ [tk_close].

Lemma good_part t g : part t -> parse t = Ok g -> exists ts, good t ts g.
Proof.
  intros (T & N & S & F) P. apply parse_reads in P as (ts & x & L & D & X & R); auto. rewrite S in L.
  assert (NT : ts <> []) by (intros ->; inversion L; subst; contradiction).
  exists ts. split; [exact T |]. split; [exact N |]. split; [exact S |]. split; [exact L |]. split; [now apply F |].
  now apply (unit_shift ts x).
Qed.
Lemma parse_good t ts g : good t ts g -> parse t = Ok g.
Proof.
  intros (T & N & S & L & _ & (x & D & X & R)). apply parse_reads; [exact T |]. rewrite S.
  exists ts, (PNode Unit_spec [x; PEOF]). split; [exact L |]. split; [now constructor |]. split; [| now constructor].
  apply preferred_node. split; [exact I |]. repeat constructor; auto.
Qed.
Lemma good_is_part t ts g : good t ts g -> part t.
Proof.
  intros (T & N & S & L & F & _). split; [exact T |]. split; [exact N |]. split; [exact S |].
  intros ts' L'. now rewrite (tokenises_unique _ _ _ _ L' L).
Qed.

Lemma mode_stays ts : Forall (fun k => tkind k <> SHIFT_OP) ts -> forall m, m <> SHIFT_MODE -> mode_after m ts <> SHIFT_MODE.
Proof.
  induction 1 as [| t ts Ht C IH]; intros m Hm; cbn; auto. apply IH.
  destruct m; cbn; try congruence. destruct (tkind t); congruence.
Qed.
Lemma in_brackets_text t : is_text t -> is_text (in_brackets t).
Proof. intro T. unfold in_brackets. rewrite !is_text_app. repeat split; auto; repeat constructor; vm_compute; discriminate. Qed.
Lemma brk_tokens t ts g rest tr : good t ts g -> is_text rest -> tokenises DEFAULT_MODE rest tr ->
  tokenises DEFAULT_MODE (in_brackets t ++ rest) (brk ts ++ tr).
Proof.
  intros (T & N & S & L & F & _) Tr Lr. unfold in_brackets, brk. cbn [u app].
  change (u "(" ++ t ++ u ")") with (40%N :: t ++ [41%N]). cbn [app]. rewrite <- !app_assoc. cbn [app].
  apply bracketed_tokens; auto. change (next_mode DEFAULT_MODE OPEN_PAREN) with DEFAULT_MODE.
  assert (M := mode_stays _ F DEFAULT_MODE). destruct (after_punct (mode_after DEFAULT_MODE ts) CLOSE_PAREN) as [E | E]; try discriminate.
  - now rewrite E.
  - exfalso. apply M; [discriminate |]. destruct (mode_after DEFAULT_MODE ts); cbn in E; congruence.
Qed.
Lemma brk_tokens_end t ts g : good t ts g -> tokenises DEFAULT_MODE (in_brackets t) (brk ts).
Proof. intro G. rewrite <- (app_nil_r (in_brackets t)), <- (app_nil_r (brk ts)). apply (brk_tokens t ts g [] []); auto; constructor. Qed.
Lemma brk_quiet ts : Forall (fun k => tkind k <> SHIFT_OP) ts -> Forall (fun k => tkind k <> SHIFT_OP) (brk ts).
Proof. intro F. unfold brk. constructor; [discriminate |]. apply Forall_app. split; auto. repeat constructor. discriminate. Qed.

(** the tokens of a sign before an opening bracket *)
Definition sign_tokens (s : str) : list token :=
  if str_eqb s (u "") then []
  else if str_eqb s (u " ") then [tk_space]
  else if str_eqb s (u "*") || str_eqb s (u "·") || str_eqb s (u "-") then [mkTok MULTIPLY s]
  else if str_eqb s (u "^") || str_eqb s (u "**") then [mkTok RAISE s]
  else [mkTok DIVIDE s].

Lemma before_open k c w rest :
  (forallb (fun m => token_check m k (lit (c :: w)) (Seq (ch 40) r_rest) &&
    match rule_of k (rules m) with Some r => full_match [r] (c :: w) | None => false end) [DEFAULT_MODE] = true)%N ->
  next_mode DEFAULT_MODE k = DEFAULT_MODE ->
  is_text (c :: w) -> is_text (40%N :: rest) -> forall ts, tokenises DEFAULT_MODE (40%N :: rest) ts ->
  tokenises DEFAULT_MODE ((c :: w) ++ 40%N :: rest) (mkTok k (c :: w) :: ts).
Proof.
  intros C M T R ts L. apply (tok_step DEFAULT_MODE k (c :: w) (40%N :: rest)); [| now rewrite M].
  apply (takes_fixed [DEFAULT_MODE] _ _ _ _ (Seq (ch 40) r_rest)); [exact C | now left | apply is_text_app; now split |].
  apply is_text_cons in R. destruct R as [_ R]. unfold ch. now apply follows_class.
Qed.

Definition is_sign (s : str) : Prop := In s times_signs \/ In s over_signs \/ In s [u "^"; u "**"].
Lemma sign_step s rest ts : is_sign s -> is_text (40%N :: rest) -> tokenises DEFAULT_MODE (40%N :: rest) ts ->
  tokenises DEFAULT_MODE (s ++ 40%N :: rest) (sign_tokens s ++ ts).
Proof.
  intros H R L. unfold is_sign, times_signs, over_signs in H. cbn [In] in H.
  repeat match type of H with _ \/ _ => destruct H as [H | H] end; try contradiction; subst s;
    try exact L;
    (apply before_open; [vm_compute; reflexivity | reflexivity | repeat constructor; vm_compute; discriminate | exact R | exact L]).
Qed.
Lemma sign_text s : is_sign s -> is_text s.
Proof.
  intro H. unfold is_sign, times_signs, over_signs in H. cbn [In] in H.
  repeat match type of H with _ \/ _ => destruct H as [H | H] end; try contradiction; subst s;
    repeat constructor; vm_compute; discriminate.
Qed.
Lemma sign_quiet s : Forall (fun k => tkind k <> SHIFT_OP) (sign_tokens s).
Proof.
  unfold sign_tokens. repeat match goal with |- context [if ?b then _ else _] => destruct b end; repeat constructor; discriminate.
Qed.

(** ** The reading of operations *)
Definition brk_tree (t : ptree) : ptree := PNode Power [PNode Logarithm_r [PNode Basic_spec [PLeaf tk_open; t; PLeaf tk_close]]].
Lemma brk_basic ts g : read_as Shift_spec ts g -> exists t,
  let l := PNode Logarithm_r [PNode Basic_spec [PLeaf tk_open; t; PLeaf tk_close]] in
  derives Logarithm_r (brk ts) l /\ preferred l /\ reads l g.
Proof.
  intros (t & D & P & R). exists t. cbv zeta. split; [| split].
  - constructor. apply (D_basic_paren tk_open ts t tk_close); auto; reflexivity.
  - apply preferred1; auto; [| discriminate]. apply preferred_node. split; [exact I |].
    constructor; [exact I |]. constructor; auto. repeat constructor.
  - constructor. apply R_basic_paren; auto; reflexivity.
Qed.
Lemma brk_power ts g : read_as Shift_spec ts g -> exists t,
  derives Power (brk ts) (brk_tree t) /\ preferred (brk_tree t) /\ reads (brk_tree t) g.
Proof.
  intro H. destruct (brk_basic ts g H) as (t & D & P & R). exists t. unfold brk_tree. split; [now constructor |].
  split; [apply preferred1; auto; discriminate | now constructor].
Qed.
Lemma brk_product ts g : read_as Shift_spec ts g -> exists t,
  let p := PNode Product [brk_tree t] in derives Product (brk ts) p /\ preferred p /\ reads p g.
Proof.
  intro H. destruct (brk_power ts g H) as (t & D & P & R). exists t. cbv zeta. split; [now constructor |].
  split; [apply preferred1; auto; discriminate | now constructor].
Qed.

Lemma read_times sign ta a tb b : In sign times_signs -> read_as Shift_spec ta a -> read_as Shift_spec tb b ->
  read_as Shift_spec (brk ta ++ sign_tokens sign ++ brk tb) (Multiply a b).
Proof.
  intros H A B. apply shift_product. destruct (brk_product ta a A) as (x & D & P & R). destruct (brk_power tb b B) as (y & E & Q & T).
  set (p := PNode Product [brk_tree x]) in *.
  assert (J : forall o, kinded MULTIPLY o -> read_as Product (brk ta ++ o :: brk tb) (Multiply a b)).
  { intros o O. exists (PNode Product [p; PLeaf o; brk_tree y]). split; [now apply D_product_multiply |]. split; [| now constructor].
    apply preferred_node. split; [exact I |]. repeat (constructor; [first [assumption | exact I] |]). constructor. }
  unfold times_signs in H. cbn [In] in H.
  repeat match type of H with _ \/ _ => destruct H as [H | H] end; try contradiction; subst sign; cbn [sign_tokens]; try (apply J; reflexivity).
  - exists (PNode Product (p :: map PLeaf [tk_space] ++ [brk_tree y])). split; [| split].
    + apply (D_product_space (brk ta) p [tk_space]); auto; [discriminate | repeat constructor].
    + apply preferred_node. split; [exact I |]. repeat (constructor; [first [assumption | exact I] |]). constructor.
    + apply R_product_space; auto; [discriminate | repeat constructor].
  - exists (PNode Product [p; brk_tree y]). split; [| split].
    + now apply D_product_juxtaposed.
    + apply preferred_node. split; [discriminate |]. repeat (constructor; [assumption |]). constructor.
    + now apply R_product_juxtaposed.
Qed.
Lemma read_over sign ta a tb b : In sign over_signs -> read_as Shift_spec ta a -> read_as Shift_spec tb b ->
  read_as Shift_spec (brk ta ++ sign_tokens sign ++ brk tb) (Divide a b).
Proof.
  intros H A B. apply shift_product. destruct (brk_product ta a A) as (x & D & P & R). destruct (brk_power tb b B) as (y & E & Q & T).
  set (p := PNode Product [brk_tree x]) in *.
  assert (J : forall o, kinded DIVIDE o -> read_as Product (brk ta ++ o :: brk tb) (Divide a b)).
  { intros o O. exists (PNode Product [p; PLeaf o; brk_tree y]). split; [now apply D_product_divide |]. split; [| now apply R_product_divide].
    apply preferred_node. split; [exact I |]. repeat (constructor; [first [assumption | exact I] |]). constructor. }
  unfold over_signs in H. cbn [In] in H.
  repeat match type of H with _ \/ _ => destruct H as [H | H] end; try contradiction; subst sign; apply J; reflexivity.
Qed.
Lemma read_raised sign ta a n : In sign power_signs -> short (Z_str n) -> read_as Shift_spec ta a ->
  read_as Shift_spec (brk ta ++ (if str_eqb sign [] then [] else sign_tokens sign) ++ [num_tok (NInt n)]) (Raise a (Number (NInt n) (Some (Z_str n)))).
Proof.
  intros H S A. apply shift_product. destruct (brk_basic ta a A) as (x & D & P & R).
  set (l := PNode Logarithm_r _) in *. destruct (exponent_reads (NInt n) S) as [Ti Ri].
  set (i := num_tok (NInt n)) in *. change (renumber (NInt n)) with (Number (NInt n) (Some (Z_str n))) in Ri.
  assert (Up : read_as Power (brk ta ++ (if str_eqb sign [] then [] else sign_tokens sign) ++ [i]) (Raise a (Number (NInt n) (Some (Z_str n)))) ).
  { unfold power_signs in H. cbn [In] in H.
    assert (J : forall r, kinded RAISE r -> read_as Power (brk ta ++ r :: [i]) (Raise a (Number (NInt n) (Some (Z_str n))))).
    { intros r K. exists (PNode Power [l; PLeaf r; PNode Integer_r [PLeaf i]]). split; [| split].
      - constructor; auto. now constructor.
      - apply preferred_node. split; [exact I |]. repeat (constructor; [first [assumption | exact I] |]). constructor; [| constructor].
        apply preferred_node. split; [exact I |]. repeat constructor.
      - now constructor. }
    repeat match type of H with _ \/ _ => destruct H as [H | H] end; try contradiction; subst sign; try (apply J; reflexivity).
    exists (PNode Power [l; PNode Integer_r [PLeaf i]]). split; [| split].
    - apply D_power_integer; auto. now constructor.
    - apply preferred_node. split; [exact I |]. repeat (constructor; [first [assumption | exact I] |]). constructor; [| constructor].
      apply preferred_node. split; [exact I |]. repeat constructor.
    - now constructor. }
  destruct Up as (t & Dt & Pt & Rt). exists (PNode Product [t]). split; [now constructor |]. split; [| now constructor].
  apply preferred1; auto. discriminate.
Qed.
Lemma read_bracketed ta a : read_as Shift_spec ta a -> read_as Shift_spec (brk ta) a.
Proof.
  intro A. apply shift_product. destruct (brk_product ta a A) as (x & D & P & R). exists (PNode Product [brk_tree x]). auto.
Qed.

(** ** Recipes *)
Lemma bracket_first x : exists s, in_brackets x = 40%N :: s.
Proof. now exists (x ++ u ")"). Qed.
Lemma bracket_end p x : exists s, p ++ in_brackets x = s ++ [41%N].
Proof. exists (p ++ u "(" ++ x). unfold in_brackets. now rewrite <- !app_assoc. Qed.
Lemma stripped_text t d s1 s2 : t = 40%N :: s1 -> t = s2 ++ [d] -> is_space d = false -> strip t = t.
Proof. intros A B C. now apply (strip_same t 40%N d s1 s2). Qed.

Lemma good_bracketed t ts g : good t ts g -> good (in_brackets t) (brk ts) g.
Proof.
  intro G. pose proof G as (T & N & S & L & F & R). split; [now apply in_brackets_text |]. split; [discriminate |].
  split; [| split; [exact (brk_tokens_end t ts g G) | split; [now apply brk_quiet | now apply read_bracketed]]].
  destruct (bracket_first t) as (s1 & E1). destruct (bracket_end [] t) as (s2 & E2). cbn [app] in E2.
  now apply (stripped_text _ 41%N s1 s2).
Qed.
Lemma good_two sign ta a ga tb b gb g : is_sign sign -> good a ta ga -> good b tb gb ->
  read_as Shift_spec (brk ta ++ sign_tokens sign ++ brk tb) g ->
  good (in_brackets a ++ sign ++ in_brackets b) (brk ta ++ sign_tokens sign ++ brk tb) g.
Proof.
  intros H A B R. pose proof A as (Ta & _ & _ & _ & Fa & _). pose proof B as (Tb & _ & _ & _ & Fb & _).
  pose proof (in_brackets_text a Ta) as Ia. pose proof (in_brackets_text b Tb) as Ib. pose proof (sign_text sign H) as Is.
  split; [rewrite !is_text_app; auto |]. split; [discriminate |]. split; [| split; [| split; [| exact R]]].
  - destruct (bracket_first a) as (s1 & E1). destruct (bracket_end (in_brackets a ++ sign) b) as (s2 & E2).
    apply (stripped_text _ 41%N (s1 ++ sign ++ in_brackets b) s2); [now rewrite E1 | now rewrite app_assoc | reflexivity].
  - apply (brk_tokens a ta ga); auto; [now rewrite is_text_app |]. destruct (bracket_first b) as (s & E). rewrite E in *.
    apply sign_step; auto. rewrite <- E. exact (brk_tokens_end b tb gb B).
  - rewrite !Forall_app. auto using brk_quiet, sign_quiet.
Qed.
Lemma number_end n : short (Z_str n) ->
  tokenises DEFAULT_MODE (Z_str n) [num_tok (NInt n)] /\ is_text (Z_str n) /\
  exists c s, Z_str n = c :: s /\ in_ranges num_ranges c = true.
Proof.
  intro S. pose proof (num_token (NInt n) (or_intror S)) as R.
  destruct (takes_number (NInt n) _ false [] R) as [K T]; [constructor | apply follows_nil |].
  change (num_str (NInt n)) with (Z_str n) in *. split; [| split; [exact T |]].
  - rewrite <- (app_nil_r (Z_str n)). apply (tok_step DEFAULT_MODE (num_kind (NInt n)) (Z_str n) [] []); [exact K | constructor].
  - destruct (num_start (NInt n) _ R) as (c & s & E & H). change (num_str (NInt n)) with (Z_str n) in E. now exists c, s.
Qed.
Lemma raise_step sign n : In sign power_signs -> short (Z_str n) ->
  tokenises DEFAULT_MODE (sign ++ Z_str n) ((if str_eqb sign [] then [] else sign_tokens sign) ++ [num_tok (NInt n)]) /\
  is_text (sign ++ Z_str n).
Proof.
  intros H S. destruct (number_end n S) as (L & T & c & s & E & C). unfold power_signs in H. cbn [In] in H.
  repeat match type of H with _ \/ _ => destruct H as [H | H] end; try contradiction; subst sign.
  - split; [| apply is_text_app; split; auto; repeat constructor; vm_compute; discriminate].
    apply (tok_step DEFAULT_MODE RAISE (u "^") (Z_str n)); [now apply takes_raise | exact L].
  - split; [| apply is_text_app; split; auto; repeat constructor; vm_compute; discriminate].
    apply (tok_step DEFAULT_MODE RAISE (u "**") (Z_str n)); [| exact L].
    change (u "**") with [42%N; 42%N]. apply (takes_fixed [DEFAULT_MODE] _ _ _ _ (Seq (Chr num_ranges) r_rest)); [vm_compute; reflexivity | now left | |].
    + apply is_text_app; split; auto; repeat constructor; vm_compute; discriminate.
    + rewrite E in *. apply is_text_cons in T. now apply follows_class.
  - split; [exact L | exact T].
Qed.
Lemma good_raised sign n ta a g : In sign power_signs -> short (Z_str n) -> good a ta g ->
  good (in_brackets a ++ sign ++ Z_str n) (brk ta ++ (if str_eqb sign [] then [] else sign_tokens sign) ++ [num_tok (NInt n)])
    (Raise g (Number (NInt n) (Some (Z_str n)))).
Proof.
  intros H S A. pose proof A as (T & _ & _ & _ & F & R). destruct (raise_step sign n H S) as [L Ts].
  split; [apply is_text_app; split; [now apply in_brackets_text | exact Ts] |]. split; [discriminate |]. split; [| split; [| split]].
  - destruct (bracket_first a) as (s1 & E1). destruct (num_last (NInt n) (or_intror S)) as (s2 & d & E2 & D).
    change (num_str (NInt n)) with (Z_str n) in E2.
    apply (stripped_text _ d (s1 ++ sign ++ Z_str n) (in_brackets a ++ sign ++ s2)); [now rewrite E1 | now rewrite E2, <- !app_assoc | exact D].
  - now apply (brk_tokens a ta g).
  - rewrite !Forall_app. split; [now apply brk_quiet |]. split.
    + destruct (str_eqb sign []); [constructor | apply sign_quiet].
    + constructor; [| constructor]. destruct (num_kind_exponent (NInt n) S) as [K | K]; cbn [tkind num_tok]; rewrite K; discriminate.
  - now apply read_raised.
Qed.
Lemma log_first f : In f log_names -> exists w, f = 108%N :: w.
Proof. intros [<- | [<- | [<- | [<- | []]]]]; eexists; reflexivity. Qed.
Lemma good_level f a ta g : In f log_names -> good a ta g ->
  good (f ++ u "(re " ++ in_brackets a ++ u ")") (tk_log f :: brk ta ++ [tk_close]) (Logarithm f g).
Proof.
  intros H A. pose proof A as (T & _ & _ & _ & F & R). pose proof (in_brackets_text a T) as Ia.
  assert (Tc : is_text (u ")")) by (repeat constructor; vm_compute; discriminate).
  split; [| split; [| split; [| split; [| split]]]].
  - apply is_text_app. split; [now apply log_name_text |]. apply is_text_app. split; [repeat constructor; vm_compute; discriminate |].
    apply is_text_app. now split.
  - intro E. apply app_eq_nil in E. destruct E as [_ E]. discriminate E.
  - destruct (log_first f H) as (w & ->).
    apply (strip_same _ 108%N 41%N (w ++ u "(re " ++ in_brackets a ++ u ")") ((108%N :: w) ++ u "(re " ++ in_brackets a));
      [reflexivity | now rewrite <- !app_assoc | reflexivity | reflexivity].
  - change (f ++ u "(re " ++ in_brackets a ++ u ")") with (f ++ (u "(re ") ++ (in_brackets a ++ u ")")). rewrite app_assoc.
    apply (tok_step DEFAULT_MODE LOG (f ++ u "(re ") (in_brackets a ++ u ")")).
    + destruct (bracket_first a) as (s & E). rewrite E in *. apply (takes_log f false 40%N (s ++ u ")")); auto.
      change (40%N :: s ++ u ")") with ((40%N :: s) ++ u ")"). now apply is_text_app.
    + apply (brk_tokens a ta g); auto. apply (tok_step DEFAULT_MODE CLOSE_PAREN (u ")") []); [| constructor]. apply takes_close. constructor.
  - constructor; [discriminate |]. apply Forall_app. split; [now apply brk_quiet |]. repeat constructor. discriminate.
  - apply shift_log; auto. now apply read_bracketed.
Qed.

Lemma good_recipe (m : str -> node -> Prop) r g : (forall t h, m t h -> part t /\ parse t = Ok h) -> made m r g -> exists ts, good (text r) ts g.
Proof.
  intros M H. induction H as [t g H | a g H IH | sign a b g h I A IHa B IHb | sign a b g h I A IHa B IHb | sign a n g I S A IHa | f a g I A IHa]; cbn [text].
  - destruct (M t g H) as [P E]. now apply good_part.
  - destruct IH as (ts & G). exists (brk ts). now apply good_bracketed.
  - destruct IHa as (ta & Ga), IHb as (tb & Gb). eexists. apply (good_two sign ta (text a) g tb (text b) h); auto; [now left |].
    apply read_times; [exact I | apply Ga | apply Gb].
  - destruct IHa as (ta & Ga), IHb as (tb & Gb). eexists. apply (good_two sign ta (text a) g tb (text b) h); auto; [now right; left |].
    apply read_over; [exact I | apply Ga | apply Gb].
  - destruct IHa as (ta & Ga). eexists. exact (good_raised sign n ta (text a) g I S Ga).
  - destruct IHa as (ta & Ga). eexists. exact (good_level f (text a) ta g I Ga).
Qed.

(** C120.  Texts put together from texts stand for what their parts stand for, put together; and they can
    be parts again. *)
Theorem C120_composed_texts_are_read_as_composed :
  forall r g, made (fun t h => part t /\ parse t = Ok h) r g -> parse (text r) = Ok g /\ part (text r).
Proof.
  intros r g H. destruct (good_recipe _ r g (fun t h K => K) H) as (ts & G). split; [now apply (parse_good _ ts) | now apply (good_is_part _ ts g)].
Qed.

(** An offset comes last. *)
Theorem C120_offset_of_a_composed_text :
  forall r g v, made (fun t h => part t /\ parse t = Ok h) r g -> number_ok v ->
  parse (in_brackets (text r) ++ u " @ " ++ num_str v) = Ok (Shift g (renumber v)).
Proof.
  intros r g v H V. destruct (good_recipe _ r g (fun t h K => K) H) as (ts & G). pose proof G as (T & _ & _ & _ & _ & R).
  pose proof (num_token v (or_introl V)) as Nv. destruct (num_start v _ Nv) as (c & w & E & C).
  destruct (takes_number v _ true [] Nv) as [K Tv]; [constructor | apply follows_nil |].
  assert (To : is_text (u " @ " ++ num_str v)) by (apply is_text_app; split; auto; repeat constructor; vm_compute; discriminate).
  assert (Tx : is_text (in_brackets (text r) ++ u " @ " ++ num_str v)) by (apply is_text_app; split; auto using in_brackets_text).
  destruct (brk_product ts g R) as (p & Dp & Pp & Rp).
  destruct (shift_number (brk ts) g v) as (x & Dx & Px & Rx); [eexists; split; [exact Dp | split; [exact Pp | exact Rp]] | exact V |].
  apply parse_reads; [exact Tx |].
  exists (brk ts ++ tk_space :: tk_at :: tk_space :: [num_tok v]), (PNode Unit_spec [x; PEOF]).
  split; [| split; [now constructor | split; [| now constructor]]].
  2:{ apply preferred_node. split; [exact Logic.I |]. repeat constructor; auto. }
  assert (S : strip (in_brackets (text r) ++ u " @ " ++ num_str v) = in_brackets (text r) ++ u " @ " ++ num_str v).
  { destruct (bracket_first (text r)) as (s1 & E1). destruct (num_last v (or_introl V)) as (s2 & d & E2 & D).
    apply (stripped_text _ d (s1 ++ u " @ " ++ num_str v) (in_brackets (text r) ++ u " @ " ++ s2)); [now rewrite E1 | now rewrite E2, <- !app_assoc | exact D]. }
  rewrite S. apply (brk_tokens (text r) ts g); auto.
  change (u " @ " ++ num_str v) with (32%N :: 64%N :: 32%N :: num_str v).
  assert (T1 : is_text (32%N :: num_str v)) by (apply is_text_cons; split; [lia | exact Tv]).
  apply (tok_step DEFAULT_MODE WS [32%N] (64%N :: 32%N :: num_str v)); [now apply takes_space_at |].
  apply (tok_step _ SHIFT_OP [64%N] (32%N :: num_str v)); [now apply takes_at |].
  apply (tok_step SHIFT_MODE WS [32%N] (num_str v)).
  - rewrite E in *. now apply takes_space_num.
  - rewrite <- (app_nil_r (num_str v)). apply (tok_step SHIFT_MODE (num_kind v) (num_str v) [] []); [exact K | constructor].
Qed.

(** The tokens of a shift need their characters. *)
Theorem C120_which_texts_are_parts :
  forall t, is_text t -> t <> [] -> strip t = t ->
  (forall w p q, In w [u "@"; u "after"; u "from"; u "since"; u "ref"] -> t <> p ++ w ++ q) -> part t.
Proof.
  intros t T N S F. split; [exact T |]. split; [exact N |]. split; [exact S |]. intros ts L.
  apply Forall_forall. intros k K E. pose proof (well_lexed_all t ts L) as W. rewrite Forall_forall in W. specialize (W k K).
  destruct (in_split k ts K) as (l1 & l2 & ->). pose proof (tokenises_concat _ _ _ L) as X.
  apply (F (ttext k) (text_of l1) (text_of l2)).
  - apply shift_op_words. destruct W as (m & r & W & M). rewrite E in W. apply kind_rule_unique in W; [| discriminate | discriminate].
    assert (Q : rule_of SHIFT_OP (rules m) = Some r_shift_op) by (destruct m; vm_compute; reflexivity).
    rewrite Q in W. injection W as <-. exact M.
  - rewrite <- X. unfold text_of. rewrite map_app, concat_app. reflexivity.
Qed.

(** ** Meaning *)
(** Written out in basis units, the text of a recipe is the recipe of its parts written out. *)
Theorem C120_composed_texts_written_out :
  forall s r e, made (fun t h => part t /\ base_text s t h) r e -> base_text s (text r) e.
Proof.
  intros s r e H. assert (G : exists g, made (fun t h => part t /\ parse t = Ok h) r g /\ base_expr s g e).
  { induction H as [t e [P (g & E & B)] | a e H (g & M & B) | sign a b e f I A (g & M & B) Hb (h & M' & B') | sign a b e f I A (g & M & B) Hb (h & M' & B')
      | sign a n e I S A (g & M & B) | f a e I A (g & M & B)].
    - exists g. split; [now constructor | exact B].
    - exists g. split; [now constructor | exact B].
    - exists (Multiply g h). split; now constructor.
    - exists (Divide g h). split; now constructor.
    - exists (Raise g (Number (NInt n) (Some (Z_str n)))). split; now constructor.
    - exists (Logarithm f g). split; now constructor. }
  destruct G as (g & M & B). exists g. split; [now apply C120_composed_texts_are_read_as_composed | exact B].
Qed.

(** So unit() returns the unit of that size, after any calls. *)
Theorem C120_units_of_composed_texts :
  forall ord s dl tm r e, rearranges ord -> clash_free s -> orderly dl tm s ->
  made (fun t h => part t /\ base_text s t h) r e -> measurable e ->
  (forall a b, e <> Shift a b) ->
  exists x, describable dl x e /\
    forall history, exists enough, forall stack, (enough <= stack)%nat ->
      fst (sys_unit ord stack (text r) (after ord s history)) = Ok (AUnit x).
Proof.
  intros ord s dl tm r e Po C O H M N. apply (C90_texts_are_what_they_are_written_out_to ord s dl tm); auto.
  - now apply C120_composed_texts_written_out.
  - destruct e; try exact Logic.I. exfalso. now apply (N e1 e2).
Qed.

(** ** Blanks *)
Fixpoint clash_behind (p : kind) (ts : list token) : bool :=
  match ts with [] => false | t :: r => apart p (tkind t) || clash_behind (tkind t) r end.
Fixpoint last_kind (p : kind) (ts : list token) : kind := match ts with [] => p | t :: r => last_kind (tkind t) r end.
Definition ender (k : kind) : bool := match k with WS | OPEN_PAREN | MULTIPLY | RAISE | LOG => false | _ => true end.
Definition plain (k : kind) : bool := match k with OPEN_PAREN | MULTIPLY | RAISE | LOG | UNICODE_EXPONENT => false | _ => true end.

Lemma clash_app a : forall p b, clash_behind p (a ++ b) = clash_behind p a || clash_behind (last_kind p a) b.
Proof. induction a as [| x a IH]; intros p b; cbn; [reflexivity |]. now rewrite IH, orb_assoc. Qed.
Lemma last_app a : forall p b, last_kind p (a ++ b) = last_kind (last_kind p a) b.
Proof. induction a as [| x a IH]; intros p b; cbn; auto. Qed.
Lemma ender_ok p y : ender p = true -> apart p y = false.
Proof. destruct p; cbn; intro H; try discriminate H; reflexivity. Qed.
Lemma plain_ok p y : plain p = true -> plain y = true -> apart p y = false.
Proof. destruct p, y; cbn; intros H1 H2; try discriminate H1; try discriminate H2; reflexivity. Qed.
Lemma plains_ok ts : forall p, plain p = true -> Forall (fun t => plain (tkind t) = true) ts -> clash_behind p ts = false.
Proof.
  induction ts as [| t ts IH]; intros p Hp H; cbn; [reflexivity |]. inversion H; subst.
  now rewrite plain_ok, IH.
Qed.
Lemma ender_plains_ok p ts : ender p = true -> Forall (fun t => plain (tkind t) = true) ts -> clash_behind p ts = false.
Proof.
  intros Hp H. destruct H as [| t ts Ht H]; cbn; [reflexivity |]. now rewrite ender_ok, (plains_ok ts).
Qed.
Lemma kinded_plain k t : plain k = true -> kinded k t -> plain (tkind t) = true.
Proof. unfold kinded. now intros H ->. Qed.
Lemma integer_plain t : integer_token t -> plain (tkind t) = true.
Proof. now intros [H | H]; rewrite H. Qed.
Lemma opt_space_plain w : opt_space w -> Forall (fun t => plain (tkind t) = true) w.
Proof. intros [| x H]; repeat constructor. now apply (kinded_plain WS). Qed.
Lemma timestamp_plain ts : timestamp ts -> Forall (fun t => plain (tkind t) = true) ts.
Proof.
  assert (D : forall t, date_or_integer t -> plain (tkind t) = true).
  { intros t [H | H]; [now apply (kinded_plain DATE) | now apply integer_plain]. }
  assert (Z : forall z, opt_zone z -> Forall (fun t => plain (tkind t) = true) z).
  { intros z [| t [[H | H] | H]]; repeat constructor;
      [now apply (kinded_plain HOUR_MINUTE) | now apply integer_plain | now apply (kinded_plain TIMEZONE)]. }
  intros [d Hd|d w c w2 z Hd Hw Hc Hw2 Hz|i z Hi Hz|s w z Hs Hw Hz|d w z Hd Hw Hz].
  - repeat constructor; auto.
  - constructor; auto. apply Forall_app. split.
    + destruct Hw as [| t H | t H]; repeat constructor; [now apply (kinded_plain WS) | now apply (kinded_plain T)].
    + constructor.
      * destruct Hc as [H | [H | H]]; [now apply (kinded_plain HOUR_MINUTE_SECOND) | now apply (kinded_plain HOUR_MINUTE) | now apply integer_plain].
      * apply Forall_app. split; [now apply opt_space_plain | now apply Z].
  - constructor; [now apply integer_plain | now apply Z].
  - constructor; [now apply (kinded_plain TIMESTAMP) |].
    apply Forall_app. split; [now apply opt_space_plain | now apply Z].
  - constructor; auto. apply Forall_app. split; [now apply opt_space_plain |].
    repeat constructor. destruct Hz; [now apply (kinded_plain TIMEZONE) | now apply (kinded_plain TZ)].
Qed.

Definition smooth (r : rule) (ts : list token) : Prop :=
  match r with
  | Unit_spec => clash_behind INT ts = false
  | Shift_spec => forall p, clash_behind p ts = false
  | _ => (forall p, clash_behind p ts = false) /\ forall p, ender (last_kind p ts) = true
  end.

Lemma derives_smooth r ts t : derives r ts t -> smooth r ts.
Proof.
  assert (Sg : forall x, (match tkind x with WS | MULTIPLY | RAISE | UNICODE_EXPONENT | OPEN_PAREN | LOG | DIVIDE | ERRORCHARACTER => false | _ => true end) = true ->
                         (forall p, clash_behind p [x] = false) /\ forall p, ender (last_kind p [x]) = true).
  { intros x H. split; intro p; cbn [clash_behind last_kind]; destruct (tkind x); try discriminate H; try reflexivity; destruct p; reflexivity. }
  assert (Sn : forall ns n, derives Number_r ns n -> Forall (fun t => plain (tkind t) = true) ns).
  { intros ns n Dn. inversion Dn as [ | | | | | | | | | | | | | | | | | | | |? ? Di| f Hf]; subst.
    - apply derives_integer_inv in Di as (x & -> & Hx & _). repeat constructor. now apply integer_plain.
    - repeat constructor. now apply (kinded_plain FLOAT). }
  induction 1 as
    [ | ts t D IH
    | ts p D IH | ts p w1 op w2 ns n D IH H1 Hop H2 Dn IHn | ts p w1 op w2 ns D IH H1 Hop H2 Hns
    | ts p D IH | ts1 p ts2 q D1 IH1 D2 IH2 | ts1 p o ts2 q D1 IH1 Ho D2 IH2 | ts1 p o ts2 q D1 IH1 Ho D2 IH2
    | ts1 p ws ts2 q D1 IH1 Hne Hws D2 IH2
    | ts l is i D1 IH1 D2 IH2 | ts l D IH | ts l r is i D1 IH1 Hr D2 IH2 | ts l e D IH He
    | ts b D IH | l ts s c Hl D IH Hc | i Hi | o ts s c Ho D IH Hc | ts n D IH
    | i Hi | ts i D IH | f Hf ]; cbn [smooth] in *.
  - reflexivity.
  - apply IH.
  - apply IH.
  - intro q. destruct IH as [A B]. rewrite clash_app, A. apply ender_plains_ok; auto.
    rewrite Forall_app, Forall_cons_iff, Forall_app. split; [now apply opt_space_plain |]. split; [now apply (kinded_plain SHIFT_OP) |].
    split; [now apply opt_space_plain | now apply (Sn ns n)].
  - intro q. destruct IH as [A B]. rewrite clash_app, A. apply ender_plains_ok; auto.
    rewrite Forall_app, Forall_cons_iff, Forall_app. split; [now apply opt_space_plain |]. split; [now apply (kinded_plain SHIFT_OP) |].
    split; [now apply opt_space_plain | now apply timestamp_plain].
  - exact IH.
  - destruct IH1 as [A1 B1], IH2 as [A2 B2]. split; intro k; [now rewrite clash_app, A1, A2 | now rewrite last_app].
  - destruct IH1 as [A1 B1], IH2 as [A2 B2]. split; intro k.
    + rewrite clash_app, A1. cbn [clash_behind]. now rewrite ender_ok, A2.
    + rewrite last_app. cbn [last_kind]. apply B2.
  - destruct IH1 as [A1 B1], IH2 as [A2 B2]. split; intro k.
    + rewrite clash_app, A1. cbn [clash_behind]. now rewrite ender_ok, A2.
    + rewrite last_app. cbn [last_kind]. apply B2.
  - destruct IH1 as [A1 B1], IH2 as [A2 B2]. split; intro k.
    + rewrite clash_app, clash_app, A1, A2, orb_false_r. apply ender_plains_ok; auto. eapply Forall_impl; [| exact Hws].
      intros x Hx. now apply (kinded_plain WS).
    + now rewrite !last_app.
  - destruct IH1 as [A1 B1], IH2 as [A2 B2]. split; intro k; [now rewrite clash_app, A1, A2 | now rewrite last_app].
  - exact IH.
  - destruct IH1 as [A1 B1], IH2 as [A2 B2]. split; intro k.
    + rewrite clash_app, A1. cbn [clash_behind]. now rewrite ender_ok, A2.
    + rewrite last_app. cbn [last_kind]. apply B2.
  - destruct IH as [A B]. split; intro k.
    + rewrite clash_app, A. cbn [clash_behind]. now rewrite ender_ok.
    + rewrite last_app. cbn [last_kind]. now rewrite He.
  - exact IH.
  - split; intro k.
    + cbn [clash_behind]. rewrite clash_app, IH, Hl. cbn [clash_behind]. rewrite Hc. destruct k, (last_kind LOG ts); reflexivity.
    + cbn [last_kind]. rewrite last_app. cbn [last_kind]. now rewrite Hc.
  - apply Sg. now rewrite Hi.
  - split; intro k.
    + cbn [clash_behind]. rewrite clash_app, IH, Ho. cbn [clash_behind]. rewrite Hc. destruct k, (last_kind OPEN_PAREN ts); reflexivity.
    + cbn [last_kind]. rewrite last_app. cbn [last_kind]. now rewrite Hc.
  - exact IH.
  - apply Sg. now destruct Hi as [Hi | Hi]; rewrite Hi.
  - exact IH.
  - apply Sg. now rewrite Hf.
Qed.

(** C121.  No accepted text has a blank there. *)
Theorem C121_where_accepted_texts_have_no_blanks :
  forall s g ts, is_text s -> parse s = Ok g -> tokenises DEFAULT_MODE (strip s) ts ->
  forall l a b r, ts = l ++ a :: b :: r -> apart (tkind a) (tkind b) = false.
Proof.
  intros s g ts T P L l a b r E. apply parse_reads in P as (ts' & t & L' & D & _); [| exact T].
  rewrite (tokenises_unique _ _ _ _ L' L) in D. apply derives_smooth in D. cbn [smooth] in D.
  rewrite E, clash_app in D. apply orb_false_iff in D. destruct D as [_ D]. cbn [clash_behind] in D.
  apply orb_false_iff in D. destruct D as [_ D]. apply orb_false_iff in D. apply D.
Qed.

Lemma refused s ts : is_text s -> tokenises DEFAULT_MODE (strip s) ts -> clash_behind INT ts = true -> parse s = Err ESyntax.
Proof.
  intros T L K. destruct (parse_cases s T) as (ts' & L' & [(t & g & _ & D & _) | [[E _] | (t & e & _ & D & _)]]); auto;
    rewrite (tokenises_unique _ _ _ _ L' L) in D; apply derives_smooth in D; cbn [smooth] in D; congruence.
Qed.

Definition signs : list (kind * str) := [(MULTIPLY, u "*"); (MULTIPLY, u "·"); (MULTIPLY, u "-"); (RAISE, u "^"); (RAISE, u "**")].
Definition after_blank : re := Seq (Chr [(42, 42); (45, 45); (94, 94); (183, 183)]%N) r_rest.
Definition in_mode (k : kind) (w : str) (G : re) : bool :=
  token_check DEFAULT_MODE k (lit w) G && match rule_of k (rules DEFAULT_MODE) with Some r => full_match [r] w | None => false end.
Lemma in_mode_takes k c w G rest : in_mode k (c :: w) G = true -> is_text ((c :: w) ++ rest) -> follows G rest ->
  takes DEFAULT_MODE k (c :: w) rest.
Proof. intros H T F. apply (takes_fixed [DEFAULT_MODE] _ _ _ _ G); auto; [| now left]. cbn [forallb]. fold (in_mode k (c :: w) G). now rewrite H. Qed.
Definition times_kind (w : str) : Prop := In w [u "*"; u "·"; u "-"].
Definition power_kind (w : str) : Prop := In w [u "^"; u "**"].

Lemma blank_open rest ts : is_text rest -> tokenises DEFAULT_MODE (40%N :: rest) ts ->
  tokenises DEFAULT_MODE (u " " ++ 40%N :: rest) (tk_space :: ts).
Proof.
  intros T L. apply (tok_step DEFAULT_MODE WS (u " ")); [| exact L].
  apply (in_mode_takes WS 32%N [] (Seq (ch 40) r_rest)); [vm_compute; reflexivity | |].
  - repeat (apply is_text_cons; split; [lia |]). exact T.
  - unfold ch. now apply follows_class.
Qed.
Lemma blank_number n ts : short (Z_str n) -> tokenises DEFAULT_MODE (Z_str n) ts ->
  tokenises DEFAULT_MODE (u " " ++ Z_str n) (tk_space :: ts).
Proof.
  intros S L. destruct (number_end n S) as (_ & T & c & s & E & C). apply (tok_step DEFAULT_MODE WS (u " ")); [| exact L].
  rewrite E in *. apply (in_mode_takes WS 32%N [] (Seq (Chr num_ranges) r_rest)); [vm_compute; reflexivity | |].
  - apply (is_text_cons 32%N). split; [lia | exact T].
  - apply is_text_cons in T. now apply follows_class.
Qed.
Lemma blank_sign c w rest ts : In c [42; 45; 94; 183]%N -> is_text (c :: w ++ rest) -> tokenises DEFAULT_MODE ((c :: w) ++ rest) ts ->
  tokenises DEFAULT_MODE (u " " ++ (c :: w) ++ rest) (tk_space :: ts).
Proof.
  intros C T L. apply (tok_step DEFAULT_MODE WS (u " ")); [| exact L].
  apply (in_mode_takes WS 32%N [] after_blank); [vm_compute; reflexivity | |].
  - apply (is_text_cons 32%N). split; [lia | exact T].
  - apply is_text_cons in T. cbn [app]. apply follows_class; [tauto |].
    repeat (destruct C as [<- | C]; [reflexivity |]). destruct C.
Qed.
Lemma sign_blank k c w rest ts : In (k, c :: w) signs -> is_text (32%N :: rest) -> tokenises DEFAULT_MODE (u " " ++ rest) ts ->
  tokenises DEFAULT_MODE ((c :: w) ++ u " " ++ rest) (mkTok k (c :: w) :: ts).
Proof.
  intros C T L.
  assert (K : in_mode k (c :: w) (Seq (ch 32) r_rest) = true /\ is_text (c :: w) /\ next_mode DEFAULT_MODE k = DEFAULT_MODE).
  { unfold signs in C. cbn [In] in C. repeat match type of C with _ \/ _ => destruct C as [C | C] end; try contradiction;
      (injection C as <- <- <-; split; [vm_compute; reflexivity | split; [repeat constructor; vm_compute; discriminate | reflexivity]]). }
  destruct K as (K & Tw & M). apply (tok_step DEFAULT_MODE k (c :: w)); [| now rewrite M].
  apply (in_mode_takes k c w (Seq (ch 32) r_rest)); [exact K | apply is_text_app; now split |].
  apply is_text_cons in T. unfold ch. now apply follows_class.
Qed.

Lemma clash_anywhere a x y b p : apart (tkind x) (tkind y) = true -> clash_behind p (a ++ x :: y :: b) = true.
Proof. intro H. rewrite clash_app. cbn [clash_behind]. rewrite H, !orb_true_r. reflexivity. Qed.
Lemma surrounded t c d s1 s2 : t = c :: s1 -> t = s2 ++ [d] -> is_space c = false -> is_space d = false -> strip t = t.
Proof. exact (strip_same t c d s1 s2). Qed.

(** Between brackets: a blank beside the multiplication sign, beside "^", or behind an opening bracket. *)
Theorem C121_blanks_beside_signs_are_refused :
  forall a b ga gb sign, part a -> part b -> parse a = Ok ga -> parse b = Ok gb -> In sign [u "*"; u "·"; u "-"] ->
  parse (in_brackets a ++ u " " ++ sign ++ in_brackets b) = Err ESyntax /\
  parse (in_brackets a ++ sign ++ u " " ++ in_brackets b) = Err ESyntax /\
  parse (in_brackets a ++ sign ++ in_brackets b) = Ok (Multiply ga gb).
Proof.
  intros a b ga gb sign Pa Pb Ea Eb H. destruct (good_part a ga Pa Ea) as (ta & Ga). destruct (good_part b gb Pb Eb) as (tb & Gb).
  pose proof Ga as (Ta & _). pose proof Gb as (Tb & _). pose proof (in_brackets_text a Ta) as Ia. pose proof (in_brackets_text b Tb) as Ib.
  destruct (bracket_first a) as (sa & Fa). destruct (bracket_first b) as (sb & Fb).
  assert (Hs : is_sign sign) by (left; unfold times_signs; cbn [In] in *; tauto).
  assert (Ts := sign_text sign Hs). assert (Tk : sign_tokens sign = [mkTok MULTIPLY sign]).
  { cbn [In] in H. repeat match type of H with _ \/ _ => destruct H as [H | H] end; try contradiction; subst sign; reflexivity. }
  assert (Hc : exists c w, sign = c :: w /\ In c [42; 45; 94; 183]%N /\ In (MULTIPLY, sign) signs).
  { cbn [In] in H. repeat match type of H with _ \/ _ => destruct H as [H | H] end; try contradiction; subst sign;
      (eexists; exists []; split; [reflexivity | split; [cbn [In]; tauto | unfold signs; cbn [In]; tauto]]). }
  destruct Hc as (c & w & Es & Cc & Cs).
  assert (Lb := brk_tokens_end b tb gb Gb). assert (Bt : is_text (u " ")) by now apply is_text_u_cons.
  split; [| split].
  - apply (refused _ (brk ta ++ tk_space :: mkTok MULTIPLY sign :: brk tb)); [rewrite !is_text_app; auto | | now apply clash_anywhere].
    destruct (bracket_end (in_brackets a ++ u " " ++ sign) b) as (s2 & E2).
    rewrite (stripped_text _ 41%N (sa ++ u " " ++ sign ++ in_brackets b) s2); [| now rewrite Fa | rewrite <- E2, <- !app_assoc; reflexivity | reflexivity].
    apply (brk_tokens a ta ga); auto; [rewrite !is_text_app; auto |]. rewrite Es at 1. apply blank_sign; [exact Cc | |].
    + change (c :: w ++ in_brackets b) with ((c :: w) ++ in_brackets b). rewrite <- Es. now apply is_text_app.
    + rewrite <- Es. change (mkTok MULTIPLY sign :: brk tb) with ([mkTok MULTIPLY sign] ++ brk tb). rewrite <- Tk, Fb in *. now apply sign_step.
  - apply (refused _ ((brk ta ++ mkTok MULTIPLY sign :: tk_space :: brk tb))); [rewrite !is_text_app; auto | | now apply clash_anywhere].
    destruct (bracket_end (in_brackets a ++ sign ++ u " ") b) as (s2 & E2).
    rewrite (stripped_text _ 41%N (sa ++ sign ++ u " " ++ in_brackets b) s2); [| now rewrite Fa | rewrite <- E2, <- !app_assoc; reflexivity | reflexivity].
    apply (brk_tokens a ta ga); auto; [rewrite !is_text_app; auto |]. rewrite Es. apply sign_blank; [now rewrite <- Es | |].
    + apply (is_text_app (u " ")). auto.
    + rewrite Fb in *. apply blank_open; [| exact Lb]. apply is_text_cons in Ib. tauto.
  - apply (C120_composed_texts_are_read_as_composed (Times sign (Part a) (Part b)) (Multiply ga gb)).
    apply M_times; [| now constructor | now constructor]. destruct Hs as [Hs | [Hs | Hs]]; [exact Hs | |];
      exfalso; rewrite Es in *; unfold over_signs in Hs; cbn [In] in *;
      repeat match type of Hs with _ \/ _ => destruct Hs as [Hs | Hs] end; try contradiction; injection Hs as <- <-;
      repeat match type of H with _ \/ _ => destruct H as [H | H] end; try contradiction; discriminate H.
Qed.

Lemma raise_kinds sign : In sign [u "^"; u "**"] -> is_text sign /\ In sign power_signs /\ str_eqb sign [] = false /\
  sign_tokens sign = [mkTok RAISE sign] /\
  exists c w, sign = c :: w /\ In c [42; 45; 94; 183]%N /\ In (RAISE, sign) signs.
Proof.
  intros [<- | [<- | []]]; (split; [repeat constructor; vm_compute; discriminate |]); (split; [unfold power_signs; cbn [In]; tauto |]);
    (split; [reflexivity |]); (split; [reflexivity |]);
    (eexists; eexists; split; [reflexivity | split; [cbn [In]; tauto | unfold signs; cbn [In]; tauto]]).
Qed.
Theorem C121_blanks_beside_exponents_are_refused_or_multiply :
  forall a ga sign n, part a -> parse a = Ok ga -> In sign [u "^"; u "**"] -> short (Z_str n) ->
  parse (in_brackets a ++ u " " ++ sign ++ Z_str n) = Err ESyntax /\
  parse (in_brackets a ++ sign ++ u " " ++ Z_str n) = Err ESyntax /\
  parse (in_brackets a ++ sign ++ Z_str n) = Ok (Raise ga (Number (NInt n) (Some (Z_str n)))) /\
  parse (in_brackets a ++ Z_str n) = Ok (Raise ga (Number (NInt n) (Some (Z_str n)))) /\
  parse (in_brackets a ++ u " " ++ Z_str n) = Ok (Multiply ga (Number (NInt n) (Some (Z_str n)))).
Proof.
  intros a ga sign n Pa Ea H S. destruct (good_part a ga Pa Ea) as (ta & Ga). pose proof Ga as (Ta & _ & _ & _ & _ & Ra).
  pose proof (in_brackets_text a Ta) as Ia. destruct (bracket_first a) as (sa & Fa).
  destruct (raise_kinds sign H) as (Ts & Hp & Ne & Tk & c & w & Es & Cc & Cs).
  assert (Bt : is_text (u " ")) by now apply is_text_u_cons.
  destruct (number_end n S) as (Ln & Tn & d & sn & En & Dn). destruct (raise_step sign n Hp S) as [Ls Tsn]. rewrite Ne, Tk in Ls.
  destruct (num_last (NInt n) (or_intror S)) as (s2 & e & E2 & De). change (num_str (NInt n)) with (Z_str n) in E2.
  assert (Str : forall x, strip (in_brackets a ++ x ++ Z_str n) = in_brackets a ++ x ++ Z_str n).
  { intro x. apply (stripped_text _ e (sa ++ x ++ Z_str n) (in_brackets a ++ x ++ s2)); [now rewrite Fa | now rewrite E2, <- !app_assoc | exact De]. }
  split; [| split; [| split; [| split]]].
  - apply (refused _ (brk ta ++ tk_space :: mkTok RAISE sign :: [num_tok (NInt n)])); [rewrite !is_text_app; auto | | now apply clash_anywhere].
    replace (u " " ++ sign ++ Z_str n) with ((u " " ++ sign) ++ Z_str n) by now rewrite <- app_assoc.
    rewrite Str, <- app_assoc. apply (brk_tokens a ta ga); auto; [rewrite !is_text_app; auto |]. rewrite Es at 1.
    apply blank_sign; [exact Cc | | rewrite <- Es; exact Ls].
    change (c :: w ++ Z_str n) with ((c :: w) ++ Z_str n). rewrite <- Es. now apply is_text_app.
  - apply (refused _ ((brk ta ++ mkTok RAISE sign :: tk_space :: [num_tok (NInt n)]))); [rewrite !is_text_app; auto | | now apply clash_anywhere].
    replace (sign ++ u " " ++ Z_str n) with ((sign ++ u " ") ++ Z_str n) by now rewrite <- app_assoc.
    rewrite Str, <- app_assoc. apply (brk_tokens a ta ga); auto; [rewrite !is_text_app; auto |]. rewrite Es.
    apply sign_blank; [now rewrite <- Es | apply (is_text_app (u " ")); auto | now apply blank_number].
  - apply (parse_good _ _ _ (good_raised sign n ta a ga Hp S Ga)).
  - apply (parse_good _ _ _ (good_raised [] n ta a ga (or_intror (or_intror (or_introl eq_refl))) S Ga)).
  - destruct (brk_product ta ga Ra) as (x & D & P & R). set (p := PNode Product [brk_tree x]) in *.
    assert (An : read_as Power [num_tok (NInt n)] (Number (NInt n) (Some (Z_str n)))).
    { change (Number (NInt n) (Some (Z_str n))) with (renumber (NInt n)).
      destruct (atom_number (NInt n) S) as [(t & Dt & Pt & Rt) _]. exists (PNode Power [t]). split; [now constructor |].
      split; [apply preferred1; auto; discriminate | now constructor]. }
    destruct An as (q & Dq & Pq & Rq).
    assert (G : good (in_brackets a ++ u " " ++ Z_str n) (brk ta ++ [tk_space] ++ [num_tok (NInt n)]) (Multiply ga (Number (NInt n) (Some (Z_str n))))).
    { split; [rewrite !is_text_app; auto |]. split; [discriminate |]. split; [apply Str |]. split; [| split].
      - apply (brk_tokens a ta ga); auto; [apply is_text_app; auto | now apply blank_number].
      - apply Forall_app. split; [apply brk_quiet; apply Ga |]. repeat constructor; [discriminate |].
        destruct (num_kind_exponent (NInt n) S) as [K | K]; cbn [tkind num_tok]; rewrite K; discriminate.
      - apply shift_product. exists (PNode Product (p :: map PLeaf [tk_space] ++ [q])). split; [| split].
        + apply (D_product_space (brk ta) p [tk_space]); auto; [discriminate | repeat constructor].
        + apply preferred_node. split; [exact Logic.I |]. repeat (constructor; [first [assumption | exact Logic.I] |]). constructor.
        + apply R_product_space; auto; [discriminate | repeat constructor]. }
    exact (parse_good _ _ _ G).
Qed.

(** Behind an opening bracket, whatever follows. *)
Lemma blank_starts k w rest t : takes DEFAULT_MODE k w rest -> w ++ rest = 32%N :: t -> is_text (w ++ rest) ->
  k = WS \/ k = DIVIDE \/ k = ERRORCHARACTER.
Proof.
  intros T E Tx. destruct (tk_first _ _ _ _ T) as (b & r & a & R & M & _). pose proof (tk_nonempty _ _ _ _ T) as N.
  destruct w as [| c w]; [contradiction |]. cbn [app] in E. injection E as -> _.
  assert (B : matches (Seq (ch 32) r_rest) (32%N :: w)).
  { apply is_text_app in Tx. destruct Tx as [Tx _]. apply is_text_cons in Tx. change (32%N :: w) with ([32%N] ++ w).
    apply M_seq; [now apply matches_ch | now apply matches_any_text]. }
  assert (H : forallb (fun kr => disjoint (snd kr) (Seq (ch 32) r_rest) ||
     match fst kr with WS | DIVIDE | ERRORCHARACTER => true | _ => false end) (rules DEFAULT_MODE) = true) by (vm_compute; reflexivity).
  rewrite forallb_forall in H. specialize (H (k, r)). rewrite R, in_app_iff in H. specialize (H (or_intror (or_introl eq_refl))).
  cbn [fst snd] in H. apply orb_true_iff in H. destruct H as [H | H].
  - exfalso. apply (disjoint_ok _ _ H (32%N :: w)); auto. now apply is_text_app in Tx.
  - destruct k; try discriminate H; auto.
Qed.
Lemma tokenises_first m w rest ts k : takes m k w rest -> tokenises m (w ++ rest) ts -> exists ts', ts = mkTok k w :: ts' /\ tokenises (next_mode m k) rest ts'.
Proof.
  intros T L. destruct (lex_fuel_total (List.length rest) (next_mode m k) rest) as (ts' & _ & L'); [| lia |].
  { apply tokenises_text in L. now apply is_text_app in L. }
  exists ts'. split; [| exact L']. apply (tokenises_unique m (w ++ rest)); [exact L | now apply tok_step].
Qed.
Theorem C121_no_blank_behind_an_opening_bracket :
  forall t, is_text t -> parse (u "( " ++ t ++ u ")") = Err ESyntax.
Proof.
  intros t T. assert (Tx : is_text (u "( " ++ t ++ u ")")) by (rewrite !is_text_app; repeat split; auto; repeat constructor; vm_compute; discriminate).
  destruct (lex_total _ (is_text_strip _ Tx)) as (ts & _ & L). apply (refused _ ts Tx L).
  rewrite (surrounded (u "( " ++ t ++ u ")") 40%N 41%N (u " " ++ t ++ u ")") (u "( " ++ t)) in L; [| reflexivity | now rewrite <- app_assoc | reflexivity | reflexivity].
  change (u "( " ++ t ++ u ")") with (u "(" ++ (u " " ++ t ++ u ")")) in L.
  assert (Tr : is_text (u " " ++ t ++ u ")")) by (rewrite !is_text_app; repeat split; auto; repeat constructor; vm_compute; discriminate).
  destruct (tokenises_first DEFAULT_MODE (u "(") (u " " ++ t ++ u ")") ts OPEN_PAREN (takes_open _ _ Tr) L) as (ts1 & -> & L1).
  change (next_mode DEFAULT_MODE OPEN_PAREN) with DEFAULT_MODE in L1. inversion L1 as [| m k w rest ts2 K L2 E1 E2]; subst.
  assert (Tw : is_text (w ++ rest)) by (rewrite E2; exact Tr).
  cbn [clash_behind tkind]. destruct (blank_starts k w rest _ K E2 Tw) as [-> | [-> | ->]]; reflexivity.
Qed.

(** C122.  "Blanks between the parts of a text do not matter" is false. *)
Theorem C122_blanks_do_not_matter_refuted :
  parse (u "m*s") = Ok (Multiply (Identifier (u "m")) (Identifier (u "s"))) /\
  parse (u "m * s") = Err ESyntax /\ parse (u "m *s") = Err ESyntax /\ parse (u "m* s") = Err ESyntax /\
  parse (u "m / s") = parse (u "m/s") /\ is_ok (parse (u "m/s")) = true /\
  parse (u "(m)") = Ok (Identifier (u "m")) /\ parse (u "( m)") = Err ESyntax /\ parse (u "(m )") = Err ESyntax /\
  parse (u "m^2") = parse (u "m2") /\ parse (u "m ^2") = Err ESyntax /\
  parse (u "m2") = Ok (Raise (Identifier (u "m")) (Number (NInt 2) (Some (u "2")))) /\
  parse (u "m 2") = Ok (Multiply (Identifier (u "m")) (Number (NInt 2) (Some (u "2")))) /\
  is_ok (parse (u "m @ 3")) = true /\ parse (u "m  @ 3") = Err ESyntax /\ parse (u "m @  3") = Err ESyntax /\
  is_ok (parse (u "lg( re m)")) = true /\ parse (u "lg(re m )") = Err ESyntax.
Proof. vm_compute. repeat split. Qed.

(** ** The hypotheses are met *)
Definition shift_free (t : str) : bool :=
  match lex t with Some ts => forallb (fun k => negb (kind_eqb (tkind k) SHIFT_OP)) ts | None => false end.
Definition part_b (t : str) : bool :=
  forallb (fun c => N.leb c 1114111) t && negb (str_eqb t []) && str_eqb (strip t) t && shift_free t.
Lemma part_check t : part_b t = true -> part t.
Proof.
  unfold part_b. intro H. apply andb_prop in H as [H F]. apply andb_prop in H as [H S]. apply andb_prop in H as [T N].
  assert (Tx : is_text t) by (apply Forall_forall; intros c C; rewrite forallb_forall in T; now apply N.leb_le, T).
  split; [exact Tx |]. split; [now intros -> |]. split.
  - now apply str_eqb_eq.
  - intros ts L. unfold shift_free in F. destruct (lex_total t Tx) as (ts' & E & L'). rewrite E in F.
    rewrite (tokenises_unique _ _ _ _ L L'). apply Forall_forall. intros k K X. rewrite forallb_forall in F. specialize (F k K). rewrite X in F. discriminate F.
Qed.

(** (km/h per 2.5 K)·(2.5 K)^-2, in words of the shipped database: written out and a unit. *)
Definition speed := Eval vm_compute in form_of (u "km/h").
Definition warm := Eval vm_compute in form_of (u "2.5 K").
Definition some_recipe : recipe := Times (u "·") (Over (u " per ") (Part (u "km/h")) (Bracketed (Part (u "2.5 K")))) (Raised (u "") (Part (u "2.5 K")) (-2)).
Definition some_form : node := Multiply (Divide speed warm) (Raise warm (Number (NInt (-2)) (Some (u "-2")))).
Example C120_example :
  text some_recipe = u "((km/h) per ((2.5 K)))·((2.5 K)-2)" /\
  made (fun t h => part t /\ base_text shipped t h) some_recipe some_form /\ rated some_form /\
  is_ok (parse (text (Level (u "lg") some_recipe))) = true.
Proof.
  split; [vm_compute; reflexivity |].
  assert (A : part (u "km/h") /\ base_text shipped (u "km/h") speed)
    by (split; [apply part_check; vm_compute; reflexivity | apply (out_text_sound shipped 8); vm_compute; reflexivity]).
  assert (B : part (u "2.5 K") /\ base_text shipped (u "2.5 K") warm)
    by (split; [apply part_check; vm_compute; reflexivity | apply (out_text_sound shipped 8); vm_compute; reflexivity]).
  split; [| split; [apply rated_b_sound; vm_compute; reflexivity | vm_compute; reflexivity]].
  unfold some_recipe, some_form. apply M_times; [right; left; reflexivity | |].
  - apply M_over; [right; right; left; reflexivity | now constructor | constructor; now constructor].
  - change (Some (u "-2")) with (Some (Z_str (-2))). apply M_raised; [right; right; left; reflexivity | vm_compute; discriminate | now constructor].
Qed.

Print Assumptions C120_composed_texts_are_read_as_composed.
Print Assumptions C120_offset_of_a_composed_text.
Print Assumptions C120_which_texts_are_parts.
Print Assumptions C120_composed_texts_written_out.
Print Assumptions C120_units_of_composed_texts.
Print Assumptions C121_where_accepted_texts_have_no_blanks.
Print Assumptions C121_blanks_beside_signs_are_refused.
Print Assumptions C121_blanks_beside_exponents_are_refused_or_multiply.
Print Assumptions C121_no_blank_behind_an_opening_bracket.
Print Assumptions C122_blanks_do_not_matter_refuted.
