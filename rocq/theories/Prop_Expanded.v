(** * C94: the text of expanded(), read back *)
From Verif Require Import PyBase PyNum Graph RegexFacts Visitor Expr Units UnitSystem UnitSpec UnitFacts UnitProofs
  SystemSpec SystemFacts SystemProofs SystemMore SystemKeep SystemOrd Prop_System Sympy Convert ConvertSpec ConvertFacts ConvertProofs ConvertMore Prop_Convert
  Xml XmlSpec XmlFacts XmlPrefix Prop_Xml XmlData Database Prop_Database BaseSpec BaseFacts Prop_Base Prop_BaseDb
  PrintSpec PrintParse PrintMore Cli.
From Coq Require Import Lia Lra QArith Reals Qreals.
Local Open Scope list_scope.

(** ** Expressions in basis units only *)
Fixpoint settled (s : system) (e : node) : Prop :=
  match e with
  | Number _ _ => True
  | Identifier r => base_form s r (Identifier r)
  | Multiply a b | Divide a b => settled s a /\ settled s b
  | Raise a (Number _ _) | Shift a (Number _ _) => settled s a
  | Logarithm _ a => settled s a
  | _ => False
  end.

(** each basis unit is known by its own name *)
Definition self_named (s : system) : Prop :=
  forall q r d it names, known s q (EUnit (UBasis r d it) names) -> exists d' it' names', known s r (EUnit (UBasis r d' it') names').

Lemma base_settled s : self_named s ->
  (forall q e, base_form s q e -> settled s e) /\ (forall g e, base_expr s g e -> settled s e).
Proof.
  intros Sn.
  pose (P0 := fun q e (_ : base_form s q e) => settled s e).
  pose (P1 := fun g e (_ : base_expr s g e) => settled s e).
  assert (C1 : forall q r d it names K, P0 _ _ (Bf_basis s q r d it names K)).
  { intros q r d it names K. destruct (Sn q r d it names K) as (d' & it' & n' & K'). exact (Bf_basis s r r d' it' n' K'). }
  assert (C2 : forall q i l g e K N Pa (B : base_expr s g e), P1 g e B -> P0 _ _ (Bf_defined s q i l g e K N Pa B)) by (intros; assumption).
  assert (C3 : forall q key p k ent d e Rd Ne Pd (B : base_form s k e), P0 k e B ->
                 P0 _ _ (Bf_prefixed s q key p k ent d e Rd Ne Pd B)) by (intros; now split).
  assert (D1 : forall v r, P1 _ _ (Be_number s v r)) by (intros; exact Logic.I).
  assert (D2 : forall k e (B : base_form s k e), P0 k e B -> P1 _ _ (Be_name s k e B)) by (intros; assumption).
  assert (D3 : forall x y x' y' (A : base_expr s x x'), P1 _ _ A -> forall (B : base_expr s y y'), P1 _ _ B ->
                 P1 _ _ (Be_multiply s x y x' y' A B)) by (intros; now split).
  assert (D4 : forall x y x' y' (A : base_expr s x x'), P1 _ _ A -> forall (B : base_expr s y y'), P1 _ _ B ->
                 P1 _ _ (Be_divide s x y x' y' A B)) by (intros; now split).
  assert (D5 : forall x x' v r (A : base_expr s x x'), P1 _ _ A -> P1 _ _ (Be_raise s x x' v r A)) by (intros; assumption).
  assert (D6 : forall x x' v r (A : base_expr s x x'), P1 _ _ A -> P1 _ _ (Be_shift s x x' v r A)) by (intros; assumption).
  assert (D7 : forall f x x' (A : base_expr s x x'), P1 _ _ A -> P1 _ _ (Be_log s f x x' A)) by (intros; assumption).
  split.
  - intros q e H. exact (base_form_mut s P0 P1 C1 C2 C3 D1 D2 D3 D4 D5 D6 D7 q e H).
  - intros g e H. exact (base_expr_mut s P0 P1 C1 C2 C3 D1 D2 D3 D4 D5 D6 D7 g e H).
Qed.

Lemma settled_base s e : settled s e -> base_expr s e e.
Proof.
  induction e as [x | v r | x | a IHa b IHb | a IHa b IHb | a IHa b IHb | a IHa b IHb | f a IHa]; cbn [settled]; intros H;
    try contradiction; try (now constructor).
  - destruct b; try contradiction. constructor. now apply IHa.
  - constructor; [now apply IHa | now apply IHb].
  - constructor; [now apply IHa | now apply IHb].
  - destruct b; try contradiction. constructor. now apply IHa.
  - constructor. now apply IHa.
Qed.

Lemma settled_renumber s v : settled s (renumber v).
Proof. destruct v; cbn [renumber]; try destruct (dexp _ =? 0)%Z; exact Logic.I. Qed.
Lemma renumber_number v : exists v' r, renumber v = Number v' r.
Proof. destruct v; cbn [renumber]; try destruct (dexp _ =? 0)%Z; eauto. Qed.

Lemma settled_append s op a b : (forall x y, settled s x -> settled s y -> settled s (op x y)) ->
  settled s a -> settled s b -> settled s (append op a b).
Proof.
  intros O A. induction b as [x | v r | x | b1 IH1 b2 IH2 | b1 IH1 b2 IH2 | b1 IH1 b2 IH2 | b1 IH1 b2 IH2 | f b1 IH1]; cbn [append];
    intros B; try (apply O; [exact A | exact B]); destruct B as [B1 B2]; (split; [now apply IH1 | exact B2]).
Qed.

Lemma settled_raise s a v h : settled s a -> raise_last a (renumber v) = Some h -> settled s h.
Proof.
  intros A. destruct (renumber_number v) as (v' & r & ->).
  assert (F : forall y h, settled s y -> raise_factor y (Number v' r) = Some h -> settled s h).
  { intros y h' Y. unfold raise_factor. destruct y; intros E; try discriminate E; injection E as <-; exact Y. }
  destruct a; cbn [raise_last]; try (now apply F); destruct A as [A1 A2];
    destruct (raise_factor _ _) as [y |] eqn:E; cbn [option_map]; intros H; try discriminate H; injection H as <-;
    (split; [exact A1 | now apply (F _ _ A2 E)]).
Qed.

Lemma settled_reread s e : settled s e -> forall h, reread e = Some h -> settled s h.
Proof.
  induction e as [x | v r | x | a IHa b IHb | a IHa b IHb | a IHa b IHb | a IHa b IHb | f a IHa]; cbn [settled reread]; intros H h E;
    try contradiction.
  - injection E as <-. apply settled_renumber.
  - injection E as <-. exact H.
  - destruct b as [| v r | | | | | |]; try contradiction. destruct (reread a) as [a' |]; [| discriminate E].
    exact (settled_raise s a' v h (IHa H a' eq_refl) E).
  - destruct H as [A B]. destruct (reread a) as [a' |]; [| discriminate E]. destruct (reread b) as [b' |]; [| discriminate E].
    cbn [both_then] in E. injection E as <-. apply settled_append; auto. now split.
  - destruct H as [A B]. destruct (reread a) as [a' |]; [| discriminate E]. destruct (reread b) as [b' |]; [| discriminate E].
    cbn [both_then] in E. injection E as <-. apply settled_append; auto. now split.
  - destruct b as [| v r | | | | | |]; try contradiction. destruct (reread a) as [a' |]; [| discriminate E].
    cbn [option_map] in E. injection E as <-. destruct (renumber_number v) as (v' & r' & ->). exact (IHa H a' eq_refl).
  - destruct (reread a) as [a' |]; [| discriminate E]. cbn [option_map] in E. injection E as <-. exact (IHa H a' eq_refl).
Qed.

(** The text of what a text is written out to, written out again. *)
Lemma reread_text s t e h : self_named s -> base_text s t e -> writable false e -> reread e = Some h -> base_text s (node_str e) h.
Proof.
  intros Sn (g & _ & B) W R. exists h. split; [now rewrite (parse_node_str e W), R |].
  apply settled_base. apply (settled_reread s e); [| exact R]. now apply (base_settled s Sn) in B.
Qed.

(** ** Numbers written and read again have the same value *)
Lemma renumber_R v : numeric v -> numeric (match renumber v with Number w _ => w | _ => v end) /\
  num_R (match renumber v with Number w _ => w | _ => v end) = num_R v.
Proof.
  destruct v as [z | d | x]; cbn [renumber]; [intros _; now split | | contradiction].
  intros N. destruct (dexp d =? 0)%Z eqn:E; [| now split]. apply Z.eqb_eq in E. split; [exact Logic.I |].
  cbn [num_R]. unfold dec_Q. rewrite E, (Qeq_eqR _ _ (Qred_correct _)), Q2R_mult. unfold signed_value, Qpow10, Q2R. cbn.
  destruct (dneg d); cbn; rewrite ?opp_IZR; field.
Qed.

(** ** Expressions whose brackets do not matter: no power of a product or of a power, and nothing
    divided by a product *)
Fixpoint brackets_moot (g : node) : Prop :=
  match g with
  | Unhandled _ | Number _ _ | Identifier _ => True
  | Raise a _ => is_product a = false /\ is_power a = false /\ brackets_moot a
  | Multiply a b => brackets_moot a /\ brackets_moot b
  | Divide a b => brackets_moot a /\ is_product b = false /\ brackets_moot b
  | Shift a _ => brackets_moot a
  | Logarithm _ t => brackets_moot t
  end.

Lemma bracket_free_moot g : bracket_free g -> brackets_moot g.
Proof. induction g; cbn [bracket_free brackets_moot]; tauto. Qed.

Lemma append_times a b : rated a -> rated b ->
  rated (append Multiply a b) /\ factor (append Multiply a b) = (factor a * factor b)%R /\
  is_product (append Multiply a b) = true /\ forall w k, gdim w (append Multiply a b) k = (gdim w a k + gdim w b k)%Z.
Proof.
  intros Ra. induction b as [x | v r | x | c IHc d IHd | c IHc d IHd | c IHc d IHd | c IHc d IHd | f c IHc]; intros Rb;
    try (cbn [rated] in Rb; contradiction);
    try (cbn [append]; split; [cbn [rated]; split; [exact Ra | exact Rb] |]; split; [reflexivity |]; split; [reflexivity | intros w k; reflexivity]).
  - cbn [rated] in Rb. destruct Rb as [Rc Rd]. destruct (IHc Rc) as (R & F & _ & G). cbn [append rated factor is_product gdim].
    split; [now split |]. split; [rewrite F; ring |]. split; [reflexivity |]. intros w k. rewrite G. ring.
  - cbn [rated] in Rb. destruct Rb as [Rc Rd]. destruct (IHc Rc) as (R & F & _ & G). cbn [append rated factor is_product gdim].
    split; [now split |]. split; [rewrite F; unfold Rdiv; ring |]. split; [reflexivity |]. intros w k. rewrite G. ring.
Qed.

Lemma append_over a b : is_product b = false -> append Divide a b = Divide a b.
Proof. now destruct b. Qed.
Lemma raise_last_factor a n : is_product a = false -> is_power a = false -> raise_last a n = Some (Raise a n).
Proof. now destruct a. Qed.

Lemma moot_rated e : rated e -> brackets_moot e -> exists h, reread e = Some h /\ is_product h = is_product e /\ is_power h = is_power e /\
  rated h /\ factor h = factor e /\ forall w k, gdim w h k = gdim w e k.
Proof.
  induction e as [x | v r | x | a IHa b IHb | a IHa b IHb | a IHa b IHb | a IHa b IHb | f a IHa]; cbn [rated brackets_moot reread]; intros H M;
    try contradiction.
  - destruct H as [N Z]. destruct (renumber_R v N) as [N' V]. destruct (renumber_number v) as (v' & r' & E). rewrite E in *.
    exists (Number v' r'). cbn [rated factor]. rewrite V. auto 10.
  - exists (Identifier x). cbn [rated]. auto 10.
  - destruct b as [| [z | |] r | | | | | |]; try contradiction. destruct M as (P1 & P2 & M). destruct (IHa H M) as (a' & -> & Pa & Wa & Ra & Fa & Ga).
    rewrite raise_last_factor by congruence. cbn [renumber]. eexists. split; [reflexivity |]. cbn [is_product is_power rated factor gdim].
    split; [reflexivity |]. split; [reflexivity |]. split; [exact Ra |]. split; [now rewrite Fa |]. intros w k. now rewrite Ga.
  - destruct H as [Ha Hb], M as [Ma Mb]. destruct (IHa Ha Ma) as (a' & -> & _ & _ & Ra & Fa & Ga). destruct (IHb Hb Mb) as (b' & -> & _ & _ & Rb & Fb & Gb).
    cbn [both_then]. destruct (append_times a' b' Ra Rb) as (R & F & P & G). exists (append Multiply a' b'). split; [reflexivity |].
    split; [exact P |]. split; [cbn [is_power]; destruct (append Multiply a' b'); discriminate P || reflexivity |]. split; [exact R |].
    cbn [factor gdim]. split; [now rewrite F, Fa, Fb |]. intros w k. now rewrite G, Ga, Gb.
  - destruct H as [Ha Hb], M as (Ma & Pb & Mb). destruct (IHa Ha Ma) as (a' & -> & _ & _ & Ra & Fa & Ga). destruct (IHb Hb Mb) as (b' & -> & Pb' & _ & Rb & Fb & Gb).
    cbn [both_then]. rewrite append_over by congruence. eexists. split; [reflexivity |]. cbn [is_product is_power rated factor gdim].
    split; [reflexivity |]. split; [reflexivity |]. split; [now split |]. split; [now rewrite Fa, Fb |]. intros w k. now rewrite Ga, Gb.
Qed.

Lemma moot_levels e : levels e -> brackets_moot e -> exists h, reread e = Some h /\ levels h /\
  (forall x, quantity h x = quantity e x) /\ (forall w k, gdim w h k = gdim w e k).
Proof.
  assert (P : forall n, rated n -> brackets_moot n -> exists h, reread n = Some h /\ levels h /\
     (forall x, quantity h x = quantity n x) /\ (forall w k, gdim w h k = gdim w n k)).
  { intros n R M. destruct (moot_rated n R M) as (h & E & _ & _ & Rh & F & G). exists h. split; [exact E |]. split; [now apply rated_levels |].
    split; [| exact G]. intros x. now rewrite !rated_quantity, F. }
  induction e as [x | v r | x | a IHa b IHb | a IHa b IHb | a IHa b IHb | a IHa b IHb | f a IHa]; intros H M; try (now apply P).
  cbn [levels brackets_moot] in *. destruct H as [Hf Ha]. destruct (IHa Ha M) as (h & E & L & Q & G). exists (Logarithm f h).
  cbn [reread]. rewrite E. cbn [option_map levels quantity gdim].
  split; [reflexivity |]. split; [now split |]. split; [| exact G]. intros x. destruct (log_base_R f); [apply Q | reflexivity].
Qed.

Lemma moot_measurable dl tm e : measurable e -> timeless dl tm e -> brackets_moot e -> exists h, reread e = Some h /\
  measurable h /\ timeless dl tm h /\ (forall x, quantity h x = quantity e x) /\ (forall b, symexp h b = symexp e b).
Proof.
  intros M T B.
  assert (P : levels e -> exists h, reread e = Some h /\
     measurable h /\ timeless dl tm h /\ (forall x, quantity h x = quantity e x) /\ (forall b, symexp h b = symexp e b)).
  { intros L. destruct (moot_levels e L B) as (h & E & L' & Q & G). exists h. split; [exact E |]. split; [now apply levels_measurable |].
    split; [now apply levels_timeless |]. split; [exact Q |]. intros b. apply G. }
  destruct e as [| | | | | | a b |]; try (now apply P). destruct b as [| v r | | | | | |]; try (now apply P). clear P.
  cbn [measurable] in M. cbn [brackets_moot] in B. destruct M as [N L]. destruct (moot_levels a L B) as (h & E & L' & Q & G).
  destruct (renumber_R v N) as [N' V]. destruct (renumber_number v) as (v' & r' & Ev). cbn [reread]. rewrite E. cbn [option_map]. rewrite Ev in *.
  exists (Shift h (Number v' r')). split; [reflexivity |].
  cbn [measurable timeless quantity] in *. split; [now split |]. split.
  - intros (q & Tq & Gq). apply T. exists q. split; [exact Tq |]. intros b. now rewrite <- G.
  - split; [intros x; now rewrite Q, V |]. intros b. unfold symexp. cbn [gdim]. apply G.
Qed.

(** ** The shipped database *)
Definition self_named_b (s : system) : bool :=
  forallb (fun d => forallb (fun e : str * entry => match snd e with
      | EUnit (UBasis r _ _) _ => match known_opt s r with Some (EUnit (UBasis r' _ _) _) => str_eqb r' r | _ => false end
      | _ => true end) d)
    [s_names s; s_alias_names s; s_symbols s; s_alias_symbols s].
Lemma self_named_b_sound s : self_named_b s = true -> self_named s.
Proof.
  intros P q r d it names K. unfold self_named_b in P. rewrite forallb_forall in P.
  apply known_iff in K. unfold known_opt, get_or in K.
  assert (G : forall D, In D [s_names s; s_alias_names s; s_symbols s; s_alias_symbols s] -> dget q D = Some (EUnit (UBasis r d it) names) ->
    exists d' it' names', known s r (EUnit (UBasis r d' it') names')).
  { clear K. intros D I. specialize (P D I). clear I. induction D as [| [k' e] D IH]; cbn [dget]; [discriminate |].
    cbn [forallb snd] in P. apply andb_prop in P as [F1 F2]. destruct (str_eqb q k'); [| auto]. injection 1 as ->.
    destruct (known_opt s r) as [en |] eqn:Kn; [| discriminate F1]. destruct en as [? | x n']; [discriminate F1 |]. destruct x as [r' d' it' | ? ?]; [| discriminate F1]. apply str_eqb_eq in F1. subst r'.
    exists d', it', n'. now apply known_iff. }
  destruct (dget q (s_names s)) eqn:E1; [injection K as ->; eapply G; [| exact E1]; cbn; auto |].
  destruct (dget q (s_alias_names s)) eqn:E2; [injection K as ->; eapply G; [| exact E2]; cbn; auto |].
  destruct (dget q (s_symbols s)) eqn:E3; [injection K as ->; eapply G; [| exact E3]; cbn; auto |].
  eapply G; [| exact K]; cbn; auto.
Qed.
Lemma par_self_named a b : par a b -> self_named a -> self_named b.
Proof.
  intros R S q r d it n K. apply known_iff in K. rewrite <- (par_known a b q R) in K. apply known_iff in K.
  destruct (S q r d it n K) as (d' & it' & n' & K'). exists d', it', n'. apply known_iff. rewrite <- (par_known a b r R). now apply known_iff.
Qed.
Lemma shipped_self_named : self_named shipped. Proof. apply self_named_b_sound. vm_compute. reflexivity. Qed.

Lemma read_self_named strict o s : rearranges o -> read_system strict o db = Ok s -> self_named s.
Proof.
  intros P E. destruct (read_any strict o P) as (s' & E' & R). rewrite E in E'. injection E' as <-.
  exact (par_self_named shipped s R shipped_self_named).
Qed.

(** C94.  The text of expanded() is read from left to right without brackets: [reread].  If it has
    two exponents in a row it is not a text of a unit. *)
Theorem C94_expanded_text_read_back :
  forall strict set_order s, rearranges set_order -> read_system strict set_order db = Ok s ->
  forall ord history stack t e, rearranges ord -> (7 < stack)%nat ->
  base_text s t e -> measurable e -> timeless is_radian is_second e -> writable false e ->
  exists x, fst (sys_unit ord stack t (after ord s history)) = Ok (AUnit x) /\ expanded_text (AUnit x) = Ok (node_str e) /\
  match reread e with
  | None => fst (sys_unit ord stack (node_str e) (after ord s history)) = Err ESyntax
  | Some h => base_text s (node_str e) h /\
      (measurable h -> timeless is_radian is_second h ->
       forall history', exists y, describable is_radian y h /\ fst (sys_unit ord stack (node_str e) (after ord s history')) = Ok (AUnit y))
  end.
Proof.
  intros strict o s P E ord hi f t e Po L B M T W.
  destruct (C90_texts_on_the_shipped_database strict o s P E ord hi f t e Po L B M T) as (x & Dx & Ux).
  exists x. split; [exact Ux |]. split; [unfold expanded_text; destruct Dx as (_ & _ & _ & -> & _); reflexivity |].
  pose proof (parse_node_str e W) as Pa. destruct (reread e) as [h |] eqn:R.
  - assert (Bh := reread_text s t e h (read_self_named strict o s P E) B W R). split; [exact Bh |].
    intros Mh Th hi'. exact (C90_texts_on_the_shipped_database strict o s P E ord hi' f (node_str e) h Po L Bh Mh Th).
  - unfold sys_unit. rewrite Pa. reflexivity.
Qed.

(** If the expansion needs no brackets, its text is a text of the same unit: converting between the
    two changes nothing. *)
Theorem C94_bracket_free_expansion_is_the_unit :
  forall strict set_order s, rearranges set_order -> read_system strict set_order db = Ok s ->
  forall ord history1 history2 stack t e, rearranges ord -> (7 < stack)%nat ->
  base_text s t e -> measurable e -> timeless is_radian is_second e -> writable false e -> brackets_moot e ->
  exists x y cv, fst (sys_unit ord stack t (after ord s history1)) = Ok (AUnit x) /\ expanded_text (AUnit x) = Ok (node_str e) /\
    fst (sys_unit ord stack (node_str e) (after ord s history2)) = Ok (AUnit y) /\
    mk_converter (AUnit x) (AUnit y) = Ok cv /\ forall v, convert cv v = Ok v.
Proof.
  intros strict o s P E ord h1 h2 f t e Po L B M T W Bf.
  destruct (C94_expanded_text_read_back strict o s P E ord h1 f t e Po L B M T W) as (x & Ux & Ex & R).
  destruct (moot_measurable is_radian is_second e M T Bf) as (h & Eh & M' & T' & Q & S). rewrite Eh in R. destruct R as [Bh R].
  destruct (R M' T' h2) as (y & Dy & Uy).
  destruct (C90_texts_on_the_shipped_database strict o s P E ord h1 f t e Po L B M T) as (x' & Dx & Ux').
  rewrite Ux in Ux'. injection Ux' as <-.
  destruct (C20_conversion_preserves_the_quantity is_radian x y e _ Dx Dy (fun b => eq_sym (S b))) as (cv & Cv & V).
  exists x, y, cv. repeat (split; [assumption |]). intros v. apply V. apply Q.
Qed.
