(** * C19, C48: units looked up directly, the empty text. *)
From Verif Require Import PyBase PyNum Graph RegexFacts Lexer LexSpec LexerFacts Parser GrammarSpec Visitor VisitSpec
  ParseFacts Expr Units UnitSpec UnitFacts UnitProofs Sympy Convert ConvertSpec UnitSystem SystemSpec Prop_Units.
From Coq Require Import Permutation QArith.
Open Scope Z_scope.

(** [named w x] (ConvertSpec.v): the expression unit "w" whose one word [w] denotes [x]. *)
Lemma dims_add_fresh b z d : ~ In (fst b) (dkeys_of d) -> dims_add b z d = d ++ [(b, z)].
Proof.
  induction d as [|[[k f] z'] d IH]; cbn; auto. intro H. destruct (str_eqb (fst b) k) eqn:E.
  - apply str_eqb_eq in E. exfalso. apply H. auto.
  - rewrite IH; auto.
Qed.
Lemma dims_add_all_one m : forall acc, NoDup (dkeys_of (acc ++ m)) -> dims_add_all (OInt 1) m acc = Ok (acc ++ m).
Proof.
  induction m as [|[b bo] m IH]; intros acc N; cbn [dims_add_all]; [now rewrite app_nil_r|].
  rewrite dims_add_fresh.
  - rewrite IH; rewrite <- app_assoc; cbn [app]; rewrite Z.mul_1_r; auto.
  - unfold dkeys_of in *. rewrite map_app in N. cbn [map] in N. apply NoDup_remove_2 in N.
    intro H. apply N. apply in_or_app. auto.
Qed.
Lemma drop_zero_same d : Forall (fun e => snd e <> 0) d -> drop_zero d = d.
Proof.
  unfold drop_zero. induction 1 as [|e d H F IH]; auto. cbn [filter]. apply Z.eqb_neq in H. rewrite H. cbn. now f_equal.
Qed.
Lemma udims_named w x : udims (named w x) = udims x.
Proof.
  unfold named. rewrite udims_expr. unfold split_root. cbn [Expr.split bind snd count walk]. unfold step.
  cbn [find_ref]. rewrite str_eqb_refl. destruct (udims x) as [d|e] eqn:E; auto. cbn [bind].
  apply udims_wf in E as [N Z]. rewrite (dims_add_all_one d []) by auto. cbn [app bind]. now rewrite drop_zero_same.
Qed.
Lemma expanded_named w x : expanded (named w x) = expanded x.
Proof.
  unfold named. rewrite expanded_expr. cbn [expand_refs expand_ref]. destruct (expanded x) as [e|]; auto. cbn [bind subst dget].
  now rewrite str_eqb_refl.
Qed.
Lemma dimensionality_named w x : is_expr_unit x -> dimensionality (AUnit (named w x)) = dimensionality (AUnit x).
Proof. intro H. destruct x; [contradiction|]. unfold dimensionality. change (UExpr (Identifier w) [(w, RUnit (UExpr definition refs))]) with (named w (UExpr definition refs)). cbn [named]. fold (named w (UExpr definition refs)). now rewrite udims_named. Qed.
Lemma normal_form_named w x : normal_form (named w x) = normal_form x.
Proof. unfold normal_form, symbolic. now rewrite expanded_named. Qed.

(** C19.  unit(w) for a word is the unit of the direct look-up, wrapped; the same error, the
    same effect on the system. *)
Theorem C19_unit_of_a_word :
  forall ord fuel w s, rearranges ord -> parse w = Ok (Identifier w) ->
  sys_unit ord fuel w s =
    (let (r, s') := lookup ord fuel w s in
     (match r with Ok x => Ok (AUnit (named w x)) | Err e => Err e end, s')).
Proof.
  intros ord fuel w s R P. unfold sys_unit, resolve_refs, lift, ret, mbind. rewrite P. cbv beta iota. cbn [identifiers].
  assert (ord [w] = [w]) as ->.
  { apply Permutation_length_1_inv. apply Permutation_sym, R. }
  cbn [mmapM]. unfold ret, mbind. cbv beta iota.
  destruct (lookup ord fuel w s) as [[x|e] s'] eqn:E; reflexivity.
Qed.

(** A unit object that is not a basis unit can be used wherever unit(w) can. *)
Theorem C19_expression_units_are_interchangeable :
  forall w x b, is_expr_unit x ->
  is_convertible_to (AUnit x) b = is_convertible_to (AUnit (named w x)) b /\
  is_convertible_to b (AUnit x) = is_convertible_to b (AUnit (named w x)) /\
  mk_converter (AUnit x) b = mk_converter (AUnit (named w x)) b /\
  mk_converter b (AUnit x) = mk_converter b (AUnit (named w x)) /\
  udims x = udims (named w x) /\ is_time_unit x = is_time_unit (named w x) /\
  is_dimensionless x = is_dimensionless (named w x).
Proof.
  intros w x b H. pose proof (dimensionality_named w x H) as D. pose proof (normal_form_named w x) as N.
  assert (C : forall x, core (AUnit x) = x) by reflexivity.
  repeat split.
  - unfold is_convertible_to. now rewrite D.
  - destruct b; [|reflexivity]. unfold is_convertible_to. now rewrite D.
  - unfold mk_converter. rewrite D, !C, N. reflexivity.
  - unfold mk_converter. rewrite D, !C, N. reflexivity.
  - symmetry. apply udims_named.
  - destruct x; [contradiction|]. unfold is_time_unit at 2, named. fold (named w (UExpr definition refs)). now rewrite udims_named.
  - unfold is_dimensionless. now rewrite udims_named.
Qed.

(** A basis unit object: with everything dimensionless it works as a target; otherwise it is
    convertible to nothing but its equals, and an AttributeError as a source. *)
Theorem C19_basis_unit_objects :
  forall r dl it w x d, is_expr_unit x -> udims x = Ok d ->
  let b := UBasis r dl it in
  let both_empty := dl = true /\ d = [] in
  (both_empty -> is_convertible_to (AUnit b) (AUnit x) = Ok true /\ is_convertible_to (AUnit x) (AUnit b) = Ok true /\
     mk_converter (AUnit x) (AUnit b) = mk_converter (AUnit x) (AUnit (named w b))) /\
  (~ both_empty -> is_convertible_to (AUnit b) (AUnit x) = Err EAttribute /\ is_convertible_to (AUnit x) (AUnit b) = Ok false /\
     mk_converter (AUnit x) (AUnit b) = Err EIncompatible) /\
  mk_converter (AUnit b) (AUnit x) = Err EAttribute.
Proof.
  intros r dl it w x d Hx Ed b both. destruct x as [|g refs]; [contradiction|].
  assert (Dx : dimensionality (AUnit (UExpr g refs)) = Ok (DObj d)) by (unfold dimensionality; now rewrite Ed).
  assert (Db : dimensionality (AUnit b) = Ok (DDict (if dl then [] else [((r, it), 1)]))) by reflexivity.
  assert (Dn : dimensionality (AUnit (named w b)) = Ok (DObj (if dl then [] else [((r, it), 1)]))).
  { unfold dimensionality, named. fold (named w b). rewrite udims_named. reflexivity. }
  split; [|split].
  - intros [-> ->]. split; [|split].
    + unfold is_convertible_to. rewrite Dx, Db. reflexivity.
    + unfold is_convertible_to. rewrite Dx, Db. reflexivity.
    + unfold mk_converter. rewrite Dx, Db, Dn. cbn [bind dimval_inv dims_inv map]. 
      change (core (AUnit (named w b))) with (named w b). rewrite normal_form_named. reflexivity.
  - intro N. unfold is_convertible_to, mk_converter. rewrite Dx, Db. unfold dims_inv.
    destruct dl, d as [|e d]; cbn [bind dimval_eqb dimval_inv dims_inv map]; auto.
    exfalso. apply N. split; reflexivity.
  - unfold mk_converter. rewrite Dx, Db. reflexivity.
Qed.

Example C19_example_word : parse (u "km") = Ok (Identifier (u "km")) /\ is_expr_unit km.
Proof. split; [vm_compute; reflexivity|exact Logic.I]. Qed.
Example C19_example_basis :
  udims (UExpr (Int 3) []) = Ok [] /\
  (exists cv, mk_converter (AUnit (UExpr (I "rad") basics)) (AUnit radian) = Ok cv) /\
  is_convertible_to (AUnit metre) (AUnit km) = Err EAttribute.
Proof. split; [reflexivity|]. split; [eexists; vm_compute; reflexivity|vm_compute; reflexivity]. Qed.

(** C68 is false: a basis unit object (what a direct look-up of "meter" returns) cannot be
    the source of any Converter, and is_convertible_to fails on it or answers False. *)
Theorem C68_basis_unit_objects_unusable_refuted :
  forall r dl it y,
  (forall c, mk_converter (AUnit (UBasis r dl it)) (AUnit y) <> Ok c) /\
  (forall d b, udims y = Ok d -> dval d b <> 0 -> is_expr_unit y ->
     is_convertible_to (AUnit (UBasis r dl it)) (AUnit y) = Err EAttribute /\
     is_convertible_to (AUnit y) (AUnit (UBasis r dl it)) = Ok false).
Proof.
  intros r dl it y. split.
  - intros c. unfold mk_converter. destruct (dimensionality (AUnit (UBasis r dl it))) eqn:E; [|discriminate].
    cbn [bind]. destruct (dimensionality (AUnit y)); [|discriminate]. cbn [bind].
    simpl in E. injection E as <-. discriminate.
  - intros d b Ed Hb Hy. destruct (C19_basis_unit_objects r dl it [] y d Hy Ed) as (_ & H & _).
    destruct H as (H1 & H2 & _); auto. intros [_ ->]. now apply Hb.
Qed.
Example C68_example : udims km = Ok [((u "meter", false), 1)].
Proof. vm_compute. reflexivity. Qed.

(** C48.  A blank text parses to the empty expression, and nothing else does; unit() of it
    raises NotImplementedError and does not touch the system. *)
Lemma shift_one q cs raw : q = Shift_spec \/ q = Product -> reads (PNode q cs) (Unhandled raw) -> List.length cs = 1%nat.
Proof. intros [->| ->]; inversion 1; reflexivity. Qed.
Lemma derived_not_empty q ts t : derives q ts t -> q <> Unit_spec -> forall g, reads t g -> forall r, g <> Unhandled r.
Proof.
  induction 1; intros Q g R raw E; subst g; try congruence.
  all: try (inversion R; subst; try discriminate; try (eapply IHderives; eauto; discriminate); fail).
  all: try (inversion R; subst; eapply IHderives; eauto; discriminate).
  all: apply shift_one in R; [|now auto]; cbn [app List.length] in R; rewrite !app_length in R; cbn [List.length] in R; lia.
Qed.

Theorem C48_only_blank_text_is_the_empty_expression :
  forall s r, is_text s -> (parse s = Ok (Unhandled r) <-> strip s = [] /\ r = []).
Proof.
  intros s r H. split.
  - intro E. apply parse_reads in E as (ts & t & T & D & P & R); auto.
    inversion D; subst.
    + inversion R; subst. split; auto. now inversion T.
    + exfalso. inversion R; subst. eapply derived_not_empty; eauto. discriminate.
  - intros [E ->]. unfold parse. rewrite E. reflexivity.
Qed.

Theorem C48_unit_of_blank_text :
  forall ord fuel s st, rearranges ord -> strip s = [] ->
  sys_unit ord fuel s st = (Err ENotImplemented, st).
Proof.
  intros ord fuel s st R E. assert (P : parse s = Ok (Unhandled [])) by (unfold parse; rewrite E; reflexivity).
  unfold sys_unit, resolve_refs, lift, ret, mbind. rewrite P. cbv beta iota. cbn [identifiers].
  assert (ord [] = []) as -> by (apply Permutation_nil, Permutation_sym, R). reflexivity.
Qed.

(** The dimensionless unit is written as a number. *)
Theorem C48_unit_of_a_number :
  forall ord fuel s st v raw, rearranges ord -> parse s = Ok (Number v raw) ->
  exists x, sys_unit ord fuel s st = (Ok (AUnit x), st) /\ udims x = Ok [] /\ is_dimensionless x = Ok true /\
    forall y, is_expr_unit y -> udims y = Ok [] ->
      is_convertible_to (AUnit x) (AUnit y) = Ok true /\ is_convertible_to (AUnit y) (AUnit x) = Ok true.
Proof.
  intros ord fuel s st v raw R P. exists (UExpr (Number v raw) []).
  unfold sys_unit, resolve_refs, lift, ret, mbind. rewrite P. cbv beta iota. cbn [identifiers].
  assert (ord [] = []) as -> by (apply Permutation_nil, Permutation_sym, R).
  split; [reflexivity|]. split; [reflexivity|]. split; [reflexivity|]. intros y Hy Ey. destruct y; [contradiction|].
  unfold is_convertible_to, dimensionality. rewrite Ey. split; reflexivity.
Qed.

Example C48_example : strip (u "  ") = [] /\ parse (u " 1 ") = Ok (Int 1).
Proof. split; vm_compute; reflexivity. Qed.

(** C69 is false: no unit can be built from the empty text. *)
Theorem C69_empty_unit_refuted :
  parse (u "") = Ok (Unhandled []) /\
  forall refs, unit_from_expression (Unhandled []) refs = Err ENotImplemented.
Proof. split; [vm_compute; reflexivity|reflexivity]. Qed.

Print Assumptions C19_unit_of_a_word.
Print Assumptions C19_expression_units_are_interchangeable.
Print Assumptions C19_basis_unit_objects.
Print Assumptions C68_basis_unit_objects_unusable_refuted.
Print Assumptions C48_only_blank_text_is_the_empty_expression.
Print Assumptions C48_unit_of_blank_text.
Print Assumptions C48_unit_of_a_number.
Print Assumptions C69_empty_unit_refuted.
