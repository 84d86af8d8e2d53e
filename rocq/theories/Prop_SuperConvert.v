(** * C09: converting and comparing units written with superscripts. *)
From Verif Require Import PyBase PyNum Graph RegexFacts Expr Units UnitSpec UnitFacts UnitProofs PrintSpec SuperSpec SuperDims
  Sympy Convert ConvertFacts EqFacts Prop_Units Prop_Convert.
From Coq Require Import QArith Reals.

Definition any_with_ints (a : anyunit) : anyunit :=
  match a with AUnit x => AUnit (unit_with_ints x) | ADate x r => ADate (unit_with_ints x) r end.

Lemma parse_int_value s z : sympy_parse_int s = Some z -> text_value s = z.
Proof.
  assert (D : forall c s, is_digit c = true -> text_value (c :: s) = Z.of_N (digits_value (c :: s))).
  { intros c s' H. unfold is_digit in H. apply andb_prop in H as [H1 H2]. apply N.leb_le in H1, H2.
    unfold text_value. destruct c as [|p]; [reflexivity|].
    do 6 (destruct p as [p|p|]; try reflexivity; try lia). }
  assert (G : forall r ds, take_digits r = (ds, []) -> r = ds /\ Forall (fun c => is_digit c = true) ds).
  { induction r as [|c r IH]; cbn [take_digits]; intros ds H; [injection H as <-; auto|].
    destruct (is_digit c) eqn:E; [|discriminate]. destruct (take_digits r) as [a b]. injection H as <- ->.
    destruct (IH a eq_refl) as [-> F]. auto. }
  assert (V : forall r z, (let (ds, rest) := take_digits r in match rest, ds with
      | [], [c] => Some (Z.of_N (c - 48)) | [], c :: _ :: _ => if N.eqb c 48 then None else Some (Z.of_N (digits_value ds)) | _, _ => None end) = Some z ->
      z = Z.of_N (digits_value r) /\ exists c r', r = c :: r' /\ is_digit c = true).
  { intros r z'. destruct (take_digits r) as [ds rest] eqn:T. destruct rest as [|]; [|destruct ds as [|? [|? ?]]; discriminate].
    destruct (G r ds T) as [-> F]. destruct ds as [|c [|c' ds]]; [discriminate| |].
    - intro H. injection H as <-. split; [|inversion F; eauto]. unfold digits_value. cbn [fold_left]. f_equal.
    - destruct (N.eqb c 48); [discriminate|]. intro H. injection H as <-. split; [reflexivity|inversion F; eauto]. }
  unfold sympy_parse_int, split_sign. destruct s as [|c s]; [discriminate|].
  destruct (N.eqb_spec c 45) as [->|N1]; [|destruct (N.eqb_spec c 43) as [->|N2]].
  - intro H. destruct (V s (- z)%Z) as [E _].
    { destruct (take_digits s) as [[|d [|d' ds]] [|]]; try discriminate.
      - injection H as <-. f_equal. lia.
      - destruct (N.eqb d 48); [discriminate|]. injection H as <-. f_equal. lia. }
    cbn. lia.
  - intro H. destruct (V s z) as [E _]; [exact H|]. cbn. lia.
  - intro H. destruct (V (c :: s) z) as [E (c' & r' & E' & Dg)]; [exact H|]. injection E' as <- <-. rewrite (D c s Dg). now symmetry.
Qed.

Lemma to_sympy_with_ints g : forall e, to_sympy g = Ok e -> to_sympy (with_ints g) = Ok e.
Proof.
  induction g; intros e H; cbn [to_sympy with_ints] in *; try discriminate; try exact H.
  - destruct v; [exact H|exact H|]. cbn [num_sympy to_sympy] in *. destruct (sympy_parse_int s) as [z|] eqn:E; [|discriminate].
    now rewrite (parse_int_value s z E).
  - destruct (to_sympy g1) as [x|]; [|discriminate]. destruct (to_sympy g2) as [y|]; [|discriminate].
    rewrite (IHg1 x eq_refl), (IHg2 y eq_refl). exact H.
  - destruct (to_sympy g1) as [x|]; [|discriminate]. destruct (to_sympy g2) as [y|]; [|discriminate].
    rewrite (IHg1 x eq_refl), (IHg2 y eq_refl). exact H.
  - destruct (to_sympy g1) as [x|]; [|discriminate]. destruct (to_sympy g2) as [y|]; [|discriminate].
    rewrite (IHg1 x eq_refl), (IHg2 y eq_refl). exact H.
  - destruct (to_sympy g1) as [x|]; [|discriminate]. destruct (to_sympy g2) as [y|]; [|discriminate].
    rewrite (IHg1 x eq_refl), (IHg2 y eq_refl). exact H.
  - destruct (log_base function); [|discriminate]. destruct (to_sympy g) as [x|]; [|discriminate]. rewrite (IHg x eq_refl). exact H.
Qed.

Definition dict_with_ints (m : dict node) : dict node := map (fun kv => (fst kv, with_ints (snd kv))) m.
Lemma dget_with_ints k m : dget k (dict_with_ints m) = option_map with_ints (dget k m).
Proof. induction m as [|[k' v] m IH]; cbn; auto. destruct (str_eqb k k'); auto. Qed.
Lemma subst_with_ints m g : subst (dict_with_ints m) (with_ints g) = with_ints (subst m g).
Proof.
  induction g; cbn [with_ints subst]; try (f_equal; assumption); try reflexivity.
  - destruct v; reflexivity.
  - rewrite dget_with_ints. destruct (dget name m); reflexivity.
Qed.

Lemma expanded_with_ints x :
  expanded (unit_with_ints x) = match expanded x with Ok g => Ok (with_ints g) | Err e => Err e end.
Proof.
  induction x as [r dl it|g refs IH] using unit_ind'; [reflexivity|]. cbn [unit_with_ints]. rewrite !expanded_expr.
  assert (E : expand_refs (map (fun kv => (fst kv, uref_with_ints (snd kv))) refs) =
    match expand_refs refs with Ok m => Ok (dict_with_ints m) | Err e => Err e end).
  { induction refs as [|[k v] refs IHr]; [reflexivity|]. cbn [map fst snd expand_refs].
    rewrite IHr by (intros k' y I; apply (IH k' y); now right). destruct v as [p|y]; cbn [uref_with_ints expand_ref].
    - unfold prefix_expanded. destruct (py_decimal p); [|reflexivity]. cbn [bind]. destruct (expand_refs refs); reflexivity.
    - rewrite (IH k y (or_introl eq_refl)). destruct (expanded y); [|reflexivity]. cbn [bind]. destruct (expand_refs refs); reflexivity. }
  rewrite E. destruct (expand_refs refs) as [m|]; [|reflexivity]. cbn [bind]. now rewrite subst_with_ints.
Qed.

Lemma normal_form_with_ints x n : normal_form x = Ok n -> normal_form (unit_with_ints x) = Ok n.
Proof.
  unfold normal_form, symbolic. rewrite expanded_with_ints. destruct (expanded x) as [g|]; [|discriminate]. cbn [bind].
  unfold split_root. rewrite split_with_ints. destruct (Expr.split true g) as [[t d]|]; [|discriminate]. cbn [bind wi2 fst snd].
  destruct t as [t|]; cbn [option_map].
  - destruct (to_sympy t) as [et|] eqn:Et; [|discriminate]. rewrite (to_sympy_with_ints t et Et). cbn [bind].
    destruct (to_sympy d) as [ed|] eqn:Ed; [|discriminate]. rewrite (to_sympy_with_ints d ed Ed). auto.
  - cbn [bind]. destruct (to_sympy d) as [ed|] eqn:Ed; [|discriminate]. rewrite (to_sympy_with_ints d ed Ed). auto.
Qed.

Lemma dimensionality_with_ints a d : dimensionality a = Ok d -> dimensionality (any_with_ints a) = Ok d.
Proof.
  destruct a as [[r dl it|g refs]|x r]; cbn [any_with_ints]; unfold dimensionality.
  - auto.
  - destruct (udims (UExpr g refs)) as [d0|] eqn:E; [|discriminate]. apply udims_with_ints in E. cbn [unit_with_ints] in *. now rewrite E.
  - destruct (udims x) as [d0|] eqn:E; [|discriminate]. apply udims_with_ints in E. now rewrite E.
Qed.

(** C09, converting.  Whenever a converter between units written with superscripts can be
    made, it is the converter between the units with ints as exponents. *)
Theorem C09_conversion_is_right_when_defined :
  forall a b c, mk_converter a b = Ok c -> mk_converter (any_with_ints a) (any_with_ints b) = Ok c.
Proof.
  intros a b c. unfold mk_converter.
  destruct (dimensionality a) as [da|] eqn:Ea; [|discriminate]. rewrite (dimensionality_with_ints a da Ea). cbn [bind].
  destruct (dimensionality b) as [db|] eqn:Eb; [|discriminate]. rewrite (dimensionality_with_ints b db Eb). cbn [bind].
  destruct (dimval_inv da) as [ia|]; [|discriminate]. cbn [bind].
  destruct (negb (dimval_eqb da db || dimval_eqb ia db)); [discriminate|].
  assert (C : forall x, core (any_with_ints x) = unit_with_ints (core x)) by (intros [x|x r]; reflexivity). rewrite !C.
  destruct (normal_form (core a)) as [n1|] eqn:N1; [|discriminate]. rewrite (normal_form_with_ints _ n1 N1). cbn [bind].
  destruct (normal_form (core b)) as [n2|] eqn:N2; [|discriminate]. rewrite (normal_form_with_ints _ n2 N2). cbn [bind]. auto.
Qed.

(** C09, comparing.  Unless texts coincide, writing exponents as ints changes no comparison. *)
Definition respelled (x x' : unit) : Prop := x' = x \/ x' = unit_with_ints x.

Lemma respelled_normal x x' n : respelled x x' -> normal_form x = Ok n -> normal_form x' = Ok n.
Proof. intros [->| ->] H; [exact H|now apply normal_form_with_ints]. Qed.

Theorem C09_comparison_is_right_when_texts_differ :
  forall x y b x' y', unit_eq x y = Ok b -> unit_str x <> unit_str y ->
  respelled x x' -> respelled y y' -> unit_str x' <> unit_str y' -> unit_eq x' y' = Ok b.
Proof.
  intros x y b x' y' H N Rx Ry N'. unfold unit_eq in *.
  assert (F : forall x y, unit_str x <> unit_str y -> str_eqb (node_str (definition_of y)) (node_str (definition_of x)) = false).
  { intros z w M. destruct (str_eqb (node_str (definition_of w)) (node_str (definition_of z))) eqn:E; [|reflexivity].
    apply str_eqb_eq in E. exfalso. apply M. destruct z, w; cbn in *; congruence. }
  rewrite (F x y N) in H. rewrite (F x' y' N').
  destruct (normal_form x) as [n1|] eqn:N1; [|discriminate]. rewrite (respelled_normal x x' n1 Rx N1). cbn [bind] in *.
  destruct (normal_form y) as [n2|] eqn:N2; [|discriminate]. rewrite (respelled_normal y y' n2 Ry N2). cbn [bind] in *. exact H.
Qed.

(** ** Examples: 12² -> 1 multiplies by 144; m² == m·m *)
Definition square (g : node) : node := Raise g (Number (NStr (u "2")) (Some (u "2"))).
Definition meter_u : list (str * uref) := [(u "m", RUnit (UBasis (u "meter") false false))].
Definition dozen_squared : anyunit := AUnit (UExpr (square (Number (NInt 12) (Some (u "12")))) []).
Definition one : anyunit := AUnit (UExpr (Number (NInt 1) (Some (u "1"))) []).
Example C09_example_convert :
  (exists c, mk_converter dozen_squared one = Ok c /\ convertQ c 1 = Ok 144%Q) /\ any_with_ints dozen_squared <> dozen_squared /\
  unit_eq (UExpr (square (Identifier (u "m"))) meter_u) (UExpr (Multiply (Identifier (u "m")) (Identifier (u "m"))) meter_u) = Ok true /\
  unit_eq (UExpr (square (Identifier (u "m"))) meter_u) (UExpr (Identifier (u "m")) meter_u) = Ok false.
Proof.
  split; [eexists; split; vm_compute; reflexivity|]. split; [discriminate|]. split; vm_compute; reflexivity.
Qed.

Print Assumptions C09_conversion_is_right_when_defined.
Print Assumptions C09_comparison_is_right_when_texts_differ.
