(** * C09: superscript exponents. *)
From Verif Require Import PyBase PyNum Graph RegexFacts Lexer LexSpec LexerFacts Parser Visitor VisitSpec PrintSpec
  Expr Units UnitSpec UnitFacts UnitProofs ParseFacts SuperSpec SuperFacts SuperDims Prop_Print Prop_Units.

(** C09.  A text whose exponents are superscripts and the same text with "^" and ordinary
    digits are parsed alike: the same error, or the same expression up to the exponents
    being text in the one and ints in the other. *)
Theorem C09_superscripts_parse_like_carets :
  forall s s' ts, is_text s -> is_text s' ->
  tokenises DEFAULT_MODE (strip s) ts -> tokenises DEFAULT_MODE (strip s') (carets ts) ->
  Forall superscript_ok ts ->
  parse s' = match parse s with Ok g => Ok (with_ints g) | Err e => Err e end.
Proof. exact parse_carets. Qed.

(** If the dimensionality of a unit is defined, it is the one with ints as exponents ... *)
Theorem C09_dimensionality_is_right_when_defined :
  forall x d, udims x = Ok d -> udims (unit_with_ints x) = Ok d.
Proof. exact udims_with_ints. Qed.

(** ... but for a power of a unit it is defined only when that unit has no dimension. *)
Theorem C09_superscript_of_a_unit :
  forall k y s r d, udims y = Ok d ->
  udims (UExpr (Raise (Identifier k) (Number (NStr s) r)) [(k, RUnit y)]) =
    (match d with [] => Ok [] | _ => Err EType end).
Proof.
  intros k y s r d E. rewrite udims_expr. unfold split_root. cbn [Expr.split bind fst snd count scope_scale].
  cbn [order_mul bind walk]. unfold step. cbn [find_ref]. rewrite str_eqb_refl, E. cbn [bind].
  destruct d as [|[b z] d]; reflexivity.
Qed.

(** ** Examples *)
Definition superscripts := u "kg m²/(s⁻¹⁰ rad⁺³)".
Definition with_carets := u "kg m^2/(s^-10 rad^+3)".
Definition default_tokens (s : str) : list token := match lex s with Some ts => ts | None => [] end.
Lemma default_tokens_ok s : forallb (fun c => N.leb c 1114111) s = true -> tokenises DEFAULT_MODE s (default_tokens s).
Proof.
  intros H. assert (T : is_text s).
  { apply Forall_forall. intros c Hc. rewrite forallb_forall in H. now apply N.leb_le, H. }
  unfold default_tokens. destruct (lex_total s T) as (ts & E & Ts). now rewrite E.
Qed.
Definition digits_ok (l : str) : bool := match l with [] => false | _ => forallb is_digit l end.
Definition integer_check (s : str) : bool :=
  match s with (43 | 45)%N :: ds => digits_ok ds | ds => digits_ok ds end.
Example C09_example_parse :
  tokenises DEFAULT_MODE (strip superscripts) (default_tokens superscripts) /\
  tokenises DEFAULT_MODE (strip with_carets) (carets (default_tokens superscripts)) /\
  Forall superscript_ok (default_tokens superscripts) /\
  (exists g, parse superscripts = Ok g /\ parse with_carets = Ok (with_ints g) /\ with_ints g <> g).
Proof.
  split; [apply default_tokens_ok; vm_compute; reflexivity|].
  split.
  { replace (carets (default_tokens superscripts)) with (default_tokens with_carets) by (vm_compute; reflexivity).
    apply default_tokens_ok; vm_compute; reflexivity. }
  split.
  { vm_compute. repeat (constructor; [intro K; try discriminate K|]); [| | |constructor]; (split; [|vm_compute; discriminate]).
    - exists [], (u "2"). repeat split; [now left|discriminate|repeat constructor; vm_compute; discriminate].
    - exists (u "-"), (u "10"). repeat split; [now right; right; left|discriminate|repeat constructor; vm_compute; discriminate].
    - exists (u "+"), (u "3"). repeat split; [now right; left|discriminate|repeat constructor; vm_compute; discriminate]. }
  eexists. split; [vm_compute; reflexivity|]. split; [vm_compute; reflexivity|vm_compute; discriminate].
Qed.
Example C09_example_dimensions :
  udims (UExpr (Multiply (Raise (I "rad") (Number (NStr (u "2")) None)) (I "m")) basics) = Ok [((u "meter", false), 1%Z)] /\
  udims (UExpr (Multiply (I "m") (Raise (I "rad") (Number (NStr (u "2")) None))) basics) = Err EType /\
  udims (UExpr (Multiply (I "rad") (Raise (I "m") (Number (NStr (u "2")) None))) basics) = Err EType.
Proof. repeat split; vm_compute; reflexivity. Qed.

(** C67 is false: a superscript exponent on a dimensional unit has no dimensionality
    (TypeError), where ^n has one. *)
Theorem C67_superscript_refuted :
  forall k y s d, udims y = Ok d -> d <> [] ->
  udims (UExpr (Raise (Identifier k) (Number (NStr s) (Some s))) [(k, RUnit y)]) = Err EType /\
  forall z, exists d', udims (UExpr (Raise (Identifier k) (Number (NInt z) (Some s))) [(k, RUnit y)]) = Ok d'.
Proof.
  intros k y s d E N. split.
  - rewrite (C09_superscript_of_a_unit k y s (Some s) d E). destruct d; congruence.
  - intro z. rewrite udims_expr. unfold split_root. cbn [Expr.split bind fst snd count scope_scale order_mul walk].
    unfold step. cbn [find_ref]. rewrite str_eqb_refl, E. cbn [bind].
    destruct (dims_add_all_val (1 * z) d []) as (a & Ea & _); [apply udims_wf in E; apply E|].
    rewrite Ea. eexists. reflexivity.
Qed.
Example C67_example :
  parse (u "m²") = Ok (Raise (I "m") (Number (NStr (u "2")) (Some (u "2")))) /\
  parse (u "m^2") = Ok (Raise (I "m") (Int 2)).
Proof. split; vm_compute; reflexivity. Qed.

Print Assumptions C09_superscripts_parse_like_carets.
Print Assumptions C09_dimensionality_is_right_when_defined.
Print Assumptions C09_superscript_of_a_unit.
Print Assumptions C67_superscript_refuted.
