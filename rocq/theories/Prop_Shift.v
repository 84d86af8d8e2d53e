(** * C08: how a shift operator changes the reading of later text. *)
From Verif Require Import PyBase PyNum Graph Regex Lexer LexSpec LexerFacts Parser GrammarSpec Visitor
  VisitSpec ParseFacts PrintLex ShiftSpec ShiftFacts.

(** C08.  A text read after a shift operator has the tokens it has on its own exactly when,
    read after the shift, it has no token of a date or time (a zone word, "-", ...) and nothing
    with a point directly after a unit. *)
Theorem C08_tokens_after_a_shift :
  forall s ts, tokenises SHIFT_MODE s ts ->
  (tokenises DEFAULT_MODE s ts <-> unaffected false ts).
Proof. intros s ts T. exact (modes_alike s ts T false). Qed.

(** Such a text is read in the same way behind any closing bracket, whatever came before. *)
Theorem C08_unaffected_text_reads_alike_anywhere :
  forall p tp b tb, tokenises DEFAULT_MODE p tp -> tokenises SHIFT_MODE b tb -> unaffected false tb ->
  tokenises DEFAULT_MODE b tb /\
  tokenises DEFAULT_MODE (p ++ u ")" ++ b) (tp ++ mkTok CLOSE_PAREN (u ")") :: tb).
Proof.
  intros p tp b tb Tp Tb U. apply (modes_alike b tb Tb false) in U. split; [exact U |].
  apply tokenises_extend_any; auto. apply (tok_step _ CLOSE_PAREN [41%N] b).
  - apply takes_close. now apply tokenises_text in Tb.
  - destruct (after_punct (mode_after DEFAULT_MODE tp) CLOSE_PAREN) as [-> | ->]; auto; discriminate.
Qed.

Definition no_shift_op (ts : list token) : Prop := Forall (fun t => tkind t <> SHIFT_OP) ts.

(** Products: (A)·(B) is the product of A and B, unless A contains a shift and B is affected. *)
Theorem C08_product_of_bracketed_texts :
  forall a b ga gb ta tb,
  is_text a -> is_text b -> a <> [] -> b <> [] -> strip a = a -> strip b = b ->
  parse a = Ok ga -> parse b = Ok gb ->
  tokenises DEFAULT_MODE a ta -> tokenises SHIFT_MODE b tb ->
  no_shift_op ta \/ unaffected false tb ->
  parse (u "(" ++ a ++ u ")·(" ++ b ++ u ")") = Ok (Multiply ga gb).
Proof.
  intros a b ga gb ta tb Ha Hb Na Nb Sa Sb Pa Pb Ta Tb C.
  apply (bracketed_product a b ga gb ta tb); auto. destruct C as [C | C]; auto. left.
  clear - C. assert (G : forall m, m <> SHIFT_MODE -> mode_after m ta <> SHIFT_MODE).
  { induction C as [| t ts Ht C IH]; intros m Hm; cbn; auto. apply IH.
    destruct m; cbn; try congruence. destruct (tkind t); congruence. }
  apply G. discriminate.
Qed.

(** So the order of two unaffected factors does not matter. *)
Corollary C08_factors_can_be_swapped :
  forall a b ga gb ta tb,
  is_text a -> is_text b -> a <> [] -> b <> [] -> strip a = a -> strip b = b ->
  parse a = Ok ga -> parse b = Ok gb ->
  tokenises SHIFT_MODE a ta -> tokenises SHIFT_MODE b tb ->
  unaffected false ta -> unaffected false tb ->
  parse (u "(" ++ a ++ u ")·(" ++ b ++ u ")") = Ok (Multiply ga gb) /\
  parse (u "(" ++ b ++ u ")·(" ++ a ++ u ")") = Ok (Multiply gb ga).
Proof.
  intros a b ga gb ta tb Ha Hb Na Nb Sa Sb Pa Pb Ta Tb Ua Ub. split.
  - apply (C08_product_of_bracketed_texts a b ga gb ta tb); auto. now apply C08_tokens_after_a_shift.
  - apply (C08_product_of_bracketed_texts b a gb ga tb ta); auto. now apply C08_tokens_after_a_shift.
Qed.

(** ** Examples *)
Definition shift_tokens (s : str) : list token :=
  match lex_fuel (List.length s) SHIFT_MODE s with Some ts => ts | None => [] end.
Lemma shift_tokens_ok s : forallb (fun c => N.leb c 1114111) s = true -> tokenises SHIFT_MODE s (shift_tokens s).
Proof.
  intros H. assert (T : is_text s).
  { apply Forall_forall. intros c Hc. rewrite forallb_forall in H. now apply N.leb_le, H. }
  destruct (lex_fuel_total (List.length s) SHIFT_MODE s T (le_n _)) as (ts & E & Ts).
  unfold shift_tokens. now rewrite E.
Qed.

Example C08_example_unaffected :
  let s := u "kg m2/(s 2.5e3 K)·lg(re mW) (degC @ 20)" in
  tokenises SHIFT_MODE s (shift_tokens s) /\ unaffected false (shift_tokens s) /\
  (exists g, parse s = Ok g) /\ strip s = s.
Proof.
  split; [apply shift_tokens_ok; vm_compute; reflexivity |].
  split; [vm_compute; repeat split; discriminate |].
  split; [eexists; vm_compute; reflexivity | vm_compute; reflexivity].
Qed.
Example C08_example_affected :
  ~ unaffected false (shift_tokens (u "T")) /\ ~ unaffected false (shift_tokens (u "m-s")) /\
  ~ unaffected false (shift_tokens (u "m.s")) /\ ~ unaffected false (shift_tokens (u "m1.5")).
Proof.
  repeat split; vm_compute; intros H; repeat (destruct H as [? H]); try discriminate;
    repeat match goal with X : true = true -> _ |- _ => specialize (X eq_refl); try discriminate end.
Qed.

(** C66 is false: after a shift, T is not read as a unit any more, ... *)
Theorem C66_shift_changes_later_text_refuted :
  parse (u "(K @ 5) T") = Err ESyntax /\ (exists g, parse (u "T (K @ 5)") = Ok g) /\
  (exists g, parse (u "(K 5) T") = Ok g).
Proof. split; [|split; eexists]; vm_compute; reflexivity. Qed.
(** ... and "-" and "." are no multiplications any more. *)
Theorem C66_shift_changes_later_operators_refuted :
  parse (u "(K @ 5) m-s") = Err ESyntax /\ parse (u "(K @ 5) m.s") = Err ESyntax /\
  (exists g, parse (u "m-s (K @ 5)") = Ok g /\ parse (u "m.s (K @ 5)") = Ok g).
Proof. split; [|split; [|eexists; split]]; vm_compute; reflexivity. Qed.

Print Assumptions C08_tokens_after_a_shift.
Print Assumptions C08_unaffected_text_reads_alike_anywhere.
Print Assumptions C08_product_of_bracketed_texts.
Print Assumptions C08_factors_can_be_swapped.
Print Assumptions C66_shift_changes_later_text_refuted.
Print Assumptions C66_shift_changes_later_operators_refuted.
