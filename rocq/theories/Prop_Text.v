(** * C06, C65: spelling, normalised text. *)
From Verif Require Import PyBase PyNum Graph Lexer LexSpec Parser Visitor Respell.

(** C06.  Texts whose tokens differ only in the spelling of operators (and of a logarithm's
    opening) have the same parse, including the same error. *)
Theorem C06_operator_spelling :
  forall s s' ts ts', is_text s -> is_text s' ->
  tokenises DEFAULT_MODE (strip s) ts -> tokenises DEFAULT_MODE (strip s') ts' ->
  Forall2 respelled ts ts' ->
  parse s = parse s' /\ normalize s = normalize s'.
Proof.
  intros s s' ts ts' H H' T T' F. unfold normalize.
  rewrite (parse_respelled s s' ts ts' H H' T T' F). auto.
Qed.

Definition spelling1 := u "km**2·s per lg(re:mW) since 5".
Definition spelling2 := u "km^2-s/lg ( re mW) @ 5".
Example C06_example :
  (option_map (map tkind) (lex spelling1) = option_map (map tkind) (lex spelling2)) /\
  (exists g, parse spelling1 = Ok g /\ parse spelling2 = Ok g).
Proof. split; [vm_compute; reflexivity|]. eexists. split; [vm_compute; reflexivity|vm_compute; reflexivity]. Qed.

(** C65 is false: a normalised text may not parse, ... *)
Theorem C65_normalised_text_may_not_parse_refuted :
  exists s g, parse s = Ok g /\ parse (node_str g) = Err ESyntax.
Proof. exists (u "(m^2)^3"). eexists. split; [vm_compute; reflexivity|vm_compute; reflexivity]. Qed.

(** ... and may parse to something else: m/(s kg) becomes (m/s) kg. *)
Theorem C65_normalised_text_may_change_meaning_refuted :
  exists s g h, parse s = Ok g /\ parse (node_str g) = Ok h /\
    g = Divide (Identifier (u "m")) (Multiply (Identifier (u "s")) (Identifier (u "kg"))) /\
    h = Multiply (Divide (Identifier (u "m")) (Identifier (u "s"))) (Identifier (u "kg")).
Proof.
  exists (u "m/(s kg)"). eexists _, _. split; [vm_compute; reflexivity|].
  split; [vm_compute; reflexivity|]. split; reflexivity.
Qed.

Print Assumptions C06_operator_spelling.
Print Assumptions C65_normalised_text_may_not_parse_refuted.
Print Assumptions C65_normalised_text_may_change_meaning_refuted.
