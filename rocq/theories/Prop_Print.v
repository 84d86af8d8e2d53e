(** * C07: what the normalised text of an expression means when it is parsed again. *)
From Verif Require Import PyBase PyNum Graph Regex Lexer LexSpec Parser GrammarSpec Visitor VisitSpec
  LexerFacts ParseFacts PrintSpec PrintNum PrintLex PrintParse PrintMore.

(** C07.  The text of an expression the parser returned is read from left to right
    ([reread]); it is refused exactly when two exponents follow each other. *)
Theorem C07_normalised_text_reads_back :
  forall s g, is_text s -> (List.length s <= 4300)%nat -> parse s = Ok g -> printable false g ->
  parse (node_str g) = match reread g with Some h => Ok h | None => Err ESyntax end /\
  (parse (node_str g) = Err ESyntax <-> double_exponent g = true).
Proof.
  intros s g H L E P. pose proof (parse_writable s g H L E P) as W.
  pose proof (parse_node_str g W) as R. split; [exact R |]. rewrite R.
  pose proof (reread_cases g false W) as C. destruct (reread g) as [h |].
  - destruct C as [C _]. rewrite C. split; discriminate.
  - rewrite C. tauto.
Qed.

(** The same for every expression that could be built by hand. *)
Theorem C07_any_text_reads_back :
  forall g, writable false g ->
  parse (node_str g) = match reread g with Some h => Ok h | None => Err ESyntax end.
Proof. exact parse_node_str. Qed.

(** An expression that needs no brackets is read back as itself, its numbers written out. *)
Theorem C07_bracket_free_text_reads_back :
  forall s g, is_text s -> (List.length s <= 4300)%nat -> parse s = Ok g -> printable false g ->
  bracket_free g -> parse (node_str g) = Ok (renumbered g).
Proof.
  intros s g H L E P B. pose proof (parse_writable s g H L E P) as W.
  rewrite (parse_node_str g W), (reread_bracket_free g false W B). reflexivity.
Qed.

(** normalize is idempotent, unless two exponents follow each other. *)
Theorem C07_normalize_twice :
  forall s g, is_text s -> (List.length s <= 4300)%nat -> parse s = Ok g -> printable false g ->
  canonical_numbers g ->
  normalize s = Ok (node_str g) /\
  normalize (node_str g) = if double_exponent g then Err ESyntax else Ok (node_str g).
Proof.
  intros s g H L E P C. split; [unfold normalize; now rewrite E |].
  pose proof (parse_writable s g H L E P) as W. unfold normalize.
  rewrite (parse_node_str g W). pose proof (reread_cases g false W) as R.
  destruct (reread g) as [h |] eqn:Eh.
  - destruct R as [-> _]. cbn [bind]. now rewrite (reread_text g h C Eh).
  - now rewrite R.
Qed.

(** Two expressions with the same text are read back alike. *)
Corollary C07_same_text_same_reading :
  forall g h, writable false g -> writable false h -> node_str g = node_str h -> reread g = reread h.
Proof.
  intros g h Wg Wh E. pose proof (parse_node_str g Wg) as A. rewrite E, (parse_node_str h Wh) in A.
  destruct (reread g), (reread h); congruence.
Qed.

(** ** The hypotheses are met *)
Lemma text_check s : forallb (fun c => N.leb c 1114111) s = true -> is_text s.
Proof. intros H. apply Forall_forall. intros c Hc. rewrite forallb_forall in H. now apply N.leb_le, H. Qed.
Ltac text := apply text_check; vm_compute; reflexivity.

Definition ex_units := u "kg m2/(s 2.5e3 K) lg(re mW) (K @ 273.15)".
Example C07_example_reads_back :
  exists g, is_text ex_units /\ (List.length ex_units <= 4300)%nat /\ parse ex_units = Ok g /\
    printable false g /\ canonical_numbers g /\ ~ bracket_free g /\ double_exponent g = false.
Proof.
  eexists. split; [text |]. split; [apply Nat.leb_le; vm_compute; reflexivity |]. split; [vm_compute; reflexivity |].
  split; [cbn; intuition discriminate |]. split; [cbn; intuition discriminate |].
  split; [cbn; intuition discriminate | reflexivity].
Qed.
Example C07_example_text :
  normalize ex_units = Ok (u "kg·m^2/s·2.5E+3·K·(lg(re mW))·(K @ 273.15)").
Proof. vm_compute. reflexivity. Qed.

Lemma date_by_lexer raw ns : is_text raw -> lex_fuel (List.length raw) SHIFT_MODE raw = Some ns ->
  timestamp ns -> (forall t, ns <> [t]) -> date_ok raw.
Proof.
  intros T E Ts N. destruct (lex_fuel_total (List.length raw) SHIFT_MODE raw T (le_n _)) as (ns' & E' & T').
  rewrite E in E'. injection E' as <-. exists ns. split; auto. split; auto. intros t Et. destruct (N t Et).
Qed.

Definition ex_free := u "days since 2000-01-01 12:00".
Example C07_example_bracket_free :
  exists g, is_text ex_free /\ (List.length ex_free <= 4300)%nat /\ parse ex_free = Ok g /\
    printable false g /\ bracket_free g /\ parse (node_str g) = Ok g.
Proof.
  eexists. split; [text |]. split; [apply Nat.leb_le; vm_compute; reflexivity |]. split; [vm_compute; reflexivity |].
  split; [| split; [exact I | vm_compute; reflexivity]].
  cbn [printable]. split; [discriminate |].
  apply (date_by_lexer _ [mkTok DATE (u "2000-01-01"); mkTok WS [32%N]; mkTok HOUR_MINUTE (u "12:00")]);
    [text | vm_compute; reflexivity | | discriminate].
  apply (Ts_clock _ [mkTok WS [32%N]] _ [] []);
    [left; reflexivity | apply Ot_ws; reflexivity | right; left; reflexivity | constructor | constructor].
Qed.

Example C07_example_refused : exists g, parse (u "(m^2)^3") = Ok g /\ printable false g /\ double_exponent g = true.
Proof. eexists. split; [vm_compute; reflexivity |]. split; [cbn; auto; discriminate | reflexivity]. Qed.

Print Assumptions C07_normalised_text_reads_back.
Print Assumptions C07_any_text_reads_back.
Print Assumptions C07_bracket_free_text_reads_back.
Print Assumptions C07_normalize_twice.
Print Assumptions C07_same_text_same_reading.
