(** * C01: tokenising. *)
From Verif Require Import PyBase Regex Lexer LexSpec LexerFacts.

(** C01.  Every text has exactly one tokenisation in the sense of the specification
    (longest match, first rule on ties), the tokeniser returns it, it is lossless and no
    token is empty. *)
Theorem C01_tokenise_total_lossless_longest :
  forall s, is_text s ->
  exists ts, lex s = Some ts /\ tokenises DEFAULT_MODE s ts /\
    (forall ts', tokenises DEFAULT_MODE s ts' -> ts' = ts) /\
    List.concat (map ttext ts) = s /\ Forall (fun t => ttext t <> []) ts.
Proof.
  intros s H. destruct (lex_total s H) as (ts & E & T). exists ts. repeat split; auto.
  - intros ts' T'. eapply tokenises_unique; eauto.
  - now apply (tokenises_concat DEFAULT_MODE).
  - now apply (tokenises_nonempty DEFAULT_MODE s).
Qed.

Example C01_example :
  lex (u "m2 s^-1 @ 5T") =
  Some [mkTok ID (u "m"); mkTok INT (u "2"); mkTok WS (u " "); mkTok ID (u "s");
        mkTok RAISE (u "^"); mkTok SIGNED_INT (u "-1"); mkTok WS (u " ");
        mkTok SHIFT_OP (u "@"); mkTok WS (u " "); mkTok INT (u "5"); mkTok T (u "T")].
Proof. vm_compute. reflexivity. Qed.

(** C01, determinism of a single token. *)
Theorem C01_next_token_unique :
  forall m k w rest k' w' rest',
  takes m k w rest -> takes m k' w' rest' -> w ++ rest = w' ++ rest' ->
  k = k' /\ w = w' /\ rest = rest'.
Proof. exact takes_unique. Qed.

(** C08, what holds: the mode after a shift operator is never left again. *)
Theorem C08_shift_mode_is_absorbing :
  forall ks : list kind, fold_left next_mode ks SHIFT_MODE = SHIFT_MODE.
Proof. exact shift_mode_absorbing. Qed.

Print Assumptions C01_tokenise_total_lossless_longest.
Print Assumptions C01_next_token_unique.
Print Assumptions C08_shift_mode_is_absorbing.
