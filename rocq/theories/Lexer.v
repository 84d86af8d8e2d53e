(** * Tokeniser: pyudunits2/_grammar/udunits2Lexer.g4.jinja

    The generated lexer (parser/udunits2Lexer.py) is the serialised ATN of this grammar;
    the ATN runtime is an interpreter: longest match over the rules of the current mode,
    ties to the rule listed first (LexerATNSimulator).  Here the rules are regular
    expressions and that matching discipline is modelled directly; Atn.v models the
    serialised automaton and the runtime, and C63 (Prop_Atn.v) proves that both agree. *)
From Verif Require Import PyBase Regex.

(** Token types, in the numbering of parser/udunits2Lexer.py. *)
Inductive kind :=
| SIGNED_INT | PLUS | MULTIPLY | DIVIDE | PERIOD | OPEN_PAREN | CLOSE_PAREN | SEMICOLON
| INT | E_POWER | FLOAT | SHIFT_OP | UNICODE_EXPONENT | RAISE | LOG | ID | LATIN_SUBSET
| WS | ERRORCHARACTER | TIMEZONE | TZ | HOUR_MINUTE_SECOND | HOUR_MINUTE | M_MINUS
| DATE | T | TIMESTAMP.

(** the constants of class udunits2Lexer, parser/udunits2Lexer.py *)
Definition kind_id (k : kind) : N :=
  match k with
  | SIGNED_INT => 1 | PLUS => 2 | MULTIPLY => 3 | DIVIDE => 4 | PERIOD => 5
  | OPEN_PAREN => 6 | CLOSE_PAREN => 7 | SEMICOLON => 8 | INT => 9 | E_POWER => 10
  | FLOAT => 11 | SHIFT_OP => 12 | UNICODE_EXPONENT => 13 | RAISE => 14 | LOG => 15
  | ID => 16 | LATIN_SUBSET => 17 | WS => 18 | ERRORCHARACTER => 19 | TIMEZONE => 20
  | TZ => 21 | HOUR_MINUTE_SECOND => 22 | HOUR_MINUTE => 23 | M_MINUS => 24
  | DATE => 25 | T => 26 | TIMESTAMP => 27
  end%N.

(** == of token types *)
Definition kind_eqb (a b : kind) : bool := N.eqb (kind_id a) (kind_id b).

(** Token.type and Token.text (_antlr4_runtime/Token.py) *)
Record token := mkTok { tkind : kind; ttext : str }.

(** ** Rules; each cites the line of udunits2Lexer.g4.jinja *)
Definition r_minus := ch 45.                                   (* 12 *)
Definition r_plus := ch 43.                                    (* 11 *)
Definition r_digit := rng 48 57.
Definition r_int := plus r_digit.                              (* 21 *)
Definition r_signed_int := Seq (Alt r_minus r_plus) r_int.     (* 9 *)
Definition r_any_int := Alt r_int r_signed_int.                (* 24 *)
Definition r_ws := ch 32.                                      (* 86 *)
Definition r_multiply := alts [ch 42; ch 183; r_minus].        (* 13: '*' '·' '-' *)
Definition r_divide :=                                         (* 14 *)
  seqs [Star r_ws; alts [ch 47; lit (u " PER "); lit (u " per ")]; Star r_ws].
Definition r_period := ch 46.                                  (* 15 *)
Definition r_e_power := Seq (Alt (ch 69) (ch 101)) r_any_int.  (* 25 *)
Definition r_float :=                                          (* 26-35 *)
  Alt (Seq (Alt (seqs [r_any_int; r_period; opt r_int])
                (seqs [opt r_any_int; r_period; r_int]))
           (opt r_e_power))
      (Seq r_any_int r_e_power).
Definition r_shift_op :=                                       (* 38-45 *)
  alts [lit (u "@"); lit (u "after"); lit (u "from"); lit (u "since"); lit (u "ref")].
Definition r_unicode_exponent :=                               (* 48-51 *)
  plus (Chr [(178, 179); (185, 185); (8304, 8304); (8308, 8315)]%N).
Definition r_raise := Alt (lit (u "^")) (lit (u "**")).        (* 53-57 *)
Definition r_log :=                                            (* 63 *)
  seqs [alts [lit (u "log"); lit (u "lg"); lit (u "ln"); lit (u "lb")];
        Star r_ws; ch 40; Star r_ws; Alt (lit (u "RE")) (lit (u "re"));
        opt (ch 58); Star r_ws].
Definition latin_ranges : list (N * N) :=                      (* 76-84 *)
  [(192, 214); (216, 246); (248, 255); (128, 128); (173, 173); (176, 176);
   (181, 181); (960, 960); (937, 937)]%N.
Definition r_latin_subset := Chr latin_ranges.
Definition id_ranges : list (N * N) := ([(65, 90); (97, 122); (95, 95)]%N ++ latin_ranges).
Definition r_id := plus (Chr id_ranges).                       (* 74 *)
Definition r_any := Chr [(0, 1114111)]%N.                      (* 89 *)

(** Rules of DEFAULT_MODE in file order; SHIFT_MODE and ID_SEEN repeat them
    (lines 142-144 and 156-158). *)
Definition default_rules : list (kind * re) :=
  [(SIGNED_INT, r_signed_int); (PLUS, r_plus); (MULTIPLY, r_multiply);
   (DIVIDE, r_divide); (PERIOD, r_period); (OPEN_PAREN, ch 40); (CLOSE_PAREN, ch 41);
   (SEMICOLON, ch 58); (INT, r_int); (E_POWER, r_e_power); (FLOAT, r_float);
   (SHIFT_OP, r_shift_op); (UNICODE_EXPONENT, r_unicode_exponent); (RAISE, r_raise);
   (LOG, r_log); (ID, r_id); (LATIN_SUBSET, r_latin_subset); (WS, r_ws);
   (ERRORCHARACTER, r_any)].

(** Fragments of SHIFT_MODE *)
Definition r_sign := Alt r_plus r_minus.                       (* 102 *)
Definition r_hour :=                                           (* 106-109 *)
  Alt (seqs [opt r_sign; opt (rng 48 49); r_digit]) (Seq (ch 50) (rng 48 51)).
Definition r_minute := Seq (opt (rng 48 53)) r_digit.          (* 111 *)
Definition r_second :=                                         (* 115 *)
  Seq (Alt r_minute (lit (u "60"))) (opt (Seq r_period (Star r_digit))).
Definition r_month := Alt (Seq (opt (ch 48)) (rng 49 57)) (Seq (ch 49) (rng 48 50)). (* 119 *)
Definition r_day :=                                            (* 123 *)
  alts [Seq (opt (ch 48)) (rng 49 57); Seq (rng 49 50) r_digit; lit (u "30"); lit (u "31")].
Definition r_year := seqs [r_any_int; opt r_int; opt r_int; opt r_int].  (* 127 *)
Definition r_clock := Seq r_hour (opt (Seq r_minute (opt r_second))).    (* 136 *)

Definition shift_rules : list (kind * re) :=                   (* 99-144 *)
  [(TIMEZONE, alts [lit (u "UTC"); lit (u "Z"); lit (u "GMT")]);
   (TZ, lit (u "TZ"));
   (HOUR_MINUTE_SECOND, seqs [r_hour; ch 58; r_minute; ch 58; r_second]);
   (HOUR_MINUTE, seqs [r_hour; ch 58; r_minute]);
   (M_MINUS, r_minus);
   (DATE, seqs [r_year; r_minus; r_month; opt (Seq r_minus r_day)]);
   (T, ch 84);
   (TIMESTAMP, seqs [r_year; opt (Seq r_month (opt r_day)); ch 84; r_clock])]
  ++ default_rules.

Definition id_seen_rules : list (kind * re) :=                 (* 149-158 *)
  [(SIGNED_INT, r_signed_int); (MULTIPLY, Alt (ch 46) (ch 45))]
  ++ filter (fun kr => negb (kind_eqb (fst kr) FLOAT)) default_rules.

Inductive mode := DEFAULT_MODE | SHIFT_MODE | ID_SEEN.

(** the rules of a mode, udunits2Lexer.g4.jinja *)
Definition rules (m : mode) : list (kind * re) :=
  match m with
  | DEFAULT_MODE => default_rules
  | SHIFT_MODE => shift_rules
  | ID_SEEN => id_seen_rules
  end.

(** Mode after a token: SHIFT_OP -> pushMode(SHIFT_MODE) (line 44) and ID ->
    mode(ID_SEEN) (line 74) apply in DEFAULT_MODE only, because an action of a rule is
    not run when the rule is referenced from another rule; every rule of ID_SEEN sets
    DEFAULT_MODE; nothing ever pops the mode stack or leaves SHIFT_MODE. *)
Definition next_mode (m : mode) (k : kind) : mode :=
  match m with
  | SHIFT_MODE => SHIFT_MODE
  | ID_SEEN => DEFAULT_MODE
  | DEFAULT_MODE => match k with
                    | SHIFT_OP => SHIFT_MODE
                    | ID => ID_SEEN
                    | _ => DEFAULT_MODE
                    end
  end.

(** Longest match, first rule wins ties (LexerATNSimulator.execATN). *)
Fixpoint best_rule (rs : list (kind * re)) (s : str) (best : option (kind * nat))
  : option (kind * nat) :=
  match rs with
  | [] => best
  | (k, r) :: rs' =>
    let best' :=
      match longest [r] s with
      | Some n =>
        match best with
        | Some (_, m) => if Nat.ltb m n then Some (k, n) else best
        | None => Some (k, n)
        end
      | None => best
      end in
    best_rule rs' s best'
  end.

(** The token stream.  [None]: some suffix is matched by no rule (proved impossible for
    code points) or the fuel, the length of the text, ran out (proved impossible). *)
Fixpoint lex_fuel (fuel : nat) (m : mode) (s : str) : option (list token) :=
  match s with
  | [] => Some []
  | _ :: _ =>
    match fuel with
    | O => None
    | S f =>
      match best_rule (rules m) s None with
      | Some (k, S n) =>
        match lex_fuel f (next_mode m k) (skipn (S n) s) with
        | Some ts => Some (mkTok k (firstn (S n) s) :: ts)
        | None => None
        end
      | _ => None
      end
    end
  end.

(** all tokens of a text, from the default mode: CommonTokenStream.fill *)
Definition lex (s : str) : option (list token) := lex_fuel (List.length s) DEFAULT_MODE s.
