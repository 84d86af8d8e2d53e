(** * Specification: the text of an expression, read back

    str() of an expression (graph.py) writes no brackets around products, quotients and
    powers.  [writable] says of which graphs we speak, [reread] what such a text means when
    it is parsed: factors from left to right, an exponent belonging to the last factor. *)
From Verif Require Import PyBase PyNum Graph Regex Lexer LexSpec Parser GrammarSpec VisitSpec.
Local Open Scope N_scope.

(** ** Writable graphs *)

(** Words the tokeniser gives another meaning, everywhere or after a shift operator. *)
Definition shift_words : list str := [u "after"; u "from"; u "since"; u "ref"].
Definition zone_words : list str := [u "UTC"; u "Z"; u "GMT"; u "TZ"; u "T"].

Definition word_ok (shifted : bool) (x : str) : Prop :=
  x <> [] /\ Forall (fun c => in_ranges id_ranges c = true) x /\ ~ In x shift_words /\
  (shifted = true -> ~ In x zone_words).

(** int() reads at most 4300 digits. *)
Definition digit_count (s : str) : nat := List.length (filter is_digit s).
Definition short (s : str) : Prop := (N.of_nat (digit_count s) <= 4300)%N.

(** [+-]?[0-9]+ *)
Definition integer_text (s : str) : Prop :=
  exists sign ds, s = sign ++ ds /\ In sign [[]; u "+"; u "-"] /\ ds <> [] /\
    Forall (fun c => 48 <= c <= 57) ds.

(** Decimals inside the limits of Decimal(). *)
Definition dec_valid (d : dec) : Prop :=
  (dec_etiny <= dexp d)%Z /\
  (dexp d + Z.of_nat (List.length (N_str (dcoef d))) - 1 <= dec_emax)%Z.

(** Numbers whose text can be read back.  A Decimal with exponent 0 is written like an int. *)
Definition number_ok (v : numv) : Prop :=
  match v with
  | NInt z => short (Z_str z)
  | NDec d => dec_valid d /\ (dexp d = 0%Z -> short (N_str (dcoef d)))
  | NStr _ => False
  end.
(** Exponents: ints, or the digits of a superscript. *)
Definition exponent_ok (v : numv) : Prop :=
  match v with
  | NInt z => short (Z_str z)
  | NDec _ => False
  | NStr s => integer_text s /\ short s
  end.

(** A date as the grammar has it, not a lone integer (which would be a number). *)
Definition date_ok (raw : str) : Prop :=
  exists ns, tokenises SHIFT_MODE raw ns /\ timestamp ns /\
    (forall t, ns = [t] -> ~ integer_token t).

Fixpoint has_shift (g : node) : bool :=
  match g with
  | Unhandled _ | Number _ _ | Identifier _ => false
  | Raise a b | Multiply a b | Divide a b => has_shift a || has_shift b
  | Shift _ _ => true
  | Logarithm _ t => has_shift t
  end.

(** [shifted]: is there a shift to the left? *)
Fixpoint writable (shifted : bool) (g : node) : Prop :=
  match g with
  | Unhandled _ => False
  | Number v _ => number_ok v
  | Identifier x => word_ok shifted x
  | Raise a (Number v _) => writable shifted a /\ exponent_ok v
  | Raise _ _ => False
  | Multiply a b | Divide a b => writable shifted a /\ writable (shifted || has_shift a) b
  | Shift a (Number v _) => writable shifted a /\ number_ok v
  | Shift a (Unhandled raw) => writable shifted a /\ date_ok raw
  | Shift _ _ => False
  | Logarithm f t => In f log_names /\ writable shifted t
  end.

(** ** Reading back *)

(** A number after it was written and read again. *)
Definition signed_value (neg : bool) (n : N) : Z := if neg then (- Z.of_N n)%Z else Z.of_N n.
Definition text_value (s : str) : Z :=
  match s with
  | 43 :: ds => Z.of_N (digits_value ds)
  | 45 :: ds => (- Z.of_N (digits_value ds))%Z
  | ds => Z.of_N (digits_value ds)
  end.
Definition renumber (v : numv) : node :=
  match v with
  | NInt z => Number (NInt z) (Some (num_str v))
  | NDec d => if (dexp d =? 0)%Z then Number (NInt (signed_value (dneg d) (dcoef d))) (Some (num_str v))
              else Number (NDec d) (Some (num_str v))
  | NStr s => Number (NInt (text_value s)) (Some s)
  end.

(** [a op (f1 op2 f2 ...)] without the brackets: [((a op f1) op2 f2) ...] *)
Fixpoint append (op : node -> node -> node) (a b : node) : node :=
  match b with
  | Multiply x y => Multiply (append op a x) y
  | Divide x y => Divide (append op a x) y
  | _ => op a b
  end.

(** An exponent goes to the last factor, which must not have one. *)
Definition raise_factor (a n : node) : option node :=
  match a with Raise _ _ => None | _ => Some (Raise a n) end.
Definition raise_last (a n : node) : option node :=
  match a with
  | Multiply x y => option_map (Multiply x) (raise_factor y n)
  | Divide x y => option_map (Divide x) (raise_factor y n)
  | _ => raise_factor a n
  end.

Definition both_then (f : node -> node -> node) (a b : option node) : option node :=
  match a, b with Some x, Some y => Some (f x y) | _, _ => None end.

Fixpoint reread (g : node) : option node :=
  match g with
  | Unhandled _ => None
  | Number v _ => Some (renumber v)
  | Identifier x => Some (Identifier x)
  | Raise a (Number v _) =>
    match reread a with Some a' => raise_last a' (renumber v) | None => None end
  | Raise _ _ => None
  | Multiply a b => both_then (append Multiply) (reread a) (reread b)
  | Divide a b => both_then (append Divide) (reread a) (reread b)
  | Shift a (Number v _) => option_map (fun x => Shift x (renumber v)) (reread a)
  | Shift a (Unhandled raw) => option_map (fun x => Shift x (Unhandled raw)) (reread a)
  | Shift _ _ => None
  | Logarithm f t => option_map (Logarithm f) (reread t)
  end.

(** ** Graphs that need no brackets *)
Definition is_product (g : node) : bool :=
  match g with Multiply _ _ | Divide _ _ => true | _ => false end.
Definition is_power (g : node) : bool := match g with Raise _ _ => true | _ => false end.

Fixpoint bracket_free (g : node) : Prop :=
  match g with
  | Unhandled _ | Number _ _ | Identifier _ => True
  | Raise a _ => is_product a = false /\ is_power a = false /\ bracket_free a
  | Multiply a b | Divide a b => bracket_free a /\ is_product b = false /\ bracket_free b
  | Shift a _ => bracket_free a
  | Logarithm _ t => bracket_free t
  end.

(** The same graph with its numbers written and read again. *)
Fixpoint renumbered (g : node) : node :=
  match g with
  | Number v _ => renumber v
  | Raise a b => Raise (renumbered a) (renumbered b)
  | Multiply a b => Multiply (renumbered a) (renumbered b)
  | Divide a b => Divide (renumbered a) (renumbered b)
  | Shift a b => Shift (renumbered a) (renumbered b)
  | Logarithm f t => Logarithm f (renumbered t)
  | g => g
  end.

(** Two exponents in a row: the text of a power whose base already ends in an exponent. *)
Fixpoint ends_in_power (g : node) : bool :=
  match g with
  | Raise _ _ => true
  | Multiply _ b | Divide _ b => ends_in_power b
  | _ => false
  end.
Fixpoint double_exponent (g : node) : bool :=
  match g with
  | Raise a _ => ends_in_power a || double_exponent a
  | Multiply a b | Divide a b => double_exponent a || double_exponent b
  | Shift a _ => double_exponent a
  | Logarithm _ t => double_exponent t
  | _ => false
  end.

(** Numbers that are written as they were read: not a Decimal minus zero, not a superscript
    with a plus sign or leading zeros. *)
Definition canonical (v : numv) : Prop :=
  match v with
  | NInt _ => True
  | NDec d => ~ (dexp d = 0%Z /\ dneg d = true /\ dcoef d = 0%N)
  | NStr s => s = Z_str (text_value s)
  end.
Fixpoint canonical_numbers (g : node) : Prop :=
  match g with
  | Unhandled _ | Identifier _ => True
  | Number v _ => canonical v
  | Raise a b | Multiply a b | Divide a b | Shift a b => canonical_numbers a /\ canonical_numbers b
  | Logarithm _ t => canonical_numbers t
  end.

(** ** What the parser does not guarantee

    Of the graphs the parser returns for texts of at most 4300 characters, these are the
    writable ones: the text was not empty, a superscript is an integer, dates are dates
    after " @ ", and no time zone word is used as a unit to the right of a shift. *)
Fixpoint printable (shifted : bool) (g : node) : Prop :=
  match g with
  | Unhandled _ => False
  | Number _ _ => True
  | Identifier x => shifted = true -> ~ In x zone_words
  | Raise a (Number (NStr s) _) => printable shifted a /\ integer_text s
  | Raise a _ => printable shifted a
  | Multiply a b | Divide a b => printable shifted a /\ printable (shifted || has_shift a) b
  | Shift a (Unhandled raw) => printable shifted a /\ date_ok raw
  | Shift a _ => printable shifted a
  | Logarithm _ t => printable shifted t
  end.
