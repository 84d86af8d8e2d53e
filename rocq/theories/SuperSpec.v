(** * Specification: superscript exponents and "^" *)
From Verif Require Import PyBase PyNum Graph Regex Lexer LexSpec VisitSpec PrintSpec Expr Units.
Local Open Scope N_scope.

(** A superscript written as "^" and an integer; other tokens stay. *)
Definition caret_token (t : token) : list token :=
  match tkind t with
  | UNICODE_EXPONENT =>
    let n := map superscript_digit (ttext t) in
    [mkTok RAISE (u "^"); mkTok (match n with 43 :: _ | 45 :: _ => SIGNED_INT | _ => INT end) n]
  | _ => [t]
  end.
Definition carets (ts : list token) : list token := flat_map caret_token ts.

(** The superscripts are integers (not "⁻" or "²⁻³") that int() accepts. *)
Definition superscript_ok (t : token) : Prop :=
  tkind t = UNICODE_EXPONENT ->
  integer_text (map superscript_digit (ttext t)) /\ short (map superscript_digit (ttext t)).

(** The expression with the ints the texts of superscripts stand for. *)
Fixpoint with_ints (g : node) : node :=
  match g with
  | Number (NStr s) r => Number (NInt (text_value s)) r
  | Unhandled _ | Number _ _ | Identifier _ => g
  | Raise a b => Raise (with_ints a) (with_ints b)
  | Multiply a b => Multiply (with_ints a) (with_ints b)
  | Divide a b => Divide (with_ints a) (with_ints b)
  | Shift a b => Shift (with_ints a) (with_ints b)
  | Logarithm f t => Logarithm f (with_ints t)
  end.

(** The same through all definitions of a unit. *)
Fixpoint unit_with_ints (x : unit) : unit :=
  match x with
  | UBasis r dl it => UBasis r dl it
  | UExpr g refs => UExpr (with_ints g) (map (fun kv => (fst kv, uref_with_ints (snd kv))) refs)
  end
with uref_with_ints (r : uref) : uref :=
  match r with
  | RPrefix v => RPrefix v
  | RUnit y => RUnit (unit_with_ints y)
  end.
