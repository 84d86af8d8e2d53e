(** * Specification: how deep an expression is, how long the text of a product *)
From Verif Require Import PyBase Graph.

(** Longest way down: a number, word or date is 1 deep, an operation one more than its operands. *)
Fixpoint depth (g : node) : nat :=
  match g with
  | Unhandled _ | Number _ _ | Identifier _ => 1
  | Raise a b | Multiply a b | Divide a b | Shift a b => 1 + Nat.max (depth a) (depth b)
  | Logarithm _ t => 1 + depth t
  end.

(** How often ( occurs in a text. *)
Definition open_brackets (s : str) : nat := List.length (filter (fun c => N.eqb c 40) s).

(** m·m·…·m with n dots, and what it means: ((m·m)·m)… *)
Definition long_text (n : nat) : str := u "m" ++ List.concat (repeat (u "·m") n).
Fixpoint long_product (n : nat) : node :=
  match n with
  | O => Identifier (u "m")
  | S n' => Multiply (long_product n') (Identifier (u "m"))
  end.
