(** * Specification for the Expander: the value of a product of powers. *)
From Verif Require Import PyBase PyNum Graph Expr Units UnitSpec.
From Coq Require Import QArith.

(** the value of a number *)
Definition num_Q (v : numv) : Q :=
  match v with NInt z => inject_Z z | NDec d => dec_Q d | NStr _ => 0 end.

(** the value of a graph of products, quotients and integer powers, identifier [s] being [rho s] *)
Fixpoint value (rho : str -> Q) (n : node) : Q :=
  match n with
  | Number v _ => num_Q v
  | Identifier s => rho s
  | Multiply x y => value rho x * value rho y
  | Divide x y => value rho x / value rho y
  | Raise x (Number (NInt k) _) => Qpower (value rho x) k
  | _ => 0
  end.

(** every number outside exponents is an int or a Decimal different from zero *)
Fixpoint proper_numbers (n : node) : Prop :=
  match n with
  | Number (NStr _) _ => False
  | Number v _ => ~ num_Q v == 0
  | Multiply x y | Divide x y => proper_numbers x /\ proper_numbers y
  | Raise x _ => proper_numbers x
  | _ => True
  end.

(** every number outside exponents is an int or a Decimal *)
Fixpoint typed_numbers (n : node) : Prop :=
  match n with
  | Number (NStr _) _ => False
  | Multiply x y | Divide x y => typed_numbers x /\ typed_numbers y
  | Raise x _ => typed_numbers x
  | _ => True
  end.

(** every number outside exponents is an int *)
Fixpoint int_numbers (n : node) : Prop :=
  match n with
  | Number (NInt _) _ => True
  | Number _ _ => False
  | Multiply x y | Divide x y => int_numbers x /\ int_numbers y
  | Raise x _ => int_numbers x
  | _ => True
  end.

(** no number outside exponents *)
Fixpoint no_numbers (n : node) : Prop :=
  match n with
  | Number _ _ => False
  | Multiply x y | Divide x y => no_numbers x /\ no_numbers y
  | Raise x _ => no_numbers x
  | _ => True
  end.

(** the identifiers of a graph, one for each time they are written *)
Fixpoint written (n : node) : list str :=
  match n with
  | Identifier s => [s]
  | Multiply x y | Divide x y | Raise x y | Shift x y => written x ++ written y
  | Logarithm _ x => written x
  | _ => []
  end.

(** a product of terminals and of terminals raised to an int other than 0 and 1 *)
Inductive factor : node -> Prop :=
| Fa_number v r : factor (Number v r)
| Fa_identifier s : factor (Identifier s)
| Fa_power a k : is_terminal a = true -> k <> 0%Z -> k <> 1%Z -> factor (Raise a (Number (NInt k) None)).
Inductive product_form : node -> Prop :=
| Pf_factor a : factor a -> product_form a
| Pf_product a b : factor a -> product_form b -> product_form (Multiply a b).

(** the exponent of identifier [s] in a plain graph *)
Definition exponent (n : node) (s : str) : Z := gdim (fun x y => if str_eqb x y then 1 else 0)%Z n s.
