(** * Converting with rounded arithmetic: pyudunits2/_unit.py:187-241, _expr/sympy.py:20-50

    Convert.v computes with exact numbers.  In the code a decimal literal is a sympy Float of 53
    bits, products and powers of Floats are rounded, lambdify prints the resulting factor with 15
    digits, and the multiplication with the value is one of Python floats.  Here every such
    operation may return any number within a relative distance [eps] of the exact result: that
    covers each of them (for exact operations on Integers and Rationals the distance is 0) as long
    as nothing overflows or underflows.  Only the units whose transform is the bare symbol "value"
    or "value - number" (an offset; no logarithm) are modelled here. *)
From Verif Require Import PyBase PyNum Graph Expr Units Sympy Convert.
From Coq Require Import QArith Reals Qreals.
Local Open Scope R_scope.

Section Rounding.
Variable eps : R.

(** [y] is a possible result of an operation whose exact result is [x] *)
Definition rounded (x y : R) : Prop := Rabs (y - x) <= eps * Rabs x.

(** The numeric coefficient sympy collects for the definition part of a unit: Mul.flatten multiplies
    the coefficients of its factors, Mul._eval_power raises the coefficient to an integer power,
    and a / b is a * b**-1. *)
Inductive coefficient : sexpr -> R -> Prop :=
| CNum q c : rounded (Q2R q) c -> coefficient (SNum q) c                 (* sympy_parse of a literal *)
| CSym s : coefficient (SSym s) 1
| CMul a b x y c : coefficient a x -> coefficient b y -> rounded (x * y) c -> coefficient (SMul a b) c
| CDiv a b x y z c : coefficient a x -> coefficient b y -> rounded (/ y) z -> rounded (x * z) c ->
    coefficient (SDiv a b) c
| CPow a q n x c : Q_int q = Some n -> coefficient a x -> rounded (powerRZ x n) c ->
    coefficient (SPow a (SNum q)) c.

(** Converter.__init__ and convert for such units: [k] is the factor in Converter.expression, [p] the
    factor in the text lambdify compiles. *)
Definition has_coefficient (x : unit) (c : R) : Prop :=
  exists d, symbolic x = Ok (SSym (u "value"), d) /\ coefficient d c.

(** Converter.__init__ and convert (_unit.py:173-241) for units without offset and logarithm, every operation within a relative error *)
Definition rounded_convert (x y : unit) (v w : R) : Prop :=
  exists c1 c2 i k p,
    has_coefficient x c1 /\ has_coefficient y c2 /\
    rounded (/ c2) i /\ rounded (c1 * i) k /\          (* transformer1 * d1 / d2, 225 *)
    rounded k p /\                                     (* lambdify, 229-232 *)
    rounded (p * v) w.                                 (* convert, 241 *)

Definition rounded_convert_inverted (x y : unit) (v w : R) : Prop :=
  exists c1 c2 j k p,
    has_coefficient x c1 /\ has_coefficient y c2 /\
    rounded (c1 * c2) j /\ rounded (/ j) k /\          (* 1 / (transformer1 * d1 * d2), 227 *)
    rounded k p /\
    rounded (p / v) w.

(** ** Offsets: the number subtracted in the transform, 0 for the bare symbol *)
Inductive offset_of : sexpr -> R -> Prop :=
| ONone : offset_of (SSym (u "value")) 0
| OSome q a : rounded (Q2R q) a -> offset_of (SSub (SSym (u "value")) (SNum q)) a.

(** the transform of a unit (Unit._symbolic_definition, _unit.py:383-400) with an offset *)
Definition has_offset (x : unit) (a c : R) : Prop :=
  exists t d, symbolic x = Ok (t, d) /\ offset_of t a /\ coefficient d c.

(** Converter.__init__ for a direct conversion, and convert.  Mul.flatten multiplies a number into a
    sum, so that the expression is k*value + b; it might also stay k*(value + b1) - a2.  Both are
    allowed for. *)
Definition rounded_offset_convert (x y : unit) (v w : R) : Prop :=
  exists a1 c1 a2 c2 b1 i k p,
    has_offset x a1 c1 /\ has_offset y a2 c2 /\
    rounded a1 b1 /\                                   (* solve, 217-219 *)
    rounded (/ c2) i /\ rounded (c1 * i) k /\          (* d1 / d2, 225 *)
    rounded k p /\                                     (* lambdify, 229-232 *)
    ((exists m b b' z, rounded (k * b1) m /\ rounded (m - a2) b /\ rounded b b' /\
        rounded (p * v) z /\ rounded (z + b') w) \/
     (exists b' a' z z', rounded b1 b' /\ rounded a2 a' /\
        rounded (v + b') z /\ rounded (p * z) z' /\ rounded (z' - a') w)).
End Rounding.
