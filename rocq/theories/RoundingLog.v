(** * Converting with rounded arithmetic, logarithmic units: pyudunits2/_unit.py:187-241,
      _expr/split.py:78-83, _expr/sympy.py:50-64

    As Rounding.v, for units whose transform is the bare symbol "value" or one logarithm of it
    (bels, nepers, ...).  sympy.solve inverts log(x)/log(10) to 10**value or to
    exp(value*log(10)); lambdify calls the exp, log and ** of Python floats, each of which may
    return any number within a relative distance [eps] of the exact result. *)
From Verif Require Import PyBase PyNum Graph Expr Units Sympy Convert Rounding.
From Coq Require Import QArith Reals Qreals.
Local Open Scope R_scope.

Section Rounding.
Variable eps : R.
Notation rounded := (rounded eps).

(** the logarithm in the transform: visit_Logarithm of split.py:78-83 and of sympy.py:50-64 *)
Inductive log_of : sexpr -> option lbase -> Prop :=
| LNone : log_of (SSym (u "value")) None
| LSome b : log_of (SLog b (SSym (u "value"))) (Some b).

(** the transform and the coefficient of a unit (Unit._symbolic_definition, _unit.py:383-400) *)
Definition has_log (x : unit) (o : option lbase) (c : R) : Prop :=
  exists t d, symbolic x = Ok (t, d) /\ log_of t o /\ coefficient eps d c.

(** base**value, as one power or as exp(value*log(base)) *)
Definition rounded_power (b : lbase) (v y : R) : Prop :=
  rounded (Rpower (base_R b) v) y \/
  exists l z, rounded (ln (base_R b)) l /\ rounded (v * l) z /\ rounded (exp z) y.

(** log(y)/log(base); for the natural logarithm just log(y) *)
Definition rounded_log (b : lbase) (y w : R) : Prop :=
  rounded (ln y / ln (base_R b)) w \/
  exists l g, rounded (ln (base_R b)) l /\ rounded (ln y) g /\ rounded (g / l) w.

(** Converter.__init__ for a direct conversion, and convert *)
Definition rounded_log_convert (x y : unit) (v w : R) : Prop :=
  exists o1 c1 o2 c2 i k p z1 z2,
    has_log x o1 c1 /\ has_log y o2 c2 /\
    rounded (/ c2) i /\ rounded (c1 * i) k /\          (* d1 / d2, 225 *)
    rounded k p /\                                     (* lambdify, 229-232 *)
    match o1 with None => z1 = v | Some b => rounded_power b v z1 end /\
    rounded (p * z1) z2 /\
    match o2 with None => w = z2 | Some b => rounded_log b z2 w end.
End Rounding.
