(** * Specification: what a number of a unit means.

    [quantity e x]: the magnitude, in coherent basis units, of "x e" where [e] is a fully
    expanded definition.  x lg(re U) is 10^x U; x (U @ c) is (x + c) U; x (2 m) is 2 x m. *)
From Verif Require Import PyBase PyNum Graph Units UnitSpec.
From Coq Require Import QArith Reals Qreals.

(** Value of a number that is an integer or a decimal. *)
Definition numeric (v : numv) : Prop := match v with NStr _ => False | _ => True end.
Definition num_R (v : numv) : R :=
  match v with NInt z => IZR z | NDec d => Q2R (dec_Q d) | NStr _ => 0%R end.

(** Names the converter keeps for itself. *)
Definition own_names : list str := [u "value"; u "to_value"; u "value_transformed_to_base_unit_scale"].

(** Products, quotients, integer powers of basis units and non-zero numbers. *)
Fixpoint rated (n : node) : Prop :=
  match n with
  | Number v _ => numeric v /\ num_R v <> 0%R
  | Identifier s => ~ In s own_names
  | Multiply a b | Divide a b => rated a /\ rated b
  | Raise a (Number (NInt _) _) => rated a
  | _ => False
  end.

Fixpoint factor (n : node) : R :=
  match n with
  | Number v _ => num_R v
  | Multiply a b => factor a * factor b
  | Divide a b => factor a / factor b
  | Raise a (Number (NInt z) _) => powerRZ (factor a) z
  | _ => 1
  end%R.

(** The exponent of every symbol (basis unit, dimensionless or not). *)
Definition symexp (n : node) (s : str) : Z := gdim (fun k b => if str_eqb k b then 1 else 0)%Z n s.

Definition log_base_R (f : str) : option R :=
  if str_eqb f (u "lb") then Some 2%R
  else if str_eqb f (u "lg") then Some 10%R
  else if str_eqb f (u "ln") || str_eqb f (u "log") then Some (exp 1)
  else None.

Fixpoint quantity (n : node) (x : R) : R :=
  match n with
  | Logarithm f a => match log_base_R f with Some b => quantity a (Rpower b x) | None => 0%R end
  | Shift a (Number v _) => quantity a (x + num_R v)
  | _ => (factor n * x)%R
  end.

(** The expanded definitions the meaning is claimed for: an optional shift of any number of
    logarithms of a product of basis units and numbers. *)
Fixpoint levels (n : node) : Prop :=
  match n with
  | Logarithm f a => log_base_R f <> None /\ levels a
  | _ => rated n
  end.

Definition measurable (n : node) : Prop :=
  match n with
  | Shift a (Number v _) => numeric v /\ levels a
  | _ => levels n
  end.

(** A unit, as UnitSystem.unit returns it, with a fully expanded definition [e] that has a
    meaning; [dl] tells which basis units are dimensionless. *)
Definition describable (dl : str -> bool) (x : unit) (e : node) : Prop :=
  is_expr_unit x /\ sound_unit x /\ bases_agree dl x /\ expanded x = Ok e /\ measurable e.

(** The unit that the text consisting of the one name [k] gives when [k] denotes [y]. *)
Definition named (k : str) (y : unit) : unit := UExpr (Identifier k) [(k, RUnit y)].

(** Expanded definitions written alike: the same shift (integers and decimals are not the
    same number to sympy), the same logarithms, the same factor and the same exponents. *)
Definition same_number (v w : numv) : Prop :=
  match v, w with
  | NInt a, NInt b => a = b
  | NDec a, NDec b => (dec_Q a == dec_Q b)%Q
  | _, _ => False
  end.

Inductive same_scale : node -> node -> Prop :=
| SS_log f g a b : log_base_R f <> None -> log_base_R f = log_base_R g -> same_scale a b ->
    same_scale (Logarithm f a) (Logarithm g b)
| SS_product a b : rated a -> rated b -> factor a = factor b -> (forall s, symexp a s = symexp b s) -> same_scale a b.

Inductive same_measure : node -> node -> Prop :=
| SM_shift a b v w r1 r2 : same_scale a b -> same_number v w ->
    same_measure (Shift a (Number v r1)) (Shift b (Number w r2))
| SM_plain a b : same_scale a b -> same_measure a b.
