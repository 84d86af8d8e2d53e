(** * Unit.__eq__ with sympy's rounded numbers: pyudunits2/_unit.py:364-400, _expr/sympy.py:20-50

    Convert.v compares units with exact numbers.  In the code a literal with a point or an exponent is
    a sympy Float, a binary number of 53 bits (more if it is written with more than 15 digits), and
    every operation with a Float rounds.  This file computes the coefficient of a definition the way
    sympy's numbers do and compares two of them the way Add.flatten does.  Only units without offset or
    logarithm are covered, of which at least one has a basis unit in it: for two plain numbers the
    answer depends on the version of sympy (whether Float zero == 0). *)
From Verif Require Import PyBase PyNum Graph Expr Units Sympy Convert.
From Coq Require Import QArith Qabs Qround.

(** ** Round to nearest, ties to even, [p] bits, no limit on the exponent (mpmath's normalize) *)
Definition round_half_even (x : Q) : Z :=
  let m := Qfloor x in
  match Qcompare (x - inject_Z m) (1 # 2) with
  | Lt => m
  | Gt => (m + 1)%Z
  | Eq => if Z.even m then m else (m + 1)%Z
  end.

(** the exponent of the leading bit of a number that is not 0 *)
Definition magnitude (q : Q) : Z :=
  let e := (Z.log2 (Z.abs (Qnum q)) - Z.log2 (Zpos (Qden q)))%Z in
  if Qle_bool (Qpower 2 e) (Qabs q) then e else (e - 1)%Z.

(** mpmath: rounding of a rational in lowest terms to p bits, ties to even (not in /repo) *)
Definition rnd_red (p : Z) (q : Q) : Q :=
  if Q_is0 q then 0
  else let s := (p - 1 - magnitude q)%Z in
       Qred (inject_Z (Z.sgn (Qnum q) * round_half_even (Qabs q * Qpower 2 s)) * Qpower 2 (- s)).
(** the same for any rational *)
Definition rnd (p : Z) (q : Q) : Q := rnd_red p (Qred q).

(** ** sympy's numbers: Integer and Rational, or Float with its precision *)
Inductive scalar := Exact (q : Q) | Flt (p : Z) (q : Q).

Definition sval (c : scalar) : Q := match c with Exact q => q | Flt _ q => q end.

(** sympy_parse makes a Float of a text with a point or an exponent, else an Integer *)
Definition float_text (s : str) : bool := existsb (fun c => N.eqb c 46 || N.eqb c 69 || N.eqb c 101)%N s.
Definition has_point (s : str) : bool := existsb (N.eqb 46%N) s.

(** Float.__new__ for a text: the number of digits, at least 15; mpmath's dps_to_prec *)
Definition literal_digits (d : dec) : Z :=
  let n := Z.of_nat (List.length (dec_digits d)) in
  let n := if negb (has_point (dec_str d)) && (0 <=? dexp d)%Z then Z.max n (n + dexp d) else n in
  Z.max 15 n.
(** mpmath.libmp.dps_to_prec (not in /repo): bits for n decimal digits *)
Definition dps_to_prec (n : Z) : Z := ((2 * (n + 1) * 33219280948873626 + 10 ^ 16) / (2 * 10 ^ 16))%Z.
(** precision of Float(text), which ToSympy.visit_Number (sympy.py:30-38) makes of a decimal *)
Definition literal_bits (d : dec) : Z := Z.max 53 (dps_to_prec (literal_digits d)).

(** is the number a Float for sympy? sympy.py:30-38: sympy_parse of the text of a Decimal or float *)
Definition float_literal (v : numv) : bool :=
  match v with NDec d => float_text (dec_str d) | _ => false end.

(** ToSympy.visit_Number, sympy.py:30-38 *)
Definition literal (v : numv) : option scalar :=
  match v with
  | NInt z => if Z.eqb z 0 then None else Some (Exact (inject_Z z))
  | NDec d =>
    if Q_is0 (dec_Q d) then None
    else Some (if float_text (dec_str d) then Flt (literal_bits d) (rnd (literal_bits d) (dec_Q d))
               else Exact (dec_Q d))
  | NStr _ => None
  end.

(** Number.__mul__: an exact operand is rounded to the precision of the other first; of two
    precisions the larger one is used *)
Definition smul (a b : scalar) : scalar :=
  match a, b with
  | Exact x, Exact y => Exact (Qred (x * y))
  | Flt p x, Exact y => Flt p (rnd p (x * rnd p y))
  | Exact x, Flt p y => Flt p (rnd p (rnd p x * y))
  | Flt p x, Flt r y => Flt (Z.max p r) (rnd (Z.max p r) (x * y))
  end.

(** Number ** -1 *)
Definition sinv (a : scalar) : scalar :=
  match a with Exact x => Exact (Qred (/ x)) | Flt p x => Flt p (rnd p (/ x)) end.

(** Number / Number: Float.__truediv__ rounds once, Rational.__truediv__ of a Float multiplies with the
    rounded inverse *)
Definition sdiv (a b : scalar) : scalar :=
  match a, b with
  | Flt p x, Exact y => Flt p (rnd p (x / rnd p y))
  | Flt p x, Flt r y => Flt (Z.max p r) (rnd (Z.max p r) (x / y))
  | _, _ => smul a (sinv b)
  end.

Section Powers.
(** Float ** Integer: mpmath's mpf_pow_int, a function of the precision, the number and the exponent
    of which only its accuracy is assumed *)
Variable fpow : Z -> Q -> Z -> Q.

Definition spow (a : scalar) (n : Z) : scalar :=
  match a with
  | Exact x => Exact (Qred (Qpower x n))
  | Flt p x => if Z.eqb n 0 then Exact 1 else if Z.eqb n 1 then a else Flt p (fpow p x n)
  end.

(** ToSympy (sympy.py:20-50) followed by sympy's automatic simplification: the coefficient and the
    exponents of the symbols.  Expr.__truediv__ multiplies with the power -1 unless both are numbers. *)
Fixpoint fmono_of (n : node) : option (scalar * list (str * Z)) :=
  match n with
  | Number v _ => obind (literal v) (fun c => Some (c, []))
  | Identifier s => if reserved s then None else Some (Exact 1, [(s, 1%Z)])
  | Multiply a b => obind (fmono_of a) (fun x => obind (fmono_of b) (fun y =>
      Some (smul (fst x) (fst y), exps_merge (snd x) (snd y))))
  | Divide a b => obind (fmono_of a) (fun x => obind (fmono_of b) (fun y =>
      Some (match snd x, snd y with
            | [], [] => sdiv (fst x) (fst y)
            | _, _ => smul (fst x) (sinv (fst y))
            end, exps_merge (snd x) (exps_scale (-1) (snd y)))))
  | Raise a (Number (NInt z) _) => obind (fmono_of a) (fun x =>
      Some (spow (fst x) z, exps_scale z (snd x)))
  | _ => None
  end.

(** The difference of two coefficients is zero: Float.__add__ rounds an exact operand to the precision
    of the Float; the difference of two different Floats is never rounded to zero, and simplify keeps
    a coefficient that is not zero. *)
Definition scalar_same (a b : scalar) : bool :=
  match a, b with
  | Exact x, Exact y => Qeq_bool x y
  | Flt p x, Exact y => Qeq_bool x (rnd p y)
  | Exact x, Flt p y => Qeq_bool (rnd p x) y
  | Flt _ x, Flt _ y => Qeq_bool x y
  end.

(** Unit.__eq__, _unit.py:364-381 *)
Definition float_eq (x y : unit) : res bool :=
  if str_eqb (node_str (definition_of y)) (node_str (definition_of x)) then Ok true
  else
    do e1 <- expanded x ;;
    do e2 <- expanded y ;;
    do td1 <- split_root e1 ;;
    do td2 <- split_root e2 ;;
    match fst td1, fst td2 with
    | None, None =>
      do m1 <- of_option (fmono_of (snd td1)) EOutOfModel ;;
      do m2 <- of_option (fmono_of (snd td2)) EOutOfModel ;;
      match snd m1, snd m2 with
      | [], [] => Err EOutOfModel
      | _, _ => Ok (exps_eqb (snd m1) (snd m2) && scalar_same (fst m1) (fst m2))
      end
    | _, _ => Err EOutOfModel
    end.
End Powers.

(** The numbers of Python's float type, for comparison: 0.1, 0.3, 3 * 0.1 and 1 / 3 *)
Example python_floats :
  rnd 53 (1 # 10) = 3602879701896397 # 36028797018963968 /\
  rnd 53 (3 # 10) = 5404319552844595 # 18014398509481984 /\
  rnd 53 (3 * rnd 53 (1 # 10)) = 1351079888211149 # 4503599627370496 /\
  rnd 53 (1 # 3) = 6004799503160661 # 18014398509481984 /\
  rnd 53 (- (1 # 3)) = -6004799503160661 # 18014398509481984 /\
  rnd 53 (9007199254740993 # 1) = 9007199254740992 # 1 /\
  rnd 53 (9007199254740995 # 1) = 9007199254740996 # 1 /\
  dps_to_prec 15 = 53%Z /\ dps_to_prec 16 = 56%Z /\ dps_to_prec 50 = 169%Z.
Proof. vm_compute. repeat split. Qed.
