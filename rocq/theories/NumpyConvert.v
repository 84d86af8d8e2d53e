(** * Converter.convert on numpy arrays: pyudunits2/_unit.py:228-241

    README.md:47-58 and tests/test_converter.py:79-102 give arrays to Converter.convert, which hands
    them to the function made by sympy.lambdify: the expression, with +, *, /, ** and numpy's log and
    exp.  Each of these makes a new array and leaves its operands alone (numpy's ufuncs, not in /repo;
    modelled here).  Arrays hold real numbers, or "not finite" (nan, inf), which stays not finite: in the
    expressions a Converter makes, exponentials and reciprocals come before the logarithms.
    Arrays of Python objects, integer overflow and rounding are not modelled (rounding: Rounding.v). *)
From Verif Require Import PyBase PyNum Graph Expr Units Sympy Convert.
From Coq Require Import QArith Reals Qreals.

(** an element: a number, or None for nan, inf and -inf *)
Definition element := option R.
(** an array of any shape, its elements in order *)
Record array := mkArray { a_shape : list nat; a_data : list element }.
(** the arrays there are; an array's address is its place in the list *)
Definition heap := list array.

(** what convert is given and returns *)
Inductive pyval := PNum (v : R) | PArr (address : nat).

(** A function of one argument applied element by element, to a new array (numpy, not in /repo). *)
Definition apply_ufunc (f : R -> option R) (h : heap) (v : pyval) : res (pyval * heap) :=
  match v with
  | PNum x => do y <- of_option (f x) EOutOfModel ;; Ok (PNum y, h)
  | PArr p =>
    match nth_error h p with
    | Some r => Ok (PArr (List.length h), h ++ [mkArray (a_shape r) (map (fun x => obind x f) (a_data r))])
    | None => Err EOutOfModel
    end
  end.

(** one function after the other *)
Fixpoint apply_all (fs : list (R -> option R)) (h : heap) (v : pyval) : res (pyval * heap) :=
  match fs with
  | [] => Ok (v, h)
  | f :: fs' => do r <- apply_ufunc f h v ;; apply_all fs' (snd r) (fst r)
  end.

(** What lambdify prints for a step: k*x, x + q, log(x)/log(b), b**x, 1/x. *)
Definition ufuncs (o : op) : list (R -> option R) :=
  match o with
  | OpScale m => [fun x => Some (Q2R (m_coef m) * x)%R]
  | OpAdd q => [fun x => Some (x + Q2R q)%R]
  | OpLog BaseE => [fun x => if Rlt_dec 0 x then Some (ln x) else None]
  | OpLog b => [(fun x => if Rlt_dec 0 x then Some (ln x) else None); (fun x => Some (x / ln (base_R b))%R)]
  | OpExp b => [fun x => Some (Rpower (base_R b) x)]
  | OpRecip => [fun x => if Req_EM_T x 0 then None else Some (/ x)%R]
  end.

(** A definition without Floats (numbers with a point or an exponent; ToSympy.visit_Number,
    _expr/sympy.py:30-38). *)
Fixpoint no_floats (n : node) : bool :=
  match n with
  | Number (NDec d) _ => negb (existsb (fun c => N.eqb c 46 || N.eqb c 69 || N.eqb c 101)%N (dec_str d))
  | Number _ _ | Identifier _ | Unhandled _ => true
  | Shift a b | Raise a b | Multiply a b | Divide a b => no_floats a && no_floats b
  | Logarithm _ a => no_floats a
  end.

(** The lambdified expression, _unit.py:223-232: the steps of the chain, or the bare symbol [value].
    When every step cancels, the expression is the bare symbol; but sympy does not cancel a Float, and
    [1.0*value] or [value + 0.0] may remain (Steps [] below). *)
Inductive code := Bare | Steps (c : chain).
Inductive lambdified (x y : unit) (cv : converter) : code -> Prop :=
| LBare : cv_ops cv = [] -> lambdified x y cv Bare
| LSteps e1 e2 : expanded x = Ok e1 -> expanded y = Ok e2 ->
    cv_ops cv <> [] \/ no_floats e1 && no_floats e2 = false -> lambdified x y cv (Steps (cv_ops cv)).

(** Converter.convert, _unit.py:238-241: an unknown symbol is a NameError; [lambda value: value] returns
    its argument; anything else computes. *)
Definition convert_value (cv : converter) (k : code) (h : heap) (v : pyval) : res (pyval * heap) :=
  if existsb op_residual (cv_ops cv) then Err EName
  else match k with
       | Bare => Ok (v, h)
       | Steps [] => apply_ufunc (fun x => Some x) h v
       | Steps c => apply_all (flat_map ufuncs c) h v
       end.

(** result[...] = new, by the caller *)
Fixpoint write (h : heap) (p : nat) (new : array) : heap :=
  match h, p with
  | [], _ => []
  | _ :: h', O => new :: h'
  | r :: h', S p' => r :: write h' p' new
  end.
