(** * The fragment of sympy that pyudunits2 uses: _expr/sympy.py and the normal forms
      sympy's automatic simplification gives to the expressions built there.

    Numbers are exact rationals: sympy's Float is idealised (recorded in DESIGN.md).
    [sexpr] is the expression as ToSympy builds it; [seval] its real value (the
    specification of what the expression means); [mono] and [chain] are the normal forms
    of the definition part and of the transform part, proved equal in value in
    SympyProofs.v. *)
From Verif Require Import PyBase PyNum Graph Expr.
From Coq Require Import QArith Qreduction.

(** Logarithm bases, sympy.py:54-60 *)
Inductive lbase := Base2 | Base10 | BaseE.

Inductive sexpr :=
| SNum (q : Q)
| SSym (s : str)
| SSub (a b : sexpr)
| SPow (a b : sexpr)
| SMul (a b : sexpr)
| SDiv (a b : sexpr)
| SLog (b : lbase) (a : sexpr).

(** bases[node.function], sympy.py:54-61 *)
Definition log_base (f : str) : option lbase :=
  if str_eqb f (u "lb") then Some Base2
  else if str_eqb f (u "lg") then Some Base10
  else if str_eqb f (u "ln") then Some BaseE
  else if str_eqb f (u "log") then Some BaseE
  else None.

(** sympy_parse of the str of a superscript exponent: a plain integer literal without
    leading zeros.  Other texts ("2-3", "+", "007") are outside the model. *)
Definition sympy_parse_int (s : str) : option Z :=
  let (neg, r) := split_sign s in
  let (ds, rest) := take_digits r in
  match rest, ds with
  | [], [c] => let v := Z.of_N (c - 48) in Some (if neg then (- v)%Z else v)
  | [], c :: _ :: _ =>
    if N.eqb c 48 then None
    else let v := Z.of_N (digits_value ds) in Some (if neg then (- v)%Z else v)
  | _, _ => None
  end.

(** ToSympy.visit_Number, sympy.py:31-39 *)
Definition num_sympy (v : numv) : res sexpr :=
  match v with
  | NInt z => Ok (SNum (inject_Z z))
  | NDec d => Ok (SNum (dec_Q d))
  | NStr s => match sympy_parse_int s with
              | Some z => Ok (SNum (inject_Z z))
              | None => Err EOutOfModel
              end
  end.

(** ToSympy, sympy.py:20-64 *)
Fixpoint to_sympy (n : node) : res sexpr :=
  match n with
  | Identifier s => Ok (SSym s)
  | Number v _ => num_sympy v
  | Shift a b => do x <- to_sympy a ;; do y <- to_sympy b ;; Ok (SSub x y)
  | Raise a b => do x <- to_sympy a ;; do y <- to_sympy b ;; Ok (SPow x y)
  | Multiply a b => do x <- to_sympy a ;; do y <- to_sympy b ;; Ok (SMul x y)
  | Divide a b => do x <- to_sympy a ;; do y <- to_sympy b ;; Ok (SDiv x y)
  | Logarithm f t =>
    match log_base f with
    | None => Err EKey
    | Some b => do x <- to_sympy t ;; Ok (SLog b x)
    end
  | Unhandled _ => Err ENotImplemented
  end.

(** ** Monomials: rational coefficient times integer powers of symbols — sympy's Mul/Pow
    flattening (equal bases collected, integer powers distributed). *)
Record mono := mkMono { m_coef : Q; m_exps : list (str * Z) }.

(** one factor more *)
Fixpoint exps_add (k : str) (z : Z) (e : list (str * Z)) : list (str * Z) :=
  match e with
  | [] => if Z.eqb z 0 then [] else [(k, z)]
  | (k', z') :: e' =>
    if str_eqb k k' then (if Z.eqb (z' + z) 0 then e' else (k', (z' + z)%Z) :: e')
    else (k', z') :: exps_add k z e'
  end.

(** product of two monomials: exponents add up *)
Definition exps_merge (a b : list (str * Z)) : list (str * Z) :=
  fold_left (fun acc kz => exps_add (fst kz) (snd kz) acc) b a.

(** integer power of a monomial: exponents are multiplied *)
Definition exps_scale (n : Z) (e : list (str * Z)) : list (str * Z) :=
  if Z.eqb n 0 then [] else map (fun kz => (fst kz, (snd kz * n)%Z)) e.

(** q == 0 *)
Definition Q_is0 (q : Q) : bool := Z.eqb (Qnum q) 0.

(** zero absorbs the symbols *)
Definition mono_norm (q : Q) (e : list (str * Z)) : mono :=
  if Q_is0 q then mkMono 0 [] else mkMono (Qred q) e.

Definition mono_one : mono := mkMono 1 [].
(** a number *)
Definition mono_num (q : Q) : mono := mono_norm q [].
(** Symbol(s), sympy.py:27-28 *)
Definition mono_sym (s : str) : mono := mkMono 1 [(s, 1%Z)].
(** Mul of two monomials (visit_Multiply, sympy.py:46-47) *)
Definition mono_mul (a b : mono) : mono :=
  mono_norm (m_coef a * m_coef b) (exps_merge (m_exps a) (m_exps b)).
(** division by zero is sympy's zoo/nan: no monomial *)
Definition mono_inv (a : mono) : option mono :=
  if Q_is0 (m_coef a) then None
  else Some (mono_norm (/ m_coef a) (exps_scale (-1) (m_exps a))).
(** Pow with an integer exponent (visit_Raise, sympy.py:43-44) *)
Definition mono_pow (a : mono) (n : Z) : option mono :=
  if Q_is0 (m_coef a) && (n <? 0)%Z then None
  else Some (mono_norm (Qpower (m_coef a) n) (exps_scale n (m_exps a))).

(** an integer as such *)
Definition Q_int (q : Q) : option Z :=
  let r := Qred q in if Pos.eqb (Qden r) 1 then Some (Qnum r) else None.

(** The symbols the converter itself uses, _unit.py:204-207: a unit of that name would be
    captured; such units are outside the model. *)
Definition reserved (s : str) : bool :=
  str_eqb s (u "value") || str_eqb s (u "to_value")
  || str_eqb s (u "value_transformed_to_base_unit_scale").

(** helper: no result if one is missing *)
Definition obind {A B} (o : option A) (f : A -> option B) : option B :=
  match o with Some a => f a | None => None end.

(** the dimension part of a definition as a monomial (ToSympy, sympy.py:19-64); [None]: not of that form *)
Fixpoint mono_of (e : sexpr) : option mono :=
  match e with
  | SNum q => Some (mono_num q)
  | SSym s => if reserved s then None else Some (mono_sym s)
  | SMul a b => obind (mono_of a) (fun x => obind (mono_of b) (fun y => Some (mono_mul x y)))
  | SDiv a b => obind (mono_of a) (fun x => obind (mono_of b) (fun y =>
                obind (mono_inv y) (fun y' => Some (mono_mul x y'))))
  | SPow a b =>
    match b with
    | SNum q => obind (Q_int q) (fun n => obind (mono_of a) (fun x => mono_pow x n))
    | _ => None
    end
  | SSub _ _ | SLog _ _ => None
  end.

(** ** Transforms as chains of elementary steps, innermost first. *)
Inductive op :=
| OpScale (m : mono)
| OpAdd (q : Q)
| OpLog (b : lbase)
| OpExp (b : lbase)
| OpRecip.

(** a transform of the value: steps, the first one first *)
Definition chain := list op.

(** the transform part of a definition (ToSympy, sympy.py:19-64) as such a chain; [None]: not of that form *)
Fixpoint chain_of (e : sexpr) : option chain :=
  match e with
  | SSym s => if str_eqb s (u "value") then Some [] else None
  | SSub a b =>
    match b with
    | SNum q => option_map (fun c => c ++ [OpAdd (- q)]) (chain_of a)
    | _ => None
    end
  | SMul a b =>
    match chain_of a, mono_of b with
    | Some c, Some m => Some (c ++ [OpScale m])
    | _, _ =>
      match mono_of a, chain_of b with
      | Some m, Some c => Some (c ++ [OpScale m])
      | _, _ => None
      end
    end
  | SLog b a => option_map (fun c => c ++ [OpLog b]) (chain_of a)
  | _ => None
  end.

(** sympy.solve(t - value, symbol): the inverse of each step in reverse order.  A step that
    multiplies by zero leaves nothing to solve ([None]; the code's assert fails). *)
Definition op_inv (o : op) : option op :=
  match o with
  | OpScale m => option_map OpScale (mono_inv m)
  | OpAdd q => Some (OpAdd (- q))
  | OpLog b => Some (OpExp b)
  | OpExp b => Some (OpLog b)
  | OpRecip => Some OpRecip
  end.

(** sympy.solve(t1 - orig_qty, to_symbol), _unit.py:219 *)
Fixpoint chain_inv (c : chain) : option chain :=
  match c with
  | [] => Some []
  | o :: c' => match chain_inv c', op_inv o with
               | Some i, Some o' => Some (i ++ [o'])
               | _, _ => None
               end
  end.

(** Automatic flattening: adjacent scalings multiply together, adjacent additions add,
    and neutral steps vanish. *)
Definition exps_eqb (a b : list (str * Z)) : bool :=
  Nat.eqb (List.length a) (List.length b) &&
  forallb (fun kz => match dget (fst kz) b with
                     | Some z => Z.eqb z (snd kz)
                     | None => false end) a.

(** == of monomials *)
Definition mono_eqb (a b : mono) : bool :=
  Qeq_bool (m_coef a) (m_coef b) && exps_eqb (m_exps a) (m_exps b).

(** one step more at the outside, flattened *)
Definition push (o : op) (c : chain) : chain :=   (* c is outermost first *)
  match o with
  | OpScale m =>
    let m' := match c with OpScale k :: _ => mono_mul k m | _ => m end in
    let c' := match c with OpScale _ :: r => r | _ => c end in
    if mono_eqb m' mono_one then c'
    else if Q_is0 (m_coef m') then [OpScale m']      (* 0*f(value) is 0 *)
    else OpScale m' :: c'
  | OpAdd q =>
    let q' := match c with OpAdd k :: _ => (k + q)%Q | _ => q end in
    let c' := match c with OpAdd _ :: r => r | _ => c end in
    if Q_is0 q' then c' else OpAdd (Qred q') :: c'
  | _ => o :: c
  end.

(** all adjacent steps flattened *)
Definition chain_norm (c : chain) : chain := rev (fold_left (fun acc o => push o acc) c []).

(** == of steps *)
Definition op_eqb (a b : op) : bool :=
  match a, b with
  | OpScale m, OpScale k => mono_eqb m k
  | OpAdd q, OpAdd r => Qeq_bool q r
  | OpLog Base2, OpLog Base2 | OpLog Base10, OpLog Base10 | OpLog BaseE, OpLog BaseE => true
  | OpExp Base2, OpExp Base2 | OpExp Base10, OpExp Base10 | OpExp BaseE, OpExp BaseE => true
  | OpRecip, OpRecip => true
  | _, _ => false
  end.

(** self_t == other_t, _unit.py:381 *)
Fixpoint chain_eqb (a b : chain) : bool :=
  match a, b with
  | [], [] => true
  | x :: a', y :: b' => op_eqb x y && chain_eqb a' b'
  | _, _ => false
  end.

(** Does a symbol other than [value] remain? *)
Definition op_residual (o : op) : bool :=
  match o with OpScale m => match m_exps m with [] => false | _ => true end | _ => false end.
