(** * Converter and Unit.__eq__: pyudunits2/_unit.py:96-241,364-400 *)
From Verif Require Import PyBase PyNum Graph Expr Units Sympy.
From Coq Require Import QArith Reals Qreals.

(** Unit._symbolic_definition, _unit.py:383-400, kept as sympy expressions. *)
Definition symbolic (x : unit) : res (sexpr * sexpr) :=
  do e <- expanded x ;;
  do td <- split_root e ;;
  do t <- match fst td with
          | Some t => to_sympy t
          | None => Ok (SSym (u "value"))
          end ;;
  do d <- to_sympy (snd td) ;;
  Ok (t, d).

(** helper: no normal form is an exception of the given kind *)
Definition of_option {A} (o : option A) (e : exn) : res A :=
  match o with Some a => Ok a | None => Err e end.

(** The same in normal form.  Expressions outside the normal forms (a reserved symbol used
    as a unit, a zero divisor, ...) are outside the model. *)
Definition normal_form (x : unit) : res (chain * mono) :=
  do td <- symbolic x ;;
  do c <- of_option (chain_of (fst td)) EOutOfModel ;;
  do m <- of_option (mono_of (snd td)) EOutOfModel ;;
  Ok (c, m).

(** DateUnit._symbolic_definition delegates to its unit, _unit.py:511-513 *)
Definition core (a : anyunit) : unit := match a with AUnit x => x | ADate x _ => x end.

(** A Converter is its expression, as the chain of steps applied to [value]. *)
Record converter := mkConv { cv_ops : chain }.

(** Converter.__init__, _unit.py:187-236 *)
Definition mk_converter (a b : anyunit) : res converter :=
  do da <- dimensionality a ;;
  do db <- dimensionality b ;;
  do ia <- dimval_inv da ;;
  let direct := dimval_eqb da db in
  let inverted := dimval_eqb ia db in
  if negb (direct || inverted) then Err EIncompatible
  else
    do n1 <- normal_form (core a) ;;
    do n2 <- normal_form (core b) ;;
    do solved <- of_option (chain_inv (chain_norm (fst n1))) EAssertion ;;
    if direct then
      do k <- of_option (obind (mono_inv (snd n2)) (fun i => Some (mono_mul (snd n1) i)))
                        EOutOfModel ;;
      Ok (mkConv (chain_norm (solved ++ [OpScale k] ++ fst n2)))
    else
      let k := mono_mul (snd n1) (snd n2) in
      if Q_is0 (m_coef k) then Err EOutOfModel
      else Ok (mkConv (chain_norm (solved ++ [OpScale k; OpRecip] ++ fst n2))).

(** Real value of one step (residual-free scalings only). *)
Definition base_R (b : lbase) : R :=
  match b with Base2 => 2%R | Base10 => 10%R | BaseE => exp 1 end.

(** One step; a logarithm of a number that is not positive and a division by zero (nan, inf
    or an exception in the lambdified function, depending on its argument type) have no
    value here. *)
Definition op_eval (o : op) (x : R) : option R :=
  match o with
  | OpScale m => Some (Q2R (m_coef m) * x)%R
  | OpAdd q => Some (x + Q2R q)%R
  | OpLog b => if Rlt_dec 0 x then Some (ln x / ln (base_R b))%R else None
  | OpExp b => Some (Rpower (base_R b) x)
  | OpRecip => if Req_EM_T x 0 then None else Some (/ x)%R
  end.

(** a lambdified transform, _unit.py:228-231: its steps one after the other; on real numbers *)
Fixpoint chain_eval (c : chain) (x : R) : option R :=
  match c with
  | [] => Some x
  | o :: c' => obind (op_eval o x) (chain_eval c')
  end.

(** Converter.convert, _unit.py:238-241: a leftover symbol is a NameError in the lambdified
    function. *)
Definition convert (c : converter) (v : R) : res R :=
  if existsb op_residual (cv_ops c) then Err EName
  else of_option (chain_eval (cv_ops c) v) EOutOfModel.

(** The same on rationals, for the steps that stay rational (used to compute witnesses). *)
Definition op_evalQ (o : op) (x : Q) : option Q :=
  match o with
  | OpScale m => Some (Qred (m_coef m * x))
  | OpAdd q => Some (Qred (x + q))
  | OpRecip => if Q_is0 x then None else Some (Qred (/ x))
  | _ => None
  end.

(** the same on rationals, as far as the steps stay rational *)
Fixpoint chain_evalQ (c : chain) (x : Q) : option Q :=
  match c with
  | [] => Some x
  | o :: c' => obind (op_evalQ o x) (chain_evalQ c')
  end.

(** Converter.convert, _unit.py:238-241, on rationals, for computed examples only *)
Definition convertQ (c : converter) (v : Q) : res Q :=
  if existsb op_residual (cv_ops c) then Err EName
  else of_option (chain_evalQ (cv_ops c) v) EOutOfModel.

(** Unit.__eq__ between Unit objects, _unit.py:364-381: text equality of the definitions,
    else equality of definition parts and of transform parts. *)
Definition definition_of (x : unit) : node :=
  match x with UBasis r _ _ => Identifier r | UExpr d _ => d end.

(** Unit.__eq__, _unit.py:364-381 *)
Definition unit_eq (x y : unit) : res bool :=
  if str_eqb (node_str (definition_of y)) (node_str (definition_of x)) then Ok true
  else
    do n1 <- normal_form x ;;
    do n2 <- normal_form y ;;
    Ok (mono_eqb (snd n1) (snd n2) &&
        chain_eqb (chain_norm (fst n1)) (chain_norm (fst n2))).
