(** * Specification: the dimensions of an expression and of a unit.

    [gdim rho n b]: the exponent of basis [b] in the expression [n] when identifier [s]
    stands for a quantity with exponents [rho s]. *)
From Verif Require Import PyBase PyNum Graph Expr Units.
Open Scope Z_scope.

Fixpoint gdim (rho : str -> str -> Z) (n : node) (b : str) : Z :=
  match n with
  | Unhandled _ | Number _ _ => 0
  | Identifier s => rho s b
  | Multiply x y => gdim rho x b + gdim rho y b
  | Divide x y => gdim rho x b - gdim rho y b
  | Raise x (Number (NInt z) _) => z * gdim rho x b
  | Raise _ _ => 0
  | Shift x _ => gdim rho x b
  | Logarithm _ x => gdim rho x b
  end.

(** Contains a shift or a logarithm. *)
Fixpoint moves (n : node) : bool :=
  match n with
  | Shift _ _ | Logarithm _ _ => true
  | Multiply x y | Divide x y => moves x || moves y
  | Raise x _ => moves x
  | _ => false
  end.

(** Integer exponents only, no unparsed text; shifts and logarithms are multiplied by
    dimensionless factors only. *)
Fixpoint tidy (rho : str -> str -> Z) (n : node) : Prop :=
  match n with
  | Unhandled _ => False
  | Number _ _ | Identifier _ => True
  | Multiply x y =>
    tidy rho x /\ tidy rho y /\ moves x && moves y = false /\
    (moves x = true -> forall b, gdim rho y b = 0) /\
    (moves y = true -> forall b, gdim rho x b = 0)
  | Divide x y => tidy rho x /\ tidy rho y /\ moves x && moves y = false
  | Raise x e => tidy rho x /\ exists z r, e = Number (NInt z) r
  | Shift x _ | Logarithm _ x => tidy rho x
  end.

(** Products, quotients and integer powers of identifiers and numbers. *)
Fixpoint plain (n : node) : Prop :=
  match n with
  | Number _ _ | Identifier _ => True
  | Multiply x y | Divide x y => plain x /\ plain y
  | Raise x e => plain x /\ exists z r, e = Number (NInt z) r
  | _ => False
  end.

(** The identifiers whose units matter for the dimensions (not those of a shift's origin). *)
Fixpoint occurs (s : str) (n : node) : Prop :=
  match n with
  | Identifier s' => s = s'
  | Multiply x y | Divide x y | Raise x y => occurs s x \/ occurs s y
  | Shift x _ | Logarithm _ x => occurs s x
  | _ => False
  end.

(** refs[s] *)
Fixpoint find_ref (s : str) (refs : list (str * uref)) : option uref :=
  match refs with
  | [] => None
  | (k, v) :: rs => if str_eqb s k then Some v else find_ref s rs
  end.

(** The exponents of a unit: of its definition, with each reference standing for the
    exponents of the unit it refers to; prefixes have none. *)
Fixpoint exps (x : unit) (b : str) : Z :=
  match x with
  | UBasis r dimless _ => if dimless then 0 else if str_eqb r b then 1 else 0
  | UExpr d refs =>
    gdim (fun s b =>
            (fix find (rs : list (str * uref)) : Z :=
               match rs with
               | [] => 0
               | (k, v) :: rs' =>
                 if str_eqb s k then match v with RUnit y => exps y b | RPrefix _ => 0 end
                 else find rs'
               end) refs) d b
  end.

Definition ref_exps (refs : list (str * uref)) (s b : str) : Z :=
  match find_ref s refs with Some (RUnit y) => exps y b | _ => 0 end.

(** A unit all of whose definitions, at every depth, are tidy and resolved. *)
Inductive sound_unit : unit -> Prop :=
| Su_basis r dl it : sound_unit (UBasis r dl it)
| Su_expr d refs :
    tidy (ref_exps refs) d ->
    (forall s, occurs s d -> find_ref s refs <> None) ->
    (forall s y, find_ref s refs = Some (RUnit y) -> occurs s d -> sound_unit y) ->
    sound_unit (UExpr d refs).

(** The order of basis [b] in a dimensionality, 0 when absent. *)
Definition dval (d : dims) (b : str) : Z := match dims_get b d with Some z => z | None => 0 end.

(** [d] is the finite map of the non-zero values of [f]. *)
Definition represents (d : dims) (f : str -> Z) : Prop :=
  NoDup (map (fun e => fst (fst e)) d) /\
  forall b, dims_get b d = if Z.eqb (f b) 0 then None else Some (f b).

(** What a definition must satisfy to be accepted: every shift, however deep, is by a
    number and of something that is not a time unit; no unparsed text elsewhere. *)
Inductive acceptable (refs : list (str * uref)) : node -> Prop :=
| Ac_number v r : acceptable refs (Number v r)
| Ac_identifier s : acceptable refs (Identifier s)
| Ac_multiply a b : acceptable refs a -> acceptable refs b -> acceptable refs (Multiply a b)
| Ac_divide a b : acceptable refs a -> acceptable refs b -> acceptable refs (Divide a b)
| Ac_raise a b : acceptable refs a -> acceptable refs b -> acceptable refs (Raise a b)
| Ac_log f a : acceptable refs a -> acceptable refs (Logarithm f a)
| Ac_shift a v r : acceptable refs a -> is_time_unit (UExpr a refs) = Ok false ->
    acceptable refs (Shift a (Number v r)).

(** [sub n m]: [n] occurs somewhere in [m]. *)
Inductive sub (n : node) : node -> Prop :=
| Sub_here : sub n n
| Sub_mul_l a b : sub n a -> sub n (Multiply a b)
| Sub_mul_r a b : sub n b -> sub n (Multiply a b)
| Sub_div_l a b : sub n a -> sub n (Divide a b)
| Sub_div_r a b : sub n b -> sub n (Divide a b)
| Sub_raise_l a b : sub n a -> sub n (Raise a b)
| Sub_raise_r a b : sub n b -> sub n (Raise a b)
| Sub_shift_l a b : sub n a -> sub n (Shift a b)
| Sub_shift_r a b : sub n b -> sub n (Shift a b)
| Sub_log f a : sub n a -> sub n (Logarithm f a).

(** A unit as UnitSystem.unit returns it when the text is not a date. *)
Definition is_expr_unit (x : unit) : Prop := match x with UExpr _ _ => True | UBasis _ _ _ => False end.

(** Two exponent assignments describe convertible quantities: equal or reciprocal. *)
Definition interconvertible (f g : str -> Z) : Prop :=
  (forall b, f b = g b) \/ (forall b, f b = - g b).

(** Exponents of the identifiers of a fully expanded definition: they name basis units,
    of which those in [dl] are dimensionless. *)
Definition basis_exps (dl : str -> bool) (s b : str) : Z :=
  if dl s then 0 else if str_eqb s b then 1 else 0.

(** [dl] tells which basis names under [x] are dimensionless. *)
Inductive bases_agree (dl : str -> bool) : unit -> Prop :=
| Ba_basis r d it : dl r = d -> bases_agree dl (UBasis r d it)
| Ba_expr d refs : (forall s y, find_ref s refs = Some (RUnit y) -> occurs s d -> bases_agree dl y) ->
    bases_agree dl (UExpr d refs).
