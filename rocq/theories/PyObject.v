(** * == and hash() of unit objects

    Models what Python does with [a == b], [a != b] and [hash(a)] for the objects of
    pyudunits2/_unit.py: which class defines __eq__ and __hash__, and CPython's rules for calling
    them (Objects/object.c, do_richcompare; a class that defines __eq__ without __hash__ has
    __hash__ = None).  Arithmetic is exact, as in Convert.v. *)
From Verif Require Import PyBase PyNum Graph Expr Units Sympy Convert.

(** The classes: Unit (_unit.py:327), NamedUnit (544), BasisUnit (558), DateUnit (475), and
    objects of unrelated classes that do not define __eq__ themselves. *)
Inductive class := CUnit | CNamedUnit | CBasisUnit | CDateUnit | COther.

(** issubclass(a, b): class NamedUnit(Unit), 544; class BasisUnit(NamedUnit), 558.  DateUnit (475) and
    Unit (327) only share UnitInterface, of which there are no instances. *)
Definition subclass (a b : class) : bool :=
  match a, b with
  | CUnit, CUnit | CNamedUnit, CNamedUnit | CBasisUnit, CBasisUnit | CDateUnit, CDateUnit | COther, COther => true
  | CNamedUnit, CUnit | CBasisUnit, CUnit | CBasisUnit, CNamedUnit => true
  | _, _ => false
  end.

(** type(a) is type(b) *)
Definition same_class (a b : class) : bool := subclass a b && subclass b a.

(** What an object holds.  A unit that is no BasisUnit has the class Unit (made by unit() and for
    prefixed words, _unit_system.py:241, 265, _unit.py:306, 324) or NamedUnit (made for definitions,
    _unit_system.py:56): [named]. *)
Inductive contents :=
| HasUnit (named : bool) (x : unit)
| HasDate (x : unit) (reference_date : str)
| HasOther.

(** An object: where it is (id()) and what it holds *)
Record object := mkObj { address : nat; holds : contents }.

(** type(a) *)
Definition class_of (o : object) : class :=
  match holds o with
  | HasUnit _ (UBasis _ _ _) => CBasisUnit
  | HasUnit true (UExpr _ _) => CNamedUnit
  | HasUnit false (UExpr _ _) => CUnit
  | HasDate _ _ => CDateUnit
  | HasOther => COther
  end.

(** [a is b] *)
Definition identical (a b : object) : bool := Nat.eqb (address a) (address b).

(** type(a).__eq__(a, b): Unit.__eq__ (_unit.py:364-381) for Unit, NamedUnit and BasisUnit;
    object.__eq__ for the others.  [None] is NotImplemented. *)
Definition eq_method (a b : object) : res (option bool) :=
  match holds a, holds b with
  | HasUnit _ x, HasUnit _ y => do r <- unit_eq x y ;; Ok (Some r)
  | HasUnit _ _, _ => Ok None                             (* isinstance(other, Unit), 365-366 *)
  | _, _ => Ok (if identical a b then Some true else None)
  end.

(** CPython's [a == b]: the method of [b] first if its class is a proper subclass; the other
    one if the first says NotImplemented; else identity. *)
Definition py_eq (a b : object) : res bool :=
  let reverse_first := negb (same_class (class_of a) (class_of b)) && subclass (class_of b) (class_of a) in
  if reverse_first then
    do r <- eq_method b a ;;
    match r with
    | Some v => Ok v
    | None =>
      do r' <- eq_method a b ;;
      Ok (match r' with Some v => v | None => identical a b end)
    end
  else
    do r <- eq_method a b ;;
    match r with
    | Some v => Ok v
    | None =>
      do r' <- eq_method b a ;;
      Ok (match r' with Some v => v | None => identical a b end)
    end.

(** [a != b]: object.__ne__ inverts __eq__ *)
Definition py_ne (a b : object) : res bool := do r <- py_eq a b ;; Ok (negb r).

(** hash(a): Unit defines __eq__ and no __hash__, so its __hash__ is None, and NamedUnit inherits
    that; BasisUnit.__hash__ (_unit.py:575-577); DateUnit and other objects have object.__hash__,
    which is made of the address by [H]. *)
Definition py_hash (H : nat -> Z) (a : object) : res Z :=
  match class_of a with
  | CUnit | CNamedUnit => Err EType
  | CBasisUnit => Ok 1%Z
  | CDateUnit | COther => Ok (H (address a))
  end.

(** d.get(k) of a dict: an entry whose key has the same hash and is identical or equal to [k]
    (Objects/dictobject.c); the keys of a dict are pairwise different, so that the order in which
    they are probed does not matter.  An exception in == is passed on. *)
Fixpoint probe {V} (H : nat -> Z) (h : Z) (k : object) (d : list (object * V)) : res (option V) :=
  match d with
  | [] => Ok None
  | (k', v) :: d' =>
    do h' <- py_hash H k' ;;
    if Z.eqb h h' then
      if identical k' k then Ok (Some v)
      else do e <- py_eq k' k ;; if e : bool then Ok (Some v) else probe H h k d'
    else probe H h k d'
  end.

(** d.get(k), Dimensionality's dicts: _unit.py:441 *)
Definition dict_get {V} (H : nat -> Z) (k : object) (d : list (object * V)) : res (option V) :=
  do h <- py_hash H k ;; probe H h k d.
