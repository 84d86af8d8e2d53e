(** * The Dimensionality object: pyudunits2/_unit.py:244-290 *)
From Verif Require Import PyBase PyNum Graph Expr Units.
Local Open Scope Z_scope.

(** What a Dimensionality may be compared with. *)
Inductive operand :=
| ADimensionality (d : dims)
| ADict (m : dict Z)              (* a dict from names to ints *)
| AUnitDict (d : dims)            (* a dict from BasisUnit objects to ints *)
| AnythingElse.

(** items(), 279-280: the pairs in the order of the dictionary; str(base_unit) is _ref, 582-583 *)
Definition items (d : dims) : list (str * Z) := map (fun e => (fst (fst e), snd e)) d.

(** _name_form, 261-262: a dict comprehension, the last of equal keys wins *)
Definition name_form (d : dims) : dict Z :=
  fold_left (fun m e => dset (fst e) (snd e) m) (items d) [].

(** == of two dicts with str keys *)
Definition dict_eqb (a b : dict Z) : bool :=
  Nat.eqb (List.length a) (List.length b) &&
  forallb (fun e => match dget (fst e) b with Some z => Z.eqb z (snd e) | None => false end) a.

(** __eq__, 254-259, as the operator == uses it: NotImplemented ends in False.  A dict with
    BasisUnit keys has no key equal to a str (Unit.__eq__ of a str is NotImplemented, 364-366), so
    only two empty dicts are equal. *)
Definition dim_eq (d : dims) (o : operand) : bool :=
  match o with
  | ADimensionality e => dims_eqb d e
  | ADict m => dict_eqb (name_form d) m
  | AUnitDict e => match name_form d, e with [], [] => true | _, _ => false end
  | AnythingElse => false
  end.

(** inverted, 264-267 *)
Definition inverted (d : dims) : dims := dims_inv d.

(** __len__, keys, values, 275-286 *)
Definition dim_len (d : dims) : nat := List.length d.
Definition dim_keys (d : dims) : list str := map (fun e => fst (fst e)) d.
Definition dim_values (d : dims) : list Z := map snd d.

(** __str__, 272-273: the repr of the dict of names.  Simplification: the repr of a name is the
    name in single quotes (so it is for names without quotes, backslashes and unprintable
    characters). *)
Definition repr_name (s : str) : str := u "'" ++ s ++ u "'".
Definition repr_item (e : str * Z) : str := repr_name (fst e) ++ u ": " ++ Z_str (snd e).
(** sep.join(l) *)
Fixpoint joined (sep : str) (l : list str) : str :=
  match l with
  | [] => []
  | [x] => x
  | x :: l' => x ++ sep ++ joined sep l'
  end.
(** Dimensionality.__str__, _unit.py:272-273 *)
Definition dim_str (d : dims) : str :=
  u "{" ++ joined (u ", ") (map repr_item (name_form d)) ++ u "}".
