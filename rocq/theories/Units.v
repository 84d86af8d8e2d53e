(** * Units: pyudunits2/_unit.py, _unit_reference.py and _expr/normaliser.py *)
From Verif Require Import PyBase PyNum Graph Expr.

(** ** _unit_reference.py:9-44 *)
Record prefix := mkPrefix { pf_name : str; pf_value : str; pf_symbols : list str }.
Record name := mkName { n_singular : str; n_plural : option str }.
Record reference := mkRef {
  r_name : option name;
  r_symbols : list str;
  r_alias_names : list name;
  r_alias_symbols : list str }.

(** ** Unit objects.  They are immutable after construction (only a cache is filled), so an
    object is modelled by its contents.  [UBasis] is BasisUnit (_unit.py:558-592) with its
    _ref, _dimensionless and _is_time_unit; [UExpr] is Unit/NamedUnit (_unit.py:327-350,
    544-555) with _definition and _identifier_references (whose values are units or
    prefixes, a prefix being known by its value text). *)
Inductive unit :=
| UBasis (ref : str) (dimensionless is_time : bool)
| UExpr (definition : node) (refs : list (str * uref))
with uref :=
| RPrefix (value : str)
| RUnit (x : unit).

(** ** Dimensionality, _unit.py:244-285.
    Keys are BasisUnit objects; they hash alike and compare equal iff their _ref agree
    (Unit.__eq__ on single identifiers, _unit.py:364-381).  The key object also carries
    the time flag, which is_time_unit reads. *)
Definition dims := list ((str * bool) * Z).

Fixpoint dims_get (k : str) (d : dims) : option Z :=
  match d with
  | [] => None
  | ((k', _), z) :: d' => if str_eqb k k' then Some z else dims_get k d'
  end.

(** result[basis] = result.get(basis, 0) + z, _unit.py:441 *)
Fixpoint dims_add (b : str * bool) (z : Z) (d : dims) : dims :=
  match d with
  | [] => [(b, z)]
  | ((k, f), z') :: d' =>
    if str_eqb (fst b) k then ((k, f), (z' + z)%Z) :: d' else ((k, f), z') :: dims_add b z d'
  end.

(** the inner loop _unit.py:440-441: [basis_order * order] is an int, or a str, whose
    addition to an int is a TypeError *)
Fixpoint dims_add_all (o : order) (m : dims) (acc : dims) : res dims :=
  match m with
  | [] => Ok acc
  | (b, bo) :: m' =>
    match o with
    | OInt n => dims_add_all o m' (dims_add b (bo * n) acc)
    | OStr _ => Err EType
    end
  end.

(** if order != 0, _unit.py:442-444 *)
Definition drop_zero (d : dims) : dims := filter (fun e => negb (Z.eqb (snd e) 0)) d.

(** Unit.dimensionality (_unit.py:427-444) and BasisUnit.dimensionality (585-589). *)
Fixpoint udims (x : unit) : res dims :=
  match x with
  | UBasis r dimless it => Ok (if dimless then [] else [((r, it), 1%Z)])
  | UExpr d refs =>
    do td <- split_root d ;;
    do sc <- count (snd td) ;;
    do acc <-
      (fix outer (sc : scope) (acc : dims) : res dims :=
         match sc with
         | [] => Ok acc
         | (k, o) :: sc' =>
           do acc' <-
             (fix find (rs : list (str * uref)) : res dims :=
                match rs with
                | [] => Err EKey
                | (k', v) :: rs' =>
                  if str_eqb k k' then
                    match v with
                    | RPrefix _ => Ok acc
                    | RUnit y => do m <- udims y ;; dims_add_all o m acc
                    end
                  else find rs'
                end) refs ;;
           outer sc' acc'
         end) sc [] ;;
    Ok (drop_zero acc)
  end.

(** Dict equality (_unit.py:259): same keys with the same orders. *)
Definition dims_eqb (a b : dims) : bool :=
  Nat.eqb (List.length a) (List.length b) &&
  forallb (fun e => match dims_get (fst (fst e)) b with
                    | Some z => Z.eqb z (snd e)
                    | None => false
                    end) a.

(** Dimensionality.inverted, _unit.py:264-267 *)
Definition dims_inv (d : dims) : dims := map (fun e => (fst e, (- snd e)%Z)) d.

(** Unit.is_time_unit (_unit.py:449-454), BasisUnit.is_time_unit (591-592) *)
Definition dims_time (d : dims) : bool :=
  match d with
  | [((_, it), z)] => it && Z.eqb z 1
  | _ => false
  end.

(** Unit.is_time_unit, _unit.py:449-454; BasisUnit.is_time_unit, 591-592 *)
Definition is_time_unit (x : unit) : res bool :=
  match x with
  | UBasis _ _ it => Ok it
  | UExpr _ _ => do d <- udims x ;; Ok (dims_time d)
  end.

(** Unit.is_dimensionless (_unit.py:446-447): comparing with {} — true iff empty, for a
    Dimensionality and for the plain dict a BasisUnit returns alike. *)
Definition is_dimensionless (x : unit) : res bool :=
  do d <- udims x ;; Ok (match d with [] => true | _ => false end).

(** ** NormalisedExpressionGraph, _expr/normaliser.py:13-117.  [None] = unchanged. *)
Definition norm2 (f : node -> node -> node) (a b : node) (na nb : option node) : option node :=
  (* visit_Multiply / visit_Divide / visit_Raise, 42-82 *)
  match na, nb with
  | None, None => None
  | Some a', None => Some (f a' b)
  | None, Some b' => Some (f a b')
  | Some a', Some b' => Some (f a' b')
  end.

(** the visitor of NormalisedNode, _expr/normaliser.py:25-140 *)
Fixpoint norm (refs : list (str * uref)) (n : node) : res (option node) :=
  match n with
  | Multiply a b => do na <- norm refs a ;; do nb <- norm refs b ;; Ok (norm2 Multiply a b na nb)
  | Divide a b => do na <- norm refs a ;; do nb <- norm refs b ;; Ok (norm2 Divide a b na nb)
  | Raise a b => do na <- norm refs a ;; do nb <- norm refs b ;; Ok (norm2 Raise a b na nb)
  | Identifier _ | Number _ _ => Ok None                          (* 66-70 *)
  | Logarithm f t =>                                              (* 84-89 *)
    do nt <- norm refs t ;; Ok (option_map (Logarithm f) nt)
  | Shift a s =>                                                  (* 91-117 *)
    do na <- norm refs a ;;
    let a' := match na with Some x => x | None => a end in
    do it <- is_time_unit (UExpr a' refs) ;;
    if it then Err (EValue VE_nested_date)
    else match s with
         | Number _ _ => Ok (Some (Shift a' s))
         | _ => Err (EValue VE_shift_not_number)
         end
  | Unhandled _ => Err ENotImplemented                            (* 36-37 *)
  end.

(** NormalisedNode(d, refs).unit_expr, normaliser.py:125-132 *)
Definition normalised (refs : list (str * uref)) (d : node) : res node :=
  do n <- norm refs d ;; Ok (match n with Some x => x | None => d end).

(** Unit.__init__ with a plain definition, _unit.py:328-349: validate, keep as given. *)
Definition mk_unit (d : node) (refs : list (str * uref)) : res unit :=
  do _ <- normalised refs d ;; Ok (UExpr d refs).

(** BasisUnit.__init__, _unit.py:559-570: names.name must not be None (AttributeError);
    an empty singular falls back to symbols[0] (IndexError is outside the model). *)
Definition mk_basis (r : reference) (dimless it : bool) : res unit :=
  match r_name r with
  | None => Err EAttribute
  | Some nm =>
    match n_singular nm with
    | [] => match r_symbols r with
            | s :: _ => Ok (UBasis s dimless it)
            | [] => Err EOutOfModel
            end
    | s => Ok (UBasis s dimless it)
    end
  end.

(** ** Expansion *)
(** Prefix._expanded_expr, _unit_reference.py:19-26: the test ["." or "e" in value] is
    always true, so the value is always a Decimal. *)
Definition prefix_expanded (v : str) : res node :=
  do d <- py_decimal v ;; Ok (Number (NDec d) (Some v)).

(** Unit._expanded_expr (_unit.py:402-412) and BasisUnit._expanded_expr (579-580) *)
Fixpoint expanded (x : unit) : res node :=
  match x with
  | UBasis r _ _ => Ok (Identifier r)
  | UExpr d refs =>
    do m <- (fix go (rs : list (str * uref)) : res (dict node) :=
               match rs with
               | [] => Ok []
               | (k, v) :: rs' =>
                 do e <- match v with
                         | RPrefix p => prefix_expanded p
                         | RUnit y => expanded y
                         end ;;
                 do m <- go rs' ;;
                 Ok ((k, e) :: m)
               end) refs ;;
    Ok (subst m d)
  end.

(** Unit.__str__ (_unit.py:351-352), BasisUnit.__str__ (582-583) *)
Definition unit_str (x : unit) : str :=
  match x with UBasis r _ _ => r | UExpr d _ => node_str d end.

(** ** Things UnitSystem.unit can return: Unit or DateUnit (_unit.py:475-516) *)
Inductive anyunit :=
| AUnit (x : unit)
| ADate (x : unit) (reference_date : str).

(** DateUnit.__init__ asserts is_time_unit, _unit.py:484 *)
Definition mk_date (x : unit) (ref : str) : res anyunit :=
  do it <- is_time_unit x ;; if it then Ok (ADate x ref) else Err EAssertion.

(** _unit_from_expression_and_identifiers, _unit.py:298-324.  A Number without raw text
    cannot come from the parser (outside the model). *)
Definition unit_from_expression (e : node) (refs : list (str * uref)) : res anyunit :=
  match e with
  | Shift a s =>
    do x <- mk_unit a refs ;;
    do it <- is_time_unit x ;;
    if it then
      match s with
      | Number _ (Some raw) => mk_date x raw
      | Number _ None => Err EOutOfModel
      | Unhandled raw => mk_date x raw
      | _ => Err (EValue VE_bad_date)
      end
    else do y <- mk_unit e refs ;; Ok (AUnit y)
  | _ => do y <- mk_unit e refs ;; Ok (AUnit y)
  end.

(** What .dimensionality() returns: a Dimensionality object, or (BasisUnit) a plain dict. *)
Inductive dimval :=
| DObj (d : dims)
| DDict (d : dims).

(** .dimensionality() of any unit: _unit.py:427-444, 508-509, 585-589 *)
Definition dimensionality (a : anyunit) : res dimval :=
  match a with
  | AUnit (UBasis r dl it) => do d <- udims (UBasis r dl it) ;; Ok (DDict d)
  | AUnit x => do d <- udims x ;; Ok (DObj d)
  | ADate x _ => do d <- udims x ;; Ok (DObj d)            (* _unit.py:508-509 *)
  end.

(** [a == b] on those, _unit.py:254-259.  Dimensionality against dict compares the
    {name: order} form with the dict: the keys are str on one side and BasisUnit on the
    other, so it is true only when both are empty. *)
Definition dimval_eqb (a b : dimval) : bool :=
  match a, b with
  | DObj x, DObj y => dims_eqb x y
  | DDict x, DDict y => dims_eqb x y
  | DObj x, DDict y | DDict x, DObj y =>
    match x, y with [], [] => true | _, _ => false end
  end.

(** .inverted(): a dict has no such attribute *)
Definition dimval_inv (a : dimval) : res dimval :=
  match a with
  | DObj x => Ok (DObj (dims_inv x))
  | DDict _ => Err EAttribute
  end.

(** Unit.is_convertible_to (_unit.py:456-469), DateUnit.is_convertible_to (488-490) *)
Definition is_convertible_to (a b : anyunit) : res bool :=
  match a with
  | ADate _ _ => Ok false
  | AUnit _ =>
    match b with
    | ADate _ _ => Ok false
    | AUnit _ =>
      do da <- dimensionality a ;;
      do db <- dimensionality b ;;
      if dimval_eqb da db then Ok true
      else do ia <- dimval_inv da ;; Ok (dimval_eqb ia db)
    end
  end.

(** .is_dimensionless() and .is_time_unit() of what UnitSystem.unit returns: Unit
    (_unit.py:446-454), DateUnit (501-506) *)
Definition any_dimensionless (a : anyunit) : res bool :=
  match a with AUnit x => is_dimensionless x | ADate _ _ => Ok false end.
Definition any_time_unit (a : anyunit) : res bool :=
  match a with AUnit x => is_time_unit x | ADate _ _ => Ok true end.
