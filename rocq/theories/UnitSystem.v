(** * UnitSystem and LazilyDefinedUnit: pyudunits2/_unit_system.py

    The system is mutable; an operation maps a state to an outcome and a new state (the
    state also changes when an exception is raised half-way).  Recursive resolution takes
    explicit fuel standing for the interpreter stack; exhausting it is RecursionError. *)
From Verif Require Import PyBase PyNum Graph Lexer Parser Visitor Expr Units.

(** A value stored in the dictionaries: a LazilyDefinedUnit object (a reference into the
    heap of lazies) or a NamedUnit with its _names. *)
Inductive entry :=
| ELazy (i : nat)
| EUnit (x : unit) (names : reference).

(** LazilyDefinedUnit, _unit_system.py:21-41 *)
Record lazy := mkLazy { lz_def : str; lz_names : reference; lz_resolved : option unit }.

(** UnitSystem.__init__, _unit_system.py:81-95 *)
Record system := mkSys {
  s_symbols : dict entry;
  s_names : dict entry;
  s_alias_names : dict entry;
  s_alias_symbols : dict entry;
  s_prefix_names : dict prefix;
  s_prefix_symbols : dict prefix;
  s_lazies : list lazy }.

(** UnitSystem(), _unit_system.py:82-95 *)
Definition empty_system : system := mkSys [] [] [] [] [] [] [].

(** add_prefix, _unit_system.py:117-120 *)
Definition add_prefix (p : prefix) (s : system) : system :=
  mkSys (s_symbols s) (s_names s) (s_alias_names s) (s_alias_symbols s)
        (dset (pf_name p) p (s_prefix_names s))
        (fold_left (fun d sym => dset sym p d) (pf_symbols p) (s_prefix_symbols s))
        (s_lazies s).

(** keys of a name: singular, and plural when it is a non-empty string *)
Definition name_keys (n : name) : list str :=
  n_singular n :: match n_plural n with
                  | Some (c :: p) => [c :: p]
                  | _ => []
                  end.

(** the keys a reference adds to _names: _unit_system.py:141-144 *)
Definition ref_names (r : reference) : list str :=
  match r_name r with Some n => name_keys n | None => [] end.
(** the keys a reference adds to _alias_names: _unit_system.py:149-152 *)
Definition ref_alias_names (r : reference) : list str :=
  flat_map name_keys (r_alias_names r).

(** d[k] = v for several keys *)
Definition dset_all {V} (ks : list str) (v : V) (d : dict V) : dict V :=
  fold_left (fun d k => dset k v d) ks d.

(** the assignments of add_unit, _unit_system.py:141-155 *)
Definition register (e : entry) (r : reference) (s : system) : system :=
  mkSys (dset_all (r_symbols r) e (s_symbols s))
        (dset_all (ref_names r) e (s_names s))
        (dset_all (ref_alias_names r) e (s_alias_names s))
        (dset_all (r_alias_symbols r) e (s_alias_symbols s))
        (s_prefix_names s) (s_prefix_symbols s) (s_lazies s).

(** add_unit, _unit_system.py:122-155: duplicate checks first (unless replace), then the
    assignments. *)
Definition add_unit (e : entry) (r : reference) (replace : bool) (s : system)
  : res system :=
  if negb replace && existsb (fun k => dmem k (s_names s)) (ref_names r)
  then Err (EValue VE_dup_name)
  else if negb replace && existsb (fun k => dmem k (s_symbols s)) (r_symbols r)
  then Err (EValue VE_dup_symbol)
  else Ok (register e r s).

(** LazilyDefinedUnit._resolved_unit is set, _unit_system.py:56-60 *)
Definition set_lazy (i : nat) (l : lazy) (s : system) : system :=
  mkSys (s_symbols s) (s_names s) (s_alias_names s) (s_alias_symbols s)
        (s_prefix_names s) (s_prefix_symbols s)
        (firstn i (s_lazies s) ++ l :: skipn (S i) (s_lazies s)).

(** LazilyDefinedUnit(system, definition, names) followed by add_unit. *)
Definition add_lazy (def : str) (r : reference) (s : system) : res system :=
  let i := List.length (s_lazies s) in
  add_unit (ELazy i) r false
    (mkSys (s_symbols s) (s_names s) (s_alias_names s) (s_alias_symbols s)
           (s_prefix_names s) (s_prefix_symbols s)
           (s_lazies s ++ [mkLazy def r None])).

(** ** State-passing computations *)
Definition M (A : Type) := system -> res A * system.
Definition ret {A} (a : A) : M A := fun s => (Ok a, s).
Definition raise {A} (e : exn) : M A := fun s => (Err e, s).
Definition mbind {A B} (m : M A) (f : A -> M B) : M B :=
  fun s => match m s with
           | (Ok a, s') => f a s'
           | (Err e, s') => (Err e, s')
           end.
(** a computation that does not touch the system *)
Definition lift {A} (r : res A) : M A := fun s => (r, s).
Notation "'dom' x <- m ;; k" := (mbind m (fun x => k))
  (at level 200, x pattern, m at level 100, k at level 200, right associativity).

(** {identifier: ... for identifier in ...}: one after the other *)
Fixpoint mmapM {A B} (f : A -> M B) (l : list A) : M (list B) :=
  match l with
  | [] => ret []
  | x :: xs => dom y <- f x ;; dom ys <- mmapM f xs ;; ret (y :: ys)
  end.

(** *** add_unit statement by statement, _unit_system.py:122-155; [add_unit] above is its
    summary (proved in SystemKeep.v, add_unit_prog_spec). *)
Fixpoint mfor {A} (f : A -> M Datatypes.unit) (l : list A) : M Datatypes.unit :=
  match l with
  | [] => ret tt
  | x :: xs => dom _ <- f x ;; mfor f xs
  end.

(** if not replace and k in d: raise ValueError *)
Definition check_free (replace : bool) (d : system -> dict entry) (v : value_error) (k : str)
  : M Datatypes.unit :=
  fun s => if negb replace && dmem k (d s) then (Err (EValue v), s) else (Ok tt, s).

(** self._names[k] = unit, _unit_system.py:122-155 *)
Definition set_name (e : entry) (k : str) : M Datatypes.unit := fun s =>
  (Ok tt, mkSys (s_symbols s) (dset k e (s_names s)) (s_alias_names s) (s_alias_symbols s)
                (s_prefix_names s) (s_prefix_symbols s) (s_lazies s)).
(** self._symbols[k] = unit *)
Definition set_symbol (e : entry) (k : str) : M Datatypes.unit := fun s =>
  (Ok tt, mkSys (dset k e (s_symbols s)) (s_names s) (s_alias_names s) (s_alias_symbols s)
                (s_prefix_names s) (s_prefix_symbols s) (s_lazies s)).
(** self._alias_names[k] = unit *)
Definition set_alias_name (e : entry) (k : str) : M Datatypes.unit := fun s =>
  (Ok tt, mkSys (s_symbols s) (s_names s) (dset k e (s_alias_names s)) (s_alias_symbols s)
                (s_prefix_names s) (s_prefix_symbols s) (s_lazies s)).
(** self._alias_symbols[k] = unit *)
Definition set_alias_symbol (e : entry) (k : str) : M Datatypes.unit := fun s =>
  (Ok tt, mkSys (s_symbols s) (s_names s) (s_alias_names s) (dset k e (s_alias_symbols s))
                (s_prefix_names s) (s_prefix_symbols s) (s_lazies s)).

(** f(n.singular); if n.plural: f(n.plural) *)
Definition on_name (f : str -> M Datatypes.unit) (n : name) : M Datatypes.unit :=
  dom _ <- f (n_singular n) ;;
  match n_plural n with
  | Some (c :: p) => f (c :: p)
  | _ => ret tt
  end.

(** if unit.names.name: ... *)
Definition if_named (r : reference) (f : name -> M Datatypes.unit) : M Datatypes.unit :=
  match r_name r with Some n => f n | None => ret tt end.

(** add_unit, _unit_system.py:122-155, statement by statement *)
Definition add_unit_prog (e : entry) (r : reference) (replace : bool) : M Datatypes.unit :=
  dom _ <- if_named r (on_name (check_free replace s_names VE_dup_name)) ;;       (* 124-133 *)
  dom _ <- mfor (check_free replace s_symbols VE_dup_symbol) (r_symbols r) ;;     (* 135-139 *)
  dom _ <- if_named r (on_name (set_name e)) ;;                                   (* 141-144 *)
  dom _ <- mfor (set_symbol e) (r_symbols r) ;;                                   (* 146-147 *)
  dom _ <- mfor (on_name (set_alias_name e)) (r_alias_names r) ;;                 (* 149-152 *)
  mfor (set_alias_symbol e) (r_alias_symbols r).                                  (* 154-155 *)

Section Lookup.
(** The iteration order of a set of identifiers: any function; Python's depends on the
    hash seed (see C30). *)
Variable ord : list str -> list str.

(** What recursive look-ups do at one level less of stack. *)
Variable rec_lookup : str -> M unit.

(** {identifier: unit_by_name_or_symbol(identifier.content) for identifier in identifiers},
    _unit_system.py:51-54 and 288-291 *)
Definition resolve_refs (ids : list str) : M (list (str * uref)) :=
  mmapM (fun k => dom x <- rec_lookup k ;; ret (k, RUnit x)) (ord ids).

(** LazilyDefinedUnit.resolve, _unit_system.py:43-62; an index without object is outside
    the model *)
Definition resolve (i : nat) : M unit := fun s =>
  match nth_error (s_lazies s) i with
  | None => (Err EOutOfModel, s)
  | Some l =>
    match lz_resolved l with
    | Some x => (Ok x, s)
    | None =>
      (dom e <- lift (parse (lz_def l)) ;;
       dom refs <- resolve_refs (identifiers e) ;;
       dom x <- lift (mk_unit e refs) ;;
       fun s' => (Ok x, set_lazy i (mkLazy (lz_def l) (lz_names l) (Some x)) s')) s
    end
  end.

(** d1.get(k) or d2.get(k) *)
Definition get_or (k : str) (d1 d2 : dict entry) : option entry :=
  match dget k d1 with Some e => Some e | None => dget k d2 end.

(** _unit_by_name / _unit_by_symbol, _unit_system.py:201-213: a lazy unit is resolved and
    registered in place of its lazy object *)
Definition force_entry (o : option entry) : M (option unit) :=
  match o with
  | None => ret None
  | Some (EUnit x _) => ret (Some x)
  | Some (ELazy i) =>
    fun s =>
      match nth_error (s_lazies s) i with
      | None => (Err EOutOfModel, s)
      | Some l =>
        (dom x <- resolve i ;;
         fun s' => (Ok (Some x), register (EUnit x (lz_names l)) (lz_names l) s')) s
      end
  end.

(** _unit_by_name, _unit_system.py:201-206 *)
Definition unit_by_name (k : str) : M (option unit) :=
  fun s => force_entry (get_or k (s_names s) (s_alias_names s)) s.
(** _unit_by_symbol, _unit_system.py:208-213 *)
Definition unit_by_symbol (k : str) : M (option unit) :=
  fun s => force_entry (get_or k (s_symbols s) (s_alias_symbols s)) s.

(** self._unit_by_name(k) or self._unit_by_symbol(k) *)
Definition unit_by_either (k : str) : M (option unit) :=
  dom o <- unit_by_name k ;;
  match o with Some x => ret (Some x) | None => unit_by_symbol k end.

(** The Unit built for prefix p + k, _unit_system.py:235-249.  The refs are a dict display
    {Identifier(p): prefix, Identifier(k): unit}: when p = k the second overwrites. *)
Definition prefixed_unit (key : str) (p : prefix) (k : str) (x : unit) : res unit :=
  mk_unit (Multiply (Identifier key) (Identifier k))
          (dset k (RUnit x) [(key, RPrefix (pf_value p))]).

(** the loops _unit_system.py:228-250 and 252-274 *)
Fixpoint try_prefixes (ps : dict prefix) (q : str) : M (option unit) :=
  match ps with
  | [] => ret None
  | (key, p) :: ps' =>
    match strip_prefix key q with
    | None => try_prefixes ps' q
    | Some k =>
      dom o <- unit_by_either k ;;
      match o with
      | Some x => dom y <- lift (prefixed_unit key p k x) ;; ret (Some y)
      | None => try_prefixes ps' q
      end
    end
  end.

(** unit_by_name_or_symbol, _unit_system.py:215-281 *)
Definition lookup_body (q : str) : M unit :=
  dom o <- unit_by_either q ;;
  match o with
  | Some x => ret x
  | None =>
    dom o1 <- (fun s => try_prefixes (s_prefix_names s) q s) ;;
    match o1 with
    | Some x => ret x
    | None =>
      dom o2 <- (fun s => try_prefixes (s_prefix_symbols s) q s) ;;
      match o2 with
      | Some x => ret x
      | None => raise (EUnresolvable q)
      end
    end
  end.

End Lookup.

(** unit_by_name_or_symbol with a stack of [fuel] nested look-ups *)
Fixpoint lookup (ord : list str -> list str) (fuel : nat) (q : str) : M unit :=
  match fuel with
  | O => raise ERecursion
  | S f => lookup_body ord (lookup ord f) q
  end.

(** UnitSystem.unit, _unit_system.py:283-292 *)
Definition sys_unit (ord : list str -> list str) (fuel : nat) (text : str) : M anyunit :=
  dom e <- lift (parse text) ;;
  dom refs <- resolve_refs ord (lookup ord fuel) (identifiers e) ;;
  lift (unit_from_expression e refs).

(** basis_of and conversion_expr, _unit_system.py:167-196: they import modules that do not
    exist (._dimensionality, ._unit_resolver). *)
Definition basis_of (n : node) : M (dict Z) := raise EModuleNotFound.
Definition conversion_expr (a b : node) : M node := raise EModuleNotFound.
