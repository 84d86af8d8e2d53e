(** * Python values shared by the whole model: exceptions, strings, dictionaries.

    Exceptions are values: a Python call that may raise is a function into [res]. *)
From Coq Require Export List NArith ZArith Bool Ascii String Lia.
Export ListNotations.
Open Scope list_scope.

(** The exceptions that the modelled code can raise.  [ValueError] carries which of
    the code's [raise ValueError(...)] statements it is; the text of messages is not
    modelled.  [OutOfModel] is not a Python exception: it marks inputs on which the
    model makes no claim (each use says which). *)
Inductive value_error :=
| VE_int_digits          (* int(c): more than 4300 digits (CPython) *)
| VE_two_transforms      (* _expr/split.py:63,77 *)
| VE_nested_date         (* _expr/normaliser.py:107 *)
| VE_shift_not_number    (* _expr/normaliser.py:112 *)
| VE_bad_date            (* _unit.py:317 *)
| VE_dup_name            (* _unit_system.py:126,131 *)
| VE_dup_symbol          (* _unit_system.py:137 *)
| VE_xml_missing         (* _udunits2_xml_parser.py: missing singular / name / value *)
| VE_xml_unhandled       (* _udunits2_xml_parser.py:251 strict reader *)
| VE_unhandled_token     (* _grammar/__init__.py:104 *)
| VE_expander_chain.     (* _expr/expander.py:233 *)

Inductive exn :=
| ESyntax
| EValue (v : value_error)
| EKey
| EType
| EAttribute
| EAssertion
| ENotImplemented
| EUnresolvable (name : list N)   (* UnresolvableUnitException, _exceptions.py *)
| EIncompatible                   (* IncompatibleUnitsError, _exceptions.py *)
| ERecursion
| EName
| EInvalidOperation               (* decimal.InvalidOperation *)
| EModuleNotFound
| ESystemExit (code : Z)
| ERuntime                        (* RuntimeError: dictionary changed size during iteration *)
| EOutOfModel.

Inductive res (A : Type) :=
| Ok (a : A)
| Err (e : exn).
Arguments Ok {A} a.
Arguments Err {A} e.

(** an exception ends the computation *)
Definition bind {A B} (r : res A) (f : A -> res B) : res B :=
  match r with Ok a => f a | Err e => Err e end.
Notation "'do' x <- r ;; k" := (bind r (fun x => k))
  (at level 200, x pattern, r at level 100, k at level 200, right associativity).

(** no exception *)
Definition is_ok {A} (r : res A) : bool :=
  match r with Ok _ => true | Err _ => false end.

(** [[f(x) for x in l]] where [f] may raise: the first exception wins. *)
Fixpoint mapM {A B} (f : A -> res B) (l : list A) : res (list B) :=
  match l with
  | [] => Ok []
  | x :: xs => do y <- f x ;; do ys <- mapM f xs ;; Ok (y :: ys)
  end.

(** ** Strings: a Python [str] is its list of code points. *)
Definition str := list N.

Fixpoint str_eqb (a b : str) : bool :=
  match a, b with
  | [], [] => true
  | x :: a', y :: b' => N.eqb x y && str_eqb a' b'
  | _, _ => false
  end.

(** UTF-8 decoding of a Coq string literal, so that statements can be read:
    [u "m²"] is the list of code points of that text. (Well-formed input only.) *)
Fixpoint bytes_of (s : string) : list N :=
  match s with
  | EmptyString => []
  | String c s' => N_of_ascii c :: bytes_of s'
  end.

(** helper for statements: code points of UTF-8 bytes *)
Fixpoint utf8 (l : list N) : str :=
  match l with
  | [] => []
  | b0 :: t0 =>
    if N.ltb b0 128 then b0 :: utf8 t0
    else match t0 with
         | [] => []
         | b1 :: t1 =>
           if N.ltb b0 224 then ((b0 - 192) * 64 + (b1 - 128))%N :: utf8 t1
           else match t1 with
                | [] => []
                | b2 :: t2 =>
                  if N.ltb b0 240 then
                    ((b0 - 224) * 4096 + (b1 - 128) * 64 + (b2 - 128))%N :: utf8 t2
                  else match t2 with
                       | [] => []
                       | b3 :: t3 =>
                         ((b0 - 240) * 262144 + (b1 - 128) * 4096
                          + (b2 - 128) * 64 + (b3 - 128))%N :: utf8 t3
                       end
                end
         end
  end.

(** helper for statements: a Python str from a Coq string literal *)
Definition u (s : string) : str := utf8 (bytes_of s).

(** [s.startswith(p)] and [s[len(p):]] in one: the rest of [s] after the prefix [p]. *)
Fixpoint strip_prefix (p s : str) : option str :=
  match p with
  | [] => Some s
  | x :: p' => match s with
               | y :: s' => if N.eqb x y then strip_prefix p' s' else None
               | [] => None
               end
  end.

(** s.startswith(p) *)
Definition startswith (p s : str) : bool :=
  match strip_prefix p s with Some _ => true | None => false end.

(** [s.endswith(p)] *)
Definition endswith (p s : str) : bool := startswith (rev p) (rev s).

(** [c.isspace()] for one code point: CPython's table. *)
Definition is_space (c : N) : bool :=
  existsb (fun r => N.leb (fst r) c && N.leb c (snd r))
    [(9, 13); (28, 32); (133, 133); (160, 160); (5760, 5760); (8192, 8202);
     (8232, 8233); (8239, 8239); (8287, 8287); (12288, 12288)]%N.

(** s.lstrip() *)
Fixpoint lstrip (s : str) : str :=
  match s with
  | c :: s' => if is_space c then lstrip s' else s
  | [] => []
  end.

(** [s.strip()] *)
Definition strip (s : str) : str := rev (lstrip (rev (lstrip s))).

(** [s * n] for a string and an integer (empty for n <= 0). *)
Definition str_repeat (s : str) (n : Z) : str :=
  List.concat (List.repeat s (Z.to_nat n)).

(** ** Insertion-ordered dictionaries with string keys. *)
Definition dict (V : Type) := list (str * V).

Fixpoint dget {V} (k : str) (d : dict V) : option V :=
  match d with
  | [] => None
  | (k', v) :: d' => if str_eqb k k' then Some v else dget k d'
  end.

(** [d[k] = v]: keeps the position of an existing key, otherwise appends. *)
Fixpoint dset {V} (k : str) (v : V) (d : dict V) : dict V :=
  match d with
  | [] => [(k, v)]
  | (k', v') :: d' => if str_eqb k k' then (k', v) :: d' else (k', v') :: dset k v d'
  end.

(** k in d *)
Definition dmem {V} (k : str) (d : dict V) : bool :=
  match dget k d with Some _ => true | None => false end.

(** d.keys() *)
Definition dkeys {V} (d : dict V) : list str := map fst d.
