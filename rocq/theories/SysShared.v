(** * One UnitSystem used from many threads: pyudunits2/_unit_system.py:43-62,141-155,201-292

    UnitSystem.v runs each look-up in one go.  Here a look-up is a program that accesses the
    objects of the system one dictionary operation or one attribute at a time; the accesses
    of any number of look-ups, and of the calls of parse() they make (Process.v), are
    interleaved arbitrarily.  Each access is atomic, as under CPython's GIL (the keys are
    str, so that no Python code runs inside a dictionary operation).

    add_unit and add_prefix called by users while look-ups run are in SysGrow.v and SysPrefix.v. *)
From Verif Require Import PyBase PyNum LexSpec Graph Visitor Expr Units UnitSystem Process.
From Verif Require PShared.

(** The four dictionaries of units, _unit_system.py:88-92 *)
Inductive table := Symbols | Names | AliasNames | AliasSymbols.

Definition content (t : table) (s : system) : dict entry :=
  match t with
  | Symbols => s_symbols s
  | Names => s_names s
  | AliasNames => s_alias_names s
  | AliasSymbols => s_alias_symbols s
  end.

(** d[k] = e, _unit_system.py:141-155 *)
Definition put (t : table) (k : str) (e : entry) (s : system) : system :=
  let set x d := match x, t with
                 | Symbols, Symbols | Names, Names | AliasNames, AliasNames
                 | AliasSymbols, AliasSymbols => dset k e d
                 | _, _ => d
                 end in
  mkSys (set Symbols (s_symbols s)) (set Names (s_names s)) (set AliasNames (s_alias_names s))
        (set AliasSymbols (s_alias_symbols s)) (s_prefix_names s) (s_prefix_symbols s) (s_lazies s).

(** Accesses.  [Object i] reads a LazilyDefinedUnit: _definition and _names never change,
    so this is a read of _resolved_unit.  A loop "for ... in d.items()" remembers len(d) and
    compares it with the present len(d) before it takes the next item; entries are never
    deleted, so that the next item is the next one in order of insertion. *)
Inductive ptable := PNames | PSymbols.     (* the dictionaries of prefixes, _unit_system.py:86-87 *)
Definition prefixes (t : ptable) (s : system) : dict prefix :=
  match t with PNames => s_prefix_names s | PSymbols => s_prefix_symbols s end.

Inductive access : Type -> Type :=
| Get (t : table) (k : str) : access (option entry)               (* t.get(k, None) *)
| Put (t : table) (k : str) (e : entry) : access Datatypes.unit   (* t[k] = e *)
| Object (i : nat) : access (option lazy)
| SetResolved (i : nat) (x : unit) : access Datatypes.unit        (* self._resolved_unit = x *)
| Items (t : ptable) : access nat                                  (* iter(t.items()) *)
| Item (t : ptable) (i : nat) : access (nat * option (str * prefix)). (* next(...): len(t), and the item *)

Definition set_resolved (i : nat) (x : unit) (s : system) : system :=
  match nth_error (s_lazies s) i with
  | Some l => set_lazy i (mkLazy (lz_def l) (lz_names l) (Some x)) s
  | None => s
  end.

(** one access to the dictionaries *)
Definition does {B} (a : access B) (s : system) : B * system :=
  match a with
  | Get t k => (dget k (content t s), s)
  | Put t k e => (tt, put t k e s)
  | Object i => (nth_error (s_lazies s) i, s)
  | SetResolved i x => (tt, set_resolved i x s)
  | Items t => (List.length (prefixes t s), s)
  | Item t i => ((List.length (prefixes t s), nth_error (prefixes t s) i), s)
  end.

(** Programs *)
Inductive prog (A : Type) : Type :=
| Done (r : res A)
| Act {B : Type} (a : access B) (k : B -> prog A)
| Read (text : str) (k : res node -> prog A).         (* parse(text) *)
Arguments Done {A} r.
Arguments Act {A B} a k.
Arguments Read {A} text k.

(** one program after the other *)
Fixpoint pbind {A B} (p : prog A) (f : A -> prog B) : prog B :=
  match p with
  | Done (Ok a) => f a
  | Done (Err e) => Done (Err e)
  | Act a k => Act a (fun b => pbind (k b) f)
  | Read t k => Read t (fun r => pbind (k r) f)
  end.
Notation "'run' x <- m ; k" := (pbind m (fun x => k))
  (at level 200, x pattern, m at level 100, k at level 200, right associativity).

(** a comprehension over a list: [f(x) for x in l] *)
Fixpoint pmap {A B} (f : A -> prog B) (l : list A) : prog (list B) :=
  match l with
  | [] => Done (Ok [])
  | x :: xs => run y <- f x ; run ys <- pmap f xs ; Done (Ok (y :: ys))
  end.

(** ** The code *)
Fixpoint t_puts (t : table) (ks : list str) (e : entry) : prog Datatypes.unit :=
  match ks with
  | [] => Done (Ok tt)
  | k :: ks' => Act (Put t k e) (fun _ => t_puts t ks' e)
  end.

(** add_unit(unit, replace=True), _unit_system.py:122-155: the tests are skipped *)
Definition t_register (e : entry) (r : reference) : prog Datatypes.unit :=
  run _ <- t_puts Names (ref_names r) e ;                     (* 141-144 *)
  run _ <- t_puts Symbols (r_symbols r) e ;                   (* 146-147 *)
  run _ <- t_puts AliasNames (ref_alias_names r) e ;          (* 149-152 *)
  t_puts AliasSymbols (r_alias_symbols r) e.                  (* 154-155 *)

(** return self._resolved_unit, _unit_system.py:62; None would be an error in the caller,
    outside the model *)
Definition t_resolved (i : nat) : prog unit :=
  Act (Object i) (fun o =>
    match o with
    | Some l => match lz_resolved l with Some x => Done (Ok x) | None => Done (Err EOutOfModel) end
    | None => Done (Err EOutOfModel)
    end).

Section Code.
Variable ord : list str -> list str.
Variable rec : str -> prog unit.

(** the dict comprehensions _unit_system.py:51-54 and 288-291 *)
Definition t_refs (ids : list str) : prog (list (str * uref)) :=
  pmap (fun k => run x <- rec k ; Done (Ok (k, RUnit x))) (ord ids).

(** LazilyDefinedUnit.resolve, _unit_system.py:43-62 *)
Definition t_resolve (i : nat) : prog unit :=
  Act (Object i) (fun o =>
    match o with
    | None => Done (Err EOutOfModel)
    | Some l =>
      match lz_resolved l with
      | Some _ => t_resolved i
      | None =>
        Read (lz_def l) (fun r =>
          run e <- Done r ;
          run refs <- t_refs (identifiers e) ;
          run x <- Done (mk_unit e refs) ;
          Act (SetResolved i x) (fun _ => t_resolved i))
      end
    end).

(** isinstance(unit, LazilyDefinedUnit) ..., _unit_system.py:203-206 and 210-213 *)
Definition t_force (o : option entry) : prog (option unit) :=
  match o with
  | None => Done (Ok None)
  | Some (EUnit x _) => Done (Ok (Some x))
  | Some (ELazy i) =>
    Act (Object i) (fun o =>
      match o with
      | None => Done (Err EOutOfModel)
      | Some l =>
        run x <- t_resolve i ;
        run _ <- t_register (EUnit x (lz_names l)) (lz_names l) ;
        Done (Ok (Some x))
      end)
  end.

(** t1.get(k, None) or t2.get(k, None), _unit_system.py:202 and 209 *)
Definition t_get_or (t1 t2 : table) (k : str) : prog (option entry) :=
  Act (Get t1 k) (fun o =>
    match o with
    | Some e => Done (Ok (Some e))
    | None => Act (Get t2 k) (fun o => Done (Ok o))
    end).

(** self._unit_by_name(k) or self._unit_by_symbol(k), _unit_system.py:201-213 *)
Definition t_either (k : str) : prog (option unit) :=
  run e <- t_get_or Names AliasNames k ;
  run o <- t_force e ;
  match o with
  | Some x => Done (Ok (Some x))
  | None => run e <- t_get_or Symbols AliasSymbols k ; t_force e
  end.

(** the loops _unit_system.py:228-250 and 252-274; [n]: the length when the loop began, [i]:
    how many items have been taken, [left] = n - i *)
Fixpoint t_try (left : nat) (t : ptable) (n i : nat) (q : str) : prog (option unit) :=
  Act (Item t i) (fun '(len, item) =>
    if Nat.eqb len n then
      match item, left with
      | None, _ => Done (Ok None)
      | Some _, O => Done (Err EOutOfModel)          (* impossible: i < n *)
      | Some (key, p), S left' =>
        match strip_prefix key q with
        | None => t_try left' t n (S i) q
        | Some k =>
          run o <- t_either k ;
          match o with
          | Some x => run y <- Done (prefixed_unit key p k x) ; Done (Ok (Some y))
          | None => t_try left' t n (S i) q
          end
        end
      end
    else Done (Err ERuntime)).
(** the loops over the prefixes, _unit_system.py:229-250 and 253-274 *)
Definition t_loop (t : ptable) (q : str) : prog (option unit) :=
  Act (Items t) (fun n => t_try n t n 0 q).

(** unit_by_name_or_symbol, _unit_system.py:215-281 *)
Definition t_body (q : str) : prog unit :=
  run o <- t_either q ;
  match o with
  | Some x => Done (Ok x)
  | None =>
    run o1 <- t_loop PNames q ;
    match o1 with
    | Some x => Done (Ok x)
    | None =>
      run o2 <- t_loop PSymbols q ;
      match o2 with
      | Some x => Done (Ok x)
      | None => Done (Err (EUnresolvable q))
      end
    end
  end.
End Code.

(** with a stack of [fuel] nested look-ups *)
Fixpoint t_lookup (ord : list str -> list str) (fuel : nat) (q : str) : prog unit :=
  match fuel with
  | O => Done (Err ERecursion)
  | S f => t_body ord (t_lookup ord f) q
  end.

(** UnitSystem.unit, _unit_system.py:283-292 *)
Definition t_unit (ord : list str -> list str) (fuel : nat) (text : str) : prog anyunit :=
  Read text (fun r =>
    run e <- Done r ;
    run refs <- t_refs ord (t_lookup ord fuel) (identifiers e) ;
    Done (unit_from_expression e refs)).

(** A program alone *)
Fixpoint alone {A} (p : prog A) (s : system) : res A * system :=
  match p with
  | Done r => (r, s)
  | Act a k => let (b, s') := does a s in alone (k b) s'
  | Read t k => alone (k (parse t)) s
  end.

(** ** Threads *)
Inductive request :=
| Lookup (stack : nat) (q : str)         (* unit_by_name_or_symbol(q) *)
| UnitOf (stack : nat) (text : str).     (* unit(text) *)

(** the text is a str: code points are at most 0x10FFFF *)
Definition is_str (r : request) : Prop :=
  match r with Lookup _ q => is_text q | UnitOf _ t => is_text t end.

Definition code_of (ord : list str -> list str) (r : request) : prog anyunit :=
  match r with
  | Lookup f q => run x <- t_lookup ord f q ; Done (Ok (AUnit x))
  | UnitOf f t => t_unit ord f t
  end.

(** A thread: what was asked, and what it still has to do; inside parse(), the job it is
    waiting for. *)
Inductive state :=
| Running (p : prog anyunit)
| Parsing (j : job) (k : res node -> prog anyunit).

(** a thread: what was asked and how far it is *)
Record thread := mkThread { t_asked : request; t_state : state }.

(** a call before its first step *)
Definition new_thread (ord : list str -> list str) (r : request) : thread :=
  mkThread r (Running (code_of ord r)).

(** What threads share: the system and the two caches of parse() *)
Definition memory := (system * caches)%type.

(** one access of a program *)
Definition next {A} (p : prog A) (s : system) : option (prog A * system) :=
  match p with
  | Act a k => let (b, s') := does a s in Some (k b, s')
  | _ => None
  end.

(** one step of one thread: one access to a dictionary or to a cache of parse *)
Inductive thread_step : memory -> thread -> memory -> thread -> Prop :=
| T_access s c r p p' s' :
    next p s = Some (p', s') ->
    thread_step (s, c) (mkThread r (Running p)) (s', c) (mkThread r (Running p'))
| T_call m r t k :
    thread_step m (mkThread r (Running (Read t k))) m (mkThread r (Parsing (new_call t) k))
| T_parse s c r j k c' j' :
    call_step c j c' j' ->
    thread_step (s, c) (mkThread r (Parsing j k)) (s, c') (mkThread r (Parsing j' k))
| T_return m r t x k :
    thread_step m (mkThread r (Parsing (mkCall t (Ended x)) k)) m (mkThread r (Running (k x))).

(** The program: the threads using this system, and the calls of parse() made elsewhere *)
Record world := mkWorld { w_memory : memory; w_threads : list thread; w_parses : list job }.

Inductive world_step (ord : list str -> list str) : world -> world -> Prop :=
| W_thread m ts js i t m' t' :
    nth_error ts i = Some t -> thread_step m t m' t' ->
    world_step ord (mkWorld m ts js) (mkWorld m' (PShared.set_nth ts i t') js)
| W_start m ts js r :
    is_str r -> world_step ord (mkWorld m ts js) (mkWorld m (ts ++ [new_thread ord r]) js)
| W_elsewhere s c ts js c' js' :
    process_step (c, js) (c', js') ->
    world_step ord (mkWorld (s, c) ts js) (mkWorld (s, c') ts js').

(** any number of steps *)
Inductive world_steps (ord : list str -> list str) : world -> world -> Prop :=
| Ws_refl w : world_steps ord w w
| Ws_step w1 w2 w3 : world_step ord w1 w2 -> world_steps ord w2 w3 -> world_steps ord w1 w3.

(** A program that has just built the system [s] *)
Definition start (s : system) : world := mkWorld (s, empty_caches) [] [].
