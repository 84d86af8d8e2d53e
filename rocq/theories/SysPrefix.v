(** * Prefixes registered by some threads while others look units up:
    pyudunits2/_unit_system.py:117-120 beside 122-155 and 201-292 *)
From Verif Require Import PyBase PyNum LexSpec Graph Visitor Expr Units UnitSystem SystemSpec Process SysShared SysGrow.
From Verif Require PShared.

(** t[k] = p, _unit_system.py:118 and 120: one access *)
Definition put_prefix (x : ptable * str * prefix) (s : system) : system :=
  let '(t, k, p) := x in
  match t with
  | PNames => mkSys (s_symbols s) (s_names s) (s_alias_names s) (s_alias_symbols s) (dset k p (s_prefix_names s)) (s_prefix_symbols s) (s_lazies s)
  | PSymbols => mkSys (s_symbols s) (s_names s) (s_alias_names s) (s_alias_symbols s) (s_prefix_names s) (dset k p (s_prefix_symbols s)) (s_lazies s)
  end.

(** the accesses of add_prefix(p), in order, _unit_system.py:117-120 *)
Definition puts_of (p : prefix) : list (ptable * str * prefix) :=
  (PNames, pf_name p, p) :: map (fun sym => (PSymbols, sym, p)) (pf_symbols p).

(** The program: look-ups and registrations as in SysGrow.v, and the threads inside
    add_prefix, each with the accesses it still has to make; when none is left it has returned *)
Definition qworld := (gworld * list (prefix * list (ptable * str * prefix)))%type.

(** [units], [new]: the units and the prefixes that are registered at some time *)
Inductive q_step (ord : list str -> list str) (units : list (entry * reference)) (new : list prefix) : qworld -> qworld -> Prop :=
| Q_other w ps w' : g_step ord units w w' -> q_step ord units new (w, ps) (w', ps)
| Q_prefix w ps p : In p new -> q_step ord units new (w, ps) (w, ps ++ [(p, puts_of p)])
| Q_put s c ts rs js ps i p x rest :
    nth_error ps i = Some (p, x :: rest) ->
    q_step ord units new (mkG (s, c) ts rs js, ps) (mkG (put_prefix x s, c) ts rs js, PShared.set_nth ps i (p, rest)).

(** any number of steps *)
Inductive q_steps (ord : list str -> list str) (units : list (entry * reference)) (new : list prefix) : qworld -> qworld -> Prop :=
| Qs_refl w : q_steps ord units new w w
| Qs_step w1 w2 w3 : q_step ord units new w1 w2 -> q_steps ord units new w2 w3 -> q_steps ord units new w1 w3.

(** the beginning: one system, no threads *)
Definition q_begin (s : system) : qworld := (g_begin s, []).

(** ** Specification *)
(** the system once everything has been registered *)
Definition with_prefixes (new : list prefix) (s : system) : system := fold_left (fun s p => add_prefix p s) new s.
Definition everything_and_prefixes (units : list (entry * reference)) (new : list prefix) (s : system) : system :=
  with_prefixes new (everything units s).

(** [k] is the name, or a symbol, of the prefix [p] *)
Definition a_key (t : ptable) (k : str) (p : prefix) : Prop :=
  match t with PNames => k = pf_name p | PSymbols => In k (pf_symbols p) end.

(** The units have new words, each of one unit, the prefixes have new names and symbols,
    each of one prefix, and a text that can be read with a new word or a new prefix can in
    the end be read in no other way. *)
Definition new_words_and_prefixes (units : list (entry * reference)) (new : list prefix) (s : system) : Prop :=
  let all := everything_and_prefixes units new s in
  (forall e r k, In (e, r) units -> a_word k r -> unknown s k) /\
  (forall e r e' r' k, In (e, r) units -> In (e', r') units -> a_word k r -> a_word k r' -> e = e') /\
  (forall p t k, In p new -> a_key t k p -> ~ In k (map fst (prefixes t s))) /\
  (forall p p' t k, In p new -> In p' new -> a_key t k p -> a_key t k p' -> p = p') /\
  (forall e r k q, In (e, r) units -> a_word k r -> In k (ways all q) -> only (fun k' => ~ unknown all k') k (ways all q)) /\
  (forall p t key k q, In p new -> a_key t key p -> q = key ++ k -> ~ unknown all k -> only (fun k' => ~ unknown all k') k (ways all q)).
