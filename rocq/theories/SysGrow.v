(** * Units registered by some threads while others look units up:
    pyudunits2/_unit_system.py:122-155 beside 201-292

    As in SysShared.v each access to a dictionary or an attribute is one step; here threads
    may also call add_unit(unit), replace being False.  The LazilyDefinedUnit objects they
    register exist from the start (creating one touches nothing shared).  add_prefix beside
    look-ups is in SysPrefix.v. *)
From Verif Require Import PyBase PyNum LexSpec Graph Visitor Expr Units UnitSystem SystemSpec Process SysShared.
From Verif Require PShared.

(** if not replace and k in d: raise ValueError, _unit_system.py:125-139; the dictionaries
    hold no None, so [k in d] is [d.get(k) is not None] *)
Fixpoint t_checks (t : table) (v : value_error) (ks : list str) : prog Datatypes.unit :=
  match ks with
  | [] => Done (Ok tt)
  | k :: ks' => Act (Get t k) (fun o => match o with Some _ => Done (Err (EValue v)) | None => t_checks t v ks' end)
  end.

(** add_unit(unit), _unit_system.py:122-155 *)
Definition t_add (e : entry) (r : reference) : prog Datatypes.unit :=
  run _ <- t_checks Names VE_dup_name (ref_names r) ;
  run _ <- t_checks Symbols VE_dup_symbol (r_symbols r) ;
  t_register e r.

(** A thread inside add_unit *)
Record registrar := mkReg { rg_entry : entry; rg_names : reference; rg_rest : prog Datatypes.unit }.

(** The program.  With each look-up the system as it was when the call was made is written
    down; nothing reads it. *)
Record gworld := mkG {
  g_memory : memory;
  g_threads : list (system * thread);
  g_adds : list registrar;
  g_parses : list job }.

(** [units]: the units that are registered at some time *)
Inductive g_step (ord : list str -> list str) (units : list (entry * reference)) : gworld -> gworld -> Prop :=
| G_thread m ts rs js i b t m' t' :
    nth_error ts i = Some (b, t) -> thread_step m t m' t' ->
    g_step ord units (mkG m ts rs js) (mkG m' (PShared.set_nth ts i (b, t')) rs js)
| G_start m ts rs js r :
    is_str r -> g_step ord units (mkG m ts rs js) (mkG m (ts ++ [(fst m, new_thread ord r)]) rs js)
| G_add s c ts rs js i e r p p' s' :
    nth_error rs i = Some (mkReg e r p) -> next p s = Some (p', s') ->
    g_step ord units (mkG (s, c) ts rs js) (mkG (s', c) ts (PShared.set_nth rs i (mkReg e r p')) js)
| G_register m ts rs js e r :
    In (e, r) units -> g_step ord units (mkG m ts rs js) (mkG m ts (rs ++ [mkReg e r (t_add e r)]) js)
| G_elsewhere s c ts rs js c' js' :
    process_step (c, js) (c', js') ->
    g_step ord units (mkG (s, c) ts rs js) (mkG (s, c') ts rs js').

(** any number of steps *)
Inductive g_steps (ord : list str -> list str) (units : list (entry * reference)) : gworld -> gworld -> Prop :=
| Gs_refl w : g_steps ord units w w
| Gs_step w1 w2 w3 : g_step ord units w1 w2 -> g_steps ord units w2 w3 -> g_steps ord units w1 w3.

(** the beginning: one system, no threads *)
Definition g_begin (s : system) : gworld := mkG (s, empty_caches) [] [] [].

(** ** Specification *)
(** the words of a unit in one of the dictionaries, and all of them *)
Definition words_in (t : table) (r : reference) : list str :=
  match t with
  | Symbols => r_symbols r
  | Names => ref_names r
  | AliasNames => ref_alias_names r
  | AliasSymbols => r_alias_symbols r
  end.
(** a name, plural, symbol or alias of a unit *)
Definition a_word (k : str) (r : reference) : Prop := exists t, In k (words_in t r).

(** the system once everything has been registered *)
Definition everything (units : list (entry * reference)) (s : system) : system :=
  fold_left (fun s er => register (fst er) (snd er) s) units s.

(** the words by which [q] might be read: [q] itself, or what is left of it behind a prefix *)
Definition rests (q : str) (ps : dict prefix) : list str :=
  flat_map (fun kp : str * prefix => match strip_prefix (fst kp) q with Some k => [k] | None => [] end) ps.
Definition ways (s : system) (q : str) : list str := q :: rests q (s_prefix_names s) ++ rests q (s_prefix_symbols s).

(** [only k l]: [k] is there, once, and nothing else of [l] satisfies [P] *)
Definition only (P : str -> Prop) (k : str) (l : list str) : Prop :=
  exists before after, l = before ++ k :: after /\ forall k', In k' (before ++ after) -> ~ P k'.

(** The units have new words, each of one unit, and a text that can be read with a new word
    can be read in no other way. *)
Definition new_words (units : list (entry * reference)) (s : system) : Prop :=
  (forall e r k, In (e, r) units -> a_word k r -> unknown s k) /\
  (forall e r e' r' k, In (e, r) units -> In (e', r') units -> a_word k r -> a_word k r' -> e = e') /\
  (forall e r k q, In (e, r) units -> a_word k r -> In k (ways s q) ->
     only (fun k' => ~ unknown (everything units s) k') k (ways s q)).

(** [k] is needed for [q]: it is [q], or a word in the definition of [q], or in the definition of ... *)
Definition needed (s : system) (q k : str) : Prop := q = k \/ depends s q k.

(** ... for a request *)
Definition needed_for (s : system) (r : request) (k : str) : Prop :=
  match r with
  | Lookup _ q => needed s q k
  | UnitOf _ text => exists g id, parse text = Ok g /\ In id (identifiers g) /\ needed s id k
  end.
