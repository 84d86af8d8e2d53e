(** * Many lexers sharing one cache

    udunits2Lexer.decisionsToDFA (parser/udunits2Lexer.py:5533) is a class attribute: every
    lexer of the process, in every thread, reads and extends the same tables.  Here the
    simulator of Atn.v is run with that cache, one shared-memory access at a time, and any
    number of lexers are interleaved.

    Modelled as single steps: reading dfa.s0; looking a configuration set up in dfa.states;
    inserting a new DFAState; writing dfa.s0; reading s.edges[t]; testing s.edges for None;
    allocating s.edges; storing s.edges[t].  Everything between two such accesses works on
    data that is never changed after it was published (configuration sets) or local. *)
From Verif Require Import PyBase Atn.
Local Open Scope Z_scope.

(** A DFAState (dfa/DFAState.py:49-89): its configurations, which never change, and its
    edges (None, or what is stored per symbol).  isAcceptState, prediction and
    lexerActionExecutor are functions of the configurations ([accepted]). *)
Inductive edge := EError | ETo (id : nat).
Record dfa_state := mkDfa { d_configs : list config; d_edges : option (list (Z * edge)) }.

(** The memory: DFAState objects by address, dfa.s0 and dfa.states of each mode. *)
Record shared := mkShared {
  h_objs : list dfa_state;
  h_s0 : list (Z * nat);
  h_states : list (Z * nat) }.

(** the cache before any text is read: [DFA(ds, i) for i, ds in enumerate(atn.decisionToState)], parser/udunits2Lexer.py *)
Definition empty_shared : shared := mkShared [] [] [].

(** reading a dict or an array of edges *)
Fixpoint lookup {A} (k : Z) (l : list (Z * A)) : option A :=
  match l with [] => None | (k', v) :: l' => if k =? k' then Some v else lookup k l' end.

(** DFAState.configs of the object at an address (dfa/DFAState.py:38-66) *)
Definition obj_configs (h : shared) (id : nat) : list config :=
  match nth_error (h_objs h) id with Some d => d_configs d | None => [] end.
(** DFAState.edges of the object at an address *)
Definition obj_edges (h : shared) (id : nat) : option (list (Z * edge)) :=
  match nth_error (h_objs h) id with Some d => d_edges d | None => None end.

(** dfa.states.get(proposed): equality of DFAStates is equality of configurations
    (dfa/DFAState.py:112-119); the last value written under equal keys is returned. *)
Fixpoint find_state (h : shared) (mode : Z) (cs : list config) (l : list (Z * nat))
  : option nat :=
  match l with
  | [] => None
  | (m, id) :: l' =>
    if (m =? mode) && list_eqb config_eqb cs (obj_configs h id) then Some id
    else find_state h mode cs l'
  end.

(** getExistingTargetState, 232-245: only symbols 0 to 127 have edges. *)
Definition cached_edge (h : shared) (id : nat) (x : Z) : option edge :=
  if (0 <=? x) && (x <=? 127)
  then match obj_edges h id with Some es => lookup x es | None => None end
  else None.

(** assignment to an element of a list *)
Fixpoint set_nth {A} (l : list A) (i : nat) (x : A) : list A :=
  match l, i with
  | [], _ => []
  | _ :: l', O => x :: l'
  | y :: l', S i' => y :: set_nth l' i' x
  end.

(** DFAState.edges = ... (LexerATNSimulator.py:658-660) *)
Definition set_edges (h : shared) (id : nat) (es : option (list (Z * edge))) : shared :=
  mkShared (set_nth (h_objs h) id (mkDfa (obj_configs h id) es)) (h_s0 h) (h_states h).

(** Where a lexer is; the current token's text starts at [t_text]. *)
Inductive cont :=
| KStart                                                   (* matchATN, 149 *)
| KEdge (id n : nat) (prev : option (nat * Z * list action)) (x : Z).  (* addDFAEdge *)

Inductive pc :=
| PMatch                                                   (* match, 124-127: reads dfa.s0 *)
| PLookup (cs : list config) (k : cont)                    (* addDFAState, 685 *)
| PInsert (cs : list config) (k : cont)                    (* addDFAState, 689-694 *)
| PSetS0 (id : nat)                                        (* matchATN, 151 *)
| PLoop (id n : nat) (prev : option (nat * Z * list action))       (* execATN, 196 *)
| PEdge (id n : nat) (prev : option (nat * Z * list action)) (x : Z) (e : edge)
                                                           (* addDFAEdge, 656: edges is None? *)
| PAlloc (id n : nat) (prev : option (nat * Z * list action)) (x : Z) (e : edge)
                                                           (* addDFAEdge, 658 *)
| PStore (id n : nat) (prev : option (nat * Z * list action)) (x : Z) (e : edge)
                                                           (* addDFAEdge, 660 *)
| PDone
| PFail.

(** [t_src]: InputStream.strdata, the whole text, never changed; [t_out]: the tokens
    emitted so far. *)
Record lexer := mkLexer {
  t_src : str; t_mode : Z; t_stack : list Z; t_text : str; t_out : list (Z * str); t_pc : pc }.

(** the same lexer at another place of its program *)
Definition at_pc (t : lexer) (p : pc) : lexer :=
  mkLexer (t_src t) (t_mode t) (t_stack t) (t_text t) (t_out t) p.

(** A new lexer over a text (an empty text gives EOF at once, failOrAccept, 295-297). *)
Definition new_lexer (s : str) : lexer :=
  mkLexer s 0 [] s [] (match s with [] => PDone | _ => PMatch end).

Section Shared.
  Variable A : atn.

  (** failOrAccept (276-298), accept (348-366) and the rest of nextToken (Lexer.py:147-168),
      as in [next_token]. *)
  Definition finish (t : lexer) (prev : option (nat * Z * list action)) : lexer :=
    match prev with
    | Some (S n, k, acts) =>
      match run_actions (mkRegs 0 (t_mode t) (t_stack t)) acts with
      | Some r =>
        let ty := if r_type r =? 0 then k else r_type r in
        if (ty =? -3) || (ty =? -2) then at_pc t PFail
        else
          let rest := skipn (S n) (t_text t) in
          mkLexer (t_src t) (r_mode r) (r_stack r) rest
                  (t_out t ++ [(ty, firstn (S n) (t_text t))])
                  (match rest with [] => PDone | _ => PMatch end)
      | None => at_pc t PFail
      end
    | _ => at_pc t PFail
    end.

  (** The rest of one round of execATN's loop, once the target is known (201-219). *)
  Definition advance (h : shared) (t : lexer) (n : nat)
      (prev : option (nat * Z * list action)) (e : edge) : lexer :=
    match e with
    | EError => finish t prev
    | ETo id => at_pc t (PLoop id (S n) (update A (S n) (obj_configs h id) prev))
    end.

  (** addDFAState returns to matchATN (149) or addDFAEdge (643). *)
  Definition resume (t : lexer) (id : nat) (k : cont) : lexer :=
    match k with
    | KStart => at_pc t (PSetS0 id)
    | KEdge from n prev x => at_pc t (PEdge from n prev x (ETo id))
    end.

  (** One step of one lexer; [None]: it has ended. *)
  Definition lexer_step (h : shared) (t : lexer) : option (shared * lexer) :=
    match t_pc t with
    | PDone | PFail => None
    | PMatch =>
      match lookup (t_mode t) (h_s0 h) with
      | Some id => Some (h, at_pc t (PLoop id 0 (update A 0 (obj_configs h id) None)))
      | None =>
        match start_configs A (t_mode t) with
        | Some cs => Some (h, at_pc t (PLookup cs KStart))
        | None => Some (h, at_pc t PFail)
        end
      end
    | PLookup cs k =>
      match find_state h (t_mode t) cs (h_states h) with
      | Some id => Some (h, resume t id k)
      | None => Some (h, at_pc t (PInsert cs k))
      end
    | PInsert cs k =>
      let id := List.length (h_objs h) in
      Some (mkShared (h_objs h ++ [mkDfa cs None]) (h_s0 h) ((t_mode t, id) :: h_states h),
            resume t id k)
    | PSetS0 id =>
      Some (mkShared (h_objs h) ((t_mode t, id) :: h_s0 h) (h_states h),
            at_pc t (PLoop id 0 (update A 0 (obj_configs h id) None)))
    | PLoop id n prev =>
      match skipn n (t_text t) with
      | [] => Some (h, finish t prev)
      | c :: _ =>
        let x := Z.of_N c in
        match cached_edge h id x with
        | Some e => Some (h, advance h t n prev e)
        | None =>
          match target A (obj_configs h id) x with
          | None => Some (h, at_pc t PFail)
          | Some [] => Some (h, at_pc t (PEdge id n prev x EError))
          | Some cs => Some (h, at_pc t (PLookup cs (KEdge id n prev x)))
          end
        end
      end
    | PEdge id n prev x e =>
      if (0 <=? x) && (x <=? 127) then
        match obj_edges h id with
        | None => Some (h, at_pc t (PAlloc id n prev x e))
        | Some _ => Some (h, at_pc t (PStore id n prev x e))
        end
      else Some (h, advance h t n prev e)
    | PAlloc id n prev x e =>
      Some (set_edges h id (Some []), at_pc t (PStore id n prev x e))
    | PStore id n prev x e =>
      let es := match obj_edges h id with Some es => es | None => [] end in
      let h' := set_edges h id (Some ((x, e) :: es)) in
      Some (h', advance h' t n prev e)
    end.

  (** A process: the shared memory and its lexers, one of which steps at a time; new lexers
      may be created at any moment. *)
  Definition world := (shared * list lexer)%type.

  Inductive world_step : world -> world -> Prop :=
  | W_step h ts i t h' t' :
      nth_error ts i = Some t -> lexer_step h t = Some (h', t') ->
      world_step (h, ts) (h', set_nth ts i t')
  | W_new h ts s : world_step (h, ts) (h, ts ++ [new_lexer s]).

  Inductive world_steps : world -> world -> Prop :=
  | Ws_refl w : world_steps w w
  | Ws_step w1 w2 w3 : world_step w1 w2 -> world_steps w2 w3 -> world_steps w1 w3.
End Shared.
