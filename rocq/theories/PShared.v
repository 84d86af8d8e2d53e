(** * Many parsers sharing one cache

    udunits2Parser.decisionsToDFA (parser/udunits2Parser.py) is a class attribute: every
    parser of the process, in every thread, reads and extends the same DFAs.  Here the
    prediction of PSim.v is run with that cache, one access to the shared memory at a time,
    and any number of parsers are interleaved.

    Accesses: reading and writing the start state of a DFA; looking a DFAState up in
    dfa.states; inserting a new one; reading what never changes in a DFAState once it is
    published (configs, isAcceptState, prediction, requiresFullContext); reading an edge;
    testing edges for None; allocating edges; storing an edge.

    Simplifications: the start states of a precedence DFA are kept in s0.edges[precedence];
    the precedence is always 0, so that is one slot too (extending that list does not change
    its slot 0).  The cache of PredictionContexts exchanges objects for equal ones. *)
From Verif Require Import PyBase Lexer Parser PAtn PSpec PSim PGen.
Local Open Scope Z_scope.

(** isAcceptState, prediction and requiresFullContext of a DFAState: go on; accept this
    alternative; predict again with the full context *)
Inductive verdict := VGo | VAlt (m : Z) | VFull.

(** computeTargetState, atn/ParserATNSimulator.py:576-624 *)
Definition verdict_of (cs : list pcfg) : verdict :=
  match unique_alt cs with
  | Some m => VAlt m
  | None => if sll_conflict cs then VFull else VGo
  end.

(** what s.edges[t + 1] can hold: the state ERROR, or a DFAState by its address *)
Inductive target := TError | TState (id : nat).

Record dstate := mkD {
  s_configs : list pcfg; s_verdict : verdict; s_edges : option (list (Z * target)) }.

(** The memory: DFAStates by address; the start state and the table [states] of each DFA. *)
Record memory := mkM {
  m_objs : list dstate; m_s0 : list (Z * nat); m_states : list (Z * nat) }.

Definition empty_memory : memory := mkM [] [] [].

(** reading a dict or an array of edges *)
Fixpoint find {A} (k : Z) (l : list (Z * A)) : option A :=
  match l with [] => None | (k', v) :: l' => if k =? k' then Some v else find k l' end.

(** ATNConfig.__eq__, ATNConfig.py:83-95 *)
Definition cfg_eqb (c d : pcfg) : bool :=
  same_node c d && zlist_eqb (pc_ctx c) (pc_ctx d).

(** == of the lists of configurations, ATNConfigSet.py:152-168 *)
Fixpoint cfgs_eqb (a b : list pcfg) : bool :=
  match a, b with
  | [], [] => true
  | x :: a', y :: b' => cfg_eqb x y && cfgs_eqb a' b'
  | _, _ => false
  end.

(** == of uniqueAlt and conflictingAlts, ATNConfigSet.py:152-168 *)
Definition verdict_eqb (a b : verdict) : bool :=
  match a, b with
  | VGo, VGo | VFull, VFull => true
  | VAlt m, VAlt n => m =? n
  | _, _ => false
  end.

(** dfa.states.get(D), 1975: equal configs, which include uniqueAlt and conflictingAlts
    (ATNConfigSet.__eq__, atn/ATNConfigSet.py:152-168) *)
Fixpoint find_state (h : memory) (d : Z) (cs : list pcfg) (v : verdict) (l : list (Z * nat))
  : option nat :=
  match l with
  | [] => None
  | (d', id) :: l' =>
    match nth_error (m_objs h) id with
    | Some o =>
      if (d =? d') && cfgs_eqb cs (s_configs o) && verdict_eqb v (s_verdict o) then Some id
      else find_state h d cs v l'
    | None => find_state h d cs v l'
    end
  end.

(** assignment to an element of a list *)
Fixpoint set_nth {A} (l : list A) (i : nat) (x : A) : list A :=
  match l, i with
  | [], _ => []
  | _ :: l', O => x :: l'
  | y :: l', S i' => y :: set_nth l' i' x
  end.

(** DFAState.edges[t + 1] = to, ParserATNSimulator.py:1946-1948 *)
Definition set_edges (h : memory) (id : nat) (es : list (Z * target)) : memory :=
  match nth_error (m_objs h) id with
  | Some o => mkM (set_nth (m_objs h) id (mkD (s_configs o) (s_verdict o) (Some es)))
                  (m_s0 h) (m_states h)
  | None => h
  end.

(** ** Single accesses, with the type of their answer *)
Inductive access : Type -> Type :=
| ReadStart (d : Z) : access (option nat)                 (* adaptivePredict, 350-356 *)
| WriteStart (d : Z) (id : nat) : access unit             (* 389-392 *)
| Find (d : Z) (cs : list pcfg) (v : verdict) : access (option nat)  (* addDFAState, 1975 *)
| Insert (d : Z) (cs : list pcfg) (v : verdict) : access nat         (* 1979-1986 *)
| Load (id : nat) : access (list pcfg * verdict)          (* constant parts of a DFAState *)
| ReadEdge (id : nat) (x : Z) : access (option target)    (* getExistingTargetState, 557-562 *)
| HasEdges (id : nat) : access bool                       (* addDFAEdge, 1946 *)
| Alloc (id : nat) : access unit                          (* 1947 *)
| Store (id : nat) (x : Z) (e : target) : access unit     (* 1948 *)
| Choose (cs : list pcfg) : access (option Z).
    (* getSynValidOrSemInvalidAltThatFinishedDecisionEntryRule, 1131-1147: some alternative
       of the set, or none; it also looks at reachesIntoOuterContext, which is not modelled *)

(** [does o h b h']: the access [o] to the memory [h] can answer [b] and leave [h']. *)
Definition does {B} (o : access B) (h : memory) : B -> memory -> Prop :=
  match o in access B return B -> memory -> Prop with
  | ReadStart d => fun b h' => h' = h /\ b = find d (m_s0 h)
  | WriteStart d id => fun _ h' => h' = mkM (m_objs h) ((d, id) :: m_s0 h) (m_states h)
  | Find d cs v => fun b h' => h' = h /\ b = find_state h d cs v (m_states h)
  | Insert d cs v => fun b h' =>
      b = List.length (m_objs h)
      /\ h' = mkM (m_objs h ++ [mkD cs v None]) (m_s0 h) ((d, b) :: m_states h)
  | Load id => fun b h' =>
      h' = h /\ exists o, nth_error (m_objs h) id = Some o /\ b = (s_configs o, s_verdict o)
  | ReadEdge id x => fun b h' =>
      h' = h /\ exists o, nth_error (m_objs h) id = Some o
                          /\ b = match s_edges o with Some es => find x es | None => None end
  | HasEdges id => fun b h' =>
      h' = h /\ exists o, nth_error (m_objs h) id = Some o
                          /\ b = match s_edges o with Some _ => true | None => false end
  | Alloc id => fun _ h' => h' = set_edges h id []
  | Store id x e => fun _ h' =>   (* storing into None would be a TypeError *)
      exists o es, nth_error (m_objs h) id = Some o /\ s_edges o = Some es
        /\ h' = set_edges h id ((x, e) :: es)
  | Choose cs => fun b h' => h' = h /\ forall m, b = Some m -> exists c, In c cs /\ pc_alt c = m
  end.

(** ** Programs: sequences of accesses, each depending on the answers so far *)
Inductive prog (A : Type) : Type :=
| Done (a : A)
| Act {B : Type} (o : access B) (k : B -> prog A).
Arguments Done {A}.
Arguments Act {A B}.

(** one program after the other *)
Fixpoint pbind {A B} (p : prog A) (f : A -> prog B) : prog B :=
  match p with
  | Done a => f a
  | Act o k => Act o (fun b => pbind (k b) f)
  end.

(** addDFAState, 1971-1986 *)
Definition add_state {A} (d : Z) (cs : list pcfg) (v : verdict) (k : nat -> prog A) : prog A :=
  Act (Find d cs v) (fun r =>
    match r with
    | Some id => k id
    | None => Act (Insert d cs v) k
    end).

(** addDFAEdge, 1928-1954, after addDFAState *)
Definition add_edge {A} (id : nat) (x : Z) (e : target) (k : prog A) : prog A :=
  Act (HasEdges id) (fun b =>
    if b then Act (Store id x e) (fun _ => k)
    else Act (Alloc id) (fun _ => Act (Store id x e) (fun _ => k))).

(** execATNWithFullContext, 648-766: it does not touch the cache *)
Fixpoint full_prog (cs : list pcfg) (w : list Z) : prog (option Z) :=
  match w with
  | [] => Done None
  | x :: w' =>
    match reach true cs x with
    | None => Done None
    | Some [] => Act (Choose cs) Done
    | Some cs' =>
      match unique_alt cs' with
      | Some m => Done (Some m)
      | None => match single_viable cs' with
                | Some m => Done (Some m)
                | None => full_prog cs' w'
                end
      end
    end
  end.

(** execATN, 434-544, from the DFAState [id]; [again]: the prediction with full context *)
Fixpoint sll_prog (d : Z) (again : prog (option Z)) (id : nat) (w : list Z)
  : prog (option Z) :=
  match w with
  | [] => Done None
  | x :: w' =>
    let follow (e : target) : prog (option Z) :=
      match e with
      | TError => Act (Load id) (fun o => Act (Choose (fst o)) Done)
      | TState id' =>
        Act (Load id') (fun o =>
          match snd o with
          | VFull => again
          | VAlt m => Done (Some m)
          | VGo => sll_prog d again id' w'
          end)
      end in
    Act (ReadEdge id x) (fun e =>
      match e with
      | Some e => follow e
      | None =>
        (* computeTargetState, 576-624 *)
        Act (Load id) (fun o =>
          match reach false (fst o) x with
          | None => Done None
          | Some [] => add_edge id x TError (follow TError)
          | Some cs =>
            add_state d cs (verdict_of cs) (fun id' =>
              add_edge id x (TState id') (follow (TState id')))
          end)
      end)
  end.

(** adaptivePredict, 321-402 *)
Definition predict_prog (d : Z) (st w : list Z) : prog (option Z) :=
  let again := match start_set true d st with
               | Some fs => full_prog fs w
               | None => Done None
               end in
  Act (ReadStart d) (fun s0 =>
    match s0 with
    | Some id => sll_prog d again id w
    | None =>
      match start_set false d [] with
      | None => Done None
      | Some cs =>
        let cs := if precedence_decision d then precedence_filter cs else cs in
        add_state d cs VGo (fun id =>
          Act (WriteStart d id) (fun _ => sll_prog d again id w))
      end
    end).

(** The generated code, each prediction made with the shared cache *)
Fixpoint interp {A} (c : code A) : prog A :=
  match c with
  | Ret a => Done a
  | Ask d st w k => pbind (predict_prog d st w) (fun m => interp (k m))
  end.

(** ** Processes *)

(** A parser: its tokens, which never change, and what it still has to do. *)
Record parser := mkParser { q_tokens : list token; q_prog : prog (option ptree) }.

Definition new_parser (ts : list token) : parser := mkParser ts (interp (g_unit ts)).

(** One access of one parser *)
Definition parser_step (h : memory) (q : parser) (h' : memory) (q' : parser) : Prop :=
  match q_prog q with
  | Done _ => False
  | Act o k => exists b, does o h b h' /\ q' = mkParser (q_tokens q) (k b)
  end.

(** a process: the cache and the parsers at work *)
Definition world := (memory * list parser)%type.

(** one access of one of the parsers, or a new parser *)
Inductive world_step : world -> world -> Prop :=
| W_step h qs i q h' q' :
    nth_error qs i = Some q -> parser_step h q h' q' ->
    world_step (h, qs) (h', set_nth qs i q')
| W_new h qs ts : world_step (h, qs) (h, qs ++ [new_parser ts]).

(** any number of them *)
Inductive world_steps : world -> world -> Prop :=
| Ws_refl w : world_steps w w
| Ws_step w1 w2 w3 : world_step w1 w2 -> world_steps w2 w3 -> world_steps w1 w3.
