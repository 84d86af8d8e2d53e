(** * The automaton runtime of the generated lexer

    Models pyudunits2/_grammar/_antlr4_runtime: ATNDeserializer (how the numbers of
    serializedATN() become an automaton), LexerATNSimulator (how one token is matched) and
    Lexer.nextToken (how the token stream is produced), run on the numbers of
    parser/udunits2Lexer.py ([AtnData.lexer_atn]).

    Not modelled: line and column numbers; predicates, custom actions and precedence rules
    (the deserialiser below rejects such automata, and [lexer_loads] shows that the shipped
    one is accepted). *)
From Coq Require Import FMapPositive.
From Verif Require Import PyBase AtnData.
Local Open Scope Z_scope.

(** ** Automata *)

(** _antlr4_runtime/atn/Transition.py:32-41, 70-290.  The target comes first. *)
Inductive trans :=
| TEps (t : Z)                            (* EpsilonTransition *)
| TRange (t lo hi : Z)                    (* RangeTransition *)
| TRule (start follow : Z)                (* RuleTransition: rule start, followState *)
| TAtom (t c : Z)                         (* AtomTransition *)
| TAction (t idx : Z)                     (* ActionTransition *)
| TSet (t : Z) (rs : list (Z * Z))        (* SetTransition *)
| TNotSet (t : Z) (rs : list (Z * Z))     (* NotSetTransition *)
| TWild (t : Z).                          (* WildcardTransition *)

(** _antlr4_runtime/atn/LexerAction.py; custom actions and channels are rejected. *)
Inductive action :=
| AMode (m : Z) | AMore | APopMode | APushMode (m : Z) | ASkip | AType (k : Z).

(** _antlr4_runtime/atn/ATNState.py:72-167: stateType, ruleIndex, nonGreedy, transitions. *)
Record state := mkState { st_type : Z; st_rule : Z; st_nongreedy : bool; st_trans : list trans }.

(** _antlr4_runtime/atn/ATN.py *)
Record atn := mkAtn {
  a_states : PositiveMap.t state;
  a_rule_type : list Z;                   (* ruleToTokenType *)
  a_modes : list Z;                       (* modeToStartState *)
  a_actions : list action }.              (* lexerActions *)

Definition key (n : Z) : positive := Z.to_pos (n + 1).

Definition get_state (a : atn) (n : Z) : option state :=
  if n <? 0 then None else PositiveMap.find (key n) (a_states a).

(** ** ATNDeserializer.deserialize (atn/ATNDeserializer.py:24-46).  [None]: it raises. *)
Definition reader (A : Type) := list Z -> option (A * list Z).

(** readInt, 380-383 *)
Definition read_int : reader Z :=
  fun l => match l with [] => None | x :: l' => Some (x, l') end.

(** The reader monad: readers of a list of ints, for the methods of ATNDeserializer that advance self.pos (ATNDeserializer.py:380-383). *)
Definition rret {A} (x : A) : reader A := fun l => Some (x, l).
(** self.data[self.pos] behind the end (IndexError); never the case for the shipped data. *)
Definition rfail {A} : reader A := fun _ => None.
(** one read after the other *)
Definition rbind {A B} (r : reader A) (f : A -> reader B) : reader B :=
  fun l => match r l with Some (x, l') => f x l' | None => None end.
Notation "'get' x <- r ; k" := (rbind r (fun x => k))
  (at level 200, x pattern, r at level 100, k at level 200, right associativity).

(** n times in a row: the body of a for loop, e.g. ATNDeserializer.py:68 *)
Fixpoint rtimes {A} (n : nat) (r : reader A) : reader (list A) :=
  match n with
  | O => rret []
  | S n' => get x <- r ; get xs <- rtimes n' r ; rret (x :: xs)
  end.

(** [n = self.readInt(); for i in range(0, n)] *)
Definition rlist {A} (r : reader A) : reader (list A) :=
  get n <- read_int ; rtimes (Z.to_nat n) r.

(** readStates, 65-101: block starts (types 3-5) and loop ends (12) carry one more number,
    which only the verifier and the parser use.  Type 0 (no state) is rejected. *)
Definition read_state : reader (Z * Z) :=
  get ty <- read_int ;
  if (ty <=? 0) || (12 <? ty) then rfail
  else
    get rule <- read_int ;
    if (ty =? 12) || ((3 <=? ty) && (ty <=? 5))
    then get _ <- read_int ; rret (ty, rule)
    else rret (ty, rule).

(** readRules, 103-122, for a lexer *)
Definition read_rule : reader (Z * Z) :=
  get s <- read_int ; get k <- read_int ; rret (s, k).

(** readSets, 130-142; sets that contain EOF are rejected *)
Definition read_set : reader (list (Z * Z)) :=
  get n <- read_int ; get eof <- read_int ;
  if eof =? 0
  then rtimes (Z.to_nat n) (get a <- read_int ; get b <- read_int ; rret (a, b))
  else rfail.

(** readEdges and edgeFactory, 144-156, 385-445; labels that stand for EOF (arg3 not 0),
    predicates (4), precedence predicates (10) and precedence calls are rejected *)
Definition read_edge (sets : list (list (Z * Z))) : reader (Z * trans) :=
  get src <- read_int ; get trg <- read_int ; get ty <- read_int ;
  get arg1 <- read_int ; get arg2 <- read_int ; get arg3 <- read_int ;
  match ty with
  | 1 => rret (src, TEps trg)
  | 2 => if arg3 =? 0 then rret (src, TRange trg arg1 arg2) else rfail
  | 3 => rret (src, TRule arg1 trg)
  | 5 => if arg3 =? 0 then rret (src, TAtom trg arg1) else rfail
  | 6 => rret (src, TAction trg arg2)
  | 7 => match nth_error sets (Z.to_nat arg1) with
         | Some rs => rret (src, TSet trg rs)
         | None => rfail
         end
  | 8 => match nth_error sets (Z.to_nat arg1) with
         | Some rs => rret (src, TNotSet trg rs)
         | None => rfail
         end
  | 9 => rret (src, TWild trg)
  | _ => rfail
  end.

(** readLexerActions and lexerActionFactory, 199-208, 472-498 *)
Definition read_action : reader action :=
  get ty <- read_int ; get d1 <- read_int ; get _ <- read_int ;
  match ty with
  | 2 => rret (AMode d1)
  | 3 => rret AMore
  | 4 => rret APopMode
  | 5 => rret (APushMode d1)
  | 6 => rret ASkip
  | 7 => rret (AType d1)
  | _ => rfail
  end.

(** srcState.addTransition(trans) for each edge in order (155-156; ATNState.py:143-152).
    The return edges of rule stop states (158-169) are left out: the lexer's simulator
    never follows them (a rule stop state returns through the context). *)
Definition add_edge (m : PositiveMap.t state) (e : Z * trans) : PositiveMap.t state :=
  match PositiveMap.find (key (fst e)) m with
  | Some s => PositiveMap.add (key (fst e))
                (mkState (st_type s) (st_rule s) (st_nongreedy s) (st_trans s ++ [snd e])) m
  | None => m
  end.

(** addState numbers the states in order (ATN.py, addState); nongreedy marks of ATNDeserializer.py:86-90 *)
Fixpoint number_states (i : Z) (l : list (Z * Z)) (nongreedy : list Z)
    (m : PositiveMap.t state) : PositiveMap.t state :=
  match l with
  | [] => m
  | (ty, r) :: l' =>
    number_states (i + 1) l' nongreedy
      (PositiveMap.add (key i) (mkState ty r (existsb (Z.eqb i) nongreedy) []) m)
  end.

(** deserialize, 24-46: version 4, a lexer automaton (grammar type 0).  verifyATN is a
    check of the data only and is not modelled. *)
Definition read_atn : reader atn :=
  get version <- read_int ;
  get grammar_type <- read_int ;
  get _max_token <- read_int ;
  if (version =? 4) && (grammar_type =? 0) then
    get states <- rlist read_state ;
    get nongreedy <- rlist read_int ;
    get _precedence <- rlist read_int ;
    get rules <- rlist read_rule ;
    get modes <- rlist read_int ;
    get sets <- rlist read_set ;
    get edges <- rlist (read_edge sets) ;
    get _decisions <- rlist read_int ;
    get actions <- rlist read_action ;
    rret (mkAtn (fold_left add_edge edges
                   (number_states 0 states nongreedy (PositiveMap.empty state)))
                (map snd rules) modes actions)
  else rfail.

(** deserialize, 24-46, of all the data *)
Definition load_atn (data : list Z) : option atn :=
  match read_atn data with Some (a, []) => Some a | _ => None end.

(** ** Configurations (atn/ATNConfig.py:149-211).  The context of a lexer configuration is
    a plain call stack: SingletonPredictionContext only, because two configurations are
    merged only when they are equal, contexts included.  [c_acts]: the executor's actions,
    [[]] for None. *)
Record config := mkCfg {
  c_state : Z; c_alt : Z; c_ctx : list Z; c_acts : list action; c_ng : bool }.

(** __eq__ of the LexerActions, LexerAction.py:34-38, 75-82, 104-110, 175-181, 222-228, 253-259, 302-308 *)
Definition action_eqb (x y : action) : bool :=
  match x, y with
  | AMode a, AMode b | APushMode a, APushMode b | AType a, AType b => a =? b
  | AMore, AMore | APopMode, APopMode | ASkip, ASkip => true
  | _, _ => false
  end.

(** == of two lists *)
Fixpoint list_eqb {A} (eqb : A -> A -> bool) (l l' : list A) : bool :=
  match l, l' with
  | [], [] => true
  | x :: xs, y :: ys => eqb x y && list_eqb eqb xs ys
  | _, _ => false
  end.

(** LexerATNConfig.__eq__, atn/ATNConfig.py:189-198 *)
Definition config_eqb (x y : config) : bool :=
  (c_state x =? c_state y) && (c_alt x =? c_alt y) && list_eqb Z.eqb (c_ctx x) (c_ctx y)
  && list_eqb action_eqb (c_acts x) (c_acts y) && Bool.eqb (c_ng x) (c_ng y).

(** ATNConfigSet.add, atn/ATNConfigSet.py:85-124: a configuration that is already there is
    dropped (merging two equal contexts gives that context). *)
Definition add_config (c : config) (l : list config) : list config :=
  if existsb (config_eqb c) l then l else l ++ [c].

(** ** LexerATNSimulator *)
Section Sim.
  Variable A : atn.

  (** Transition.matches(symbol, 0, MAX_CHAR_VALUE), atn/Transition.py; the interval sets
      of IntervalSet.py are unions of their ranges. *)
  Definition in_set (rs : list (Z * Z)) (c : Z) : bool :=
    existsb (fun r => (fst r <=? c) && (c <=? snd r)) rs.
  Definition trans_matches (t : trans) (c : Z) : bool :=
    match t with
    | TEps _ | TRule _ _ | TAction _ _ => false
    | TRange _ lo hi => (lo <=? c) && (c <=? hi)
    | TAtom _ x => x =? c
    | TSet _ rs => in_set rs c
    | TNotSet _ rs => (0 <=? c) && (c <=? 1114111) && negb (in_set rs c)
    | TWild _ => (0 <=? c) && (c <=? 1114111)
    end.
  Definition trans_target (t : trans) : Z :=
    match t with
    | TEps t | TRange t _ _ | TRule t _ | TAtom t _ | TAction t _ | TSet t _
    | TNotSet t _ | TWild t => t
    end.
  (** Transition.isEpsilon *)
  Definition trans_epsilon (t : trans) : bool :=
    match t with TEps _ | TRule _ _ | TAction _ _ => true | _ => false end.

  (** ATNState.addTransition's epsilonOnlyTransitions, atn/ATNState.py:143-152 *)
  Definition epsilon_only (s : state) : bool :=
    match st_trans s with [] => false | ts => forallb trans_epsilon ts end.

  Definition is_rule_stop (s : state) : bool := st_type s =? 7.

  (** LexerATNConfig.checkNonGreedyDecision, atn/ATNConfig.py:206-211.  A missing state
      cannot occur. *)
  Definition nongreedy (n : Z) : bool :=
    match get_state A n with Some s => st_nongreedy s | None => false end.

  (** [LexerATNConfig(state=n, config=c, context=ctx, lexerActionExecutor=acts)] *)
  Definition move (c : config) (n : Z) (ctx : list Z) (acts : list action) : config :=
    mkCfg n (c_alt c) ctx acts (c_ng c || nongreedy n).

  (** getEpsilonTarget, atn/LexerATNSimulator.py:478-564.  Actions count only in the rule
      that the token start state calls (empty context).  EOF is never treated as an
      epsilon: no label of the automaton is EOF. *)
  Definition epsilon_target (c : config) (t : trans) : option config :=
    match t with
    | TRule start follow => Some (move c start (follow :: c_ctx c) (c_acts c))
    | TAction tgt idx =>
      match c_ctx c with
      | [] => match nth_error (a_actions A) (Z.to_nat idx) with
              | Some act => Some (move c tgt [] (c_acts c ++ [act]))
              | None => None
              end
      | ctx => Some (move c tgt ctx (c_acts c))
      end
    | TEps tgt => Some (move c tgt (c_ctx c) (c_acts c))
    | _ => None
    end.

  (** closure, 391-475.  Result: the configuration set and
      currentAltReachedAcceptState; [None]: a recursion deeper than the fuel. *)
  Fixpoint closure (fuel : nat) (c : config) (configs : list config) (reached : bool)
    : option (list config * bool) :=
    match fuel with
    | O => None
    | S f =>
      match get_state A (c_state c) with
      | None => None
      | Some s =>
        if is_rule_stop s then
          match c_ctx c with
          | [] => Some (add_config c configs, true)
          | ret :: ctx => closure f (move c ret ctx (c_acts c)) configs reached
          end
        else
          let configs :=
            if epsilon_only s then configs
            else if negb reached || negb (c_ng c) then add_config c configs else configs in
          fold_left
            (fun acc t =>
               match acc with
               | None => None
               | Some (configs, reached) =>
                 match epsilon_target c t with
                 | Some c' => closure f c' configs reached
                 | None => Some (configs, reached)
                 end
               end)
            (st_trans s) (Some (configs, reached))
      end
    end.

  Definition depth : nat := 200.

  (** computeStartState, 374-381: the alternatives are numbered from 1. *)
  Fixpoint start_from (i : Z) (ts : list trans) (configs : list config)
    : option (list config) :=
    match ts with
    | [] => Some configs
    | t :: ts' =>
      match closure depth (mkCfg (trans_target t) i [] [] false) configs false with
      | Some (configs', _) => start_from (i + 1) ts' configs'
      | None => None
      end
    end.

  Definition start_configs (mode : Z) : option (list config) :=
    match nth_error (a_modes A) (Z.to_nat mode) with
    | Some p => match get_state A p with
                | Some s => start_from 1 (st_trans s) []
                | None => None
                end
    | None => None
    end.

  (** getReachableConfigSet, 303-346: [skip] is skipAlt. *)
  Fixpoint reach_trans (c : config) (x : Z) (current : bool) (ts : list trans)
      (acc : list config * Z) : option (list config * Z) :=
    match ts with
    | [] => Some acc
    | t :: ts' =>
      if trans_matches t x then
        match closure depth (move c (trans_target t) (c_ctx c) (c_acts c)) (fst acc) current with
        | Some (configs, reached) =>
          reach_trans c x current ts' (configs, if reached then c_alt c else snd acc)
        | None => None
        end
      else reach_trans c x current ts' acc
    end.

  Fixpoint reach (x : Z) (cs : list config) (acc : list config * Z) : option (list config) :=
    match cs with
    | [] => Some (fst acc)
    | c :: cs' =>
      let current := c_alt c =? snd acc in
      if current && c_ng c then reach x cs' acc
      else
        match get_state A (c_state c) with
        | None => None
        | Some s => match reach_trans c x current (st_trans s) acc with
                    | Some acc' => reach x cs' acc'
                    | None => None
                    end
        end
    end.

  (** computeTargetState, 257-274, without the cache: the configurations reachable on one
      symbol; the empty set is ERROR.  INVALID_ALT_NUMBER is 0. *)
  Definition target (cs : list config) (x : Z) : option (list config) := reach x cs ([], 0).

  (** addDFAState, 668-695: what a configuration set accepts, by its first configuration
      in a rule stop state: token type of the rule and actions. *)
  Definition accepted (cs : list config) : option (Z * list action) :=
    match find (fun c => match get_state A (c_state c) with
                         | Some s => is_rule_stop s | None => false end) cs with
    | Some c =>
      match get_state A (c_state c) with
      | Some s => Some (nth (Z.to_nat (st_rule s)) (a_rule_type A) 0, c_acts c)
      | None => None
      end
    | None => None
    end.

  (** execATN, 163-221.  [n]: characters consumed so far; [prev]: prevAccept.  Result:
      prevAccept at the end; the outer [None] is a failure of the simulator itself.  At the
      end of the input the symbol is EOF, on which nothing is reachable. *)
  Definition update (n : nat) (cs : list config) (prev : option (nat * Z * list action))
    : option (nat * Z * list action) :=
    match accepted cs with Some (k, acts) => Some (n, k, acts) | None => prev end.

  Fixpoint exec (n : nat) (cs : list config) (prev : option (nat * Z * list action))
      (s : str) : option (option (nat * Z * list action)) :=
    match s with
    | [] => Some prev
    | x :: s' =>
      match target cs (Z.of_N x) with
      | None => None
      | Some [] => Some prev
      | Some cs' => exec (S n) cs' (update (S n) cs' prev) s'
      end
    end.

  (** match and matchATN, 117-161, without the cache. *)
  Definition match_token (mode : Z) (s : str) : option (option (nat * Z * list action)) :=
    match start_configs mode with
    | None => None
    | Some cs => exec 0 cs (update 0 cs None) s
    end.

  (** ** Lexer.nextToken, _antlr4_runtime/Lexer.py:127-171 *)

  (** The lexer's registers that actions write: _type, _mode, _modeStack
      (Lexer.py:179-200, 268-269; LexerActionExecutor.execute, 116-132). *)
  Record regs := mkRegs { r_type : Z; r_mode : Z; r_stack : list Z }.

  (** [None]: popMode of an empty stack raises. *)
  Definition run_action (r : regs) (a : action) : option regs :=
    match a with
    | AMode m => Some (mkRegs (r_type r) m (r_stack r))
    | AMore => Some (mkRegs (-2) (r_mode r) (r_stack r))
    | APopMode => match r_stack r with
                  | [] => None
                  | m :: st => Some (mkRegs (r_type r) m st)
                  end
    | APushMode m => Some (mkRegs (r_type r) m (r_mode r :: r_stack r))
    | ASkip => Some (mkRegs (-3) (r_mode r) (r_stack r))
    | AType k => Some (mkRegs k (r_mode r) (r_stack r))
    end.

  Fixpoint run_actions (r : regs) (l : list action) : option regs :=
    match l with
    | [] => Some r
    | a :: l' => match run_action r a with Some r' => run_actions r' l' | None => None end
    end.

  (** One round of nextToken's inner loop.  [TError]: LexerNoViableAltException, or a
      skipped, continued or empty token: none of these can happen with the shipped
      automaton ([generated_lexer_ok]), so what the code does then is not modelled. *)
  Inductive outcome :=
  | TToken (k : Z) (text rest : str) (mode : Z) (stack : list Z)
  | TError.

  Definition next_token (mode : Z) (stack : list Z) (s : str) : outcome :=
    match match_token mode s with
    | Some (Some (S n, k, acts)) =>
      match run_actions (mkRegs 0 mode stack) acts with
      | Some r =>
        let ty := if r_type r =? 0 then k else r_type r in
        if (ty =? -3) || (ty =? -2) then TError
        else TToken ty (firstn (S n) s) (skipn (S n) s) (r_mode r) (r_stack r)
      | None => TError
      end
    | _ => TError
    end.

  (** The token stream up to EOF (BufferedTokenStream.fill: nextToken until EOF). *)
  Fixpoint tokens (fuel : nat) (mode : Z) (stack : list Z) (s : str)
    : option (list (Z * str)) :=
    match s with
    | [] => Some []
    | _ :: _ =>
      match fuel with
      | O => None
      | S f =>
        match next_token mode stack s with
        | TToken k w rest mode' stack' =>
          match tokens f mode' stack' rest with
          | Some ts => Some ((k, w) :: ts)
          | None => None
          end
        | TError => None
        end
      end
    end.
End Sim.

(** [atn = ATNDeserializer().deserialize(serializedATN())], parser/udunits2Lexer.py:5531.
    The default is never used: see [lexer_loads]. *)
Definition the_atn : atn :=
  match load_atn lexer_atn with
  | Some a => a
  | None => mkAtn (PositiveMap.empty state) [] [] []
  end.

(** CommonTokenStream(udunits2Lexer(InputStream(text))).fill(): token types and texts. *)
Definition generated_lex (s : str) : option (list (Z * str)) :=
  tokens the_atn (List.length s) 0 [] s.

Lemma lexer_loads : exists a, load_atn lexer_atn = Some a.
Proof.
  assert (H : match load_atn lexer_atn with Some _ => true | None => false end = true)
    by (vm_compute; reflexivity).
  destruct (load_atn lexer_atn) as [a |]; [now exists a | discriminate].
Qed.
