(** * The prediction of the parser's runtime

    Models _antlr4_runtime/atn/ParserATNSimulator.py (adaptivePredict and what it calls),
    ATNConfigSet.py and PredictionMode.py, on the automaton [the_patn].

    Simplifications, all of them harmless for the value that is returned:
    - A configuration of the runtime carries a graph-structured stack, which stands for a
      set of stacks; here each stack is a configuration of its own, and "the context of
      (state, alternative)" is the set of its stacks.
    - No DFA cache and no merge cache: what they hold is what is recomputed here.
    - Precedence predicates are evaluated when they are met.  The runtime does that too
      for a full context and in applyPrecedenceFilter; else it collects them and evaluates
      them when it is about to return.  They compare with the parser's precedence, which
      is always 0 because every call of product has precedence 0.
    - closureBusy only keeps a walk from being repeated.  treatEofAsEpsilon matters only
      behind the only edge labelled EOF.  canDropLoopEntryEdgeInLeftRecursiveRule is always
      false: every call of product returns into shift_spec, not into product.
    - precedenceFilterSuppressed keeps configurations from being filtered; without it the
      filter still removes nothing ([filter_keeps_all]). *)
From Verif Require Import PyBase PAtn PSpec.
Local Open Scope Z_scope.

(** atn/ATNConfig.py:25-142: state, alt, context *)
Record pcfg := mkC { pc_state : Z; pc_alt : Z; pc_ctx : list Z }.

(** The targets of the return edges of the stop state of rule [r], in order:
    atn/ATNDeserializer.py:158-169 *)
Definition follows (r : Z) : list Z :=
  flat_map (fun s => flat_map (fun t => match t with
                                        | PCall st f => if rule_of st =? r then [f] else []
                                        | _ => []
                                        end) (ps_trans s))
    (p_states the_patn).

(** getEpsilonTarget, atn/ParserATNSimulator.py:1665-1686, for edges that read nothing:
    the next state and context.  ruleTransition, 1788-1800, pushes the follow state. *)
Definition eps_target (t : ptrans) (ctx : list Z) : option (Z * list Z) :=
  match t with
  | PEps n | PAct n => Some (n, ctx)
  | PCall s f => Some (s, f :: ctx)
  | PPrec n p => if 0 <=? p then Some (n, ctx) else None
  | PAtom _ _ | PSet _ _ => None
  end.

(** getReachableTarget, 1031-1035; Transition.matches *)
Definition tok_target (t : ptrans) (x : Z) : option Z :=
  match t with
  | PAtom n k => if k =? x then Some n else None
  | PSet n rs => if existsb (fun r => (fst r <=? x) && (x <=? snd r)) rs then Some n else None
  | _ => None
  end.

(** Transition.isEpsilon (atn/Transition.py) *)
Definition is_eps (t : ptrans) : bool :=
  match t with PAtom _ _ | PSet _ _ => false | _ => true end.

(** ATNState.epsilonOnlyTransitions, atn/ATNState.py:143-152, of a state that is no rule
    stop state *)
Definition eps_only (n : Z) : bool :=
  match edges n with [] => false | ts => forallb is_eps ts end.

(** helper: no result if one of several has none *)
Fixpoint all_some {A} (l : list (option (list A))) : option (list A) :=
  match l with
  | [] => Some []
  | o :: l' => match o, all_some l' with
               | Some x, Some y => Some (x ++ y)
               | _, _ => None
               end
  end.

(** closureCheckingStopState, 1246-1334, and closure_, 1337-1414: the states and contexts that are
    added to the configuration set.  [full]: fullCtx.  Without a full context the end of a
    rule with an empty context goes on with every return edge.  [None]: the recursion is
    deeper than the fuel; [closure_total] shows that this does not happen. *)
Fixpoint closure (full : bool) (fuel : nat) (n : Z) (ctx : list Z)
  : option (list (Z * list Z)) :=
  match fuel with
  | O => None
  | S f =>
    if stop n then
      match ctx with
      | r :: ctx' => closure full f r ctx'
      | [] =>
        if full then Some [(n, [])]
        else match follows (rule_of n) with
             | [] => Some [(n, [])]
             | fs => all_some (map (fun t => closure full f t []) fs)
             end
      end
    else
      match all_some (map (fun t => match eps_target t ctx with
                                    | Some (m, c) => closure full f m c
                                    | None => Some []
                                    end) (edges n)) with
      | Some l => Some (if eps_only n then l else (n, ctx) :: l)
      | None => None
      end
  end.

(** helper: a bound on the depth of closure_ (proved enough in PSimFacts.v) *)
Definition fuel_of (ctx : list Z) : nat := 60 * (2 + List.length ctx).

(** equality of stacks (PredictionContext.__eq__) *)
Fixpoint zlist_eqb (a b : list Z) : bool :=
  match a, b with
  | [], [] => true
  | x :: a', y :: b' => (x =? y) && zlist_eqb a' b'
  | _, _ => false
  end.

(** helper: is one stack a prefix of the other? *)
Fixpoint prefix (a b : list Z) : bool :=
  match a, b with
  | [], _ => true
  | x :: a', y :: b' => (x =? y) && prefix a' b'
  | _ :: _, [] => false
  end.

(** PredictionContext.merge: with a full context a set of stacks; else the empty context
    is a wildcard and swallows what it is merged with (mergeRoot,
    PredictionContext.py:422-445; merge, 260-288). *)
Definition covers (full : bool) (a b : list Z) : bool :=
  if full then zlist_eqb a b else prefix a b.

Definition same_node (c d : pcfg) : bool :=
  (pc_state c =? pc_state d) && (pc_alt c =? pc_alt d).

(** ATNConfigSet.add and getOrAdd, atn/ATNConfigSet.py:85-124 *)
Definition add (full : bool) (c : pcfg) (cs : list pcfg) : list pcfg :=
  if existsb (fun d => same_node c d && covers full (pc_ctx d) (pc_ctx c)) cs then cs
  else filter (fun d => negb (same_node c d && covers full (pc_ctx c) (pc_ctx d))) cs ++ [c].

(** configs.add for several configurations, ATNConfigSet.py:85-110 *)
Definition add_all (full : bool) (l cs : list pcfg) : list pcfg :=
  fold_left (fun cs c => add full c cs) l cs.

(** closure of one configuration, 1226-1244 *)
Definition close (full : bool) (c : pcfg) : option (list pcfg) :=
  option_map (map (fun p => mkC (fst p) (pc_alt c) (snd p)))
    (closure full (fuel_of (pc_ctx c)) (pc_state c) (pc_ctx c)).

(** closure for each configuration of a set, e.g. ParserATNSimulator.py:843-857 *)
Definition close_all (full : bool) (cs : list pcfg) : option (list pcfg) :=
  option_map (fun l => add_all full l []) (all_some (map (close full) cs)).

(** computeStartState, 921-931 *)
Fixpoint numbered (i : Z) (ts : list ptrans) (ctx : list Z) : list pcfg :=
  match ts with
  | [] => []
  | PEps t :: ts' => mkC t i ctx :: numbered (i + 1) ts' ctx
  | _ :: ts' => numbered (i + 1) ts' ctx
  end.

(** computeStartState, 921-931 *)
Definition start_set (full : bool) (d : Z) (ctx : list Z) : option (list pcfg) :=
  close_all full (numbered 1 (edges (decision_state d)) ctx).

(** getUniqueAlt, 1899-1906.  [None]: INVALID_ALT_NUMBER. *)
Definition unique_alt (cs : list pcfg) : option Z :=
  match cs with
  | [] => None
  | c :: cs' => if forallb (fun d => pc_alt d =? pc_alt c) cs' then Some (pc_alt c) else None
  end.

(** isinstance(c.state, RuleStopState) *)
Definition stopped (c : pcfg) : bool := stop (pc_state c).

(** The configurations behind the symbol [x]: computeReachSet, 768-820 *)
Definition moves (x : Z) (c : pcfg) : list pcfg :=
  flat_map (fun t => match tok_target t x with
                     | Some n => [mkC n (pc_alt c) (pc_ctx c)]
                     | None => []
                     end) (edges (pc_state c)).

(** computeReachSet, 768-879, with removeAllConfigsNotInRuleStopState, 901-919.  The empty
    list stands for None. *)
Definition reach (full : bool) (cs : list pcfg) (x : Z) : option (list pcfg) :=
  let inter := add_all full (flat_map (moves x) (filter (fun c => negb (stopped c)) cs)) [] in
  let skipped := if full || (x =? -1) then filter stopped cs else [] in
  let direct := match skipped, unique_alt inter with
                | [], Some _ => negb (x =? -1)
                | _, _ => false
                end in
  match (if direct then Some inter else close_all full inter) with
  | None => None
  | Some r =>
    let r1 := if x =? -1 then filter stopped r else r in
    Some (if negb full || negb (existsb stopped r1) then add_all full skipped r1 else r1)
  end.

(** ** PredictionMode *)

(** Two alternatives have the same context in state [n]. *)
Definition stacks (cs : list pcfg) (n i : Z) : list (list Z) :=
  map pc_ctx (filter (fun c => (pc_state c =? n) && (pc_alt c =? i)) cs).

Definition sub_stacks (a b : list (list Z)) : bool :=
  forallb (fun x => existsb (zlist_eqb x) b) a.

(** helper of alt_subset: the same contexts in one state (the key of PredictionMode.py:462-471) *)
Definition same_context (cs : list pcfg) (n i j : Z) : bool :=
  sub_stacks (stacks cs n i) (stacks cs n j) && sub_stacks (stacks cs n j) (stacks cs n i).

(** getConflictingAltSubsets, atn/PredictionMode.py:462-471: the set that [c] is in *)
Definition alt_subset (cs : list pcfg) (c : pcfg) : list Z :=
  map pc_alt (filter (fun d => (pc_state d =? pc_state c)
                               && same_context cs (pc_state c) (pc_alt d) (pc_alt c)) cs).

(** min(alts), PredictionMode.py:497-504 *)
Definition least (l : list Z) (x : Z) : Z := fold_right Z.min x l.

(** resolvesToJustOneViableAlt and getSingleViableAlt, PredictionMode.py:374-375, 497-504 *)
Definition single_viable (cs : list pcfg) : option Z :=
  match map (fun c => least (alt_subset cs c) (pc_alt c)) cs with
  | [] => None
  | m :: ms => if forallb (Z.eqb m) ms then Some m else None
  end.

(** hasConflictingAltSet, 410-411; hasStateAssociatedWithOneAlt, 493-494 *)
Definition has_conflict (cs : list pcfg) : bool :=
  existsb (fun c => existsb (fun i => negb (i =? pc_alt c)) (alt_subset cs c)) cs.

Definition has_lone_state (cs : list pcfg) : bool :=
  existsb (fun c => forallb (fun d => negb (pc_state d =? pc_state c)
                                      || (pc_alt d =? pc_alt c)) cs) cs.

(** hasSLLConflictTerminatingPrediction, 177-206 *)
Definition sll_conflict (cs : list pcfg) : bool :=
  forallb stopped cs || (has_conflict cs && negb (has_lone_state cs)).

(** ** Predictions.  [None]: NoViableAltException.

    [pick]: what getSynValidOrSemInvalidAltThatFinishedDecisionEntryRule, 1131-1147, returns
    when no configuration is left; everything below holds for every such function. *)
Section Predict.
  Variable pick : list pcfg -> option Z.

  (** execATNWithFullContext, 648-766.  [[]] cannot be reached: the last symbol is EOF, and
      after it the loop ends. *)
  Fixpoint exec_full (cs : list pcfg) (w : list Z) : option Z :=
    match w with
    | [] => None
    | x :: w' =>
      match reach true cs x with
      | None => None
      | Some [] => pick cs
      | Some cs' =>
        match unique_alt cs' with
        | Some m => Some m
        | None => match single_viable cs' with
                  | Some m => Some m
                  | None => exec_full cs' w'
                  end
        end
      end
    end.

  (** execATN, 434-544, and computeTargetState, 576-624 *)
  Fixpoint exec_sll (again : option Z) (cs : list pcfg) (w : list Z) : option Z :=
    match w with
    | [] => None
    | x :: w' =>
      match reach false cs x with
      | None => None
      | Some [] => pick cs
      | Some cs' =>
        match unique_alt cs' with
        | Some m => Some m
        | None => if sll_conflict cs' then again else exec_sll again cs' w'
        end
      end
    end.

  (** markPrecedenceDecisions, atn/ATNDeserializer.py:300-315; DFA.precedenceDfa *)
  Definition precedence_decision (d : Z) : bool :=
    let n := decision_state d in
    (ps_type (pstate_of n) =? 10)
    && existsb (Z.eqb (nth (Z.to_nat (rule_of n)) (p_starts the_patn) (-1)))
         (p_precedence the_patn)
    && match last (edges n) (PEps (-1)) with
       | PEps e => (ps_type (pstate_of e) =? 12) && eps_only e
                   && match edges e with PEps s :: _ => stop s | _ => false end
       | _ => false
       end.

  (** applyPrecedenceFilter, 989-1029 *)
  Definition precedence_filter (cs : list pcfg) : list pcfg :=
    filter (fun c => pc_alt c =? 1) cs
    ++ filter (fun c => negb (pc_alt c =? 1)
                        && negb (existsb (fun d => (pc_alt d =? 1)
                                                   && (pc_state d =? pc_state c)) cs
                                 && same_context cs (pc_state c) 1 (pc_alt c))) cs.

  (** adaptivePredict, 321-402.  [st]: the context of the parser, as return addresses;
      [w]: the symbols from the current position to EOF. *)
  Definition predict (d : Z) (st w : list Z) : option Z :=
    match start_set false d [] with
    | None => None
    | Some cs =>
      let cs := if precedence_decision d then precedence_filter cs else cs in
      exec_sll (match start_set true d st with
                | Some fs => exec_full fs w
                | None => None
                end) cs w
    end.
End Predict.
