(** * The automaton of the generated parser

    Models ATNDeserializer (how the numbers of serializedATN() become an automaton) on the
    numbers of parser/udunits2Parser.py ([PAtnData.parser_atn]).

    Not modelled: semantic predicates (type 4), range (2), negated-set (8) and wildcard (9)
    edges and sets that contain EOF: the reader below rejects them, and
    [parser_automaton_loads] shows that the shipped automaton is accepted. *)
From Verif Require Import PyBase Atn PAtnData.
Local Open Scope Z_scope.

(** _antlr4_runtime/atn/Transition.py.  The target comes first. *)
Inductive ptrans :=
| PEps (t : Z)                            (* EpsilonTransition *)
| PCall (start follow : Z)                (* RuleTransition: rule start, followState *)
| PAtom (t k : Z)                         (* AtomTransition; EOF is -1 *)
| PAct (t : Z)                            (* ActionTransition *)
| PSet (t : Z) (rs : list (Z * Z))        (* SetTransition *)
| PPrec (t p : Z).                        (* PrecedencePredicateTransition *)

(** _antlr4_runtime/atn/ATNState.py:72-167: stateType, ruleIndex, transitions. *)
Record pstate := mkP { ps_type : Z; ps_rule : Z; ps_trans : list ptrans }.

(** _antlr4_runtime/atn/ATN.py *)
Record patn := mkPatn {
  p_states : list pstate;
  p_starts : list Z;                      (* ruleToStartState *)
  p_precedence : list Z;                  (* start states with isPrecedenceRule *)
  p_decisions : list Z }.                 (* decisionToState *)

(** readEdges, atn/ATNDeserializer.py:144-189, and edgeFactory, 426-445.  A precedence call
    carries arg3 as the precedence; all calls of the automaton have precedence 0, others
    are rejected. *)
Definition read_pedge (sets : list (list (Z * Z))) : reader (Z * ptrans) :=
  get src <- read_int ; get trg <- read_int ; get ty <- read_int ;
  get arg1 <- read_int ; get arg2 <- read_int ; get arg3 <- read_int ;
  match ty with
  | 1 => rret (src, PEps trg)
  | 3 => if arg3 =? 0 then rret (src, PCall arg1 trg) else rfail
  | 5 => rret (src, PAtom trg (if arg3 =? 0 then arg1 else -1))
  | 6 => rret (src, PAct trg)
  | 7 => match nth_error sets (Z.to_nat arg1) with
         | Some rs => rret (src, PSet trg rs)
         | None => rfail
         end
  | 10 => rret (src, PPrec trg arg1)
  | _ => rfail
  end.

(** srcState.addTransition(trans) for each edge in order, 155-156.  The return edges of the
    rule stop states (158-169) are kept apart: see [PSim.follows]. *)
Fixpoint add_pedge (l : list pstate) (n : nat) (t : ptrans) : list pstate :=
  match l, n with
  | [], _ => []
  | s :: l', O => mkP (ps_type s) (ps_rule s) (ps_trans s ++ [t]) :: l'
  | s :: l', S n' => s :: add_pedge l' n' t
  end.

(** addTransition for all edges, ATNDeserializer.py:144-156 *)
Definition add_pedges (l : list pstate) (es : list (Z * ptrans)) : list pstate :=
  fold_left (fun l e => add_pedge l (Z.to_nat (fst e)) (snd e)) es l.

(** deserialize, 24-46: version 4, a parser automaton (grammar type 1): no token types
    with the rules (103-122), no modes and no actions (199-208).  verifyATN is a check of
    the data only and is not modelled. *)
Definition read_patn : reader patn :=
  get version <- read_int ;
  get grammar_type <- read_int ;
  get _max_token <- read_int ;
  if (version =? 4) && (grammar_type =? 1) then
    get states <- rlist read_state ;
    get _nongreedy <- rlist read_int ;
    get precedence <- rlist read_int ;
    get starts <- rlist read_int ;
    get _modes <- rlist read_int ;
    get sets <- rlist read_set ;
    get es <- rlist (read_pedge sets) ;
    get decisions <- rlist read_int ;
    rret (mkPatn (add_pedges (map (fun s => mkP (fst s) (snd s) []) states) es)
                 starts precedence decisions)
  else rfail.

(** deserialize, 24-46, of all the data *)
Definition load_patn (data : list Z) : option patn :=
  match read_patn data with Some (a, []) => Some a | _ => None end.

(** [atn = ATNDeserializer().deserialize(serializedATN())], parser/udunits2Parser.py:1546,
    already computed; [parser_automaton_loads] says that this is what the reader gives. *)
Definition the_patn : patn :=
  Eval vm_compute in
  match load_patn parser_atn with Some a => a | None => mkPatn [] [] [] [] end.

Lemma parser_automaton_loads : load_patn parser_atn = Some the_patn.
Proof. vm_compute. reflexivity. Qed.

(** atn.states[n] *)
Definition pstate_of (n : Z) : pstate :=
  if n <? 0 then mkP 0 0 []
  else nth (Z.to_nat n) (p_states the_patn) (mkP 0 0 []).

(** atn.states[n].transitions *)
Definition edges (n : Z) : list ptrans := ps_trans (pstate_of n).
(** atn.states[n].ruleIndex *)
Definition rule_of (n : Z) : Z := ps_rule (pstate_of n).
(** isinstance(atn.states[n], RuleStopState): stateType 7 (ATNState.py) *)
Definition stop (n : Z) : bool := ps_type (pstate_of n) =? 7.
