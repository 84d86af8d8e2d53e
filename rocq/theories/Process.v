(** * Whole calls of parse() in one process

    pyudunits2/_grammar/__init__.py:215-232 run by the generated lexer (Atn.v, AtnShared.v)
    and the generated parser (PGen.v, PShared.v): alone, and as any number of calls, in any
    number of threads, that share the two caches of the process
    (udunits2Lexer.decisionsToDFA and udunits2Parser.decisionsToDFA).

    Simplification: a call fills its token stream before its parser starts.  (The stream
    fetches tokens when the parser first looks at them, BufferedTokenStream.py:84-175; lexer
    and parser of a call share nothing else, so this only moves lexer steps to an earlier
    moment of the same call.) *)
From Verif Require Import PyBase Lexer Parser Graph Visitor.
From Verif Require Atn AtnShared PGen PShared.
Import PSim.

(** token.type to the name of the token type, parser/udunits2Parser.py:1-1800 *)
Definition all_kinds : list kind :=
  [SIGNED_INT; PLUS; MULTIPLY; DIVIDE; PERIOD; OPEN_PAREN; CLOSE_PAREN; SEMICOLON; INT; E_POWER;
   FLOAT; SHIFT_OP; UNICODE_EXPONENT; RAISE; LOG; ID; LATIN_SUBSET; WS; ERRORCHARACTER;
   TIMEZONE; TZ; HOUR_MINUTE_SECOND; HOUR_MINUTE; M_MINUS; DATE; T; TIMESTAMP].

(** the type of a token, from the number the lexer gives *)
Definition kind_of (z : Z) : option kind :=
  find (fun k => Z.eqb (Z.of_N (kind_id k)) z) all_kinds.

(** the tokens of the lexer as the parser reads them *)
Fixpoint tokens_of (l : list (Z * str)) : option (list token) :=
  match l with
  | [] => Some []
  | (z, w) :: l' =>
    match kind_of z, tokens_of l' with
    | Some k, Some ts => Some (mkTok k w :: ts)
    | _, _ => None
    end
  end.

(** visitor.visit(tree), __init__.py:230-232; no tree: SyntaxErrorRaiser has raised (165-183) *)
Definition visit_tree (o : option ptree) : res node :=
  match o with
  | None => Err ESyntax
  | Some t => do v <- visit t ;; as_node v
  end.

(** One call, alone in a new process.  [pick]: see PSim.v. *)
Definition generated_parse (pick : list pcfg -> option Z) (s : str) : res node :=
  match Atn.generated_lex (strip s) with
  | None => Err EOutOfModel
  | Some l =>
    match tokens_of l with
    | None => Err EOutOfModel
    | Some ts => visit_tree (PGen.generated_parser pick ts)
    end
  end.

(** ** Many calls *)
Inductive stage :=
| Lexing (l : AtnShared.lexer)
| Parsing (q : PShared.parser)
| Ended (r : res node).

(** a call of parse: the text and how far it is *)
Record job := mkCall { c_arg : str; c_stage : stage }.

(** a call of parse before its first step, _grammar/__init__.py:215-232 *)
Definition new_call (s : str) : job :=
  mkCall s (Lexing (AtnShared.new_lexer (strip s))).

(** The two shared caches *)
Definition caches := (AtnShared.shared * PShared.memory)%type.
Definition empty_caches : caches := (AtnShared.empty_shared, PShared.empty_memory).

(** One step of one call: one access to a cache, or going on to the next part *)
Inductive call_step : caches -> job -> caches -> job -> Prop :=
| S_lex a b s l a' l' :
    AtnShared.lexer_step Atn.the_atn a l = Some (a', l') ->
    call_step (a, b) (mkCall s (Lexing l)) (a', b) (mkCall s (Lexing l'))
| S_lexed c s l ts :
    AtnShared.t_pc l = AtnShared.PDone -> tokens_of (AtnShared.t_out l) = Some ts ->
    call_step c (mkCall s (Lexing l)) c (mkCall s (Parsing (PShared.new_parser ts)))
| S_parse a b s q b' q' :
    PShared.parser_step b q b' q' ->
    call_step (a, b) (mkCall s (Parsing q)) (a, b') (mkCall s (Parsing q'))
| S_parsed c s q x :
    PShared.q_prog q = PShared.Done x ->
    call_step c (mkCall s (Parsing q)) c (mkCall s (Ended (visit_tree x))).

(** the two caches and the calls of parse *)
Definition process := (caches * list job)%type.

(** one step of one of the calls, or a new call *)
Inductive process_step : process -> process -> Prop :=
| P_step c cs i k c' k' :
    nth_error cs i = Some k -> call_step c k c' k' ->
    process_step (c, cs) (c', PShared.set_nth cs i k')
| P_new c cs s : process_step (c, cs) (c, cs ++ [new_call s]).

(** any number of them *)
Inductive process_steps : process -> process -> Prop :=
| Ps_refl w : process_steps w w
| Ps_step w1 w2 w3 : process_step w1 w2 -> process_steps w2 w3 -> process_steps w1 w3.
