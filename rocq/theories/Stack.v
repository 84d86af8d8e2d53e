(** * parse() and str() on a stack of limited size
    Python raises RecursionError when a call would make the stack deeper than
    sys.getrecursionlimit().  [k] is the number of further frames the stack can take.  What is
    counted are the frames of Python functions of the code base; the calls made by C code (the
    f-strings in __str__) are not.  A function that cannot make the deepest call of its own body
    fails at that call; where several calls of a body are equally deep the first one fails. *)
From Verif Require Import PyBase PyNum Graph Lexer Parser Visitor.
Local Open Scope nat_scope.

(** Frames of one token: TerminalNodeImpl.accept (tree/Tree.py:118-119), visitTerminal
    (_grammar/__init__.py:82-105), getText (tree/Tree.py:121-122), CommonToken.text
    (Token.py:125-135), input.size or input.getText (InputStream.py:35-37,78-84).  The handlers
    of visitTerminal (two frames: a lambda and Number.__init__) are not as deep. *)
Definition token_frames : nat := 5.

(** Frames of a timestamp: accept, visitTimestamp (_grammar/__init__.py:125-129),
    RuleContext.getText (RuleContext.py:81-87), the getText of the sub-rule, getText of the token,
    text, input.getText.  Simplification: counted as if the first token were always inside a
    sub-rule of the timestamp rule. *)
Definition timestamp_frames : nat := 7.

(** Frames of a rule before its children: XContext.accept (parser/udunits2Parser.py:1694-1698 and
    so on), visitX (_grammar/__init__.py:107-163, udunits2ParserVisitor.py:13-60), the
    visitChildren of UnitParseVisitor (_grammar/__init__.py:74-80) and of ParseTreeVisitor
    (tree/Tree.py:44-56), which makes at least the call of defaultResult(). *)
Definition rule_frames : nat := 4.

(** tree.accept(visitor) *)
Fixpoint visit_in (k : nat) (t : ptree) : res vres :=
  match t with
  | PEOF => if k <? token_frames then Err ERecursion else Ok VNone
  | PLeaf tok => if k <? token_frames then Err ERecursion else visit_terminal tok
  | PNode Timestamp_r _ =>
    if k <? timestamp_frames then Err ERecursion else Ok (VNode (Unhandled (tree_text t)))
  | PNode r cs =>
    if k <? rule_frames + 1 then Err ERecursion
    else
      do vs <- (fix go l := match l with
                            | [] => Ok []
                            | x :: l' => do v <- visit_in (k - rule_frames) x ;;
                                         do vs <- go l' ;; Ok (v :: vs)
                            end) cs ;;
      let v := aggregate vs in
      match r with
      | Product => visit_product v
      | Power => visit_power v
      | Logarithm_r => visit_logarithm v
      | Shift_spec => visit_shift_spec v
      | Unit_spec => visit_unit_spec v
      | _ => Ok v
      end
  end.

(** parse, __init__.py:215-232, called with room for [k] more frames.  [need ts] stands for the
    frames taken by the lexer and by the generated parser on the tokens [ts] (which are not
    modelled: the theorems hold for every [need]).  visitor.visit (tree/Tree.py:41-42) is one
    frame. *)
Definition parse_in (need : list token -> nat) (k : nat) (s : str) : res node :=
  match lex (strip s) with
  | None => Err EOutOfModel
  | Some ts =>
    if k <? need ts then Err ERecursion
    else
      match p_unit ts with
      | None => Err ESyntax
      | Some t =>
        if k <? 1 then Err ERecursion
        else do v <- visit_in (k - 1) t ;; as_node v
      end
  end.

(** The __str__ methods, _expr/graph.py:44-165: one frame each. *)
Fixpoint str_in (k : nat) (n : node) : res str :=
  match k with
  | O => Err ERecursion
  | S k' =>
    match n with
    | Unhandled raw => Ok raw
    | Number v _ => Ok (num_str v)
    | Identifier name => Ok name
    | Raise a b => do x <- str_in k' a ;; do y <- str_in k' b ;; Ok (x ++ u "^" ++ y)
    | Multiply a b => do x <- str_in k' a ;; do y <- str_in k' b ;; Ok (x ++ u "·" ++ y)
    | Divide a b => do x <- str_in k' a ;; do y <- str_in k' b ;; Ok (x ++ u "/" ++ y)
    | Shift a b =>
      do x <- str_in k' a ;; do y <- str_in k' b ;; Ok (u "(" ++ x ++ u " @ " ++ y ++ u ")")
    | Logarithm f t => do x <- str_in k' t ;; Ok (u "(" ++ f ++ u "(re " ++ x ++ u "))")
    end
  end.

(** normalize, __init__.py:204-212, with room for [k] frames below it.  parse itself is one. *)
Definition normalize_in (need : list token -> nat) (k : nat) (s : str) : res str :=
  if k <? 1 then Err ERecursion
  else do n <- parse_in need (k - 1) s ;; str_in k n.
