(** * From parse tree to graph: pyudunits2/_grammar/__init__.py *)
From Verif Require Import PyBase PyNum Graph Lexer Parser.

(** What a visitor method may return: None, a graph node, a str or a list. *)
Inductive vres :=
| VNone
| VNode (n : node)
| VStr (s : str)
| VList (l : list vres).

(** unicodedata.normalize("NFKC", c).replace("−", "-") on the characters of a
    UNICODE_EXPONENT token, __init__.py:26. *)
Definition nfkc_exponent (c : N) : N :=
  (if c =? 178 then 50 else if c =? 179 then 51 else if c =? 185 then 49
   else if c =? 8304 then 48
   else if (8308 <=? c) && (c <=? 8313) then c - 8308 + 52
   else if c =? 8314 then 43 else if c =? 8315 then 45 else c)%N.

(** handle_UNICODE_EXPONENT, __init__.py:22-27: the value stays a str. *)
Definition handle_unicode_exponent (s : str) : node :=
  let n := map nfkc_exponent s in Number (NStr n) (Some n).

(** c.split("(")[0].strip(), __init__.py:51 *)
Fixpoint before_paren (s : str) : str :=
  match s with
  | [] => []
  | c :: s' => if N.eqb c 40 then [] else c :: before_paren s'
  end.

(** visitTerminal with TERM_HANDLERS, __init__.py:39-61,82-105.  A token type missing
    from the table is a KeyError. *)
Definition visit_terminal (t : token) : res vres :=
  let c := ttext t in
  match tkind t with
  | CLOSE_PAREN | MULTIPLY | OPEN_PAREN | RAISE | SHIFT_OP | WS => Ok VNone
  | DATE | E_POWER | HOUR_MINUTE_SECOND | HOUR_MINUTE | PERIOD | TIMESTAMP => Ok (VStr c)
  | DIVIDE => Ok (VStr (u "/"))
  | FLOAT => do d <- py_decimal c ;; Ok (VNode (Number (NDec d) (Some c)))
  | ID => Ok (VNode (Identifier c))
  | INT | SIGNED_INT => do z <- py_int c ;; Ok (VNode (Number (NInt z) (Some c)))
  | LOG => Ok (VStr (strip (before_paren c)))
  | UNICODE_EXPONENT => Ok (VNode (handle_unicode_exponent c))
  | PLUS | SEMICOLON | LATIN_SUBSET | ERRORCHARACTER | TIMEZONE | TZ | M_MINUS | T => Err EKey
  end.

(** The [while isinstance(result, list) and len(result) == 1] of visitChildren,
    __init__.py:78-79. *)
Fixpoint unwrap (v : vres) : vres :=
  match v with
  | VList [x] => unwrap x
  | _ => v
  end.

(** aggregateResult over the children, __init__.py:63-72 *)
Definition not_none (v : vres) : bool := match v with VNone => false | _ => true end.
Definition aggregate (vs : list vres) : vres := unwrap (VList (filter not_none vs)).

(** Dataclass fields are not type-checked in Python; a non-node operand is outside the
    model (proved unreachable). *)
Definition as_node (v : vres) : res node :=
  match v with VNode n => Ok n | _ => Err EOutOfModel end.

(** a node of two operands *)
Definition node2 (f : node -> node -> node) (a b : vres) : res vres :=
  do x <- as_node a ;; do y <- as_node b ;; Ok (VNode (f x y)).

(** visitProduct, __init__.py:107-123 *)
Definition visit_product (v : vres) : res vres :=
  match v with
  | VList l =>
    match l with
    | [a; VStr op; b] => if str_eqb op (u "/") then node2 Divide a b else Err EAssertion
    | [a; b] => node2 Multiply a b
    | _ => Err EAssertion
    end
  | _ => Ok v
  end.

(** visitPower, __init__.py:131-139 *)
Definition visit_power (v : vres) : res vres :=
  match v with
  | VList [a; _; c] => node2 Raise a c
  | VList [a; b] => node2 Raise a b
  | VList _ => Err EType
  | _ => Ok v
  end.

(** visitLogarithm, __init__.py:141-150 *)
Definition visit_logarithm (v : vres) : res vres :=
  match v with
  | VList [VStr f; t] => do x <- as_node t ;; Ok (VNode (Logarithm f x))
  | VList _ => Err EAssertion
  | _ => Ok v
  end.

(** visitShift_spec, __init__.py:152-156: Shift takes exactly two arguments. *)
Definition visit_shift_spec (v : vres) : res vres :=
  match v with
  | VList [a; b] => node2 Shift a b
  | VList _ => Err EType
  | _ => Ok v
  end.

(** visitUnit_spec, __init__.py:158-163: an empty list or string is falsy. *)
Definition visit_unit_spec (v : vres) : res vres :=
  match v with
  | VList [] | VStr [] | VNone => Ok (VNode (Unhandled []))
  | _ => Ok v
  end.

(** ctx.getText() *)
Fixpoint tree_text (t : ptree) : str :=
  match t with
  | PLeaf tok => ttext tok
  | PEOF => u "<EOF>"
  | PNode _ cs => (fix go l := match l with [] => [] | x :: l' => tree_text x ++ go l' end) cs
  end.

(** UnitParseVisitor.visit, _grammar/__init__.py:30-163 *)
Fixpoint visit (t : ptree) : res vres :=
  match t with
  | PEOF => Ok VNone                                             (* __init__.py:90-93 *)
  | PLeaf tok => visit_terminal tok
  | PNode Timestamp_r _ => Ok (VNode (Unhandled (tree_text t)))  (* __init__.py:125-129 *)
  | PNode r cs =>
    do vs <- (fix go l := match l with
                          | [] => Ok []
                          | x :: l' => do v <- visit x ;; do vs <- go l' ;; Ok (v :: vs)
                          end) cs ;;
    let v := aggregate vs in
    match r with
    | Product => visit_product v
    | Power => visit_power v
    | Logarithm_r => visit_logarithm v
    | Shift_spec => visit_shift_spec v
    | Unit_spec => visit_unit_spec v
    | _ => Ok v
    end
  end.

(** parse, __init__.py:215-232 *)
Definition parse (s : str) : res node :=
  match lex (strip s) with
  | None => Err EOutOfModel          (* not a string of code points; proved impossible *)
  | Some ts =>
    match p_unit ts with
    | None => Err ESyntax
    | Some t => do v <- visit t ;; as_node v
    end
  end.

(** normalize, __init__.py:204-212 *)
Definition normalize (s : str) : res str := do n <- parse s ;; Ok (node_str n).
