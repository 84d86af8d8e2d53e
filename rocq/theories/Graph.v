(** * Expression graphs: pyudunits2/_expr/graph.py *)
From Verif Require Export PyBase PyNum.

(** The value stored in a [Number] node: int, Decimal, or (through
    handle_UNICODE_EXPONENT, _grammar/__init__.py:22-27) a str. *)
Inductive numv :=
| NInt (z : Z)
| NDec (d : dec)
| NStr (s : str).

(** _expr/graph.py:45-157.  [Logarithm] is the only UnaryOp; Raise, Multiply and Divide
    are the BinaryOps; [Number.raw_content] is [str | None]. *)
Inductive node :=
| Unhandled (raw : str)                          (* graph.py:45-54 *)
| Number (v : numv) (raw : option str)            (* graph.py:57-67 *)
| Identifier (name : str)                        (* graph.py:70-81 *)
| Raise (lhs rhs : node)                         (* graph.py:102-104 *)
| Multiply (lhs rhs : node)                      (* graph.py:107-109 *)
| Divide (lhs rhs : node)                        (* graph.py:112-116 *)
| Shift (unit shift_from : node)                 (* graph.py:119-152 *)
| Logarithm (function : str) (term : node).      (* graph.py:155-157 *)

(** str(value) of a Number, graph.py:66-67 *)
Definition num_str (v : numv) : str :=
  match v with
  | NInt z => Z_str z
  | NDec d => dec_str d
  | NStr s => s
  end.

(** The __str__ methods, graph.py:53,66,80,103,108,113,151,156. *)
Fixpoint node_str (n : node) : str :=
  match n with
  | Unhandled raw => raw
  | Number v _ => num_str v
  | Identifier name => name
  | Raise a b => node_str a ++ u "^" ++ node_str b
  | Multiply a b => node_str a ++ u "·" ++ node_str b
  | Divide a b => node_str a ++ u "/" ++ node_str b
  | Shift a b => u "(" ++ node_str a ++ u " @ " ++ node_str b ++ u ")"
  | Logarithm f t => u "(" ++ f ++ u "(re " ++ node_str t ++ u "))"
  end.

(** isinstance(node, Terminal), graph.py:27,46,58,71 *)
Definition is_terminal (n : node) : bool :=
  match n with Unhandled _ | Number _ _ | Identifier _ => true | _ => false end.
