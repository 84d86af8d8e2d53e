(** * The command line: pyudunits2/__main__.py

    Simplifications: argparse is modelled in Argparse.v; what is printed on stderr and the
    wording of the help are not modelled.  A print whose text comes from the default object repr (DateUnit has no __str__), from sympy or
    from the repr of a dict is kept as the thing printed. *)
From Verif Require Import PyBase PyNum Graph Lexer Parser Visitor Expr Units Sympy Convert UnitSystem Argparse.

(** a piece of printed text *)
Inductive piece :=
| Text (s : str)
| ReprOf (a : anyunit)        (* <pyudunits2._unit.DateUnit object at 0x...> *)
| ExpressionOf (c : converter) (* str of the sympy expression *)
| HelpOf (cmd : option str)    (* argparse's help, of the program or of a subcommand *)
| DictOf (d : dims).          (* str(Dimensionality), _unit.py:261-272 *)
Definition line := list piece.
Definition quote : str := [34%N].

(** what a run of the program printed on stdout, and the exception that ended it *)
Record outcome := mkOut { printed : list line; raised : option exn }.
Definition stop (e : exn) : outcome := mkOut [] (Some e).

(** f"{unit}": Unit.__str__ (_unit.py:351-352); DateUnit (475-516) defines none *)
Definition shown (a : anyunit) : piece :=
  match a with AUnit x => Text (unit_str x) | ADate _ _ => ReprOf a end.

(** Unit.expanded (_unit.py:414-417), DateUnit.expanded (515-516) *)
Definition expanded_text (a : anyunit) : res str :=
  match a with
  | AUnit x => do e <- expanded x ;; Ok (node_str e)
  | ADate x r => do e <- expanded x ;; Ok (node_str e ++ u " since " ++ r)%list
  end.

(** convert_handler, __main__.py:46-47 *)
Definition convert_handler (value a b : str) : outcome := stop ENotImplemented.

Section Cli.
(** UnitSystem.from_udunits2_xml(), _unit_system.py:97-115: on the shipped file
    (XmlData.db) it is [read_system false set_order db] *)
Variable load : res system.
Variable ord : list str -> list str.        (* iteration order of sets of identifiers *)
Variable stack : nat.

(** conv_expr_handler, __main__.py:50-66 *)
Definition conv_expr_handler (from to : str) : outcome :=
  match load with
  | Err e => stop e
  | Ok s0 =>
    match sys_unit ord stack from s0 with
    | (Err e, _) => stop e
    | (Ok a, s1) =>
      match sys_unit ord stack to s1 with
      | (Err e, _) => stop e
      | (Ok b, _) =>
        match mk_converter a b with
        | Err EIncompatible =>
          mkOut [[Text (u "It is not possible to convert from "); Text quote; shown a; Text quote; Text (u " to "); Text quote;
                  shown b; Text quote]]
                (Some (ESystemExit 1))
        | Err e => stop e
        | Ok c =>
          mkOut [[Text (u "To convert from "); Text quote; shown a; Text quote; Text (u " to "); Text quote; shown b;
                  Text quote; Text (u ", apply the following expression:")];
                 [ExpressionOf c]] None
        end
      end
    end
  end.

(** explain_handler, __main__.py:69-75: the third line is computed after two are printed *)
Definition explain_handler (text : str) : outcome :=
  match load with
  | Err e => stop e
  | Ok s0 =>
    match fst (sys_unit ord stack text s0) with
    | Err e => stop e
    | Ok a =>
      match expanded_text a with
      | Err e => stop e
      | Ok b =>
        let two := [[Text (u "Unit: "); shown a]; [Text (u "In basis form: "); Text b]] in
        match dimensionality a with
        | Ok (DObj d) => mkOut (two ++ [[Text (u "Dimensionality: "); DictOf d]]) None
        | Ok (DDict d) => mkOut (two ++ [[Text (u "Dimensionality: "); DictOf d]]) None
        | Err e => mkOut two (Some e)
        end
      end
    end
  end.

(** The integer attributes of the class udunits2Lexer, udunits2Lexer.py:5535-5564 *)
Definition lexer_attributes : list (str * Z) :=
  [
   (u "SHIFT_MODE", 1); (u "ID_SEEN", 2); (u "SIGNED_INT", 1); (u "PLUS", 2);
   (u "MULTIPLY", 3); (u "DIVIDE", 4); (u "PERIOD", 5); (u "OPEN_PAREN", 6);
   (u "CLOSE_PAREN", 7); (u "SEMICOLON", 8); (u "INT", 9); (u "E_POWER", 10); (u "FLOAT", 11);
   (u "SHIFT_OP", 12); (u "UNICODE_EXPONENT", 13); (u "RAISE", 14); (u "LOG", 15);
   (u "ID", 16); (u "LATIN_SUBSET", 17); (u "WS", 18); (u "ERRORCHARACTER", 19);
   (u "TIMEZONE", 20); (u "TZ", 21); (u "HOUR_MINUTE_SECOND", 22); (u "HOUR_MINUTE", 23);
   (u "M_MINUS", 24); (u "DATE", 25); (u "T", 26); (u "TIMESTAMP", 27)
  ]%Z.

(** udunits2Lexer.ruleNames, 5613-5690 *)
Definition lexer_rule_names : list str :=
  [
   u "SIGNED_INT"; u "PLUS"; u "MINUS"; u "MULTIPLY"; u "DIVIDE"; u "PERIOD"; u "OPEN_PAREN";
   u "CLOSE_PAREN"; u "SEMICOLON"; u "INT"; u "ANY_INT"; u "E_POWER"; u "FLOAT"; u "SHIFT_OP";
   u "UNICODE_EXPONENT"; u "RAISE"; u "LOG"; u "ID"; u "LATIN_SUBSET"; u "WS";
   u "ERRORCHARACTER"; u "TIMEZONE"; u "TZ"; u "SIGN"; u "HOUR"; u "MINUTE"; u "SECOND";
   u "MONTH"; u "DAY"; u "YEAR"; u "HOUR_MINUTE_SECOND"; u "HOUR_MINUTE"; u "M_MINUS";
   u "DATE"; u "CLOCK"; u "T"; u "TIMESTAMP"; u "SHIFT_MODE_SIGNED_INT"; u "SHIFT_MODE_PLUS";
   u "SHIFT_MODE_MULTIPLY"; u "SHIFT_MODE_DIVIDE"; u "SHIFT_MODE_PERIOD";
   u "SHIFT_MODE_OPEN_PAREN"; u "SHIFT_MODE_CLOSE_PAREN"; u "SHIFT_MODE_SEMICOLON";
   u "SHIFT_MODE_INT"; u "SHIFT_MODE_E_POWER"; u "SHIFT_MODE_FLOAT"; u "SHIFT_MODE_SHIFT_OP";
   u "SHIFT_MODE_UNICODE_EXPONENT"; u "SHIFT_MODE_RAISE"; u "SHIFT_MODE_LOG";
   u "SHIFT_MODE_ID"; u "SHIFT_MODE_LATIN_SUBSET"; u "SHIFT_MODE_WS";
   u "SHIFT_MODE_ERRORCHARACTER"; u "ID_SEEN_SIGNED_INT"; u "EXTRA_MULTIPLY";
   u "ID_SEEN_AUTO_SIGNED_INT"; u "ID_SEEN_AUTO_PLUS"; u "ID_SEEN_AUTO_MULTIPLY";
   u "ID_SEEN_AUTO_DIVIDE"; u "ID_SEEN_AUTO_PERIOD"; u "ID_SEEN_AUTO_OPEN_PAREN";
   u "ID_SEEN_AUTO_CLOSE_PAREN"; u "ID_SEEN_AUTO_SEMICOLON"; u "ID_SEEN_AUTO_INT";
   u "ID_SEEN_AUTO_E_POWER"; u "ID_SEEN_AUTO_SHIFT_OP"; u "ID_SEEN_AUTO_UNICODE_EXPONENT";
   u "ID_SEEN_AUTO_RAISE"; u "ID_SEEN_AUTO_LOG"; u "ID_SEEN_AUTO_ID";
   u "ID_SEEN_AUTO_LATIN_SUBSET"; u "ID_SEEN_AUTO_WS"; u "ID_SEEN_AUTO_ERRORCHARACTER"
  ].

(** getattr of a class attribute, in the loop of _debug_tokens (_grammar/__init__.py:183-201) *)
Fixpoint attribute (name : str) (l : list (str * Z)) : option Z :=
  match l with
  | [] => None
  | (n, v) :: l' => if str_eqb name n then Some v else attribute name l'
  end.

(** TOKEN_ID_NAMES[z], _grammar/__init__.py:17-19: the last rule with that attribute; rules
    without attribute are kept under None *)
Fixpoint token_id_name (z : Z) (names : list str) : option str :=
  match names with
  | [] => None
  | n :: names' =>
    match token_id_name z names' with
    | Some m => Some m
    | None => match attribute n lexer_attributes with
              | Some v => if Z.eqb v z then Some n else None
              | None => None
              end
    end
  end.

(** debug_parsing_handler (__main__.py:78-79) and _debug_tokens (_grammar/__init__.py:183-201)
    for a text the grammar accepts.  (For other texts the parser recovers from the error and
    the tokens consumed by the recovery are printed: not modelled.)  A token without name is a
    KeyError. *)
Fixpoint token_lines (ts : list token) : outcome :=
  match ts with
  | [] => mkOut [] None
  | t :: ts' =>
    if str_eqb (ttext t) (u "<EOF>") then token_lines ts'
    else match token_id_name (Z.of_N (kind_id (tkind t))) lexer_rule_names with
         | None => stop EKey
         | Some n =>
           let r := token_lines ts' in
           mkOut ([Text (ttext t ++ u ": " ++ n)%list] :: printed r) (raised r)
         end
  end.

(** debug_parsing_handler, __main__.py:78-79, for one text *)
Definition debug_handler (text : str) : outcome :=
  match lex (strip text) with
  | None => stop EOutOfModel
  | Some ts =>
    match p_unit ts with
    | None => stop EOutOfModel
    | Some _ => token_lines ts
    end
  end.

(** the handlers, __main__.py:21-43 (set_defaults), 46-79 *)
Definition handle (cmd : str) (values : list str) : outcome :=
  match values with
  | [v; a; b] => convert_handler v a b
  | [a; b] => conv_expr_handler a b
  | [a] => if str_eqb cmd (u "explain-unit") then explain_handler a else debug_handler a
  | _ => stop EOutOfModel
  end.

(** main, __main__.py:82-90.  parser.error: status 2, nothing on stdout; help: on stdout,
    status 0; no subcommand: help on stderr and status 1. *)
Definition main (negnum : str -> bool) (argv : list str) : outcome :=
  match parse_args negnum argv with
  | Run cmd values => handle cmd values
  | NoCommand => stop (ESystemExit 1)
  | Help who => mkOut [[HelpOf who]] (Some (ESystemExit 0))
  | Usage => stop (ESystemExit 2)
  | Undecided => stop EOutOfModel
  end.
End Cli.
