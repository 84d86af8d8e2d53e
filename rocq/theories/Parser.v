(** * Parser: pyudunits2/_grammar/udunits2Parser.g4 and the generated
      parser/udunits2Parser.py.

    The generated parser asks the ALL-star interpreter at each decision for the least
    alternative with which the whole remaining input can still be parsed.  Any error is
    turned into SyntaxError by SyntaxErrorRaiser (_grammar/__init__.py:166-180), so only
    acceptance and the chosen tree matter.  The look-ahead tests written below are those
    decisions; GrammarSpec.v states the grammar independently and ParserFacts.v and
    ParserComplete.v prove that this function accepts exactly the grammar's language and
    returns its preferred derivation.  The serialised automaton, the runtime's prediction
    and the generated code themselves are modelled in PAtn.v, PSim.v and PGen.v, and C71
    (Prop_GenParser.v) proves that they compute the same function. *)
From Verif Require Import PyBase Regex Lexer.

(** the rules of udunits2Parser.g4 *)
Inductive rule :=
| Unit_spec | Shift_spec | Product | Power | Logarithm_r | Basic_spec | Integer_r
| Number_r | Timestamp_r.

(** Parse trees.  Inside a timestamp the tree is flattened to its tokens
    (visitTimestamp only takes the text, _grammar/__init__.py:125-129). *)
Inductive ptree :=
| PNode (r : rule) (children : list ptree)
| PLeaf (t : token)
| PEOF.

(** is the token of this type? *)
Definition is_kind (k : kind) (t : token) : bool := kind_eqb (tkind t) k.

(** integer, udunits2Parser.g4: INT | SIGNED_INT *)
Definition is_integer (t : token) : bool := is_kind INT t || is_kind SIGNED_INT t.

(** Tokens a [power] can start with: ID, '(', number, LOG. *)
Definition starts_power (ts : list token) : bool :=
  match ts with
  | t :: _ => is_kind ID t || is_kind OPEN_PAREN t || is_integer t || is_kind FLOAT t
              || is_kind LOG t
  | [] => false
  end.

(** End of a shift_spec: EOF or ')'. *)
Definition at_end (ts : list token) : bool :=
  match ts with
  | [] => true
  | t :: _ => is_kind CLOSE_PAREN t
  end.

(** WS*, udunits2Parser.g4 *)
Fixpoint span_ws (ts : list token) : list token * list token :=
  match ts with
  | t :: r => if is_kind WS t then let (a, b) := span_ws r in (t :: a, b) else ([], ts)
  | [] => ([], [])
  end.

(** WS?, udunits2Parser.g4 *)
Definition opt_ws (ts : list token) : list token * list token :=
  match ts with
  | t :: r => if is_kind WS t then ([t], r) else ([], ts)
  | [] => ([], [])
  end.

(** the tokens up to the end of the shift_spec *)
Fixpoint span_to_end (ts : list token) : list token * list token :=
  match ts with
  | t :: r => if is_kind CLOSE_PAREN t then ([], ts)
              else let (a, b) := span_to_end r in (t :: a, b)
  | [] => ([], [])
  end.

(** [integer], udunits2Parser.g4:48-50 *)
Definition mk_integer (t : token) : ptree := PNode Integer_r [PLeaf t].

(** [number], udunits2Parser.g4:52-54 *)
Definition p_number (ts : list token) : option (ptree * list token) :=
  match ts with
  | t :: r => if is_integer t then Some (PNode Number_r [mk_integer t], r)
              else if is_kind FLOAT t then Some (PNode Number_r [PLeaf t], r)
              else None
  | [] => None
  end.

(** [timestamp], udunits2Parser.g4:57-76, as a regular expression over token types. *)
Definition k1 (k : kind) : re := ch (kind_id k).
Definition k_integer := Alt (k1 INT) (k1 SIGNED_INT).
Definition k_date := Alt (k1 DATE) k_integer.
Definition k_clock := alts [k1 HOUR_MINUTE_SECOND; k1 HOUR_MINUTE; k_integer].
(** timezone_offset, udunits2Parser.g4 *)
Definition k_offset := Alt (k1 HOUR_MINUTE) k_integer.
(** (timezone_offset | TIMEZONE)?, udunits2Parser.g4:57-76 *)
Definition k_zone := opt (Alt k_offset (k1 TIMEZONE)).
(** timestamp, udunits2Parser.g4:57-76 *)
Definition re_timestamp : re :=
  alts [k_date;
        seqs [k_date; opt (Alt (k1 WS) (k1 T)); k_clock; opt (k1 WS); k_zone];
        Seq k_integer k_zone;
        seqs [k1 TIMESTAMP; opt (k1 WS); k_zone];
        seqs [k_date; opt (k1 WS); Alt (k1 TIMEZONE) (k1 TZ)]].

(** do these tokens form a timestamp? *)
Definition is_timestamp (ts : list token) : bool :=
  full_match [re_timestamp] (map (fun t => kind_id (tkind t)) ts).

(** The rest of [shift_spec] after its product, udunits2Parser.g4:13-17. *)
Definition p_shift_tail (prod : ptree) (ts : list token) : option (ptree * list token) :=
  let (ws1, r1) := opt_ws ts in
  match r1 with
  | op :: r2 =>
    if is_kind SHIFT_OP op then
      let (ws2, r3) := opt_ws r2 in
      let pre := prod :: map PLeaf ws1 ++ PLeaf op :: map PLeaf ws2 in
      let as_timestamp :=
        let (body, rest) := span_to_end r3 in
        if is_timestamp body
        then Some (PNode Shift_spec (pre ++ [PNode Timestamp_r (map PLeaf body)]), rest)
        else None in
      match p_number r3 with
      | Some (n, rest) => if at_end rest then Some (PNode Shift_spec (pre ++ [n]), rest)
                          else as_timestamp
      | None => as_timestamp
      end
    else Some (PNode Shift_spec [prod], ts)
  | [] => Some (PNode Shift_spec [prod], ts)
  end.

(** The decision of [power], udunits2Parser.g4:27-34, after its [logarithm]: alternative 1
    (an integer directly following is an exponent) is the least viable one unless that
    integer itself carries an exponent. *)
Definition p_exponent (lg : ptree) (ts : list token) : option (ptree * list token) :=
  match ts with
  | t :: r =>
    if is_integer t then
      match r with
      | t2 :: _ => if is_kind RAISE t2 || is_kind UNICODE_EXPONENT t2
                   then Some (PNode Power [lg], ts)
                   else Some (PNode Power [lg; mk_integer t], r)
      | [] => Some (PNode Power [lg; mk_integer t], r)
      end
    else if is_kind RAISE t then
      match r with
      | i :: r' => if is_integer i
                   then Some (PNode Power [lg; PLeaf t; mk_integer i], r') else None
      | [] => None
      end
    else if is_kind UNICODE_EXPONENT t then Some (PNode Power [lg; PLeaf t], r)
    else Some (PNode Power [lg], ts)
  | [] => Some (PNode Power [lg], ts)
  end.

(** shift_spec / product (left-recursive, hence a loop in the generated code) / power with
    logarithm and basic_spec inlined: udunits2Parser.g4:13-46.  Every call decreases the
    fuel; 2*tokens+2 is enough (proved), [None] means a syntax error. *)
Fixpoint p_shift (fuel : nat) (ts : list token) : option (ptree * list token) :=
  match fuel with
  | O => None
  | S f =>
    match p_power f ts with
    | Some (pw, r) =>
      match p_loop f (PNode Product [pw]) r with
      | Some (prod, r') => p_shift_tail prod r'
      | None => None
      end
    | None => None
    end
  end
with p_loop (fuel : nat) (acc : ptree) (ts : list token) : option (ptree * list token) :=
  match fuel with
  | O => None
  | S f =>
    if starts_power ts then
      match p_power f ts with
      | Some (pw, r) => p_loop f (PNode Product [acc; pw]) r
      | None => None
      end
    else
      match ts with
      | t :: r =>
        if is_kind MULTIPLY t || is_kind DIVIDE t then
          match p_power f r with
          | Some (pw, r') => p_loop f (PNode Product [acc; PLeaf t; pw]) r'
          | None => None
          end
        else if is_kind WS t then
          let (ws, r') := span_ws ts in
          if starts_power r' then
            match p_power f r' with
            | Some (pw, r'') =>
              p_loop f (PNode Product (acc :: map PLeaf ws ++ [pw])) r''
            | None => None
            end
          else Some (acc, ts)
        else Some (acc, ts)
      | [] => Some (acc, ts)
      end
  end
with p_power (fuel : nat) (ts : list token) : option (ptree * list token) :=
  match fuel with
  | O => None
  | S f =>
    match ts with
    | t :: r =>
      if is_kind LOG t then
        match p_shift f r with
        | Some (sh, c :: r') =>
          if is_kind CLOSE_PAREN c
          then p_exponent (PNode Logarithm_r [PLeaf t; sh; PLeaf c]) r' else None
        | _ => None
        end
      else if is_kind OPEN_PAREN t then
        match p_shift f r with
        | Some (sh, c :: r') =>
          if is_kind CLOSE_PAREN c
          then p_exponent
                 (PNode Logarithm_r [PNode Basic_spec [PLeaf t; sh; PLeaf c]]) r'
          else None
        | _ => None
        end
      else if is_kind ID t then
        p_exponent (PNode Logarithm_r [PNode Basic_spec [PLeaf t]]) r
      else
        match p_number ts with
        | Some (n, r') => p_exponent (PNode Logarithm_r [PNode Basic_spec [n]]) r'
        | None => None
        end
    | [] => None
    end
  end.

(** helper: a bound on the number of calls (proved enough) *)
Definition fuel_for (ts : list token) : nat := 2 * List.length ts + 2.

(** [unit_spec], udunits2Parser.g4:9-11 *)
Definition p_unit (ts : list token) : option ptree :=
  match ts with
  | [] => Some (PNode Unit_spec [PEOF])
  | _ :: _ => match p_shift (fuel_for ts) ts with
              | Some (sh, []) => Some (PNode Unit_spec [sh; PEOF])
              | _ => None
              end
  end.
