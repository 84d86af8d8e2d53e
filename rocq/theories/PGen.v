(** * The generated parser

    Models the functions of _grammar/parser/udunits2Parser.py, one definition for each, with
    the calls of the runtime that they make (sync, match, consume, adaptivePredict).

    Parser state: the remaining tokens, and the stack of the invoking rules as the return
    addresses that PredictionContextFromRuleContext (PredictionContext.py) makes of it.
    [None]: an error was reported; the listener (_grammar/__init__.py:166-180) raises
    SyntaxError then, so that no recovery ever takes place.

    Simplifications: only the parse tree is kept of the contexts (no start and stop tokens,
    no exception fields); below timestamp it is the list of the tokens (visitTimestamp only
    takes the text). *)
From Verif Require Import PyBase Lexer Parser PAtn PSpec PSim.
Local Open Scope Z_scope.

(** Token.type; InputStream.LA(1): -1 is EOF *)
Definition sym (t : token) : Z := Z.of_N (kind_id (tkind t)).

(** self._input.LA(1) *)
Definition la (ts : list token) : Z := match ts with [] => -1 | t :: _ => sym t end.

(** the types of the remaining tokens *)
Definition syms (ts : list token) : list Z := map sym ts ++ [-1].

(** membership in a set of token types *)
Definition one_of (x : Z) (ks : list Z) : bool := existsb (Z.eqb x) ks.

(** Parser.match, _antlr4_runtime/Parser.py:143-154; also the inlined sets of
    integer, timestamp: recoverInline or consume.  recoverInline
    (error/ErrorStrategy.py) always reports an error. *)
Definition take (ks : list Z) (ts : list token) : option (token * list token) :=
  match ts with
  | t :: r => if one_of (sym t) ks then Some (t, r) else None
  | [] => None
  end.

(** ATN.nextTokens without a context, LL1Analyzer.py:84-230: the types of the edges that can
    be reached, and EPSILON if the end of the rule can be. *)
Definition next_has (n x : Z) : bool :=
  match closure true (fuel_of []) n [] with
  | Some l => existsb (fun p => stop (fst p)
                                || existsb (fun t => match tok_target t x with
                                                     | Some _ => true
                                                     | None => false
                                                     end) (edges (fst p))) l
  | None => false
  end.

(** DefaultErrorStrategy.sync, error/ErrorStrategy.py:208-252, with self.state = n.  [false]:
    an error is reported.  The types: BLOCK_START, PLUS_BLOCK_START, STAR_BLOCK_START,
    STAR_LOOP_BACK, STAR_LOOP_ENTRY, PLUS_LOOP_BACK. *)
Definition sync (n : Z) (ts : list token) : bool :=
  next_has n (la ts) || negb (one_of (ps_type (pstate_of n)) [3; 4; 5; 9; 10; 11]).

(** the return address of a call in state n *)
Definition follow_of (n : Z) : Z :=
  match edges n with PCall _ f :: _ => f | _ => -1 end.

Notation "'got' x , r <- e ; k" :=
  (match e with Some (x, r) => k | None => None end)
  (at level 200, x name, r name, e at level 100, k at level 200, only parsing).

(** integer, udunits2Parser.py:2230-2249 *)
Definition g_integer (ts : list token) : option (ptree * list token) :=
  got t, r <- take [1; 9] ts;
  Some (PNode Integer_r [PLeaf t], r).

(** number, 2275-2301 *)
Definition g_number (ts : list token) : option (ptree * list token) :=
  if sync 105 ts then
    if one_of (la ts) [1; 9] then
      got i, r <- g_integer ts;
      Some (PNode Number_r [i], r)
    else if one_of (la ts) [11] then
      got t, r <- take [11] ts;
      Some (PNode Number_r [PLeaf t], r)
    else None
  else None.

(** [WS?] as it is generated: the state before the test is [n] (30, 34, 40, 44; 120, 133,
    144) *)
Definition g_space (n : Z) (ts : list token) : option (list token * list token) :=
  if sync n ts then
    if la ts =? 18 then
      got t, r <- take [18] ts;
      Some ([t], r)
    else Some ([], ts)
  else None.

(** [(DATE | integer)] in states 109, 113, 141 *)
Definition g_date (n : Z) (ts : list token) : option (list token * list token) :=
  if sync n ts then
    if one_of (la ts) [25] then
      got t, r <- take [25] ts;
      Some ([t], r)
    else if one_of (la ts) [1; 9] then
      got t, r <- take [1; 9] ts;
      Some ([t], r)
    else None
  else None.

(** timezone_offset, 2605-2631 *)
Definition g_offset (ts : list token) : option (list token * list token) :=
  if sync 156 ts then
    if one_of (la ts) [23] then
      got t, r <- take [23] ts;
      Some ([t], r)
    else if one_of (la ts) [1; 9] then
      got t, r <- take [1; 9] ts;
      Some ([t], r)
    else None
  else None.

(** signed_clock, 2548-2579 *)
Definition g_clock (ts : list token) : option (list token * list token) :=
  if sync 152 ts then
    if one_of (la ts) [22] then
      got t, r <- take [22] ts;
      Some ([t], r)
    else if one_of (la ts) [23] then
      got t, r <- take [23] ts;
      Some ([t], r)
    else if one_of (la ts) [1; 9] then
      got t, r <- take [1; 9] ts;
      Some ([t], r)
    else None
  else None.

(** [(timezone_offset | TIMEZONE)?] in states 124, 129, 137 *)
Definition g_zone (n : Z) (ts : list token) : option (list token * list token) :=
  if sync n ts then
    if one_of (la ts) [1; 9; 23] then g_offset ts
    else if one_of (la ts) [20] then
      got t, r <- take [20] ts;
      Some ([t], r)
    else Some ([], ts)
  else None.

(** [(WS | T)?] in state 116 *)
Definition g_space_or_T (ts : list token) : option (list token * list token) :=
  if sync 116 ts then
    if (la ts =? 18) || (la ts =? 26) then
      got t, r <- take [18; 26] ts;
      Some ([t], r)
    else Some ([], ts)
  else None.

(** ** Code that asks for predictions

    [Ask d st w k]: adaptivePredict(input, d, ctx) is called, [st] being the return addresses
    of the context and [w] the types of the remaining tokens; the code goes on with [k] and
    the answer ([None]: NoViableAltException). *)
Inductive code (A : Type) : Type :=
| Ret (a : A)
| Ask (d : Z) (st w : list Z) (k : option Z -> code A).
Arguments Ret {A}.
Arguments Ask {A}.

(** one piece of code after the other *)
Fixpoint bind {A B} (c : code A) (f : A -> code B) : code B :=
  match c with
  | Ret a => f a
  | Ask d st w k => Ask d st w (fun m => bind (k m) f)
  end.

(** a step without predictions; a call of a rule *)
Notation "'get' x , r <- e ; k" :=
  (match e with Some (x, r) => k | None => Ret None end)
  (at level 200, x name, r name, e at level 100, k at level 200, only parsing).
Notation "'call' x , r <- e ; k" :=
  (bind e (fun o => match o with Some (x, r) => k | None => Ret None end))
  (at level 200, x name, r name, e at level 100, k at level 200, only parsing).

(** timestamp, 2351-2519.  An alternative that is none of 1 to 5 would fall through all
    the tests. *)
Definition g_timestamp (st : list Z) (ts : list token)
  : code (option (list token * list token)) :=
  if sync 147 ts then
    Ask 23 st (syms ts) (fun m => match m with
    | None => Ret None
    | Some 1 => Ret (g_date 109 ts)
    | Some 2 =>
      get d, r1 <- g_date 113 ts;
      get w, r2 <- g_space_or_T r1;
      get c, r3 <- g_clock r2;
      get w2, r4 <- g_space 120 r3;
      get z, r5 <- g_zone 124 r4;
      Ret (Some (d ++ w ++ c ++ w2 ++ z, r5))
    | Some 3 =>
      get i, r1 <- take [1; 9] ts;
      get z, r2 <- g_zone 129 r1;
      Ret (Some (i :: z, r2))
    | Some 4 =>
      get s, r1 <- take [27] ts;
      get w, r2 <- g_space 133 r1;
      get z, r3 <- g_zone 137 r2;
      Ret (Some (s :: w ++ z, r3))
    | Some 5 =>
      get d, r1 <- g_date 141 ts;
      get w, r2 <- g_space 144 r1;
      get z, r3 <- take [20; 21] r2;
      Ret (Some (d ++ w ++ [z], r3))
    | Some _ => Ret (Some ([], ts))
    end)
  else Ret None.

(** the loop [WS+] of product, 1969-1980: state 63, then 62 and 65 in turn *)
Fixpoint g_spaces (ts : list token) : option (list token * list token) :=
  match ts with
  | t :: r =>
    if one_of (sym t) [18] then
      if sync 65 r then
        if la r =? 18 then
          got ws, r' <- g_spaces r;
          Some (t :: ws, r')
        else Some ([t], r)
      else None
    else None
  | [] => None
  end.

(** shift_spec (1759-1827), product (1865-1995), power (2027-2072), logarithm (2104-2134) and basic_spec (2169-2204), which call one another *)
Fixpoint g_shift (fuel : nat) (st : list Z) (ts : list token)
  : code (option (ptree * list token)) :=
  match fuel with
  | O => Ret None
  | S f =>
    (* shift_spec, 1759-1827 *)
    if sync 48 ts then
      Ask 5 st (syms ts) (fun m => match m with
      | None => Ret None
      | Some 1 =>
        call p, r <- g_product f (follow_of 27 :: st) ts;
        Ret (Some (PNode Shift_spec [p], r))
      | Some 2 =>
        call p, r1 <- g_product f (follow_of 28 :: st) ts;
        get w1, r2 <- g_space 30 r1;
        get op, r3 <- take [12] r2;
        get w2, r4 <- g_space 34 r3;
        get n, r5 <- g_number r4;
        Ret (Some (PNode Shift_spec ((p :: map PLeaf w1 ++ PLeaf op :: map PLeaf w2) ++ [n]), r5))
      | Some 3 =>
        call p, r1 <- g_product f (follow_of 38 :: st) ts;
        get w1, r2 <- g_space 40 r1;
        get op, r3 <- take [12] r2;
        get w2, r4 <- g_space 44 r3;
        call b, r5 <- g_timestamp (follow_of 46 :: st) r4;
        Ret (Some (PNode Shift_spec ((p :: map PLeaf w1 ++ PLeaf op :: map PLeaf w2)
                                     ++ [PNode Timestamp_r (map PLeaf b)]), r5))
      | Some _ => Ret (Some (PNode Shift_spec [], ts))
      end)
    else Ret None
  end
with g_product (fuel : nat) (st : list Z) (ts : list token)
  : code (option (ptree * list token)) :=
  match fuel with
  | O => Ret None
  | S f =>
    (* product, 1865-1995, up to the loop *)
    call p, r <- g_power f (follow_of 51 :: st) ts;
    g_loop f 70 (PNode Product [p]) st r
  end
with g_loop (fuel : nat) (n : Z) (prev : ptree) (st : list Z) (ts : list token)
  : code (option (ptree * list token)) :=
  match fuel with
  | O => Ret None
  | S f =>
    (* 1878-1987.  [n]: 70 at first, then 72.  The new ProductContext has the parent and
       the invoking state of the first one, so the stack stays the same.  precpred holds:
       the precedence is 0. *)
    if sync n ts then
      Ask 8 st (syms ts) (fun m => match m with
      | None => Ret None
      | Some 2 => Ret (Some (prev, ts))
      | Some 1 =>
        if sync 68 ts then
          Ask 7 st (syms ts) (fun m => match m with
          | None => Ret None
          | Some 1 =>
            call q, r <- g_power f (follow_of 54 :: st) ts;
            g_loop f 72 (PNode Product [prev; q]) st r
          | Some 2 =>
            get o, r1 <- take [3] ts;
            call q, r <- g_power f (follow_of 57 :: st) r1;
            g_loop f 72 (PNode Product [prev; PLeaf o; q]) st r
          | Some 3 =>
            get o, r1 <- take [4] ts;
            call q, r <- g_power f (follow_of 60 :: st) r1;
            g_loop f 72 (PNode Product [prev; PLeaf o; q]) st r
          | Some 4 =>
            if sync 63 ts then
              get ws, r1 <- g_spaces ts;
              call q, r <- g_power f (follow_of 67 :: st) r1;
              g_loop f 72 (PNode Product (prev :: map PLeaf ws ++ [q])) st r
            else Ret None
          | Some _ => g_loop f 72 prev st ts
          end)
        else Ret None
      | Some _ => g_loop f 72 prev st ts
      end)
    else Ret None
  end
with g_power (fuel : nat) (st : list Z) (ts : list token)
  : code (option (ptree * list token)) :=
  match fuel with
  | O => Ret None
  | S f =>
    (* power, 2027-2072 *)
    if sync 84 ts then
      Ask 9 st (syms ts) (fun m => match m with
      | None => Ret None
      | Some 1 =>
        call l, r1 <- g_logarithm f (follow_of 73 :: st) ts;
        get i, r <- g_integer r1;
        Ret (Some (PNode Power [l; i], r))
      | Some 2 =>
        call l, r <- g_logarithm f (follow_of 76 :: st) ts;
        Ret (Some (PNode Power [l], r))
      | Some 3 =>
        call l, r1 <- g_logarithm f (follow_of 77 :: st) ts;
        get o, r2 <- take [14] r1;
        get i, r <- g_integer r2;
        Ret (Some (PNode Power [l; PLeaf o; i], r))
      | Some 4 =>
        call l, r1 <- g_logarithm f (follow_of 81 :: st) ts;
        get e, r <- take [13] r1;
        Ret (Some (PNode Power [l; PLeaf e], r))
      | Some _ => Ret (Some (PNode Power [], ts))
      end)
    else Ret None
  end
with g_logarithm (fuel : nat) (st : list Z) (ts : list token)
  : code (option (ptree * list token)) :=
  match fuel with
  | O => Ret None
  | S f =>
    (* logarithm, 2104-2134 *)
    if sync 91 ts then
      if one_of (la ts) [1; 6; 9; 11; 16] then
        call b, r <- g_basic f (follow_of 86 :: st) ts;
        Ret (Some (PNode Logarithm_r [b], r))
      else if one_of (la ts) [15] then
        get l, r1 <- take [15] ts;
        call s, r2 <- g_shift f (follow_of 88 :: st) r1;
        get c, r <- take [7] r2;
        Ret (Some (PNode Logarithm_r [PLeaf l; s; PLeaf c], r))
      else Ret None
    else Ret None
  end
with g_basic (fuel : nat) (st : list Z) (ts : list token)
  : code (option (ptree * list token)) :=
  match fuel with
  | O => Ret None
  | S f =>
    (* basic_spec, 2169-2204 *)
    if sync 99 ts then
      if one_of (la ts) [16] then
        get i, r <- take [16] ts;
        Ret (Some (PNode Basic_spec [PLeaf i], r))
      else if one_of (la ts) [6] then
        get o, r1 <- take [6] ts;
        call s, r2 <- g_shift f (follow_of 95 :: st) r1;
        get c, r <- take [7] r2;
        Ret (Some (PNode Basic_spec [PLeaf o; s; PLeaf c], r))
      else if one_of (la ts) [1; 9; 11] then
        get n, r <- g_number ts;
        Ret (Some (PNode Basic_spec [n], r))
      else Ret None
    else Ret None
  end.

(** The test of unit_spec, 1710: ((_la) & ~0x3F) == 0 and ((1 << _la) & 100930) != 0 *)
Definition unit_starts (x : Z) : bool :=
  (Z.land x (Z.lnot 63) =? 0) && negb (Z.land (Z.shiftl 1 x) 100930 =? 0).

(** unit_spec, 1700-1721.  [g_fuel] is enough: [generated_parser_exact]. *)
Definition g_fuel (ts : list token) : nat := 8 * List.length ts + 8.

Definition g_unit (ts : list token) : code (option ptree) :=
  if sync 23 ts then
    if unit_starts (la ts) then
      bind (g_shift (g_fuel ts) [follow_of 22] ts)
        (fun o => match o with
                  | Some (s, []) => Ret (Some (PNode Unit_spec [s; PEOF]))
                  | _ => Ret None
                  end)
    else match ts with
         | [] => Ret (Some (PNode Unit_spec [PEOF]))
         | _ :: _ => Ret None
         end
  else Ret None.

(** The code with its predictions: each one is computed from scratch, as in the first parse
    of a process ([pick]: see PSim.v). *)
Fixpoint run {A} (pick : list pcfg -> option Z) (c : code A) : A :=
  match c with
  | Ret a => a
  | Ask d st w k => run pick (k (predict pick d st w))
  end.

(** What the code can return if, call by call, an unspecified [pick] is used. *)
Definition picks_from_set (pick : list pcfg -> option Z) : Prop :=
  forall cs m, pick cs = Some m -> exists c, In c cs /\ pc_alt c = m.

Inductive gives {A} : code A -> A -> Prop :=
| Gives_ret a : gives (Ret a) a
| Gives_ask d st w k pick a :
    picks_from_set pick -> gives (k (predict pick d st w)) a -> gives (Ask d st w k) a.

(** The parser on a list of tokens *)
Definition generated_parser (pick : list pcfg -> option Z) (ts : list token) : option ptree :=
  run pick (g_unit ts).
