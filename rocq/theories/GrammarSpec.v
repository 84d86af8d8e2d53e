(** * Specification: the published grammar udunits2Parser.g4 as a derivation relation.

    [derives r ts t]: the token sequence [ts] is derived from rule [r] with parse tree [t].
    One constructor per alternative of the file, in its order.  It is ambiguous, like the
    file; [preferred] says which tree is meant. *)
From Verif Require Import PyBase Lexer Parser.

Definition kinded (k : kind) (t : token) : Prop := tkind t = k.

(** WS? *)
Inductive opt_space : list token -> Prop :=
| Os_none : opt_space []
| Os_one w : kinded WS w -> opt_space [w].

Definition integer_token (t : token) : Prop := kinded INT t \/ kinded SIGNED_INT t.

(** timestamp and its helpers, g4:57-76 *)
Definition date_or_integer (t : token) : Prop := kinded DATE t \/ integer_token t.
Definition signed_clock (t : token) : Prop :=
  kinded HOUR_MINUTE_SECOND t \/ kinded HOUR_MINUTE t \/ integer_token t.
Definition offset_or_zone (t : token) : Prop :=
  (kinded HOUR_MINUTE t \/ integer_token t) \/ kinded TIMEZONE t.

Inductive opt_zone : list token -> Prop :=
| Oz_none : opt_zone []
| Oz_one t : offset_or_zone t -> opt_zone [t].

Inductive opt_space_or_T : list token -> Prop :=
| Ot_none : opt_space_or_T []
| Ot_ws t : kinded WS t -> opt_space_or_T [t]
| Ot_T t : kinded T t -> opt_space_or_T [t].

Inductive timestamp : list token -> Prop :=
| Ts_date d : date_or_integer d -> timestamp [d]
| Ts_clock d w c w2 z :
    date_or_integer d -> opt_space_or_T w -> signed_clock c -> opt_space w2 -> opt_zone z ->
    timestamp (d :: w ++ c :: w2 ++ z)
| Ts_integer i z : integer_token i -> opt_zone z -> timestamp (i :: z)
| Ts_stamp s w z : kinded TIMESTAMP s -> opt_space w -> opt_zone z -> timestamp (s :: w ++ z)
| Ts_zone d w z : date_or_integer d -> opt_space w -> kinded TIMEZONE z \/ kinded TZ z ->
    timestamp (d :: w ++ [z]).

Inductive derives : rule -> list token -> ptree -> Prop :=
(* unit_spec: shift_spec? EOF, g4:9-11 *)
| D_unit_empty : derives Unit_spec [] (PNode Unit_spec [PEOF])
| D_unit ts t : derives Shift_spec ts t -> derives Unit_spec ts (PNode Unit_spec [t; PEOF])
(* shift_spec, g4:13-17 *)
| D_shift_product ts p : derives Product ts p -> derives Shift_spec ts (PNode Shift_spec [p])
| D_shift_number ts p w1 op w2 ns n :
    derives Product ts p -> opt_space w1 -> kinded SHIFT_OP op -> opt_space w2 ->
    derives Number_r ns n ->
    derives Shift_spec (ts ++ w1 ++ op :: w2 ++ ns)
      (PNode Shift_spec ((p :: map PLeaf w1 ++ PLeaf op :: map PLeaf w2) ++ [n]))
| D_shift_timestamp ts p w1 op w2 ns :
    derives Product ts p -> opt_space w1 -> kinded SHIFT_OP op -> opt_space w2 ->
    timestamp ns ->
    derives Shift_spec (ts ++ w1 ++ op :: w2 ++ ns)
      (PNode Shift_spec ((p :: map PLeaf w1 ++ PLeaf op :: map PLeaf w2)
                         ++ [PNode Timestamp_r (map PLeaf ns)]))
(* product, g4:19-25 *)
| D_product_power ts p : derives Power ts p -> derives Product ts (PNode Product [p])
| D_product_juxtaposed ts1 p ts2 q :
    derives Product ts1 p -> derives Power ts2 q ->
    derives Product (ts1 ++ ts2) (PNode Product [p; q])
| D_product_multiply ts1 p o ts2 q :
    derives Product ts1 p -> kinded MULTIPLY o -> derives Power ts2 q ->
    derives Product (ts1 ++ o :: ts2) (PNode Product [p; PLeaf o; q])
| D_product_divide ts1 p o ts2 q :
    derives Product ts1 p -> kinded DIVIDE o -> derives Power ts2 q ->
    derives Product (ts1 ++ o :: ts2) (PNode Product [p; PLeaf o; q])
| D_product_space ts1 p ws ts2 q :
    derives Product ts1 p -> ws <> [] -> Forall (kinded WS) ws -> derives Power ts2 q ->
    derives Product (ts1 ++ ws ++ ts2) (PNode Product (p :: map PLeaf ws ++ [q]))
(* power, g4:27-34 *)
| D_power_integer ts l is i :
    derives Logarithm_r ts l -> derives Integer_r is i ->
    derives Power (ts ++ is) (PNode Power [l; i])
| D_power_plain ts l : derives Logarithm_r ts l -> derives Power ts (PNode Power [l])
| D_power_raise ts l r is i :
    derives Logarithm_r ts l -> kinded RAISE r -> derives Integer_r is i ->
    derives Power (ts ++ r :: is) (PNode Power [l; PLeaf r; i])
| D_power_unicode ts l e :
    derives Logarithm_r ts l -> kinded UNICODE_EXPONENT e ->
    derives Power (ts ++ [e]) (PNode Power [l; PLeaf e])
(* logarithm, g4:36-40 *)
| D_log_basic ts b : derives Basic_spec ts b -> derives Logarithm_r ts (PNode Logarithm_r [b])
| D_log l ts s c :
    kinded LOG l -> derives Shift_spec ts s -> kinded CLOSE_PAREN c ->
    derives Logarithm_r (l :: ts ++ [c]) (PNode Logarithm_r [PLeaf l; s; PLeaf c])
(* basic_spec, g4:42-46 *)
| D_basic_id i : kinded ID i -> derives Basic_spec [i] (PNode Basic_spec [PLeaf i])
| D_basic_paren o ts s c :
    kinded OPEN_PAREN o -> derives Shift_spec ts s -> kinded CLOSE_PAREN c ->
    derives Basic_spec (o :: ts ++ [c]) (PNode Basic_spec [PLeaf o; s; PLeaf c])
| D_basic_number ts n : derives Number_r ts n -> derives Basic_spec ts (PNode Basic_spec [n])
(* integer and number, g4:48-54 *)
| D_integer i : integer_token i -> derives Integer_r [i] (PNode Integer_r [PLeaf i])
| D_number_integer ts i : derives Integer_r ts i -> derives Number_r ts (PNode Number_r [i])
| D_number_float f : kinded FLOAT f -> derives Number_r [f] (PNode Number_r [PLeaf f]).

(** ** The meaning of ambiguous texts.
    - An integer written directly after a power that has no exponent yet is its exponent
      (unless it carries a `^`/superscript exponent itself): `m2` is m^2, `m2^3` is m·2^3.
    - A lone integer after a shift operator is a number, not a timestamp. *)
Definition has_exponent (pw : ptree) : bool :=
  match pw with PNode Power (_ :: _ :: _) => true | _ => false end.

Definition integer_power (lg : ptree) : bool :=
  match lg with
  | PNode Logarithm_r [PNode Basic_spec [PNode Number_r [PNode Integer_r _]]] => true
  | _ => false
  end.

(** an integer, alone or with a directly attached integer exponent *)
Definition bare_integer (pw : ptree) : bool :=
  match pw with
  | PNode Power [lg] => integer_power lg
  | PNode Power [lg; PNode Integer_r _] => integer_power lg
  | _ => false
  end.

Definition last_power (prod : ptree) : ptree :=
  match prod with PNode _ cs => last cs PEOF | _ => PEOF end.

Definition local_ok (r : rule) (cs : list ptree) : Prop :=
  match r with
  | Product =>
    match cs with
    | [p; q] => bare_integer q = true -> has_exponent (last_power p) = true
    | _ => True
    end
  | Shift_spec =>
    match last cs PEOF with
    | PNode Timestamp_r [PLeaf t] => ~ integer_token t
    | _ => True
    end
  | _ => True
  end.

(** [preferred t]: every node of [t] follows the two rules. *)
Fixpoint preferred (t : ptree) : Prop :=
  match t with
  | PNode r cs =>
    local_ok r cs /\
    (fix all (l : list ptree) : Prop :=
       match l with [] => True | x :: l' => preferred x /\ all l' end) cs
  | _ => True
  end.
