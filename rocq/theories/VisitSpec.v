(** * Specification: which expression a parse tree stands for. *)
From Verif Require Import PyBase PyNum Graph Lexer LexSpec Parser GrammarSpec.

(** value of a superscript text: its characters as ordinary digits and signs (kept as text,
    which is what the code stores) *)
Definition superscript_digit (c : N) : N :=
  match c with
  | 8304 => 48 | 185 => 49 | 178 => 50 | 179 => 51 | 8308 => 52 | 8309 => 53
  | 8310 => 54 | 8311 => 55 | 8312 => 56 | 8313 => 57 | 8314 => 43 | 8315 => 45
  | c => c
  end%N.

(** the four logarithm names *)
Definition log_names : list str := [u "log"; u "lg"; u "ln"; u "lb"].

Inductive reads : ptree -> node -> Prop :=
| R_unit_empty : reads (PNode Unit_spec [PEOF]) (Unhandled [])
| R_unit t g : reads t g -> reads (PNode Unit_spec [t; PEOF]) g
| R_shift_product p g : reads p g -> reads (PNode Shift_spec [p]) g
| R_shift p ws x g h :
    reads p g -> Forall (fun t => kinded WS t \/ kinded SHIFT_OP t) ws -> reads x h ->
    reads (PNode Shift_spec ((p :: map PLeaf ws) ++ [x])) (Shift g h)
| R_timestamp ts : reads (PNode Timestamp_r (map PLeaf ts)) (Unhandled (text_of ts))
| R_product_power p g : reads p g -> reads (PNode Product [p]) g
| R_product_juxtaposed p q g h :
    reads p g -> reads q h -> reads (PNode Product [p; q]) (Multiply g h)
| R_product_multiply p o q g h :
    reads p g -> kinded MULTIPLY o -> reads q h ->
    reads (PNode Product [p; PLeaf o; q]) (Multiply g h)
| R_product_divide p o q g h :
    reads p g -> kinded DIVIDE o -> reads q h ->
    reads (PNode Product [p; PLeaf o; q]) (Divide g h)
| R_product_space p ws q g h :
    reads p g -> ws <> [] -> Forall (kinded WS) ws -> reads q h ->
    reads (PNode Product (p :: map PLeaf ws ++ [q])) (Multiply g h)
| R_power_plain l g : reads l g -> reads (PNode Power [l]) g
| R_power_integer l i g h : reads l g -> reads (PNode Integer_r [PLeaf i]) h ->
    reads (PNode Power [l; PNode Integer_r [PLeaf i]]) (Raise g h)
| R_power_raise l r i g h : reads l g -> reads i h ->
    kinded RAISE r -> reads (PNode Power [l; PLeaf r; i]) (Raise g h)
| R_power_unicode l e g : reads l g -> kinded UNICODE_EXPONENT e ->
    let n := map superscript_digit (ttext e) in
    reads (PNode Power [l; PLeaf e]) (Raise g (Number (NStr n) (Some n)))
| R_log_basic b g : reads b g -> reads (PNode Logarithm_r [b]) g
| R_log l s c g f spaces rest :
    reads s g -> kinded LOG l -> kinded CLOSE_PAREN c -> In f log_names -> Forall (fun x => x = 32%N) spaces ->
    ttext l = f ++ spaces ++ 40%N :: rest ->
    reads (PNode Logarithm_r [PLeaf l; s; PLeaf c]) (Logarithm f g)
| R_basic_id i : kinded ID i -> reads (PNode Basic_spec [PLeaf i]) (Identifier (ttext i))
| R_basic_paren o s c g : kinded OPEN_PAREN o -> reads s g -> kinded CLOSE_PAREN c ->
    reads (PNode Basic_spec [PLeaf o; s; PLeaf c]) g
| R_basic_number r cs g : reads (PNode r cs) g -> reads (PNode Basic_spec [PNode r cs]) g
| R_integer i z : integer_token i -> py_int (ttext i) = Ok z ->
    reads (PNode Integer_r [PLeaf i]) (Number (NInt z) (Some (ttext i)))
| R_number_integer i g : reads (PNode Integer_r [PLeaf i]) g ->
    reads (PNode Number_r [PNode Integer_r [PLeaf i]]) g
| R_number_float f d : kinded FLOAT f -> py_decimal (ttext f) = Ok d ->
    reads (PNode Number_r [PLeaf f]) (Number (NDec d) (Some (ttext f))).

(** A numeric literal outside the range of Python's constructors. *)
Definition too_long_int (t : token) : Prop :=
  integer_token t /\ py_int (ttext t) = Err (EValue VE_int_digits).
Definition out_of_range_float (t : token) : Prop :=
  kinded FLOAT t /\ py_decimal (ttext t) = Err EInvalidOperation.
Definition bad_number (e : exn) (ts : list token) : Prop :=
  (e = EValue VE_int_digits /\ Exists too_long_int ts) \/
  (e = EInvalidOperation /\ Exists out_of_range_float ts).
