(** * Specification: a text written out in basis units.

    [base_form s q e]: the name [q], written out by following the definitions of the vocabulary of
    [s] down to basis units, is the expression [e]; [base_expr s g e] the same for an expression.
    Nothing here mentions units, references or substitution. *)
From Verif Require Import PyBase PyNum Graph Visitor Units UnitSystem UnitSpec SystemSpec ConvertSpec.
From Coq Require Import QArith Reals Qreals.

Inductive base_form (s : system) : str -> node -> Prop :=
| Bf_basis q r dl it names :
    known s q (EUnit (UBasis r dl it) names) -> base_form s q (Identifier r)
| Bf_defined q i l g e :
    known s q (ELazy i) -> nth_error (s_lazies s) i = Some l -> parse (lz_def l) = Ok g ->
    base_expr s g e -> base_form s q e
| Bf_prefixed q key p k ent d e :
    reading s q (Some (key, p, k)) ent -> key <> k -> py_decimal (pf_value p) = Ok d ->
    base_form s k e -> base_form s q (Multiply (Number (NDec d) (Some (pf_value p))) e)
with base_expr (s : system) : node -> node -> Prop :=
| Be_number v r : base_expr s (Number v r) (Number v r)
| Be_name k e : base_form s k e -> base_expr s (Identifier k) e
| Be_multiply a b a' b' : base_expr s a a' -> base_expr s b b' ->
    base_expr s (Multiply a b) (Multiply a' b')
| Be_divide a b a' b' : base_expr s a a' -> base_expr s b b' ->
    base_expr s (Divide a b) (Divide a' b')
| Be_raise a a' v r : base_expr s a a' ->
    base_expr s (Raise a (Number v r)) (Raise a' (Number v r))
| Be_shift a a' v r : base_expr s a a' ->
    base_expr s (Shift a (Number v r)) (Shift a' (Number v r))
| Be_log f a a' : base_expr s a a' -> base_expr s (Logarithm f a) (Logarithm f a').

(** The text [t] written out. *)
Definition base_text (s : system) (t : str) (e : node) : Prop :=
  exists g, parse t = Ok g /\ base_expr s g e.

(** A system as it is after reading definitions: the ready-made units are basis units, with one
    opinion about which are dimensionless ([dl]) and which are times ([tm]), and nothing has been
    looked up yet. *)
Definition orderly (dl tm : str -> bool) (s : system) : Prop :=
  (forall k x r, known s k (EUnit x r) ->
     exists b, x = UBasis b (dl b) (tm b) /\ ~ In b own_names) /\
  (forall i l, nth_error (s_lazies s) i = Some l -> lz_resolved l = None).

(** Not a date: what is shifted is not a time. *)
Definition a_time (dl tm : str -> bool) (e : node) : Prop :=
  exists r, tm r = true /\ forall b, gdim (basis_exps dl) e b = if str_eqb r b then 1%Z else 0%Z.
Definition timeless (dl tm : str -> bool) (e : node) : Prop :=
  match e with Shift a _ => ~ a_time dl tm a | _ => True end.
