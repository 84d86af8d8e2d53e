(** * Specification: unit texts built from unit texts.

    A recipe says how a text is put together: every part goes into brackets, and between the brackets
    stands one of the spellings of an operation. *)
From Verif Require Import PyBase PyNum Graph Lexer LexSpec Visitor VisitSpec PrintSpec.
Open Scope list_scope.

Inductive recipe :=
| Part (t : str)
| Bracketed (r : recipe)
| Times (sign : str) (a b : recipe)
| Over (sign : str) (a b : recipe)
| Raised (sign : str) (a : recipe) (n : Z)
| Level (log : str) (a : recipe).

(** the spellings; the empty one puts the brackets side by side *)
Definition times_signs : list str := [u "*"; u "·"; u "-"; u " "; u ""].
Definition over_signs : list str := [u "/"; u " / "; u " per "; u " PER "].
Definition power_signs : list str := [u "^"; u "**"; u ""].

Definition in_brackets (t : str) : str := u "(" ++ t ++ u ")".
Fixpoint text (r : recipe) : str :=
  match r with
  | Part t => t
  | Bracketed a => in_brackets (text a)
  | Times sign a b | Over sign a b => in_brackets (text a) ++ sign ++ in_brackets (text b)
  | Raised sign a n => in_brackets (text a) ++ sign ++ Z_str n
  | Level log a => log ++ u "(re " ++ in_brackets (text a) ++ u ")"
  end.

(** what the text stands for, if every part stands for [m] of it *)
Inductive made (m : str -> node -> Prop) : recipe -> node -> Prop :=
| M_part t g : m t g -> made m (Part t) g
| M_bracketed a g : made m a g -> made m (Bracketed a) g
| M_times sign a b g h : In sign times_signs -> made m a g -> made m b h -> made m (Times sign a b) (Multiply g h)
| M_over sign a b g h : In sign over_signs -> made m a g -> made m b h -> made m (Over sign a b) (Divide g h)
| M_raised sign a n g : In sign power_signs -> short (Z_str n) -> made m a g ->
    made m (Raised sign a n) (Raise g (Number (NInt n) (Some (Z_str n))))
| M_level log a g : In log log_names -> made m a g -> made m (Level log a) (Logarithm log g).

(** A part: a text that is not blank, has no white space around it, and none of the tokens "@",
    "after", "from", "since", "ref". *)
Definition part (t : str) : Prop :=
  is_text t /\ t <> [] /\ strip t = t /\
  forall ts, tokenises DEFAULT_MODE t ts -> Forall (fun k => tkind k <> SHIFT_OP) ts.

(** Where a blank may not stand: before a multiplication sign or an exponent, behind an opening bracket, a
    multiplication sign, "^" or "lg(re " (and no division sign or stray character behind an opening bracket). *)
Definition apart (x y : kind) : bool :=
  match x, y with
  | WS, MULTIPLY | WS, RAISE | WS, UNICODE_EXPONENT => true
  | OPEN_PAREN, DIVIDE | OPEN_PAREN, ERRORCHARACTER => true
  | OPEN_PAREN, WS | MULTIPLY, WS | RAISE, WS | LOG, WS => true
  | _, _ => false
  end.
