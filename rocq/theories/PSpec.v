(** * Specification: runs of the parser's automaton

    [accepts n st w]: from state [n], with the return addresses [st] on the stack, the
    automaton can read exactly the symbols [w] (token types; -1 is the end of the input)
    and finish the start rule.  [viable d i st w]: it can do so beginning with the [i]-th
    way out of decision [d].  Nothing here mentions look-ahead, sets of configurations or
    the generated code. *)
From Verif Require Import PyBase PAtn.
Local Open Scope Z_scope.

Definition symbol_in (rs : list (Z * Z)) (k : Z) : Prop :=
  exists lo hi, In (lo, hi) rs /\ lo <= k <= hi.

Inductive accepts : Z -> list Z -> list Z -> Prop :=
| Run_end n : stop n = true -> rule_of n = 0 -> accepts n [] []
| Run_return n f st w : stop n = true -> accepts f st w -> accepts n (f :: st) w
| Run_eps n t st w : In (PEps t) (edges n) -> accepts t st w -> accepts n st w
| Run_action n t st w : In (PAct t) (edges n) -> accepts t st w -> accepts n st w
| Run_call n s f st w : In (PCall s f) (edges n) -> accepts s (f :: st) w -> accepts n st w
| Run_atom n t k st w : In (PAtom t k) (edges n) -> accepts t st w -> accepts n st (k :: w)
| Run_set n t rs k st w :
    In (PSet t rs) (edges n) -> symbol_in rs k -> accepts t st w -> accepts n st (k :: w)
(* every call of product has precedence 0, and a predicate p holds if p >= 0 *)
| Run_precedence n t p st w :
    In (PPrec t p) (edges n) -> 0 <= p -> accepts t st w -> accepts n st w.

Definition decision_state (d : Z) : Z := nth (Z.to_nat d) (p_decisions the_patn) (-1).

Definition viable (d i : Z) (st w : list Z) : Prop :=
  exists t, 1 <= i /\ nth_error (edges (decision_state d)) (Z.to_nat (i - 1)) = Some (PEps t)
            /\ accepts t st w.

(** [least_viable d st w m] *)
Definition least_viable (d : Z) (st w : list Z) (m : Z) : Prop :=
  viable d m st w /\ forall j, viable d j st w -> m <= j.
