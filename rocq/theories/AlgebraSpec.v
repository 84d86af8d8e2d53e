(** * Specification: the laws of products, quotients and powers, for texts put together as in ComposeSpec.

    [alike a b]: by these laws, and by nothing else, [a] and [b] are the same product of their parts. *)
From Verif Require Import PyBase Units UnitSystem UnitSpec SystemSpec Convert ComposeSpec.
From Coq Require Import Reals.
Open Scope Z_scope.

Inductive alike : recipe -> recipe -> Prop :=
(** the same, either way round, through a third *)
| Al_same a : alike a a
| Al_back a b : alike a b -> alike b a
| Al_through a b c : alike a b -> alike b c -> alike a c
(** part by part, however the operation is spelt *)
| Al_bracketed a : alike (Bracketed a) a
| Al_times s s' a a' b b' : alike a a' -> alike b b' -> alike (Times s a b) (Times s' a' b')
| Al_over s s' a a' b b' : alike a a' -> alike b b' -> alike (Over s a b) (Over s' a' b')
| Al_raised s s' a a' n : alike a a' -> alike (Raised s a n) (Raised s' a' n)
(** products *)
| Al_order s a b : alike (Times s a b) (Times s b a)
| Al_group s a b c : alike (Times s a (Times s b c)) (Times s (Times s a b) c)
(** quotients *)
| Al_cancel s s' a b : alike (Times s (Over s' a b) b) a
| Al_over_product s s' a b c : alike (Over s a (Times s' b c)) (Over s (Over s a b) c)
| Al_over_quotient s s' a b c : alike (Over s a (Over s b c)) (Over s (Times s' a c) b)
(** powers *)
| Al_first s a : alike (Raised s a 1) a
| Al_none s s' a b : alike (Times s' (Raised s a 0) b) b
| Al_sum s s' a m n : alike (Raised s a (m + n)) (Times s' (Raised s a m) (Raised s a n))
| Al_difference s s' a m n : alike (Raised s a (m - n)) (Over s' (Raised s a m) (Raised s a n))
| Al_product s a m n : alike (Raised s (Raised s a m) n) (Raised s a (m * n))
| Al_of_product s s' a b n : alike (Raised s (Times s' a b) n) (Times s' (Raised s a n) (Raised s b n))
| Al_of_quotient s s' a b n : alike (Raised s (Over s' a b) n) (Over s' (Raised s a n) (Raised s b n)).

(** The power in which the part [t] is a factor of the whole, all told. *)
Fixpoint net (t : str) (r : recipe) : Z :=
  match r with
  | Part t' => if str_eqb t' t then 1 else 0
  | Bracketed a => net t a
  | Times _ a b => net t a + net t b
  | Over _ a b => net t a - net t b
  | Raised _ a n => n * net t a
  | Level _ _ => 0
  end.

(** In [s], whatever was looked up before, the texts [t] and [t'] are units, and [v] of the first is [k v] of
    the second. *)
Definition is_unit (ord : list str -> list str) (s : system) (t : str) (x : unit) : Prop :=
  forall history, exists enough, forall stack, (enough <= stack)%nat -> fst (sys_unit ord stack t (after ord s history)) = Ok (AUnit x).
Definition converts (ord : list str -> list str) (s : system) (t t' : str) (k : R) : Prop :=
  exists x y cv, is_unit ord s t x /\ is_unit ord s t' y /\ mk_converter (AUnit x) (AUnit y) = Ok cv /\
    forall v, convert cv v = Ok (k * v)%R.
