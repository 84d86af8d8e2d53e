(** * Regular expressions over code points, matched with partial derivatives.

    [matches] is the specification (what a lexer rule means); [longest] is the
    executable longest-prefix matcher used by the tokeniser. *)
From Verif Require Import PyBase.

(** regular expressions (ANTLR lexer rules, udunits2Lexer.g4.jinja) *)
Inductive re :=
| Eps
| Chr (ranges : list (N * N))          (* any code point inside one of the ranges *)
| Alt (a b : re)
| Seq (a b : re)
| Star (a : re).

(** is the code point in the set? *)
Definition in_ranges (rs : list (N * N)) (c : N) : bool :=
  existsb (fun r => N.leb (fst r) c && N.leb c (snd r)) rs.

(** The language of an expression. *)
Inductive matches : re -> list N -> Prop :=
| M_eps : matches Eps []
| M_chr rs c : in_ranges rs c = true -> matches (Chr rs) [c]
| M_alt_l a b s : matches a s -> matches (Alt a b) s
| M_alt_r a b s : matches b s -> matches (Alt a b) s
| M_seq a b s t : matches a s -> matches b t -> matches (Seq a b) (s ++ t)
| M_star_nil a : matches (Star a) []
| M_star_cons a s t : matches a s -> matches (Star a) t -> matches (Star a) (s ++ t).

(** does the expression match the empty text? *)
Fixpoint nullable (r : re) : bool :=
  match r with
  | Eps => true
  | Chr _ => false
  | Alt a b => nullable a || nullable b
  | Seq a b => nullable a && nullable b
  | Star _ => true
  end.

(** equality of sets *)
Fixpoint ranges_eqb (a b : list (N * N)) : bool :=
  match a, b with
  | [], [] => true
  | (x, y) :: a', (x', y') :: b' => N.eqb x x' && N.eqb y y' && ranges_eqb a' b'
  | _, _ => false
  end.

(** equality of expressions *)
Fixpoint re_eqb (a b : re) : bool :=
  match a, b with
  | Eps, Eps => true
  | Chr x, Chr y => ranges_eqb x y
  | Alt a1 a2, Alt b1 b2 => re_eqb a1 b1 && re_eqb a2 b2
  | Seq a1 a2, Seq b1 b2 => re_eqb a1 b1 && re_eqb a2 b2
  | Star a1, Star b1 => re_eqb a1 b1
  | _, _ => false
  end.

(** sequence *)
Definition mkseq (a b : re) : re := match a with Eps => b | _ => Seq a b end.

(** Partial derivatives (Antimirov): the expressions left after reading [c]. *)
Fixpoint pderiv (c : N) (r : re) : list re :=
  match r with
  | Eps => []
  | Chr rs => if in_ranges rs c then [Eps] else []
  | Alt a b => pderiv c a ++ pderiv c b
  | Seq a b => map (fun x => mkseq x b) (pderiv c a)
               ++ (if nullable a then pderiv c b else [])
  | Star a => map (fun x => mkseq x (Star a)) (pderiv c a)
  end.

(** membership *)
Fixpoint re_mem (r : re) (l : list re) : bool :=
  match l with [] => false | x :: l' => re_eqb r x || re_mem r l' end.

(** without repetitions *)
Fixpoint dedup (l : list re) : list re :=
  match l with
  | [] => []
  | x :: l' => let d := dedup l' in if re_mem x d then d else x :: d
  end.

(** one character, for a list of alternatives *)
Definition step (c : N) (st : list re) : list re := dedup (flat_map (pderiv c) st).

(** can the match end here? *)
Definition accepts (st : list re) : bool := existsb nullable st.

(** Length of the longest prefix of [s] in the language of the state set. *)
Fixpoint longest (st : list re) (s : list N) : option nat :=
  let here := if accepts st then Some O else None in
  match s with
  | [] => here
  | c :: s' =>
    match step c st with
    | [] => here
    | st' => match longest st' s' with
             | Some n => Some (S n)
             | None => here
             end
    end
  end.

(** Does the whole of [s] match? *)
Fixpoint full_match (st : list re) (s : list N) : bool :=
  match s with
  | [] => accepts st
  | c :: s' => full_match (step c st) s'
  end.

(** ** Notation for writing rules *)
Definition ch (c : N) : re := Chr [(c, c)].
Definition rng (a b : N) : re := Chr [(a, b)].
Definition opt (r : re) : re := Alt r Eps.
Definition plus (r : re) : re := Seq r (Star r).
(** the text itself *)
Fixpoint lit (s : str) : re :=
  match s with
  | [] => Eps
  | [c] => ch c
  | c :: s' => Seq (ch c) (lit s')
  end.
(** a | b | ... *)
Fixpoint alts (l : list re) : re :=
  match l with
  | [] => Chr []
  | [r] => r
  | r :: l' => Alt r (alts l')
  end.
(** a b ... *)
Fixpoint seqs (l : list re) : re :=
  match l with
  | [] => Eps
  | [r] => r
  | r :: l' => Seq r (seqs l')
  end.
