(** * The check that compares the generated automaton with the grammar's rules

    [joint_states m] explores, together, the configuration sets of the automaton and the
    partial derivatives of the rules of mode [m]; [check m] is a boolean that says that
    the two agree everywhere.  AtnFacts.v proves what a [true] means; the exploration
    itself needs no proof. *)
From Coq Require Import FMapPositive.
From Verif Require Import PyBase Regex Lexer Atn.
Local Open Scope Z_scope.

(** ** The rules of a mode, all at once *)
Definition rstate := list (kind * list re).

Definition live (p : kind * list re) : bool := match snd p with [] => false | _ => true end.

Definition mstep (c : N) (rs : rstate) : rstate :=
  filter live (map (fun p => (fst p, step c (snd p))) rs).

Definition macc (rs : rstate) : option kind :=
  option_map fst (find (fun p => accepts (snd p)) rs).

Definition minit (m : mode) : rstate := map (fun kr => (fst kr, [snd kr])) (rules m).

Definition mode_id (m : mode) : Z :=
  match m with DEFAULT_MODE => 0 | SHIFT_MODE => 1 | ID_SEEN => 2 end.

(** ** Character classes: all end points of ranges *)
Definition trans_ends (t : trans) : list Z :=
  match t with
  | TRange _ lo hi => [lo; hi + 1]
  | TAtom _ x => [x; x + 1]
  | TSet _ rs | TNotSet _ rs => flat_map (fun r => [fst r; snd r + 1]) rs
  | _ => []
  end.

Fixpoint re_ends (r : re) : list Z :=
  match r with
  | Eps => []
  | Chr rs => flat_map (fun r => [Z.of_N (fst r); Z.of_N (snd r) + 1]) rs
  | Alt a b | Seq a b => re_ends a ++ re_ends b
  | Star a => re_ends a
  end.

Fixpoint zmem (x : Z) (l : list Z) : bool :=
  match l with [] => false | y :: l' => (x =? y) || zmem x l' end.

Fixpoint znub (l : list Z) : list Z :=
  match l with [] => [] | x :: l' => if zmem x l' then znub l' else x :: znub l' end.

Definition atn_trans (A : atn) : list trans :=
  flat_map (fun p => st_trans (snd p)) (PositiveMap.elements (a_states A)).

Definition ends (A : atn) : list Z :=
  znub (0 :: 1114112 :: flat_map trans_ends (atn_trans A)
          ++ flat_map (fun m => flat_map (fun kr => re_ends (snd kr)) (rules m))
               [DEFAULT_MODE; SHIFT_MODE; ID_SEEN]).

(** The representatives of the classes: the end points that are characters. *)
Definition reps (B : list Z) : list Z := filter (fun b => (0 <=? b) && (b <=? 1114111)) B.

(** ** The joint exploration *)
Definition pair_ := (list config * rstate)%type.

Fixpoint re_list_eqb (a b : list re) : bool :=
  match a, b with
  | [], [] => true
  | x :: a', y :: b' => re_eqb x y && re_list_eqb a' b'
  | _, _ => false
  end.

Fixpoint rstate_eqb (a b : rstate) : bool :=
  match a, b with
  | [], [] => true
  | (k, x) :: a', (k', y) :: b' => kind_eqb k k' && re_list_eqb x y && rstate_eqb a' b'
  | _, _ => false
  end.

Definition pair_eqb (p q : pair_) : bool :=
  list_eqb config_eqb (fst p) (fst q) && rstate_eqb (snd p) (snd q).

Definition pmem (p : pair_) (l : list pair_) : bool := existsb (pair_eqb p) l.

Definition successors (A : atn) (B : list Z) (p : pair_) : list pair_ :=
  flat_map (fun b => match target A (fst p) b with
                     | Some (c :: cs) => [(c :: cs, mstep (Z.to_N b) (snd p))]
                     | _ => []
                     end) B.

Fixpoint explore (A : atn) (fuel : nat) (B : list Z) (todo seen : list pair_) : list pair_ :=
  match fuel with
  | O => seen
  | S f =>
    match todo with
    | [] => seen
    | p :: todo' =>
      if pmem p seen then explore A f B todo' seen
      else explore A f B (successors A B p ++ todo') (p :: seen)
    end
  end.

Definition start_pair (A : atn) (m : mode) : pair_ :=
  (match start_configs A (mode_id m) with Some cs => cs | None => [] end, minit m).

Definition joint_states (A : atn) (m : mode) : list pair_ :=
  explore A (Z.to_nat 100000) (reps (ends A)) [start_pair A m] [].

(** ** The check *)
Fixpoint re_respects (B : list Z) (r : re) : bool :=
  match r with
  | Eps => true
  | Chr rs => forallb (fun r => zmem (Z.of_N (fst r)) B && zmem (Z.of_N (snd r) + 1) B) rs
  | Alt a b | Seq a b => re_respects B a && re_respects B b
  | Star a => re_respects B a
  end.

Definition trans_respects (B : list Z) (t : trans) : bool :=
  forallb (fun x => zmem x B) (trans_ends t).

Definition is_pop (a : action) : bool := match a with APopMode => true | _ => false end.

(** The token and the next mode that the automaton's answer stands for are those of the
    rules. *)
Definition same_answer (m : mode) (a : option (Z * list action)) (k : option kind) : bool :=
  match a, k with
  | None, None => true
  | Some (ty, acts), Some k =>
    match run_actions (mkRegs 0 (mode_id m) []) acts with
    | Some r =>
      negb (existsb is_pop acts)
      && ((if r_type r =? 0 then ty else r_type r) =? Z.of_N (kind_id k))
      && (r_mode r =? mode_id (next_mode m k))
    | None => false
    end
  | _, _ => false
  end.

Definition empty_with {X Y} (a : list X) (b : list Y) : bool :=
  match a, b with [], [] => true | _, _ => false end.

Definition check_pair (A : atn) (m : mode) (B : list Z) (R : list pair_) (p : pair_) : bool :=
  forallb (fun q => forallb (re_respects B) (snd q)) (snd p)
  && same_answer m (accepted A (fst p)) (macc (snd p))
  && forallb (fun b =>
       match target A (fst p) b with
       | Some cs' => let rs' := mstep (Z.to_N b) (snd p) in
                     empty_with cs' rs'
                     || (match cs', rs' with _ :: _, _ :: _ => pmem (cs', rs') R
                         | _, _ => false end)
       | None => false
       end) (reps B).

Definition check_mode (A : atn) (m : mode) (B : list Z) (R : list pair_) : bool :=
  match start_configs A (mode_id m) with
  | Some cs => pmem (cs, minit m) R
  | None => false
  end
  && forallb (check_pair A m B R) R.

Definition check_ends (A : atn) (B : list Z) : bool :=
  zmem 0 B && zmem 1114112 B && forallb (trans_respects B) (atn_trans A).

Definition check (A : atn) : bool :=
  let B := ends A in
  check_ends A B
  && forallb (fun m => check_mode A m B (joint_states A m)) [DEFAULT_MODE; SHIFT_MODE; ID_SEEN].
