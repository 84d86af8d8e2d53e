(** * Graph visitors: pyudunits2/_expr/{atoms,dimensionality,split,substitute}.py *)
From Verif Require Import PyBase PyNum Graph.

(** ** ExtractIdentifiers, atoms.py:61-72.
    A Python set; as a list without repetition in order of first occurrence.  The order in
    which the set is iterated is an explicit parameter of its users. *)
Fixpoint str_mem (s : str) (l : list str) : bool :=
  match l with [] => false | x :: l' => str_eqb s x || str_mem s l' end.

(** set.update, atoms.py:67-72 *)
Definition set_union (a b : list str) : list str :=
  a ++ filter (fun x => negb (str_mem x a)) b.

(** ExtractIdentifiers, atoms.py:61-72 *)
Fixpoint identifiers (n : node) : list str :=
  match n with
  | Identifier s => [s]
  | Unhandled _ | Number _ _ => []
  | Raise a b | Multiply a b | Divide a b | Shift a b =>
    set_union (identifiers a) (identifiers b)
  | Logarithm _ t => identifiers t
  end.

(** ** DimensionalityCounter, dimensionality.py:6-48.
    Orders are ints, or strs when a superscript exponent (a str) got multiplied in. *)
Inductive order :=
| OInt (z : Z)
| OStr (s : str).

(** Python's +, - and * on those values; int*Decimal is outside the model (the grammar
    has no decimal exponents, proved in VisitorProofs.v). *)
Definition order_add (a b : order) : res order :=
  match a, b with
  | OInt x, OInt y => Ok (OInt (x + y))
  | OStr x, OStr y => Ok (OStr (x ++ y))
  | _, _ => Err EType
  end.

(** scope.get(k, 0) - v, dimensionality.py:30-32 *)
Definition order_sub (a b : order) : res order :=
  match a, b with
  | OInt x, OInt y => Ok (OInt (x - y))
  | _, _ => Err EType
  end.

(** order * node.rhs.content, dimensionality.py:35-40 *)
Definition order_mul (a : order) (v : numv) : res order :=
  match a, v with
  | OInt x, NInt y => Ok (OInt (x * y))
  | OInt x, NStr s => Ok (OStr (str_repeat s x))
  | OStr s, NInt y => Ok (OStr (str_repeat s y))
  | OStr _, NStr _ => Err EType
  | OInt _, NDec _ => Err EOutOfModel
  | OStr _, NDec _ => Err EType
  end.

(** the dicts of DimensionalityCounter: identifier to order, dimensionality.py:9-10 *)
Definition scope := dict order.

(** dimensionality.py:21-25 and 27-33: for each item of the right scope update the left. *)
Fixpoint scope_merge (op : order -> order -> res order) (l r : scope) : res scope :=
  match r with
  | [] => Ok l
  | (k, o) :: r' =>
    do o' <- op (match dget k l with Some x => x | None => OInt 0 end) o ;;
    scope_merge op (dset k o' l) r'
  end.

(** visit_Raise, dimensionality.py:35-40: every order times the exponent *)
Fixpoint scope_scale (v : numv) (l : scope) : res scope :=
  match l with
  | [] => Ok []
  | (k, o) :: l' => do o' <- order_mul o v ;; do l'' <- scope_scale v l' ;; Ok ((k, o') :: l'')
  end.

(** DimensionalityCounter, dimensionality.py:7-48 *)
Fixpoint count (n : node) : res scope :=
  match n with
  | Number _ _ => Ok []                                   (* 15-16 *)
  | Identifier s => Ok [(s, OInt 1)]                      (* 18-19 *)
  | Multiply a b => do l <- count a ;; do r <- count b ;; scope_merge order_add l r
  | Divide a b => do l <- count a ;; do r <- count b ;; scope_merge order_sub l r
  | Raise a b =>                                          (* 35-40 *)
    match b with
    | Number v _ => do l <- count a ;; scope_scale v l
    | _ => Err EAssertion
    end
  | Shift a _ => count a                                  (* 42-44 *)
  | Logarithm _ t => count t                              (* 46-48 *)
  | Unhandled _ => Err ENotImplemented                    (* 12-13 *)
  end.

(** ** SplitExpr, split.py:11-84.  [root] is [node is self._root_node]. *)
Definition value_id : node := Identifier (u "value").

Fixpoint split (root : bool) (n : node) : res (option node * node) :=
  match n with
  | Unhandled _ | Number _ _ | Identifier _ => Ok (None, n)          (* 33-36 *)
  | Shift a s =>                                                     (* 38-51 *)
    do td <- split false a ;;
    let t1 := match fst td with None => value_id | Some t => t end in
    if root then Ok (Some (Shift t1 s), snd td) else Ok (Some t1, snd td)
  | Raise a b =>                                                     (* 53-57 *)
    do td1 <- split false a ;;
    do td2 <- split false b ;;
    match fst td2 with
    | Some _ => Err EAssertion
    | None => Ok (fst td1, Raise (snd td1) (snd td2))
    end
  | Multiply a b =>                                                  (* 59-71 *)
    do td1 <- split false a ;;
    do td2 <- split false b ;;
    match fst td1, fst td2 with
    | Some _, Some _ => Err (EValue VE_two_transforms)
    | Some t1, None => Ok (Some (Multiply t1 (snd td2)), snd td1)
    | None, Some t2 => Ok (Some (Multiply (snd td1) t2), snd td2)
    | None, None => Ok (None, Multiply (snd td1) (snd td2))
    end
  | Divide a b =>                                                    (* 73-78 *)
    do td1 <- split false a ;;
    do td2 <- split false b ;;
    match fst td1, fst td2 with
    | Some _, Some _ => Err (EValue VE_two_transforms)
    | Some t1, None => Ok (Some t1, Divide (snd td1) (snd td2))
    | None, t2 => Ok (t2, Divide (snd td1) (snd td2))
    end
  | Logarithm f a =>                                                 (* 80-84 *)
    do td <- split false a ;;
    let t1 := match fst td with None => value_id | Some t => t end in
    Ok (Some (Logarithm f t1), snd td)
  end.

(** SplitExpr(n).visit(n) *)
Definition split_root (n : node) := split true n.

(** ** Substitute, substitute.py:6-36 *)
Fixpoint subst (m : dict node) (n : node) : node :=
  match n with
  | Identifier s => match dget s m with Some x => x | None => n end
  | Unhandled _ | Number _ _ => n
  | Shift a b => Shift (subst m a) (subst m b)
  | Raise a b => Raise (subst m a) (subst m b)
  | Multiply a b => Multiply (subst m a) (subst m b)
  | Divide a b => Divide (subst m a) (subst m b)
  | Logarithm f t => Logarithm f (subst m t)
  end.
