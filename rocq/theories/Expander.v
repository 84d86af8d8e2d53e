(** * Expander: pyudunits2/_expr/expander.py:14-240 (the class is not used by the rest of
    the package; SimplifyingVisitor, 243-308, is neither used nor modelled). *)
From Verif Require Import PyBase PyNum Graph.
From Coq Require Import QArith.
Open Scope Z_scope.

(** A chain: terminals with the power they are raised to, in insertion order
    (ChainedExpr._chain, 14-20).  Powers that are not int (a Decimal or text exponent in the
    graph) are outside the model. *)
Definition chain := list (node * Z).
Definition scaled (k : Z) (c : chain) : chain := map (fun e => (fst e, snd e * k)) c.

(** Expander.visit_internal on a fresh context: the terms and the offset terms it adds
    (154-240).  Unhandled and Logarithm have no visit method: NotImplementedError. *)
Fixpoint chains (n : node) : res (chain * chain) :=
  match n with
  | Identifier _ | Number _ _ => Ok ([(n, 1)], [])                       (* 211-215 *)
  | Multiply a b =>                                                      (* 179-189 *)
    do ea <- chains a ;; do eb <- chains b ;; Ok (fst ea ++ fst eb, snd ea ++ snd eb)%list
  | Divide a b =>                                                        (* 191-201: only the terms are inverted *)
    do ea <- chains a ;; do eb <- chains b ;; Ok (fst ea ++ scaled (-1) (fst eb), snd ea ++ snd eb)%list
  | Raise a b =>                                                         (* 217-225 *)
    do ea <- chains a ;;
    match b with
    | Number (NInt k) _ => Ok (scaled k (fst ea), scaled k (snd ea))
    | Number _ _ => Err EOutOfModel
    | _ => Err EAssertion
    end
  | Shift a b =>                                                         (* 227-239 *)
    do ea <- chains a ;; do eb <- chains b ;;
    match snd eb with
    | [] => Ok (fst ea, snd ea ++ fst eb)%list
    | _ :: _ => Err (EValue VE_bad_date)  (* ValueError("Chain:", ...); the message kind is not modelled *)
    end
  | Unhandled _ | Logarithm _ _ => Err ENotImplemented                   (* 154-155 *)
  end.

(** The sort key, 25-31: str(type(content)) and str(content). *)
Definition type_text (n : node) : str :=
  match n with
  | Number (NInt _) _ => u "<class 'int'>"
  | Number (NDec _) _ => u "<class 'decimal.Decimal'>"
  | _ => u "<class 'str'>"
  end.
(** the key function, 27-30 *)
Definition key (n : node) : str * str := (type_text n, node_str n).

(** str comparison: by code point *)
Fixpoint str_le (a b : str) : bool :=
  match a, b with
  | [], _ => true
  | _ :: _, [] => false
  | x :: a', y :: b' => (x <? y)%N || ((x =? y)%N && str_le a' b')
  end.
(** comparison of two keys: tuples of two strings *)
Definition key_le (a b : str * str) : bool :=
  if str_eqb (fst a) (fst b) then str_le (snd a) (snd b) else str_le (fst a) (fst b).

(** stable ascending sort *)
Fixpoint insert (e : node * Z) (l : chain) : chain :=
  match l with
  | [] => [e]
  | x :: l' => if key_le (key (fst e)) (key (fst x)) then e :: l else x :: insert e l'
  end.
(** sorted(...), 25-32 *)
Definition sort (l : chain) : chain := fold_right insert [] l.

(** sorted(chain, reverse=True) keeps the order of equal elements; iterating over its
    reverse (37) is the stable ascending sort of the reversed chain *)
Definition in_turn (c : chain) : chain := sort (rev c).

(** [==] on terminals: dataclass equality (same class, equal fields); numbers of different
    type compare by value *)
Definition numv_eqb (a b : numv) : bool :=
  match a, b with
  | NInt x, NInt y => x =? y
  | NDec x, NDec y => Qeq_bool (dec_Q x) (dec_Q y)
  | NInt x, NDec y => Qeq_bool (inject_Z x) (dec_Q y)
  | NDec x, NInt y => Qeq_bool (dec_Q x) (inject_Z y)
  | NStr x, NStr y => str_eqb x y
  | _, _ => false
  end.
(** == of the raw_content fields (graph.py, class Number): str or None *)
Definition raw_eqb (a b : option str) : bool :=
  match a, b with
  | Some x, Some y => str_eqb x y
  | None, None => true
  | _, _ => false
  end.
(** last_term == node, 56 and 107 *)
Definition term_eqb (a b : node) : bool :=
  match a, b with
  | Identifier x, Identifier y => str_eqb x y
  | Number v r, Number v' r' => numv_eqb v v' && raw_eqb r r'
  | _, _ => false
  end.

(** [a.content * b.content ** k] for k > 0 and contents of one type, 89-97.  Decimal
    arithmetic is modelled where it is exact: at most 28 digits and a moderate exponent
    (default context); elsewhere it rounds or overflows, outside the model. *)
Definition dec_exact (d : dec) : res dec :=
  let adj := dexp d + Z.of_nat (List.length (N_str (dcoef d))) - 1 in
  if (Nat.leb (List.length (N_str (dcoef d))) 28) && (adj <=? 999999) && (-999999 <=? adj) then Ok d else Err EOutOfModel.
(** Decimal * Decimal, exact (28 digits at most: see [mul_pow]) *)
Definition dec_mul (a b : dec) : dec := mkDec (xorb (dneg a) (dneg b)) (dcoef a * dcoef b) (dexp a + dexp b).
(** Decimal ** int, exact *)
Definition dec_pow (a : dec) (k : Z) : dec := mkDec (dneg a && Z.odd k) (dcoef a ^ Z.to_N k) (dexp a * k).
(** last_term.content * (node.content**raised_to), 95 *)
Definition mul_pow (a b : numv) (k : Z) : res numv :=
  match a, b with
  | NInt x, NInt y => Ok (NInt (x * y ^ k))
  | NDec x, NDec y => do p <- dec_exact (dec_pow y k) ;; do m <- dec_exact (dec_mul x p) ;; Ok (NDec m)
  | _, _ => Err EType
  end.
(** type(node.content) is type(last_term.content), 85 *)
Definition same_type (a b : numv) : bool :=
  match a, b with NInt _, NInt _ | NDec _, NDec _ | NStr _, NStr _ => true | _, _ => false end.

(** Raise(node, Number(k, raw_content=None)), 42-44, 71-74, 126-129 *)
Definition raised (n : node) (k : Z) : node := Raise n (Number (NInt k) None).

(** One turn of the loop, 37-137; [terms] with the last one first. *)
Definition step (terms : list node) (e : node * Z) : res (list node) :=
  let (nd, k) := e in
  if k =? 0 then Ok terms                                                (* 39-40 *)
  else
    let term := if k =? 1 then nd else raised nd k in                    (* 41-44 *)
    match terms with
    | [] => Ok [term]                                                    (* 46-52 *)
    | last :: rest =>
      if is_terminal last && term_eqb last nd then                       (* 56-79 *)
        if k + 1 =? 0 then Ok rest else Ok (raised nd (k + 1) :: rest)
      else
        match last with
        | Number v _ =>                                                  (* 81-102 *)
          match nd with
          | Number v' _ => if same_type v v' && (0 <? k)
                           then do w <- mul_pow v v' k ;; Ok (Number w None :: rest)
                           else Ok (term :: terms)
          | _ => Ok (term :: terms)
          end
        | Raise a (Number x _) =>                                        (* 104-134 *)
          if term_eqb a nd then
            match x with
            | NInt m => if m + k =? 0 then Ok rest
                        else if m + k =? 1 then Ok (a :: rest)
                        else Ok (raised nd (m + k) :: rest)
            | _ => Err EOutOfModel
            end
          else Ok (term :: terms)
        | _ => Ok (term :: terms)                                        (* 136-137 *)
        end
    end.

Fixpoint steps (terms : list node) (c : chain) : res (list node) :=
  match c with
  | [] => Ok terms
  | e :: c' => do t <- step terms e ;; steps t c'
  end.

(** 139-146 *)
Definition build (terms : list node) : node :=
  match terms with
  | [] => Number (NInt 1) None
  | last :: rest => fold_left (fun r t => Multiply t r) rest last
  end.

(** ChainedExpr.terms, 22-146 *)
Definition chain_terms (c : chain) : res node := do t <- steps [] (in_turn c) ;; Ok (build t).

(** Expander().visit(n), 157-165 *)
Definition expand (n : node) : res node :=
  do eo <- chains n ;;
  do t <- chain_terms (fst eo) ;;
  match snd eo with
  | [] => Ok t
  | o => do s <- chain_terms o ;; Ok (Shift t s)
  end.
