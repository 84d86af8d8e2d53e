(** * Integers and decimal.Decimal as text. *)
From Verif Require Import PyBase.
From Coq Require Import QArith.

Open Scope N_scope.

(** ** Decimal digits *)
Definition is_digit (c : N) : bool := (48 <=? c) && (c <=? 57).

Definition digits_value (ds : str) : N :=
  fold_left (fun acc c => acc * 10 + (c - 48)) ds 0.

(** str(n) for a natural number: most significant digit first. *)
Fixpoint digits_rev (fuel : nat) (n : N) : str :=
  match fuel with
  | O => []
  | S f => if n <? 10 then [48 + n]
           else (48 + n mod 10) :: digits_rev f (n / 10)
  end.

(** str(n) *)
Definition N_str (n : N) : str := rev (digits_rev (S (N.to_nat (N.log2 n))) n).

(** str(z) *)
Definition Z_str (z : Z) : str :=
  match z with
  | Z0 => [48]
  | Zpos p => N_str (Npos p)
  | Zneg p => 45 :: N_str (Npos p)
  end.

(** "%+d" % z *)
Definition Z_str_signed (z : Z) : str :=
  match z with
  | Z0 => [43; 48]
  | Zpos p => 43 :: N_str (Npos p)
  | Zneg p => 45 :: N_str (Npos p)
  end.

(** [("", rest)] sign and rest *)
Definition split_sign (s : str) : bool * str :=
  match s with
  | c :: s' => if c =? 45 then (true, s') else if c =? 43 then (false, s') else (false, s)
  | [] => (false, [])
  end.

(** helper of the readers below: the leading digits and the rest *)
Fixpoint take_digits (s : str) : str * str :=
  match s with
  | c :: s' => if is_digit c then let (a, b) := take_digits s' in (c :: a, b) else ([], s)
  | [] => ([], [])
  end.

(** [int(c)] on the text of an INT or SIGNED_INT token (_grammar/__init__.py:50,57).
    CPython refuses more than 4300 digits.  Texts that are not [+-]?[0-9]+ are outside
    the model (the tokeniser never produces them for these tokens). *)
Definition py_int (s : str) : res Z :=
  let (neg, r) := split_sign s in
  let (ds, rest) := take_digits r in
  match ds, rest with
  | _ :: _, [] =>
    if (4300 <? N.of_nat (List.length ds)) then Err (EValue VE_int_digits)
    else let v := Z.of_N (digits_value ds) in Ok (if neg then (- v)%Z else v)
  | _, _ => Err EOutOfModel
  end.

(** ** decimal.Decimal: (-1)^neg * coef * 10^exp *)
Record dec := mkDec { dneg : bool; dcoef : N; dexp : Z }.

Definition dec_digits (d : dec) : str := N_str (dcoef d).

(** Limits of the C implementation on 64-bit builds: exact construction fails outside. *)
Definition dec_emax : Z := 999999999999999999.
Definition dec_etiny : Z := -1999999999999999997.

(** optional exponent part: [Ee][+-]?[0-9]+ to the end of the text *)
Definition parse_exp (s : str) : res Z :=
  match s with
  | [] => Ok 0%Z
  | c :: r =>
    if (c =? 69) || (c =? 101) then
      let (neg, r1) := split_sign r in
      let (ds, rest) := take_digits r1 in
      match ds, rest with
      | _ :: _, [] => let v := Z.of_N (digits_value ds) in Ok (if neg then (- v)%Z else v)
      | _, _ => Err EOutOfModel
      end
    else Err EOutOfModel
  end.

(** [Decimal(c)] for c in the syntax of the FLOAT token (_grammar/__init__.py:44) and of
    the prefix values in the XML (_unit_reference.py:24): [+-]?digits?(.digits?)?(e..)?.
    Other texts Python's constructor accepts (inf, nan, underscores) are outside the model. *)
Definition py_decimal (s : str) : res dec :=
  let (neg, r) := split_sign s in
  let (ip, r1) := take_digits r in
  let (fp, r2) := match r1 with
                  | c :: r' => if c =? 46 then take_digits r' else ([], r1)
                  | [] => ([], [])
                  end in
  match ip ++ fp with
  | [] => Err EOutOfModel
  | _ :: _ =>
    do e <- parse_exp r2 ;;
    let coef := digits_value (ip ++ fp) in
    let ex := (e - Z.of_nat (List.length fp))%Z in
    let adj := (ex + Z.of_nat (List.length (N_str coef)) - 1)%Z in
    if (dec_emax <? adj)%Z || (ex <? dec_etiny)%Z then Err EInvalidOperation
    else Ok (mkDec neg coef ex)
  end.

(** n times the character 0 *)
Definition zeros (n : Z) : str := List.repeat 48 (Z.to_nat n).

(** [str(d)]: the to-scientific-string rule of the decimal module. *)
Definition dec_str (d : dec) : str :=
  let ds := dec_digits d in
  let len := Z.of_nat (List.length ds) in
  let left := (dexp d + len)%Z in
  let dot := if (dexp d <=? 0)%Z && (-6 <? left)%Z then left else 1%Z in
  let body :=
    if (dot <=? 0)%Z then [48; 46] ++ zeros (- dot) ++ ds
    else if (len <=? dot)%Z then ds ++ zeros (dot - len)
    else firstn (Z.to_nat dot) ds ++ [46] ++ skipn (Z.to_nat dot) ds in
  let ex := if (left =? dot)%Z then [] else 69 :: Z_str_signed (left - dot) in
  (if dneg d then [45] else []) ++ body ++ ex.

(** The exact rational value. *)
Definition Qpow10 (e : Z) : Q := Qpower (10 # 1) e.

Definition dec_Q (d : dec) : Q :=
  let c := inject_Z (Z.of_N (dcoef d)) in
  Qred ((if dneg d then - c else c) * Qpow10 (dexp d))%Q.
