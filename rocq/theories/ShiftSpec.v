(** * Specification: texts a shift operator to their left does not affect. *)
From Verif Require Import PyBase Regex Lexer LexSpec.

(** The tokens of dates and times, which exist after a shift operator only; among them "-". *)
Definition date_kind (k : kind) : bool :=
  match k with
  | TIMEZONE | TZ | HOUR_MINUTE_SECOND | HOUR_MINUTE | M_MINUS | DATE | T | TIMESTAMP => true
  | _ => false
  end.
(** Directly after a unit "." is a multiplication and there are no numbers with a point. *)
Definition not_after_unit (k : kind) : bool :=
  match k with FLOAT | PERIOD => true | _ => false end.

(** [unaffected after_unit ts], for tokens [ts] read after a shift operator: no token of a date
    or time, nothing with a point directly after a unit (up to a shift operator in [ts]
    that does not itself follow a unit directly). *)
Fixpoint unaffected (after_unit : bool) (ts : list token) : Prop :=
  match ts with
  | [] => True
  | t :: ts' =>
    date_kind (tkind t) = false /\ (after_unit = true -> not_after_unit (tkind t) = false) /\
    match tkind t with
    | SHIFT_OP => if after_unit then unaffected false ts' else True
    | ID => unaffected (negb after_unit) ts'
    | _ => unaffected false ts'
    end
  end.
