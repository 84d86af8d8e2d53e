(** * Specification: what can be wrong with a query or a text.

    A fault of a query names the exception it leads to.  Nothing here says in which order
    the identifiers of a definition are looked up, nor does it compute with states: a query
    has a fault if it has no reading, if the text defining it does not parse, if a word
    mentioned in that text has one, or if every mentioned word has a unit but the unit they
    should make together cannot be made. *)
From Verif Require Import PyBase PyNum Graph Visitor Expr Units UnitSystem SystemSpec.

Section Faults.
Variable s : system.

Inductive fault : str -> exn -> Prop :=
| Fa_no_reading q : unreadable s q -> fault q (EUnresolvable q)
| Fa_syntax q l e : defined_by s q l -> parse (lz_def l) = Err e -> fault q e
| Fa_mentioned q k e : mentions s q k -> fault k e -> fault q e
| Fa_unit q l g ord refs e : defined_by s q l -> parse (lz_def l) = Ok g ->
    rearranges ord -> refs_mean ord s (ord (identifiers g)) refs ->
    mk_unit g refs = Err e -> fault q e
| Fa_prefix q key p k en ord x e : reading s q (Some (key, p, k)) en ->
    rearranges ord -> entry_means ord s en x -> prefixed_unit key p k x = Err e -> fault q e.

Inductive text_fault (t : str) : exn -> Prop :=
| Tf_syntax e : parse t = Err e -> text_fault t e
| Tf_mentioned g k e : parse t = Ok g -> In k (identifiers g) -> fault k e -> text_fault t e
| Tf_unit g ord refs e : parse t = Ok g -> rearranges ord -> refs_mean ord s (ord (identifiers g)) refs ->
    unit_from_expression g refs = Err e -> text_fault t e.
End Faults.

(** Every word that stands for a definition stands for one the system has. *)
Definition whole (s : system) : Prop :=
  forall k i, known s k (ELazy i) -> exists l, nth_error (s_lazies s) i = Some l.
