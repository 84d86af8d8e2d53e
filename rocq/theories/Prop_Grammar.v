(** * C03, C04: the parser and the published grammar. *)
From Verif Require Import PyBase Lexer Parser GrammarSpec ParserFacts ParserComplete.

(** C03.  A token sequence is accepted iff unit_spec derives it. *)
Theorem C03_accepts_exactly_the_grammar :
  forall ts, (exists t, p_unit ts = Some t) <-> (exists t, derives Unit_spec ts t).
Proof. exact p_unit_accepts. Qed.

(** C03/C04.  The tree returned is the derivation that follows the documented precedence. *)
Theorem C03_returns_the_preferred_derivation :
  forall ts t, p_unit ts = Some t <-> derives Unit_spec ts t /\ preferred t.
Proof. exact p_unit_exact. Qed.

(** C04.  At most one reading. *)
Theorem C04_one_preferred_reading :
  forall ts t1 t2, derives Unit_spec ts t1 -> preferred t1 ->
                   derives Unit_spec ts t2 -> preferred t2 -> t1 = t2.
Proof. exact preferred_unique. Qed.

(** C04.  ... and at least one, whenever the grammar has any. *)
Theorem C04_a_preferred_reading_exists :
  forall ts t, derives Unit_spec ts t -> exists t', derives Unit_spec ts t' /\ preferred t'.
Proof. intros ts t H. exact (preferred_exists Unit_spec ts t H). Qed.

(** The ambiguity is real: [m2] has two derivations, and the second is not preferred. *)
Definition tm := mkTok ID (u "m").
Definition t2 := mkTok INT (u "2").
Definition lg_m := PNode Logarithm_r [PNode Basic_spec [PLeaf tm]].
Definition lg_2 := PNode Logarithm_r [PNode Basic_spec [PNode Number_r [mk_integer t2]]].
Definition m_squared :=
  PNode Unit_spec [PNode Shift_spec [PNode Product [PNode Power [lg_m; mk_integer t2]]]; PEOF].
Definition m_times_2 :=
  PNode Unit_spec [PNode Shift_spec
    [PNode Product [PNode Product [PNode Power [lg_m]]; PNode Power [lg_2]]]; PEOF].

Lemma C04_example_two_derivations :
  derives Unit_spec [tm; t2] m_squared /\ derives Unit_spec [tm; t2] m_times_2.
Proof.
  split.
  - do 3 constructor. apply (D_power_integer [tm] lg_m [t2]); repeat constructor.
  - do 2 constructor. apply (D_product_juxtaposed [tm] _ [t2]); repeat constructor.
Qed.

Example C04_example_chosen : p_unit [tm; t2] = Some m_squared.
Proof. vm_compute. reflexivity. Qed.

Print Assumptions C03_accepts_exactly_the_grammar.
Print Assumptions C03_returns_the_preferred_derivation.
Print Assumptions C04_one_preferred_reading.
Print Assumptions C04_a_preferred_reading_exists.
