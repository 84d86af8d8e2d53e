(** * Properties of the Expander (C43, C44, C60). *)
From Coq Require Import Permutation.
From Verif Require Import PyBase PyNum Graph Expr Units UnitSpec ExpanderSpec Expander ExpanderFacts.
From Coq Require Import QArith.

Definition idn s := Identifier (u s).
Definition pw n k := Raise n (Number (NInt k) (Some (u "k"))).
(** (m s^2 3)/(s m^3 2) *)
Definition sample := Divide (Multiply (idn "m") (Multiply (pw (idn "s") 2) (Number (NInt 3) None))) (Multiply (idn "s") (Multiply (pw (idn "m") 3) (Number (NInt 2) None))).

Lemma proper_nonzero v r : proper_numbers (Number v r) -> ~ num_Q v == 0.
Proof. destruct v; cbn; auto; contradiction. Qed.

(** C43: expanding a product, quotient or integer power of units and numbers other than
    zero does not change its value, whatever the units stand for; and with int numbers it
    always succeeds. *)
Theorem C43_expansion_keeps_the_value n r rho : plain n -> proper_numbers n -> (forall s, ~ rho s == 0) ->
  expand n = Ok r -> value rho r == value rho n.
Proof.
  intros Pn N Nz E. destruct (chains_plain n Pn) as (c & C & F). unfold expand, chain_terms in E. rewrite C in E. cbn [bind fst snd] in E.
  destruct (steps [] (in_turn c)) as [t|] eqn:S; [|discriminate]. cbn [bind] in E. injection E as <-.
  assert (B : Forall (fun e => base_ok rho (fst e)) c).
  { apply (chains_leaves (base_ok rho) proper_numbers) with (n := n); auto.
    - intros v r' H. split; [reflexivity|]. cbn [value]. exact (proper_nonzero v r' H).
    - intro s. split; [reflexivity|]. apply Nz. }
  destruct (steps_value rho (in_turn c) [] t S) as [_ V]; [constructor| |].
  - eapply Permutation_Forall; [symmetry; apply in_turn_perm|exact B].
  - rewrite build_value, V, (chain_value_perm rho _ _ (in_turn_perm c)), (chains_value rho n Pn c C). cbn [terms_value]. ring.
Qed.
Theorem C43_expansion_succeeds n : plain n -> int_numbers n -> exists r, expand n = Ok r.
Proof.
  intros Pn N. destruct (chains_plain n Pn) as (c & C & F). unfold expand, chain_terms. rewrite C. cbn [bind fst snd].
  destruct (steps_total (in_turn c) []) as (t & ->); [constructor| |eexists; reflexivity].
  eapply Permutation_Forall; [symmetry; apply in_turn_perm|]. apply (chains_leaves int_base int_numbers) with (n := n); auto.
  all: intros; try exact I; cbn in *; tauto.
Qed.
Lemma chains_nonempty n c : plain n -> chains n = Ok (c, []) -> c <> [].
Proof.
  revert c. induction n as [r|v r|s|x IHx y _|x IHx y IHy|x IHx y IHy|x _ y _|f x _]; cbn [plain]; try contradiction; intros c P E; cbn [chains] in E.
  - now injection E as <-.
  - now injection E as <-.
  - destruct P as [P (z & r & ->)]. destruct (chains_plain x P) as (cx & Ex & _). rewrite Ex in E. cbn [bind fst snd] in E. injection E as <-.
    specialize (IHx cx P Ex). destruct cx; [contradiction|discriminate].
  - destruct P as [P Q]. destruct (chains_plain x P) as (cx & Ex & _), (chains_plain y Q) as (cy & Ey & _). rewrite Ex, Ey in E. cbn [bind fst snd app] in E. injection E as <-.
    specialize (IHx cx P Ex). destruct cx; [contradiction|discriminate].
  - destruct P as [P Q]. destruct (chains_plain x P) as (cx & Ex & _), (chains_plain y Q) as (cy & Ey & _). rewrite Ex, Ey in E. cbn [bind fst snd app] in E. injection E as <-.
    specialize (IHx cx P Ex). destruct cx; [contradiction|discriminate].
Qed.
Example C43_nontrivial : plain sample /\ proper_numbers sample /\ int_numbers sample /\
  expand sample = Ok (Multiply (Raise (Number (NInt 2) None) (Number (NInt (-1)) None)) (Multiply (Number (NInt 3) None)
     (Multiply (Raise (idn "m") (Number (NInt (-2)) None)) (idn "s")))).
Proof. repeat split; cbn; eauto; try discriminate; try (intro H; discriminate H). Qed.

(** ... a shift is expanded part by part. *)
Theorem C43_expansion_of_a_shift n o : plain n -> plain o ->
  expand (Shift n o) = (do a <- expand n ;; do b <- expand o ;; Ok (Shift a b)).
Proof.
  intros Pn Po. destruct (chains_plain n Pn) as (c & C & _), (chains_plain o Po) as (d & D & _).
  pose proof (chains_nonempty o d Po D) as Nd. unfold expand. cbn [chains]. rewrite C, D. cbn [bind fst snd app].
  destruct (chain_terms c); [|reflexivity]. cbn [bind]. destruct d; [contradiction|]. destruct (chain_terms _); reflexivity.
Qed.

(** C44: no unit is written twice in an expansion, and it is a product of units and numbers
    raised to integer powers other than 0 and 1, without quotients or nested powers. *)
Theorem C44_expansion_is_a_product_of_distinct_units n r : plain n -> typed_numbers n -> expand n = Ok r -> NoDup (written r) /\ product_form r.
Proof.
  intros Pn N E. destruct (chains_plain n Pn) as (c & C & F). unfold expand, chain_terms in E. rewrite C in E. cbn [bind fst snd] in E.
  destruct (steps [] (in_turn c)) as [t|] eqn:S; [|discriminate]. cbn [bind] in E. injection E as <-.
  assert (B : Forall (fun e => typed (fst e)) c).
  { apply (chains_leaves typed typed_numbers) with (n := n); auto. intros v r' H. destruct v; cbn in *; auto. intro s. reflexivity. }
  assert (St : stacked t).
  { apply (steps_stacked _ _ _ S); auto using in_turn_sorted.
    - eapply Permutation_Forall; [symmetry; apply in_turn_perm|exact B].
    - split; [constructor|]. split; constructor.
    - apply Forall_forall. constructor. }
  destruct St as (Fi & _ & Nd). split.
  - rewrite build_written. eapply Permutation_NoDup; [symmetry; apply seen_rev|exact Nd].
  - apply build_form. eapply Forall_impl; [|exact Fi]. intros a [_ H]. exact H.
Qed.
Example C44_nontrivial : plain sample /\ typed_numbers sample /\ written sample = [u "m"; u "s"; u "s"; u "m"].
Proof. repeat split; cbn; eauto. Qed.

(** C60: the expansion depends only on the exponents of the units: two products with the same
    net exponents expand to the same graph, however they are written, and conversely. *)
Theorem C60_expansion_is_canonical n m : plain n -> plain m -> no_numbers n -> no_numbers m ->
  (expand n = expand m <-> forall s, exponent n s = exponent m s).
Proof.
  intros Pn Pm Nn Nm. destruct (expand_powers n Pn Nn) as (l & E & D & T), (expand_powers m Pm Nm) as (l' & E' & D' & T'). split.
  - intros H s. rewrite <- T, <- T'. rewrite E, E' in H. injection H as H. now apply build_powers_inj.
  - intro H. rewrite E, E'. do 3 f_equal. apply descending_unique; auto. intro s. now rewrite T, T'.
Qed.
(** ... and each unit stands in it with its net exponent. *)
Theorem C60_expansion_has_the_net_exponents n r : plain n -> no_numbers n -> expand n = Ok r ->
  (forall s, exponent r s = exponent n s) /\ (forall s, In s (written r) <-> exponent n s <> 0%Z).
Proof.
  intros Pn Nn E. destruct (expand_powers n Pn Nn) as (l & E' & D & T). rewrite E in E'. injection E' as ->. split; intro s.
  - rewrite exponent_build. apply T.
  - rewrite <- T. rewrite build_written. rewrite (Permutation_in_iff' (seen_rev (map power l))). apply seen_powers. exact D.
Qed.
Example C60_nontrivial :
  let a := Divide (idn "m") (Multiply (idn "s") (idn "s")) in let b := Multiply (pw (pw (idn "s") (-1)) 2) (Divide (pw (idn "m") 2) (idn "m")) in
  plain a /\ plain b /\ no_numbers a /\ no_numbers b /\ a <> b /\ expand a = expand b /\
  expand a = Ok (Multiply (idn "m") (Raise (idn "s") (Number (NInt (-2)) None))) /\ exponent a (u "s") = (-2)%Z.
Proof. repeat split; cbn; eauto; discriminate. Qed.

Print Assumptions C43_expansion_keeps_the_value.
Print Assumptions C43_expansion_succeeds.
Print Assumptions C43_expansion_of_a_shift.
Print Assumptions C44_expansion_is_a_product_of_distinct_units.
Print Assumptions C60_expansion_is_canonical.
Print Assumptions C60_expansion_has_the_net_exponents.
