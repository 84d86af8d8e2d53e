(** * C90, C91: texts written out in basis units, and the conversions between them. *)
From Verif Require Import PyBase PyNum Graph RegexFacts Visitor Expr Units UnitSystem UnitSpec UnitFacts UnitProofs
  SystemSpec SystemFacts SystemProofs SystemMore SystemKeep SystemOrd Prop_System Sympy Convert ConvertSpec ConvertProofs ConvertMore Prop_Convert
  Xml XmlSpec XmlFacts XmlPrefix XmlStrict Prop_Xml XmlData Database Prop_Database Rounding Prop_Rounding BaseSpec BaseFacts.
From Coq Require Import Permutation Lia QArith Reals Qreals.
Local Open Scope list_scope.

(** ** Any system *)

(** C90.  A text that can be written out in basis units, to an expression [e] with a meaning, is
    accepted by unit(...), and the unit returned expands to [e]; after any calls. *)
Theorem C90_texts_are_what_they_are_written_out_to :
  forall ord s dl tm t e, rearranges ord -> clash_free s -> orderly dl tm s ->
  base_text s t e -> measurable e -> timeless dl tm e ->
  exists x, describable dl x e /\
    forall history, exists enough, forall stack, (enough <= stack)%nat ->
      fst (sys_unit ord stack t (after ord s history)) = Ok (AUnit x).
Proof.
  intros ord s dl tm t e Po C Or B Me Ti. destruct (base_text_means ord s dl tm Po Or t e B Me Ti) as (x & M & D).
  exists x. split; [exact D |]. intros history.
  destruct (C34_meanings_unchanged ord s history C) as [_ U]. apply U in M.
  destruct (C32_lookup_returns_the_meaning ord (after ord s history) (after_clash_free ord s history C)) as (_ & _ & _ & H).
  exact (H t (AUnit x) M).
Qed.

(** Written out in one way only. *)
Lemma known_unique s q e e' : known s q e -> known s q e' -> e = e'.
Proof. intros A B. apply known_iff in A. apply known_iff in B. congruence. Qed.

Lemma base_unique s : (forall q e, base_form s q e -> forall e', base_form s q e' -> e' = e) /\
                      (forall g e, base_expr s g e -> forall e', base_expr s g e' -> e' = e).
Proof.
  pose (P0 := fun q e (_ : base_form s q e) => forall e', base_form s q e' -> e' = e).
  pose (P1 := fun g e (_ : base_expr s g e) => forall e', base_expr s g e' -> e' = e).
  assert (Kr : forall q e0 pre ent, known s q e0 -> reading s q pre ent -> pre = None /\ ent = e0).
  { intros q e0 pre ent K R. destruct (reading_unique s q _ _ _ _ R (Rd_word s q e0 K)). auto. }
  assert (C1 : forall q r d it names K, P0 _ _ (Bf_basis s q r d it names K)).
  { intros q r d it names K e' H. inversion H as [q0 r0 d0 it0 n0 K0 | q0 i l g e0 K0 _ _ _ | q0 key p k ent dd e0 R0 _ _ _]; subst.
    - pose proof (known_unique s q _ _ K K0) as Q. now injection Q as <-.
    - pose proof (known_unique s q _ _ K K0) as Q. discriminate Q.
    - destruct (Kr q _ _ _ K R0) as [Q _]. discriminate Q. }
  assert (C2 : forall q i l g e K N Pa (B : base_expr s g e), P1 g e B -> P0 _ _ (Bf_defined s q i l g e K N Pa B)).
  { intros q i l g e K N Pa B IH e' H. inversion H as [q0 r0 d0 it0 n0 K0 | q0 i0 l0 g0 e0 K0 N0 Pa0 B0 | q0 key p k ent dd e0 R0 _ _ _]; subst.
    - pose proof (known_unique s q _ _ K K0) as Q. discriminate Q.
    - pose proof (known_unique s q _ _ K K0) as Q. injection Q as <-. rewrite N in N0. injection N0 as <-.
      rewrite Pa in Pa0. injection Pa0 as <-. now apply IH.
    - destruct (Kr q _ _ _ K R0) as [Q _]. discriminate Q. }
  assert (C3 : forall q key p k ent d e Rd Ne Pd (B : base_form s k e), P0 k e B ->
                 P0 _ _ (Bf_prefixed s q key p k ent d e Rd Ne Pd B)).
  { intros q key p k ent d e Rd Ne Pd B IH e' H. inversion H as [q0 r0 d0 it0 n0 K0 | q0 i0 l0 g0 e0 K0 N0 Pa0 B0 | q0 key0 p0 k0 ent0 dd e0 R0 _ Pd0 B0]; subst.
    - destruct (Kr q _ _ _ K0 Rd) as [Q _]. discriminate Q.
    - destruct (Kr q _ _ _ K0 Rd) as [Q _]. discriminate Q.
    - destruct (reading_unique s q _ _ _ _ Rd R0) as [Q _]. injection Q as <- <- <-. rewrite Pd in Pd0. injection Pd0 as <-.
      now rewrite (IH e0 B0). }
  assert (D1 : forall v r, P1 _ _ (Be_number s v r)).
  { intros v r e' H. now inversion H. }
  assert (D2 : forall k e (B : base_form s k e), P0 k e B -> P1 _ _ (Be_name s k e B)).
  { intros k e B IH e' H. inversion H; subst. now apply IH. }
  assert (D3 : forall a b a' b' (A : base_expr s a a'), P1 _ _ A -> forall (B : base_expr s b b'), P1 _ _ B ->
                 P1 _ _ (Be_multiply s a b a' b' A B)).
  { intros a b a' b' A HA B HB e' H. inversion H as [| | ? ? a1 b1 A1 B1 | | | |]; subst. now rewrite (HA a1 A1), (HB b1 B1). }
  assert (D4 : forall a b a' b' (A : base_expr s a a'), P1 _ _ A -> forall (B : base_expr s b b'), P1 _ _ B ->
                 P1 _ _ (Be_divide s a b a' b' A B)).
  { intros a b a' b' A HA B HB e' H. inversion H as [| | | ? ? a1 b1 A1 B1 | | |]; subst. now rewrite (HA a1 A1), (HB b1 B1). }
  assert (D5 : forall a a' v r (A : base_expr s a a'), P1 _ _ A -> P1 _ _ (Be_raise s a a' v r A)).
  { intros a a' v r A HA e' H. inversion H as [| | | | ? a1 ? ? A1 | |]; subst. now rewrite (HA a1 A1). }
  assert (D6 : forall a a' v r (A : base_expr s a a'), P1 _ _ A -> P1 _ _ (Be_shift s a a' v r A)).
  { intros a a' v r A HA e' H. inversion H as [| | | | | ? a1 ? ? A1 |]; subst. now rewrite (HA a1 A1). }
  assert (D7 : forall f a a' (A : base_expr s a a'), P1 _ _ A -> P1 _ _ (Be_log s f a a' A)).
  { intros f a a' A HA e' H. inversion H as [| | | | | | ? ? a1 A1]; subst. now rewrite (HA a1 A1). }
  split.
  - intros q e H. exact (base_form_mut s P0 P1 C1 C2 C3 D1 D2 D3 D4 D5 D6 D7 q e H).
  - intros g e H. exact (base_expr_mut s P0 P1 C1 C2 C3 D1 D2 D3 D4 D5 D6 D7 g e H).
Qed.

Theorem C90_written_out_in_one_way_only :
  forall s t e e', base_text s t e -> base_text s t e' -> e' = e.
Proof.
  intros s t e e' (g & P & B) (g' & P' & B'). rewrite P in P'. injection P' as <-.
  exact (proj2 (base_unique s) g e B e' B').
Qed.

(** ** Computing the written-out form *)
Fixpoint out_expr (f : str -> option node) (g : node) : option node :=
  match g with
  | Number v r => Some g
  | Identifier k => f k
  | Multiply a b => match out_expr f a, out_expr f b with Some x, Some y => Some (Multiply x y) | _, _ => None end
  | Divide a b => match out_expr f a, out_expr f b with Some x, Some y => Some (Divide x y) | _, _ => None end
  | Raise a (Number v r) => option_map (fun x => Raise x (Number v r)) (out_expr f a)
  | Shift a (Number v r) => option_map (fun x => Shift x (Number v r)) (out_expr f a)
  | Logarithm h a => option_map (Logarithm h) (out_expr f a)
  | _ => None
  end.
Fixpoint out_name (s : system) (n : nat) (q : str) : option node :=
  match n with
  | O => None
  | S n =>
    match reading_opt s q with
    | Some (None, EUnit (UBasis r _ _) _) => Some (Identifier r)
    | Some (None, ELazy i) =>
      match nth_error (s_lazies s) i with
      | Some l => match parse (lz_def l) with Ok g => out_expr (out_name s n) g | Err _ => None end
      | None => None
      end
    | Some (Some (key, p, k), _) =>
      if str_eqb key k then None else
      match py_decimal (pf_value p) with
      | Ok d => option_map (Multiply (Number (NDec d) (Some (pf_value p)))) (out_name s n k)
      | Err _ => None
      end
    | _ => None
    end
  end.
Definition out_text (s : system) (n : nat) (t : str) : option node :=
  match parse t with Ok g => out_expr (out_name s n) g | Err _ => None end.

Lemma out_expr_sound s f g : (forall q e, f q = Some e -> base_form s q e) -> forall e, out_expr f g = Some e -> base_expr s g e.
Proof.
  intros F. induction g as [raw | v r | k | a IHa b IHb | a IHa b IHb | a IHa b IHb | a IHa b IHb | h a IHa];
    intros e E; cbn [out_expr] in E; try discriminate E.
  all: try (injection E as <-; constructor).
  all: try (constructor; now apply F).
  all: try (destruct b; try discriminate E; destruct (out_expr f a) as [x |]; [| discriminate E]; injection E as <-; constructor; now apply IHa).
  all: try (destruct (out_expr f a) as [x |]; [| discriminate E]; destruct (out_expr f b) as [y |]; [| discriminate E]; injection E as <-;
    constructor; auto).
  destruct (out_expr f a) as [x |]; [| discriminate E]. injection E as <-. constructor. now apply IHa.
Qed.

Lemma out_name_sound s n : forall q e, out_name s n q = Some e -> base_form s q e.
Proof.
  induction n as [| n IH]; intros q e E; cbn [out_name] in E; [discriminate E |].
  destruct (reading_opt s q) as [[pre ent] |] eqn:R; [| discriminate E]. apply reading_iff in R.
  destruct pre as [[[key p] k] |].
  - destruct (str_eqb key k) eqn:Ne; [discriminate E |]. destruct (py_decimal (pf_value p)) as [d |] eqn:Pd; [| discriminate E].
    destruct (out_name s n k) as [x |] eqn:O; [| discriminate E]. injection E as <-. apply str_eqb_neq in Ne.
    exact (Bf_prefixed s q key p k ent d x R Ne Pd (IH k x O)).
  - inversion R as [e0 K | |]; subst. destruct ent as [i | [r d it | ? ?] names]; [| | discriminate E].
    + destruct (nth_error (s_lazies s) i) as [l |] eqn:N; [| discriminate E].
      destruct (parse (lz_def l)) as [g |] eqn:P; [| discriminate E].
      exact (Bf_defined s q i l g e K N P (out_expr_sound s (out_name s n) g IH e E)).
    + injection E as <-. exact (Bf_basis s q r d it names K).
Qed.

Lemma out_text_sound s n t e : out_text s n t = Some e -> base_text s t e.
Proof.
  unfold out_text. destruct (parse t) as [g |] eqn:P; [| discriminate]. intros E. exists g. split; [exact P |].
  exact (out_expr_sound s (out_name s n) g (out_name_sound s n) e E).
Qed.

(** the conditions, decided *)
Definition own_free (k : str) : bool := negb (str_mem k own_names).
Definition num_b (v : numv) : bool :=
  match v with NInt _ | NDec _ => true | NStr _ => false end.
Definition nonzero_b (v : numv) : bool :=
  match v with NInt z => negb (Z.eqb z 0) | NDec d => negb (Z.eqb (Qnum (dec_Q d)) 0) | NStr _ => false end.
Fixpoint rated_b (n : node) : bool :=
  match n with
  | Number v _ => nonzero_b v
  | Identifier k => own_free k
  | Multiply a b | Divide a b => rated_b a && rated_b b
  | Raise a (Number (NInt _) _) => rated_b a
  | _ => false
  end.
Definition log_b (f : str) : bool :=
  str_eqb f (u "lb") || str_eqb f (u "lg") || str_eqb f (u "ln") || str_eqb f (u "log").
Fixpoint levels_b (n : node) : bool :=
  match n with Logarithm f a => log_b f && levels_b a | _ => rated_b n end.
Definition measurable_b (n : node) : bool :=
  match n with Shift a (Number v _) => num_b v && levels_b a | _ => levels_b n end.

Lemma nonzero_b_sound v : nonzero_b v = true -> numeric v /\ num_R v <> 0%R.
Proof.
  destruct v as [z | d | t]; cbn [nonzero_b numeric num_R]; [| | discriminate]; intros H; apply negb_true_iff, Z.eqb_neq in H; split; auto.
  - now apply not_0_IZR.
  - unfold Q2R. intros E. apply Rmult_integral in E as [E | E]; [now apply eq_IZR in E |].
    apply (Rinv_neq_0_compat (IZR (Zpos (Qden (dec_Q d)))) ltac:(now apply not_0_IZR)). exact E.
Qed.
Lemma rated_b_sound n : rated_b n = true -> rated n.
Proof.
  induction n as [raw | v r | k | a IHa b IHb | a IHa b IHb | a IHa b IHb | a IHa b IHb | h a IHa]; cbn [rated_b rated]; try discriminate.
  all: try (intros H; apply andb_prop in H as [? ?]; split; auto).
  - apply nonzero_b_sound.
  - unfold own_free. intros H I. apply str_mem_In in I. rewrite I in H. discriminate H.
  - destruct b as [| [z | |] | | | | | |]; try discriminate. exact IHa.
Qed.
Lemma levels_b_sound n : levels_b n = true -> levels n.
Proof.
  induction n as [raw | v r | k | a IHa b IHb | a IHa b IHb | a IHa b IHb | a IHa b IHb | h a IHa]; try (exact (rated_b_sound _)).
  cbn [levels_b levels]. intros H. apply andb_prop in H as [L A]. split; [| auto].
  unfold log_b in L. unfold log_base_R. destruct (str_eqb h (u "lb")); [discriminate |].
  destruct (str_eqb h (u "lg")); [discriminate |]. cbn [orb] in L. rewrite L. discriminate.
Qed.
Lemma measurable_b_sound n : measurable_b n = true -> measurable n.
Proof.
  destruct n as [| | | | | | a b |]; try (exact (levels_b_sound _)).
  destruct b as [| v r | | | | | |]; try (exact (levels_b_sound (Shift a _))).
  cbn [measurable_b measurable]. intros H. apply andb_prop in H as [V L]. split; [| now apply levels_b_sound].
  destruct v; [exact Logic.I | exact Logic.I | discriminate V].
Qed.
