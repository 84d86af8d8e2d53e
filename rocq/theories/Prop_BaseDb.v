(** * C91, C92: the units of the shipped database, written out and converted. *)
From Verif Require Import PyBase PyNum Graph RegexFacts Visitor Expr Units UnitSystem UnitSpec UnitFacts UnitProofs
  SystemSpec SystemFacts SystemProofs SystemMore SystemKeep SystemOrd Prop_System Sympy Convert ConvertSpec ConvertProofs ConvertMore Prop_Convert
  Xml XmlSpec XmlFacts XmlPrefix XmlStrict Prop_Xml XmlData Database Prop_Database Rounding Prop_Rounding BaseSpec BaseFacts Prop_Base.
From Coq Require Import Permutation Lia Lra QArith Reals Qreals.
Local Open Scope list_scope.

(** The radian is the dimensionless basis unit, the second the time. *)
Definition is_radian (b : str) : bool := str_eqb b (u "radian").
Definition is_second (b : str) : bool := str_eqb b (u "second").

(** ** Systems that differ in the storage order of prefixes only *)
Lemma par_prefixed a b q key p k ent : par a b -> reading a q (Some (key, p, k)) ent ->
  exists p', reading b q (Some (key, p', k)) ent /\ pf_value p' = pf_value p.
Proof.
  intros R Rd. apply reading_iff in Rd. unfold reading_opt in Rd.
  assert (G : exists p', reading_opt b q = Some (Some (key, p', k), ent) /\ pf_value p' = pf_value p).
  { unfold reading_opt. rewrite (par_known a b q R) in Rd. destruct (known_opt b q); [discriminate Rd |].
    pose proof (fit_find a q (s_prefix_names a)) as A1. pose proof (fit_find b q (s_prefix_names b)) as B1.
    rewrite (pa_pn a b R), (find_known a b q _ R) in A1.
    pose proof (fit_find a q (s_prefix_symbols a)) as A2. pose proof (fit_find b q (s_prefix_symbols b)) as B2.
    rewrite (pa_ps a b R), (find_known a b q _ R) in A2.
    destruct (fit_opt a q (s_prefix_names a)) as [[[[k1 p1] w1] e1] |], (fit_opt b q (s_prefix_names b)) as [[[[k2 p2] w2] e2] |].
    - destruct A1 as [A K], B1 as [B K']. rewrite A in B. injection B as -> V ->. rewrite (par_known a b w2 R) in K.
      rewrite K in K'. injection K' as ->. injection Rd as -> -> -> ->. eauto.
    - destruct A1 as [A K]. congruence.
    - destruct B1 as [B K]. congruence.
    - clear A1 B1. destruct (fit_opt a q (s_prefix_symbols a)) as [[[[k1 p1] w1] e1] |], (fit_opt b q (s_prefix_symbols b)) as [[[[k2 p2] w2] e2] |].
      + destruct A2 as [A K], B2 as [B K']. rewrite A in B. injection B as -> V ->. rewrite (par_known a b w2 R) in K.
        rewrite K in K'. injection K' as ->. injection Rd as -> -> -> ->. eauto.
      + destruct A2 as [A K]. congruence.
      + destruct B2 as [B K]. congruence.
      + discriminate Rd. }
  destruct G as (p' & G & V). exists p'. split; [now apply reading_iff | exact V].
Qed.

Lemma par_base a b : par a b ->
  (forall q e, base_form a q e -> base_form b q e) /\ (forall g e, base_expr a g e -> base_expr b g e).
Proof.
  intros R.
  assert (Kn : forall q e, known a q e -> known b q e).
  { intros q e K. apply known_iff. apply known_iff in K. now rewrite <- (par_known a b q R). }
  pose (P0 := fun q e (_ : base_form a q e) => base_form b q e).
  pose (P1 := fun g e (_ : base_expr a g e) => base_expr b g e).
  assert (C1 : forall q r d it names K, P0 _ _ (Bf_basis a q r d it names K)).
  { intros q r d it names K. exact (Bf_basis b q r d it names (Kn _ _ K)). }
  assert (C2 : forall q i l g e K N Pa (B : base_expr a g e), P1 g e B -> P0 _ _ (Bf_defined a q i l g e K N Pa B)).
  { intros q i l g e K N Pa B IH. apply (Bf_defined b q i l g e (Kn _ _ K)); auto. now rewrite <- (pa_lazies a b R). }
  assert (C3 : forall q key p k ent d e Rd Ne Pd (B : base_form a k e), P0 k e B ->
                 P0 _ _ (Bf_prefixed a q key p k ent d e Rd Ne Pd B)).
  { intros q key p k ent d e Rd Ne Pd B IH. change (base_form b q (Multiply (Number (NDec d) (Some (pf_value p))) e)).
    change (base_form b k e) in IH. clear B. destruct (par_prefixed a b q key p k ent R Rd) as (p' & Rd' & V).
    rewrite <- V in *. exact (Bf_prefixed b q key p' k ent d e Rd' Ne Pd IH). }
  assert (D1 : forall v r, P1 _ _ (Be_number a v r)) by (intros; constructor).
  assert (D2 : forall k e (B : base_form a k e), P0 k e B -> P1 _ _ (Be_name a k e B)) by (intros; now constructor).
  assert (D3 : forall x y x' y' (A : base_expr a x x'), P1 _ _ A -> forall (B : base_expr a y y'), P1 _ _ B ->
                 P1 _ _ (Be_multiply a x y x' y' A B)) by (intros; now constructor).
  assert (D4 : forall x y x' y' (A : base_expr a x x'), P1 _ _ A -> forall (B : base_expr a y y'), P1 _ _ B ->
                 P1 _ _ (Be_divide a x y x' y' A B)) by (intros; now constructor).
  assert (D5 : forall x x' v r (A : base_expr a x x'), P1 _ _ A -> P1 _ _ (Be_raise a x x' v r A)) by (intros; now constructor).
  assert (D6 : forall x x' v r (A : base_expr a x x'), P1 _ _ A -> P1 _ _ (Be_shift a x x' v r A)) by (intros; now constructor).
  assert (D7 : forall f x x' (A : base_expr a x x'), P1 _ _ A -> P1 _ _ (Be_log a f x x' A)) by (intros; now constructor).
  split.
  - intros q e H. exact (base_form_mut a P0 P1 C1 C2 C3 D1 D2 D3 D4 D5 D6 D7 q e H).
  - intros g e H. exact (base_expr_mut a P0 P1 C1 C2 C3 D1 D2 D3 D4 D5 D6 D7 g e H).
Qed.

Lemma par_base_text a b t e : par a b -> base_text a t e -> base_text b t e.
Proof. intros R (g & P & B). exists g. split; [exact P | now apply (par_base a b R)]. Qed.

(** ** The vocabulary is orderly *)
Definition basis_ok (x : unit) : bool :=
  match x with
  | UBasis b d t => Bool.eqb d (is_radian b) && Bool.eqb t (is_second b) && own_free b
  | _ => false
  end.
Definition orderly_b (s : system) : bool :=
  forallb (fun d => forallb (fun e : str * entry => match snd e with EUnit x _ => basis_ok x | _ => true end) d)
    [s_names s; s_alias_names s; s_symbols s; s_alias_symbols s] &&
  forallb (fun l => match lz_resolved l with Some _ => false | None => true end) (s_lazies s).

Lemma orderly_b_sound s : orderly_b s = true -> orderly is_radian is_second s.
Proof.
  intros P. apply andb_prop in P as [P1 P2]. rewrite forallb_forall in P1. split.
  - intros k x r K.
    assert (F : basis_ok x = true).
    { apply known_iff in K. unfold known_opt, get_or in K.
      assert (G : forall d, In d [s_names s; s_alias_names s; s_symbols s; s_alias_symbols s] -> dget k d = Some (EUnit x r) -> basis_ok x = true).
      { clear K. intros d I. specialize (P1 d I). clear I. induction d as [| [k' e] d IH]; cbn [dget]; [discriminate |].
        cbn [forallb snd] in P1. apply andb_prop in P1 as [F1 F2]. destruct (str_eqb k k'); [| auto]. injection 1 as ->. exact F1. }
      destruct (dget k (s_names s)) eqn:E1; [injection K as ->; eapply G; [| exact E1]; cbn; auto |].
      destruct (dget k (s_alias_names s)) eqn:E2; [injection K as ->; eapply G; [| exact E2]; cbn; auto |].
      destruct (dget k (s_symbols s)) eqn:E3; [injection K as ->; eapply G; [| exact E3]; cbn; auto |].
      eapply G; [| exact K]; cbn; auto. }
    destruct x as [b d t | ? ?]; [| discriminate F]. cbn [basis_ok] in F. apply andb_prop in F as [F F3]. apply andb_prop in F as [F1 F2].
    apply Bool.eqb_prop in F1. apply Bool.eqb_prop in F2. exists b. split; [now rewrite <- F1, <- F2 |].
    unfold own_free in F3. intros I. apply str_mem_In in I. rewrite I in F3. discriminate F3.
  - intros i l N. rewrite forallb_forall in P2. apply nth_error_In in N. specialize (P2 l N). destruct (lz_resolved l); [discriminate P2 | reflexivity].
Qed.

Lemma par_orderly a b dl tm : par a b -> orderly dl tm a -> orderly dl tm b.
Proof.
  intros R [O1 O2]. split.
  - intros k x r K. apply (O1 k x r). apply known_iff. apply known_iff in K. now rewrite (par_known a b k R).
  - rewrite <- (pa_lazies a b R). exact O2.
Qed.

Lemma shipped_orderly : orderly is_radian is_second shipped.
Proof. apply orderly_b_sound. vm_compute. reflexivity. Qed.

(** ** Any text on the shipped database *)
Section Shipped.
Variable sh s : system.
Variable rank : str -> nat.
Hypothesis C : clash_free sh.
Hypothesis D : depth_at_most sh rank 7.
Hypothesis O : orderly is_radian is_second sh.
Hypothesis R : par sh s.

Lemma text_verdict ord history stack t e : rearranges ord -> (7 < stack)%nat ->
  base_text s t e -> measurable e -> timeless is_radian is_second e ->
  exists x, describable is_radian x e /\ fst (sys_unit ord stack t (after ord s history)) = Ok (AUnit x).
Proof.
  intros Po L B Me Ti.
  pose proof (par_base_text s sh t e (par_sym sh s R) B) as B'.
  destruct (base_text_means ord sh _ _ Po O t e B' Me Ti) as (x & M & Dx). exists x. split; [exact Dx |].
  apply text_means_iff in M as [f M].
  pose proof (par_after ord history _ _ R) as Ra. rewrite <- (proj1 (parm_unit ord stack t _ _ Ra)).
  destruct (depth_unit ord sh _ _ Po C D history stack t L) as [-> N].
  pose proof (mono_unit ord sh t stack (Nat.max stack f) ltac:(lia) N) as E1. cbn beta in E1.
  assert (M' : p_unit ord sh f t <> Err ERecursion) by (rewrite M; discriminate).
  pose proof (mono_unit ord sh t f (Nat.max stack f) ltac:(lia) M') as E2. cbn beta in E2. congruence.
Qed.
End Shipped.

(** C90.  The shipped database, read with either reader, after any calls, with a stack for 8
    nested lookups: unit(text) returns what the text is written out to. *)
Theorem C90_texts_on_the_shipped_database :
  forall strict set_order s, rearranges set_order -> read_system strict set_order db = Ok s ->
  forall ord history stack t e, rearranges ord -> (7 < stack)%nat ->
  base_text s t e -> measurable e -> timeless is_radian is_second e ->
  exists x, describable is_radian x e /\ fst (sys_unit ord stack t (after ord s history)) = Ok (AUnit x).
Proof.
  intros strict o s P E ord h f t e Po L. destruct (read_any strict o P) as (s' & E' & R). rewrite E in E'. injection E' as <-.
  destruct shipped_checks as (C & _ & D). exact (text_verdict shipped s _ C D shipped_orderly R ord h f t e Po L).
Qed.

(** Conversion between two texts of equal exponents: the same quantity. *)
Theorem C90_conversions_on_the_shipped_database :
  forall strict set_order s, rearranges set_order -> read_system strict set_order db = Ok s ->
  forall ord history1 history2 stack1 stack2 t1 t2 e1 e2, rearranges ord -> (7 < stack1)%nat -> (7 < stack2)%nat ->
  base_text s t1 e1 -> measurable e1 -> timeless is_radian is_second e1 ->
  base_text s t2 e2 -> measurable e2 -> timeless is_radian is_second e2 ->
  (forall b, symexp e1 b = symexp e2 b) ->
  exists x y cv, fst (sys_unit ord stack1 t1 (after ord s history1)) = Ok (AUnit x) /\
    fst (sys_unit ord stack2 t2 (after ord s history2)) = Ok (AUnit y) /\
    mk_converter (AUnit x) (AUnit y) = Ok cv /\
    (forall v w, convert cv v = Ok w <-> quantity e2 w = quantity e1 v) /\
    (rated e1 -> rated e2 -> forall v, convert cv v = Ok (factor e1 / factor e2 * v)%R) /\
    (rated e1 -> rated e2 -> forall eps v w, (0 <= eps)%R ->
       let k := (operations e1 + operations e2 + 4)%nat in (INR k * eps <= 1 / 2)%R ->
       rounded_convert eps x y v w ->
       (Rabs (w - factor e1 / factor e2 * v) <= 2 * INR k * eps * Rabs (factor e1 / factor e2 * v))%R).
Proof.
  intros strict o s P E ord h1 h2 f1 f2 t1 t2 e1 e2 Po L1 L2 B1 M1 T1 B2 M2 T2 S.
  destruct (C90_texts_on_the_shipped_database strict o s P E ord h1 f1 t1 e1 Po L1 B1 M1 T1) as (x & Dx & Ux).
  destruct (C90_texts_on_the_shipped_database strict o s P E ord h2 f2 t2 e2 Po L2 B2 M2 T2) as (y & Dy & Uy).
  destruct (C20_conversion_preserves_the_quantity is_radian x y e1 e2 Dx Dy S) as (cv & Cv & Q).
  exists x, y, cv. split; [exact Ux |]. split; [exact Uy |]. split; [exact Cv |]. split; [exact Q |].
  assert (F : rated e1 -> rated e2 -> forall v, convert cv v = Ok (factor e1 / factor e2 * v)%R).
  { intros R1 R2 v. destruct (C24_plain_conversion_is_one_factor is_radian x y e1 e2 Dx Dy R1 R2 S) as (cv' & k & Cv' & K & _ & Fk).
    rewrite Cv in Cv'. injection Cv' as <-. now rewrite Fk, K. }
  split; [exact F |]. intros R1 R2 eps v w E0 k K Rc.
  destruct (C89_direct_conversion_is_accurate eps is_radian x y e1 e2 v w E0 Dx Dy R1 R2 S K Rc) as (cv' & exact & Cv' & _ & -> & A).
  exact A.
Qed.

(** Opposite exponents: the reciprocal quantity. *)
Theorem C90_inverse_conversions_on_the_shipped_database :
  forall strict set_order s, rearranges set_order -> read_system strict set_order db = Ok s ->
  forall ord history1 history2 stack1 stack2 t1 t2 e1 e2, rearranges ord -> (7 < stack1)%nat -> (7 < stack2)%nat ->
  base_text s t1 e1 -> measurable e1 -> timeless is_radian is_second e1 ->
  base_text s t2 e2 -> measurable e2 -> timeless is_radian is_second e2 ->
  (forall b, symexp e1 b = - symexp e2 b)%Z -> (exists b, is_radian b = false /\ symexp e1 b <> 0%Z) ->
  exists x y cv, fst (sys_unit ord stack1 t1 (after ord s history1)) = Ok (AUnit x) /\
    fst (sys_unit ord stack2 t2 (after ord s history2)) = Ok (AUnit y) /\
    mk_converter (AUnit x) (AUnit y) = Ok cv /\
    forall v w, convert cv v = Ok w <-> quantity e1 v <> 0%R /\ quantity e2 w = (/ quantity e1 v)%R.
Proof.
  intros strict o s P E ord h1 h2 f1 f2 t1 t2 e1 e2 Po L1 L2 B1 M1 T1 B2 M2 T2 S S0.
  destruct (C90_texts_on_the_shipped_database strict o s P E ord h1 f1 t1 e1 Po L1 B1 M1 T1) as (x & Dx & Ux).
  destruct (C90_texts_on_the_shipped_database strict o s P E ord h2 f2 t2 e2 Po L2 B2 M2 T2) as (y & Dy & Uy).
  destruct (C20_inverse_conversion_gives_the_reciprocal is_radian x y e1 e2 Dx Dy S S0) as (cv & Cv & Q).
  exists x, y, cv. auto.
Qed.

(** ** C91.  The words of the database *)

(** words defined with an offset or a logarithm *)
Definition offset_words : list str :=
  [u "degree_Celsius"; u "degrees_Celsius"; u "celsius"; u "celsiuses"; u "degree_C"; u "degrees_C"; 
   u "degreeC"; u "degreesC"; u "deg_C"; u "degs_C"; u "degC"; u "degsC"; u "fahrenheit"; 
   u "fahrenheits"; u "degree_fahrenheit"; u "degrees_fahrenheit"; u "degreeF"; u "degreesF"; 
   u "degree_F"; u "degrees_F"; u "degF"; u "degsF"; u "deg_F"; u "degs_F"; [176; 67]%N; u "BZ"; 
   u "B_SPL"; u "BW"; u "Bm"; u "BV"; u "Bv"; [66; 181; 86]%N; [176; 70]%N].

(** words whose definition uses "mm", which is read as meter times meter (C50, C56) *)
Definition torr_words : list str :=
  [u "millimeter_Hg"; u "millimeters_Hg"; u "torr"; u "torrs"; u "mm_Hg"; u "mm_hg"; u "mmHg"; 
   u "mmhg"].

Definition timeless_b (e : node) : bool :=
  match e with Shift a _ => negb (Z.eqb (gdim (basis_exps is_radian) a (u "second")) 1) | _ => true end.
Lemma timeless_b_sound e : timeless_b e = true -> timeless is_radian is_second e.
Proof.
  destruct e as [| | | | | | a b |]; try (intros _; exact Logic.I). cbn [timeless_b timeless].
  intros H (r & T & G). unfold is_second in T. apply str_eqb_eq in T. subst r. rewrite (G (u "second")), str_eqb_refl in H. discriminate H.
Qed.

Definition word_b (s : system) (w : str) : bool :=
  if str_mem w unusable_words then true else
  if str_mem w torr_words then true else
  match parse w with
  | Ok (Identifier k) =>
    if str_eqb k w then
      match out_name s 8 w with
      | Some e => measurable_b e && timeless_b e && (if str_mem w offset_words then true else rated_b e && N.leb (N.of_nat (operations e)) 21)
      | None => false
      end
    else false
  | _ => false
  end.
Definition prefix_b (kp : str * prefix) : bool :=
  match py_decimal (pf_value (snd kp)) with Ok d => nonzero_b (NDec d) | Err _ => false end.

Definition words_b (s : system) : bool := forallb (word_b s) (all_words s).
Definition prefixes_b (s : system) : bool := forallb prefix_b (s_prefix_names s ++ s_prefix_symbols s).
Lemma shipped_words_ok : words_b shipped = true. Proof. vm_compute. reflexivity. Qed.
Lemma shipped_prefixes_ok : prefixes_b shipped = true. Proof. vm_compute. reflexivity. Qed.

Lemma not_mem w l : ~ In w l -> str_mem w l = false.
Proof. intros N. destruct (str_mem w l) eqn:E; [| reflexivity]. apply str_mem_In in E. contradiction. Qed.

Definition usual (w : str) : Prop := ~ In w unusable_words /\ ~ In w torr_words.

(** the text [t] names the unit of the word [w], perhaps with a prefix *)
Inductive names_unit (s : system) (t w : str) : Prop :=
| Nu_word : t = w -> names_unit s t w
| Nu_prefixed key p ent : parse t = Ok (Identifier t) -> reading s t (Some (key, p, w)) ent -> key <> w -> names_unit s t w.

Section Words.
Variable sh s : system.
Hypothesis W : words_b sh = true.
Hypothesis Pb : prefixes_b sh = true.
Hypothesis R : par sh s.

Lemma word_out w : a_word s w -> usual w ->
  parse w = Ok (Identifier w) /\ exists e, base_form s w e /\ measurable e /\ timeless is_radian is_second e /\
    (~ In w offset_words -> rated e /\ (operations e <= 21)%nat).
Proof.
  intros A [U T]. apply (a_word_par sh s R) in A. unfold words_b in W. rewrite forallb_forall in W. specialize (W w A).
  unfold word_b in W. rewrite (not_mem w _ U), (not_mem w _ T) in W.
  destruct (parse w) as [[| | k | | | | |] |]; try discriminate W. destruct (str_eqb k w) eqn:K; [| discriminate W].
  apply str_eqb_eq in K. subst k. split; [reflexivity |]. destruct (out_name sh 8 w) as [e |] eqn:O; [| discriminate W].
  apply andb_prop in W as [W1 W3]. apply andb_prop in W1 as [W1 W2]. exists e.
  split; [apply (par_base sh s R), (out_name_sound sh 8 w e O) |]. split; [now apply measurable_b_sound |].
  split; [now apply timeless_b_sound |]. intros N. rewrite (not_mem w _ N) in W3. apply andb_prop in W3 as [W3 W4].
  split; [now apply rated_b_sound |]. apply N.leb_le in W4. lia.
Qed.

Lemma named_out t w : a_word s w -> usual w -> ~ In w offset_words -> names_unit s t w ->
  exists e, base_text s t e /\ rated e /\ (operations e <= 23)%nat.
Proof.
  intros A U N H. destruct (word_out w A U) as (P & e & B & _ & _ & Ra). destruct (Ra N) as [Re Op].
  destruct H as [-> | key p ent Pt Rd Ne].
  - exists e. split; [exists (Identifier w); split; [exact P | now constructor] |]. split; [exact Re | lia].
  - assert (exists d, py_decimal (pf_value p) = Ok d /\ nonzero_b (NDec d) = true) as (d & Pd & Nz).
    { destruct (par_prefixed s sh t key p w ent (par_sym sh s R) Rd) as (p' & Rd' & V). rewrite <- V.
      assert (I : In (key, p') (s_prefix_names sh ++ s_prefix_symbols sh)).
      { inversion Rd' as [| ? ? ? ? _ F | ? ? ? ? _ _ F]; subst; destruct F as (b & a & -> & _); apply in_or_app; [left | right];
          apply in_or_app; right; now left. }
      unfold prefixes_b in Pb. rewrite forallb_forall in Pb. specialize (Pb _ I). unfold prefix_b in Pb. cbn [snd] in Pb.
      destruct (py_decimal (pf_value p')) as [d |]; [eauto | discriminate Pb]. }
    exists (Multiply (Number (NDec d) (Some (pf_value p))) e). split.
    + exists (Identifier t). split; [exact Pt |]. constructor. exact (Bf_prefixed s t key p w ent d e Rd Ne Pd B).
    + split; [| cbn [operations]; lia]. split; [exact (nonzero_b_sound (NDec d) Nz) | exact Re].
Qed.
End Words.

(** Every usable word, but the eight, is written out in basis units; those without an offset or
    logarithm with at most 21 arithmetic operations. *)
Theorem C91_every_word_is_written_out :
  forall strict set_order s, rearranges set_order -> read_system strict set_order db = Ok s ->
  forall w, a_word s w -> ~ In w unusable_words -> ~ In w torr_words ->
  exists e, base_text s w e /\ measurable e /\ timeless is_radian is_second e /\
    (~ In w offset_words -> rated e /\ (operations e <= 21)%nat).
Proof.
  intros strict o s P E w A U T. destruct (read_any strict o P) as (s' & E' & R). rewrite E in E'. injection E' as <-.
  destruct (word_out shipped s shipped_words_ok R w A (conj U T)) as (Pw & e & B & Me & Ti & Op).
  exists e. split; [exists (Identifier w); split; [exact Pw | now constructor] | auto].
Qed.

(** So units named by a word, perhaps with a prefix, convert into each other by a factor, and
    floating point arithmetic of relative accuracy [eps] finds it to within 100 [eps]. *)
Theorem C91_named_units_convert_accurately :
  forall strict set_order s, rearranges set_order -> read_system strict set_order db = Ok s ->
  forall t1 w1 t2 w2, a_word s w1 -> usual w1 -> ~ In w1 offset_words -> names_unit s t1 w1 ->
  a_word s w2 -> usual w2 -> ~ In w2 offset_words -> names_unit s t2 w2 ->
  exists e1 e2, base_text s t1 e1 /\ rated e1 /\ base_text s t2 e2 /\ rated e2 /\
  forall ord history1 history2 stack1 stack2, rearranges ord -> (7 < stack1)%nat -> (7 < stack2)%nat ->
  (forall b, symexp e1 b = symexp e2 b) ->
  exists x y cv, fst (sys_unit ord stack1 t1 (after ord s history1)) = Ok (AUnit x) /\
    fst (sys_unit ord stack2 t2 (after ord s history2)) = Ok (AUnit y) /\
    mk_converter (AUnit x) (AUnit y) = Ok cv /\
    forall v, convert cv v = Ok (factor e1 / factor e2 * v)%R /\
    forall eps w, (0 <= eps <= 1 / 100)%R -> rounded_convert eps x y v w ->
      (Rabs (w - factor e1 / factor e2 * v) <= 100 * eps * Rabs (factor e1 / factor e2 * v))%R.
Proof.
  intros strict o s P E t1 w1 t2 w2 A1 U1 N1 H1 A2 U2 N2 H2.
  destruct (read_any strict o P) as (s' & E' & R). rewrite E in E'. injection E' as <-.
  destruct (named_out shipped s shipped_words_ok shipped_prefixes_ok R t1 w1 A1 U1 N1 H1) as (e1 & B1 & R1 & O1).
  destruct (named_out shipped s shipped_words_ok shipped_prefixes_ok R t2 w2 A2 U2 N2 H2) as (e2 & B2 & R2 & O2).
  exists e1, e2. split; [exact B1 |]. split; [exact R1 |]. split; [exact B2 |]. split; [exact R2 |].
  intros ord h1 h2 f1 f2 Po L1 L2 S.
  destruct (C90_conversions_on_the_shipped_database strict o s P E ord h1 h2 f1 f2 t1 t2 e1 e2 Po L1 L2
     B1 (levels_measurable _ (rated_levels _ R1)) (levels_timeless _ _ _ (rated_levels _ R1))
     B2 (levels_measurable _ (rated_levels _ R2)) (levels_timeless _ _ _ (rated_levels _ R2)) S) as (x & y & cv & X & Y & Cv & _ & F & A).
  exists x, y, cv. split; [exact X |]. split; [exact Y |]. split; [exact Cv |]. intros v. split; [now apply F |].
  intros eps w [E0 E1] Rc. assert (K : (INR (operations e1 + operations e2 + 4) <= 50)%R).
  { replace 50%R with (INR 50) by (simpl; lra). apply le_INR. lia. }
  assert (K0 := pos_INR (operations e1 + operations e2 + 4)).
  eapply Rle_trans; [apply (A R1 R2 eps v w E0); [nra | exact Rc] |].
  apply Rmult_le_compat_r; [apply Rabs_pos | nra].
Qed.

(** ** C92.  torr *)
Section Torr.
Variable sh s : system.
Variable rank : str -> nat.
Hypothesis C : clash_free sh.
Hypothesis Pr : proper_system sh.
Hypothesis D : depth_at_most sh rank 7.
Hypothesis R : par sh s.

Lemma unit_same ord history stack w : rearranges ord -> (7 < stack)%nat ->
  rrel same_any (fst (sys_unit ord stack w (after ord s history))) (p_unit in_order sh 8 w).
Proof.
  intros Po L. pose proof (par_after ord history _ _ R) as Ra.
  rewrite <- (proj1 (parm_unit ord stack w _ _ Ra)), (proj1 (depth_unit ord sh _ _ Po C D history stack w L)).
  pose proof (proj2 (depth_unit in_order sh _ _ in_order_rearranges C D [] 8%nat w (le_n 8))) as N8.
  pose proof (mono_unit in_order sh w 8%nat stack L N8) as Eq. cbn beta in Eq. rewrite <- Eq.
  exact (unit_rel sh ord in_order Po in_order_rearranges Pr stack w).
Qed.

Lemma torr_verdict : forall w1 w2 a b, p_unit in_order sh 8 w1 = Ok a -> p_unit in_order sh 8 w2 = Ok b ->
  is_convertible_to a b = Ok false -> is_ok (mk_converter a b) = false ->
  forall ord history1 history2 stack, rearranges ord -> (7 < stack)%nat ->
  exists x y, fst (sys_unit ord stack w1 (after ord s history1)) = Ok x /\
    fst (sys_unit ord stack w2 (after ord s history2)) = Ok y /\
    is_convertible_to x y = Ok false /\ forall cv, mk_converter x y <> Ok cv.
Proof.
  intros w1 w2 a b A B Cf Mf ord h1 h2 f Po L.
  pose proof (unit_same ord h1 f w1 Po L) as T1. rewrite A in T1.
  pose proof (unit_same ord h2 f w2 Po L) as T2. rewrite B in T2.
  destruct (fst (sys_unit ord f w1 (after ord s h1))) as [x |]; [| contradiction].
  destruct (fst (sys_unit ord f w2 (after ord s h2))) as [y |]; [| contradiction].
  cbn [rrel] in T1, T2. exists x, y. split; [reflexivity |]. split; [reflexivity |].
  split; [now rewrite (same_convertible x a y b T1 T2) |].
  intros cv E. pose proof (same_converter x a y b cv T1 T2 E) as E'. rewrite E' in Mf. discriminate Mf.
Qed.
End Torr.

Definition torr_b (s : system) (w1 w2 : str) : bool :=
  match p_unit in_order s 8 w1, p_unit in_order s 8 w2 with
  | Ok a, Ok b => match is_convertible_to a b with Ok c => negb c | Err _ => false end && negb (is_ok (mk_converter a b))
  | _, _ => false
  end.
Lemma torr_b_sound s w1 w2 : torr_b s w1 w2 = true -> exists a b, p_unit in_order s 8 w1 = Ok a /\ p_unit in_order s 8 w2 = Ok b /\
  is_convertible_to a b = Ok false /\ is_ok (mk_converter a b) = false.
Proof.
  unfold torr_b. destruct (p_unit in_order s 8 w1) as [a |]; [| discriminate].
  destruct (p_unit in_order s 8 w2) as [b |]; [| discriminate]. intros H. apply andb_prop in H as [H1 H2].
  exists a, b. split; [reflexivity |]. split; [reflexivity |]. split.
  - destruct (is_convertible_to a b) as [[|] |]; try discriminate H1. reflexivity.
  - now apply negb_true_iff.
Qed.
Lemma shipped_torr : torr_b shipped (u "torr") (u "pascal") = true. Proof. vm_compute. reflexivity. Qed.

(** C92 (expected: torr, millimetre of mercury, is a unit of pressure).  In the shipped database,
    whatever the reader, the orders and the history, it cannot be converted to pascal. *)
Theorem C92_torr_is_a_pressure_refuted :
  forall strict set_order s, rearranges set_order -> read_system strict set_order db = Ok s ->
  forall ord history1 history2 stack, rearranges ord -> (7 < stack)%nat ->
  exists x y, fst (sys_unit ord stack (u "torr") (after ord s history1)) = Ok x /\
    fst (sys_unit ord stack (u "pascal") (after ord s history2)) = Ok y /\
    is_convertible_to x y = Ok false /\ forall cv, mk_converter x y <> Ok cv.
Proof.
  intros strict o s P E. destruct (read_any strict o P) as (s' & E' & R). rewrite E in E'. injection E' as <-.
  destruct shipped_checks as (C & Pr & D). destruct (torr_b_sound shipped _ _ shipped_torr) as (a & b & A & B & Cf & Mf).
  exact (torr_verdict shipped s _ C Pr D R (u "torr") (u "pascal") a b A B Cf Mf).
Qed.

(** ** Examples: the hypotheses are met. *)
Definition form_of (t : str) : node := match out_text shipped 8 t with Some e => e | None => Unhandled [] end.
Definition km_h := Eval vm_compute in form_of (u "km/h").
Definition mi_h := Eval vm_compute in form_of (u "mile/hour").
Example C90_example :
  base_text shipped (u "km/h") km_h /\ base_text shipped (u "mile/hour") mi_h /\ rated km_h /\ rated mi_h /\
  forall b, symexp km_h b = symexp mi_h b.
Proof.
  split; [apply (out_text_sound shipped 8); vm_compute; reflexivity |].
  split; [apply (out_text_sound shipped 8); vm_compute; reflexivity |].
  split; [apply rated_b_sound; vm_compute; reflexivity |]. split; [apply rated_b_sound; vm_compute; reflexivity |].
  intros b. unfold symexp, km_h, mi_h. cbn [gdim]. lia.
Qed.

Definition fahr := Eval vm_compute in form_of (u "degF").
Example C90_example_offset :
  base_text shipped (u "degF") fahr /\ measurable fahr /\ timeless is_radian is_second fahr.
Proof.
  split; [apply (out_text_sound shipped 8); vm_compute; reflexivity |].
  split; [apply measurable_b_sound; vm_compute; reflexivity | apply timeless_b_sound; vm_compute; reflexivity].
Qed.

Lemma word_by s w : str_mem w (all_words s) = true -> a_word s w.
Proof. intros H. apply str_mem_In in H. now apply known_word. Qed.
Lemma usual_by w : negb (str_mem w unusable_words) && negb (str_mem w torr_words) && negb (str_mem w offset_words) = true ->
  usual w /\ ~ In w offset_words.
Proof.
  assert (M : forall l, negb (str_mem w l) = true -> ~ In w l).
  { intros l H I. apply str_mem_In in I. rewrite I in H. discriminate H. }
  intros H. apply andb_prop in H as [H H3]. apply andb_prop in H as [H1 H2]. repeat split; auto.
Qed.
Definition prefixed_by_b (s : system) (t key w : str) : bool :=
  match parse t with
  | Ok (Identifier q) => str_eqb q t &&
      match reading_opt s t with
      | Some (Some (key', _, w'), _) => str_eqb key' key && str_eqb w' w && negb (str_eqb key w)
      | _ => false
      end
  | _ => false
  end.
Lemma prefixed_by s t key w : prefixed_by_b s t key w = true -> names_unit s t w.
Proof.
  unfold prefixed_by_b. destruct (parse t) as [[| | q | | | | |] |] eqn:P; try discriminate. intros H. apply andb_prop in H as [Q H].
  apply str_eqb_eq in Q. subst q. destruct (reading_opt s t) as [[[[[key' p] w'] |] e] |] eqn:E; try discriminate H.
  apply andb_prop in H as [H H3]. apply andb_prop in H as [H1 H2]. apply str_eqb_eq in H1. apply str_eqb_eq in H2. subst key' w'.
  apply (Nu_prefixed s t w key p e); [exact P | now apply reading_iff |].
  apply str_eqb_neq. now apply negb_true_iff.
Qed.
Example C91_example :
  a_word shipped (u "inch") /\ (usual (u "inch") /\ ~ In (u "inch") offset_words) /\ names_unit shipped (u "inch") (u "inch") /\
  names_unit shipped (u "kilometer") (u "meter").
Proof.
  split; [apply word_by; vm_compute; reflexivity |].
  split; [apply usual_by; vm_compute; reflexivity |]. split; [now left |].
  apply (prefixed_by shipped (u "kilometer") (u "kilo") (u "meter")). vm_compute. reflexivity.
Qed.
