(** * C94, C95: which units of the shipped database expanded() writes out rightly *)
From Verif Require Import PyBase PyNum Graph Regex RegexFacts Lexer LexSpec Parser GrammarSpec Visitor VisitSpec Expr Units UnitSystem UnitSpec UnitFacts UnitProofs
  SystemSpec SystemFacts SystemProofs SystemMore SystemKeep SystemOrd Prop_System Sympy Convert ConvertSpec ConvertFacts ConvertProofs ConvertMore Prop_Convert
  Xml XmlSpec XmlFacts XmlPrefix Prop_Xml XmlData Database Prop_Database BaseSpec BaseFacts Prop_Base Prop_BaseDb
  PrintSpec PrintParse PrintMore Cli Prop_Cli Prop_Expanded.
From Coq Require Import Lia Lra QArith Reals Qreals.
Local Open Scope list_scope.

(** ** Decisions *)
Definition short_b (s : str) : bool := N.leb (N.of_nat (digit_count s)) 4300.
Definition number_ok_b (v : numv) : bool :=
  match v with
  | NInt z => short_b (Z_str z)
  | NDec d => Z.leb dec_etiny (dexp d) && Z.leb (dexp d + Z.of_nat (List.length (N_str (dcoef d))) - 1) dec_emax && short_b (N_str (dcoef d))
  | NStr _ => false
  end.
Definition word_ok_b (shifted : bool) (x : str) : bool :=
  match x with [] => false | _ => true end && forallb (in_ranges id_ranges) x && negb (str_mem x shift_words) && negb (str_mem x zone_words).
Fixpoint writable_b (e : node) : bool :=
  match e with
  | Number v _ => number_ok_b v
  | Identifier x => word_ok_b true x
  | Raise a (Number (NInt z) _) => writable_b a && short_b (Z_str z)
  | Multiply a b | Divide a b => writable_b a && writable_b b
  | Shift a (Number v _) => writable_b a && number_ok_b v
  | Logarithm f t => str_mem f log_names && writable_b t
  | _ => false
  end.
Lemma short_b_sound s : short_b s = true -> short s.
Proof. intros H. now apply N.leb_le in H. Qed.
Lemma number_ok_b_sound v : number_ok_b v = true -> number_ok v.
Proof.
  destruct v as [z | d | x]; cbn [number_ok_b number_ok]; [apply short_b_sound | | discriminate].
  intros H. apply andb_prop in H as [H H3]. apply andb_prop in H as [H1 H2]. apply Z.leb_le in H1. apply Z.leb_le in H2.
  split; [now split |]. intros _. now apply short_b_sound.
Qed.
Lemma not_mem_In x l : negb (str_mem x l) = true -> ~ In x l.
Proof. intros H I. apply str_mem_In in I. rewrite I in H. discriminate H. Qed.
Lemma writable_b_sound e : forall sh, writable_b e = true -> writable sh e.
Proof.
  induction e as [x | v r | x | a IHa b IHb | a IHa b IHb | a IHa b IHb | a IHa b IHb | f a IHa]; intros sh; cbn [writable_b writable]; try discriminate.
  - apply number_ok_b_sound.
  - unfold word_ok_b. intros H. apply andb_prop in H as [H H4]. apply andb_prop in H as [H H3]. apply andb_prop in H as [H1 H2].
    split; [destruct x; [discriminate H1 | discriminate] |]. split.
    { apply Forall_forall. rewrite forallb_forall in H2. exact H2. }
    split; [now apply not_mem_In |]. intros _. now apply not_mem_In.
  - destruct b as [| [z | |] | | | | | |]; try discriminate. intros H. apply andb_prop in H as [H1 H2]. split; [now apply IHa | now apply short_b_sound].
  - intros H. apply andb_prop in H as [H1 H2]. split; [now apply IHa | now apply IHb].
  - intros H. apply andb_prop in H as [H1 H2]. split; [now apply IHa | now apply IHb].
  - destruct b as [| v | | | | | |]; try discriminate. intros H. apply andb_prop in H as [H1 H2]. split; [now apply IHa | now apply number_ok_b_sound].
  - intros H. apply andb_prop in H as [H1 H2]. split; [now apply str_mem_In | now apply IHa].
Qed.

(** the same unit, or a different one *)
Definition mono_node (e : node) : option mono := match to_sympy e with Ok d => mono_of d | Err _ => None end.
Definition exps_same (m n : mono) : bool :=
  forallb (fun s => Z.eqb (mget s (m_exps m)) (mget s (m_exps n))) (map fst (m_exps m) ++ map fst (m_exps n)).
Definition rated_alike (e h : node) : bool :=
  rated_b e && rated_b h &&
  match mono_node e, mono_node h with Some m, Some n => Qeq_bool (m_coef m) (m_coef n) && exps_same m n | _, _ => false end.
Definition rated_unlike (e h : node) : bool :=
  rated_b e && rated_b h &&
  match mono_node e, mono_node h with Some m, Some n => negb (Qeq_bool (m_coef m) (m_coef n) && exps_same m n) | _, _ => false end.
Definition num_alike (v w : numv) : bool :=
  num_b v && num_b w &&
  Qeq_bool (match v with NInt z => inject_Z z | NDec d => dec_Q d | _ => 0 end) (match w with NInt z => inject_Z z | NDec d => dec_Q d | _ => 0 end).
Definition alike (e h : node) : bool :=
  match e, h with
  | Shift a (Number v _), Shift b (Number w _) => num_alike v w && rated_alike a b
  | Logarithm f a, Logarithm g b => str_eqb f g && log_b f && rated_alike a b
  | _, _ => rated_alike e h
  end.
Definition unlike (e h : node) : bool :=
  match e, h with
  | Logarithm f a, Logarithm g b => str_eqb f g && log_b f && rated_unlike a b
  | _, _ => rated_unlike e h
  end.

(** the expressions denote the same unit *)
Definition same_unit (e h : node) : Prop := (forall b, symexp h b = symexp e b) /\ forall v, quantity h v = quantity e v.

Lemma mono_node_spec e m : rated e -> mono_node e = Some m -> Q2R (m_coef m) = factor e /\ forall s, mget s (m_exps m) = symexp e s.
Proof.
  intros R. destruct (rated_mono e R) as (d & m' & T & M & _ & C & X). unfold mono_node. rewrite T, M. injection 1 as <-. auto.
Qed.
Lemma exps_same_spec m n : exps_same m n = true <-> forall s, mget s (m_exps m) = mget s (m_exps n).
Proof.
  unfold exps_same. rewrite forallb_forall. split.
  - intros H s. destruct (str_mem s (map fst (m_exps m) ++ map fst (m_exps n))) eqn:I.
    + apply str_mem_In in I. now apply Z.eqb_eq, H.
    + assert (N : ~ In s (map fst (m_exps m) ++ map fst (m_exps n))) by (intros J; apply str_mem_In in J; rewrite I in J; discriminate J).
      rewrite in_app_iff in N. now rewrite !mget_notin by tauto.
  - intros H s _. apply Z.eqb_eq, H.
Qed.

Lemma rated_alike_sound e h : rated_alike e h = true -> rated e /\ rated h /\ factor h = factor e /\ forall b, symexp h b = symexp e b.
Proof.
  unfold rated_alike. intros H. apply andb_prop in H as [H H3]. apply andb_prop in H as [H1 H2].
  apply rated_b_sound in H1. apply rated_b_sound in H2.
  destruct (mono_node e) as [m |] eqn:Me; [| discriminate H3]. destruct (mono_node h) as [n |] eqn:Mh; [| discriminate H3].
  destruct (mono_node_spec e m H1 Me) as [Ce Xe]. destruct (mono_node_spec h n H2 Mh) as [Ch Xh].
  apply andb_prop in H3 as [Q X]. apply Qeq_bool_eq, Qeq_eqR in Q. rewrite exps_same_spec in X.
  split; [exact H1 |]. split; [exact H2 |]. split; [congruence |]. intros b. now rewrite <- Xe, <- Xh, X.
Qed.
Lemma rated_unlike_sound e h : rated_unlike e h = true -> rated e /\ rated h /\ ~ ((forall b, symexp h b = symexp e b) /\ factor h = factor e).
Proof.
  unfold rated_unlike. intros H. apply andb_prop in H as [H H3]. apply andb_prop in H as [H1 H2].
  apply rated_b_sound in H1. apply rated_b_sound in H2.
  destruct (mono_node e) as [m |] eqn:Me; [| discriminate H3]. destruct (mono_node h) as [n |] eqn:Mh; [| discriminate H3].
  destruct (mono_node_spec e m H1 Me) as [Ce Xe]. destruct (mono_node_spec h n H2 Mh) as [Ch Xh].
  split; [exact H1 |]. split; [exact H2 |]. intros [X F].
  enough (Y : Qeq_bool (m_coef m) (m_coef n) && exps_same m n = true) by (rewrite Y in H3; discriminate H3).
  apply andb_true_intro. split.
  - apply Qeq_eq_bool. apply eqR_Qeq. congruence.
  - apply exps_same_spec. intros s. now rewrite Xe, Xh, X.
Qed.

Lemma num_alike_sound v w : num_alike v w = true -> numeric v /\ numeric w /\ num_R w = num_R v.
Proof.
  unfold num_alike. intros H. apply andb_prop in H as [H Q]. apply andb_prop in H as [V W]. apply Qeq_bool_eq, Qeq_eqR in Q.
  assert (E : forall z, Q2R (inject_Z z) = IZR z) by (intros z; unfold Q2R; cbn; field).
  destruct v, w; try discriminate V; try discriminate W; rewrite ?E in Q; repeat split; cbn [num_R]; auto.
Qed.

Lemma log_levels f a : log_b f = true -> rated a -> levels (Logarithm f a) /\ exists b, log_base_R f = Some b /\ (0 < b)%R.
Proof.
  intros L R. assert (N : levels_b (Logarithm f (Number (NInt 1) None)) = true) by (cbn [levels_b rated_b]; rewrite L; reflexivity).
  apply levels_b_sound in N. destruct N as [N _]. split; [split; [exact N | now apply rated_levels] |].
  unfold log_base_R in *. pose proof (exp_pos 1).
  destruct (str_eqb f (u "lb")); [exists 2%R; split; [reflexivity | lra] |].
  destruct (str_eqb f (u "lg")); [exists 10%R; split; [reflexivity | lra] |].
  destruct (str_eqb f (u "ln") || str_eqb f (u "log")); [| contradiction]. eauto.
Qed.

Lemma alike_sound e h : alike e h = true -> measurable h /\ same_unit e h.
Proof.
  assert (P : rated_alike e h = true -> measurable h /\ same_unit e h).
  { intros H. apply rated_alike_sound in H as (Re & Rh & F & X). split; [now apply levels_measurable, rated_levels |].
    split; [exact X |]. intros v. now rewrite !rated_quantity, F. }
  destruct e as [| | | | | | a b | f a]; try exact P.
  - destruct b as [| v r | | | | | |]; try exact P. destruct h as [| | | | | | a' b' |]; try exact P.
    destruct b' as [| w r' | | | | | |]; try exact P. clear P. cbn [alike]. intros H. apply andb_prop in H as [N H].
    apply num_alike_sound in N as (Nv & Nw & V). apply rated_alike_sound in H as (Re & Rh & F & X).
    split; [split; [exact Nw | now apply rated_levels] |]. split; [exact X |]. intros x. cbn [quantity]. now rewrite !rated_quantity, F, V.
  - destruct h as [| | | | | | | g a']; try exact P. clear P. cbn [alike]. intros H. apply andb_prop in H as [G H]. apply andb_prop in G as [G L].
    apply str_eqb_eq in G. subst g. apply rated_alike_sound in H as (Re & Rh & F & X).
    split; [apply levels_measurable; now apply log_levels |]. split; [exact X |]. intros x. cbn [quantity].
    destruct (log_base_R f); [| reflexivity]. now rewrite !rated_quantity, F.
Qed.

Lemma unlike_sound e h : unlike e h = true -> ~ same_unit e h.
Proof.
  assert (P : rated_unlike e h = true -> ~ same_unit e h).
  { intros H [X Q]. apply rated_unlike_sound in H as (Re & Rh & N). apply N. split; [exact X |].
    specialize (Q 1%R). rewrite !rated_quantity, !Rmult_1_r in Q by assumption. exact Q. }
  destruct e as [| | | | | | | f a]; try exact P. destruct h as [| | | | | | | g a']; try exact P. clear P.
  cbn [unlike]. intros H [X Q]. apply andb_prop in H as [G H]. apply andb_prop in G as [G L]. apply str_eqb_eq in G. subst g.
  apply rated_unlike_sound in H as (Re & Rh & N). apply N. split; [exact X |]. specialize (Q 0%R). cbn [quantity] in Q.
  destruct (log_levels f a L Re) as (_ & b & B & Bp). rewrite B, !rated_quantity, Rpower_O, !Rmult_1_r in Q by assumption. exact Q.
Qed.

(** ** The words *)
(** whose expansion, as text, is the text of another unit *)
Definition bracket_words : list str :=
  [u "farad"; u "farads"; u "siemens"; u "siemenses"; u "liter"; u "liters"; u "molecule"; 
   u "molecules"; u "litre"; u "litres"; u "international_knot"; u "international_knots"; 
   u "knot_international"; u "knot_internationals"; u "knot"; u "knots"; u "are"; u "ares"; 
   u "hectare"; u "hectares"; u "barn"; u "barns"; u "acre"; u "acres"; 
   u "technical_atmosphere"; u "technical_atmospheres"; u "rhe"; u "rhes"; 
   u "refrigeration_ton"; u "refrigeration_tons"; u "ton_of_refrigeration"; 
   u "tons_of_refrigeration"; u "clo"; u "clos"; u "abfarad"; u "abfarads"; u "abmho"; 
   u "abmhos"; u "statfarad"; u "statfarads"; u "statmho"; u "statmhos"; u "blondel"; 
   u "blondels"; u "apostilb"; u "apostilbs"; u "molec"; u "molecs"; u "nucleon"; u "nucleons"; 
   u "nuc"; u "nucs"; u "F"; u "S"; u "L"; u "l"; u "a"; u "b"; u "kt"; u "kts"; u "rpm"; 
   u "cc"; u "at"; u "psi"; u "ksi"; u "BZ"].

Definition expands_b (s : system) (w : str) : bool :=
  if str_mem w unusable_words then true else
  if str_mem w torr_words then true else
  match parse w with
  | Ok (Identifier k) =>
    if str_eqb k w then
      match out_name s 8 w with
      | Some e => measurable_b e && timeless_b e && writable_b e &&
          match reread e with
          | Some h => if str_mem w bracket_words then unlike e h else alike e h && timeless_b h
          | None => false
          end
      | None => false
      end
    else false
  | _ => false
  end.
Definition all_expand_b (s : system) : bool := forallb (expands_b s) (all_words s).
Lemma shipped_expand : all_expand_b shipped = true. Proof. vm_compute. reflexivity. Qed.

Section Words.
Variable sh s : system.
Hypothesis W : all_expand_b sh = true.
Hypothesis R : par sh s.
Lemma word_expands w : a_word s w -> usual w ->
  exists e h, base_text s w e /\ measurable e /\ timeless is_radian is_second e /\ writable false e /\ reread e = Some h /\
    (In w bracket_words -> ~ same_unit e h) /\
    (~ In w bracket_words -> same_unit e h /\ measurable h /\ timeless is_radian is_second h).
Proof.
  intros A [U T]. apply (a_word_par sh s R) in A. unfold all_expand_b in W. rewrite forallb_forall in W. specialize (W w A).
  unfold expands_b in W. rewrite (not_mem w _ U), (not_mem w _ T) in W.
  destruct (parse w) as [[| | k | | | | |] |] eqn:P; try discriminate W. destruct (str_eqb k w) eqn:K; [| discriminate W].
  apply str_eqb_eq in K. subst k. destruct (out_name sh 8 w) as [e |] eqn:O; [| discriminate W].
  apply andb_prop in W as [W1 W4]. apply andb_prop in W1 as [W1 W3]. apply andb_prop in W1 as [W1 W2].
  destruct (reread e) as [h |] eqn:Re; [| discriminate W4]. exists e, h.
  split; [exists (Identifier w); split; [exact P | constructor; apply (par_base sh s R), (out_name_sound sh 8 w e O)] |].
  split; [now apply measurable_b_sound |]. split; [now apply timeless_b_sound |]. split; [now apply writable_b_sound |].
  split; [exact Re |]. split.
  - intros I. apply str_mem_In in I. rewrite I in W4. now apply unlike_sound.
  - intros N. rewrite (not_mem w _ N) in W4. apply andb_prop in W4 as [W4 W5]. apply alike_sound in W4 as [Mh S].
    split; [exact S |]. split; [exact Mh | now apply timeless_b_sound].
Qed.
End Words.

(** C94.  Exactly which words: for the 66 listed the text of expanded(), written out, is another
    unit; for all others (that unit() accepts, and torr apart) it is the same unit, and converting
    between unit(word) and unit(unit(word).expanded()) changes nothing. *)
Theorem C94_words_read_back :
  forall strict set_order s, rearranges set_order -> read_system strict set_order db = Ok s ->
  forall w, a_word s w -> ~ In w unusable_words -> ~ In w torr_words ->
  exists e h, base_text s w e /\ base_text s (node_str e) h /\
    (same_unit e h <-> ~ In w bracket_words) /\
    forall ord history1 stack, rearranges ord -> (7 < stack)%nat ->
    exists x, fst (sys_unit ord stack w (after ord s history1)) = Ok (AUnit x) /\ expanded_text (AUnit x) = Ok (node_str e) /\
    (~ In w bracket_words -> forall history2,
     exists y cv, fst (sys_unit ord stack (node_str e) (after ord s history2)) = Ok (AUnit y) /\
       mk_converter (AUnit x) (AUnit y) = Ok cv /\ forall v, convert cv v = Ok v).
Proof.
  intros strict o s P E w A U T. destruct (read_any strict o P) as (s' & E' & R). rewrite E in E'. injection E' as <-.
  destruct (word_expands shipped s shipped_expand R w A (conj U T)) as (e & h & B & M & Ti & Wr & Re & H1 & H2).
  assert (Bh := reread_text s w e h (read_self_named strict o s P E) B Wr Re).
  exists e, h. split; [exact B |]. split; [exact Bh |]. split.
  { split; [intros S I; exact (H1 I S) | intros N; apply (H2 N)]. }
  intros ord h1 f Po L.
  destruct (C90_texts_on_the_shipped_database strict o s P E ord h1 f w e Po L B M Ti) as (x & Dx & Ux).
  exists x. split; [exact Ux |]. split; [unfold expanded_text; destruct Dx as (_ & _ & _ & -> & _); reflexivity |].
  intros N h2. destruct (H2 N) as ([S Q] & Mh & Th).
  destruct (C90_texts_on_the_shipped_database strict o s P E ord h2 f (node_str e) h Po L Bh Mh Th) as (y & Dy & Uy).
  destruct (C20_conversion_preserves_the_quantity is_radian x y e h Dx Dy (fun b => eq_sym (S b))) as (cv & Cv & V).
  exists y, cv. split; [exact Uy |]. split; [exact Cv |]. intros v. apply V. apply Q.
Qed.

(** ** C95.  (Expected: unit(x.expanded()) is x.)  A litre is written out as 0.1·meter^3, which is a
    hundred litres; explain-unit prints that text, too. *)
Definition liter_form := Eval vm_compute in form_of (u "liter").
Definition liter_text := Eval vm_compute in node_str liter_form.
Definition liter_again := Eval vm_compute in form_of liter_text.
Lemma liter_shape : liter_text = u "0.1·meter^3" /\ base_text shipped (u "liter") liter_form /\ base_text shipped liter_text liter_again.
Proof.
  split; [vm_compute; reflexivity |]. split; apply (out_text_sound shipped 8); vm_compute; reflexivity.
Qed.
Lemma liter_facts : rated liter_form /\ rated liter_again /\ (forall b, symexp liter_form b = symexp liter_again b) /\
  factor liter_form = (1 / 1000)%R /\ factor liter_again = (1 / 10)%R /\ node_str liter_form = u "0.1·meter^3".
Proof.
  split; [apply rated_b_sound; vm_compute; reflexivity |]. split; [apply rated_b_sound; vm_compute; reflexivity |].
  split; [intros b; unfold symexp, liter_form, liter_again; cbn [gdim]; lia |].
  split; [| split]; [| | vm_compute; reflexivity]; unfold liter_form, liter_again; cbn [factor num_R]; unfold Q2R; cbn; change (Pos.to_nat 3) with 3%nat; field.
Qed.

Section Litre.
Variable sh s : system.
Variable rank : str -> nat.
Hypothesis C : clash_free sh.
Hypothesis D : depth_at_most sh rank 7.
Hypothesis O : orderly is_radian is_second sh.
Hypothesis R : par sh s.
Lemma litre_verdict t1 t2 e h a b : base_text sh t1 e -> base_text sh t2 h -> rated e -> rated h -> (forall b, symexp e b = symexp h b) ->
  node_str e = t2 -> factor e = a -> factor h = b ->
  forall ord history1 history2 stack, rearranges ord -> (7 < stack)%nat ->
  exists x y cv, fst (sys_unit ord stack t1 (after ord s history1)) = Ok (AUnit x) /\ expanded_text (AUnit x) = Ok t2 /\
    fst (sys_unit ord stack t2 (after ord s history2)) = Ok (AUnit y) /\ mk_converter (AUnit x) (AUnit y) = Ok cv /\
    forall v, convert cv v = Ok (a / b * v)%R.
Proof.
  intros B1 B2 R1 R2 S T F1 F2 ord h1 h2 f Po L.
  assert (V1 := text_verdict sh s rank C D O R ord h1 f t1 e Po L (par_base_text sh s t1 e R B1) (levels_measurable _ (rated_levels _ R1)) (levels_timeless _ _ _ (rated_levels _ R1))).
  assert (V2 := text_verdict sh s rank C D O R ord h2 f t2 h Po L (par_base_text sh s t2 h R B2) (levels_measurable _ (rated_levels _ R2)) (levels_timeless _ _ _ (rated_levels _ R2))).
  destruct V1 as (x & Dx & Ux). destruct V2 as (y & Dy & Uy).
  destruct (C24_plain_conversion_is_one_factor is_radian x y e h Dx Dy R1 R2 S) as (cv & k & Cv & K & _ & Fk).
  exists x, y, cv. split; [exact Ux |]. split; [unfold expanded_text; destruct Dx as (_ & _ & _ & -> & _); cbn [bind]; now rewrite T |].
  split; [exact Uy |]. split; [exact Cv |]. intros v. now rewrite Fk, K, F1, F2.
Qed.
End Litre.

Theorem C95_litre_is_expanded_wrongly_refuted :
  forall strict set_order s, rearranges set_order -> read_system strict set_order db = Ok s ->
  forall ord history1 history2 stack, rearranges ord -> (7 < stack)%nat ->
  exists x y cv, fst (sys_unit ord stack (u "liter") (after ord s history1)) = Ok (AUnit x) /\
    expanded_text (AUnit x) = Ok (u "0.1·meter^3") /\
    fst (sys_unit ord stack (u "0.1·meter^3") (after ord s history2)) = Ok (AUnit y) /\
    mk_converter (AUnit x) (AUnit y) = Ok cv /\ forall v, convert cv v = Ok (v / 100)%R.
Proof.
  intros strict o s P E ord h1 h2 f Po L. destruct (read_any strict o P) as (s' & E' & R). rewrite E in E'. injection E' as <-.
  destruct shipped_checks as (C & _ & D). destruct liter_shape as (T & B1 & B2). destruct liter_facts as (R1 & R2 & S & F1 & F2 & N).
  rewrite T in B2.
  destruct (litre_verdict shipped s _ C D shipped_orderly R _ _ _ _ _ _ B1 B2 R1 R2 S N F1 F2 ord h1 h2 f Po L) as (x & y & cv & X & Ex & Y & Cv & V).
  exists x, y, cv. split; [exact X |]. split; [exact Ex |]. split; [exact Y |]. split; [exact Cv |]. intros v. rewrite V. f_equal. field.
Qed.

Lemma explain_prints set_order ord stack negnum s prog args t x txt : read_system false set_order db = Ok s -> reads negnum prog args [t] ->
  fst (sys_unit ord stack t s) = Ok (AUnit x) -> expanded_text (AUnit x) = Ok txt ->
  exists rest err, main (read_system false set_order db) ord stack negnum (prog :: u "explain-unit" :: args)
    = mkOut ([[Text (u "Unit: "); shown (AUnit x)]; [Text (u "In basis form: "); Text txt]] ++ rest) err.
Proof.
  intros E NO U X. pose proof (C58_explain_unit_outcomes set_order ord stack negnum s prog args t E NO) as H. cbv zeta in H.
  rewrite U in H. cbn [core] in H. cbn [expanded_text] in X. destruct (expanded x) as [g |]; [| discriminate X].
  cbn [bind] in X. injection X as X. rewrite X in H. destruct (udims x) as [d | e].
  - exists [[Text (u "Dimensionality: "); DictOf d]], None. exact H.
  - exists [], (Some e). rewrite app_nil_r. exact H.
Qed.

(** The command explain-unit liter says that its basis form is 0.1·meter^3. *)
Theorem C95_explain_unit_liter_refuted :
  forall set_order ord stack negnum prog args, rearranges set_order -> rearranges ord -> (7 < stack)%nat -> reads negnum prog args [u "liter"] ->
  exists s x rest err, read_system false set_order db = Ok s /\ fst (sys_unit ord stack (u "liter") s) = Ok (AUnit x) /\
    main (read_system false set_order db) ord stack negnum (prog :: u "explain-unit" :: args)
    = mkOut ([[Text (u "Unit: "); shown (AUnit x)]; [Text (u "In basis form: "); Text (u "0.1·meter^3")]] ++ rest) err.
Proof.
  intros o ord f ng prog args P Po L NO. destruct (read_any false o P) as (s & E & _).
  destruct (C95_litre_is_expanded_wrongly_refuted false o s P E ord [] [] f Po L) as (x & _ & _ & U & X & _).
  destruct (explain_prints o ord f ng s prog args (u "liter") x (u "0.1·meter^3") E NO U X) as (rest & err & M).
  exists s, x, rest, err. split; [exact E |]. split; [exact U | exact M].
Qed.

(** The hypotheses are met, on both sides of the list. *)
Example C94_example :
  (a_word shipped (u "newton") /\ usual (u "newton")) /\ (a_word shipped (u "liter") /\ usual (u "liter")) /\
  ~ In (u "newton") bracket_words /\ In (u "liter") bracket_words.
Proof.
  split; [split; [apply word_by; vm_compute; reflexivity | apply usual_by; vm_compute; reflexivity] |].
  split; [split; [apply word_by; vm_compute; reflexivity | apply usual_by; vm_compute; reflexivity] |].
  split; [apply not_mem_In; vm_compute; reflexivity | apply str_mem_In; vm_compute; reflexivity].
Qed.
Definition newton_form := Eval vm_compute in form_of (u "newton").
Example C94_example_text :
  base_text shipped (u "newton") newton_form /\ measurable newton_form /\ timeless is_radian is_second newton_form /\
  writable false newton_form /\ brackets_moot newton_form.
Proof.
  split; [apply (out_text_sound shipped 8); vm_compute; reflexivity |].
  split; [apply measurable_b_sound; vm_compute; reflexivity |]. split; [apply timeless_b_sound; vm_compute; reflexivity |].
  split; [apply writable_b_sound; vm_compute; reflexivity |]. unfold newton_form. cbn [brackets_moot is_product is_power]. tauto.
Qed.
