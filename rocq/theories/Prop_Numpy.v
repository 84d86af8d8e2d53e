(** * C113, C114: Converter.convert on arrays *)
From Verif Require Import PyBase PyNum Graph RegexFacts Visitor Expr Units UnitSystem UnitSpec UnitFacts UnitProofs
  SystemSpec SystemFacts SystemProofs SystemMore SystemKeep SystemOrd Prop_System Sympy Convert ConvertSpec ConvertFacts ConvertProofs ConvertMore EqFacts Prop_Convert
  Xml XmlSpec XmlFacts XmlPrefix Prop_Xml XmlData Database Prop_Database BaseSpec BaseFacts Prop_Base Prop_BaseDb
  NumpyConvert.
From Coq Require Import Lia Lra QArith Reals Qreals.
Local Open Scope list_scope.

(** An element converted as convert converts numbers; what has no value there is not finite. *)
Definition converted (cv : converter) (x : element) : element :=
  match x with
  | Some v => match convert cv v with Ok w => Some w | Err _ => None end
  | None => None
  end.

(** ** the steps *)
Definition thread (fs : list (R -> option R)) (x : R) : option R := fold_left (fun a f => obind a f) fs (Some x).
Lemma fold_none fs : fold_left (fun (a : option R) f => obind a f) fs None = None.
Proof. induction fs; auto. Qed.
Lemma thread_cons f fs x : thread (f :: fs) x = obind (f x) (thread fs).
Proof. unfold thread. cbn [fold_left obind]. destruct (f x); cbn [obind]; [reflexivity | apply fold_none]. Qed.
Lemma thread_app fs gs x : thread (fs ++ gs) x = obind (thread fs x) (thread gs).
Proof.
  unfold thread at 1. rewrite fold_left_app. fold (thread fs x).
  destruct (thread fs x); cbn [obind]; [reflexivity | apply fold_none].
Qed.
Lemma step_thread o x : thread (ufuncs o) x = op_eval o x.
Proof.
  destruct o as [m | q | b | b |]; try reflexivity. destruct b; cbn [ufuncs]; rewrite ?thread_cons; cbn [op_eval base_R];
    destruct (Rlt_dec 0 x); cbn [obind]; try reflexivity. unfold thread. cbn [fold_left].
  rewrite ln_exp. f_equal. unfold Rdiv. now rewrite Rinv_1, Rmult_1_r.
Qed.
Lemma chain_thread c x : thread (flat_map ufuncs c) x = chain_eval c x.
Proof.
  revert x. induction c as [| o c IH]; intro x; [reflexivity |]. cbn [flat_map chain_eval]. rewrite thread_app, step_thread.
  destruct (op_eval o x); cbn [obind]; auto.
Qed.

Lemma obind_some {A} (x : option A) : obind x (fun v => Some v) = x. Proof. now destruct x. Qed.

(** functions one after the other on an array: only new arrays, the elements each by themselves *)
Lemma apply_all_array fs : forall h p r, nth_error h p = Some r ->
  exists q h', apply_all fs h (PArr p) = Ok (PArr q, h ++ h') /\
    nth_error (h ++ h') q = Some (mkArray (a_shape r) (map (fun x => obind x (thread fs)) (a_data r))) /\
    (fs = [] -> q = p /\ h' = []) /\ (fs <> [] -> (List.length h <= q)%nat).
Proof.
  induction fs as [| f fs IH]; intros h p r H.
  - exists p, []. rewrite app_nil_r. cbn [apply_all]. split; [reflexivity |]. split; [| split; [auto | congruence]].
    rewrite H. destruct r as [s d]. cbn [a_shape a_data]. f_equal. f_equal. unfold thread. cbn [fold_left].
    erewrite map_ext; [symmetry; apply map_id |]. intro x. apply obind_some.
  - cbn [apply_all apply_ufunc]. rewrite H. cbn [bind fst snd].
    set (n := mkArray (a_shape r) (map (fun x => obind x f) (a_data r))).
    destruct (IH (h ++ [n]) (List.length h) n) as (q & h' & E & N & Nil & Cons).
    { rewrite nth_error_app2, Nat.sub_diag by lia. reflexivity. }
    exists q, (n :: h'). rewrite <- app_assoc in E, N. cbn [app] in E, N. split; [exact E |]. split.
    + rewrite N. subst n. cbn [a_shape a_data]. rewrite map_map. f_equal. f_equal. apply map_ext. intros [x |]; cbn [obind]; [| reflexivity].
      now rewrite thread_cons.
    + split; [congruence |]. intros _. destruct fs as [| g gs]; [destruct (Nil eq_refl) as [-> _]; lia |].
      specialize (Cons ltac:(congruence)). rewrite app_length in Cons. lia.
Qed.
Lemma apply_all_number fs h x : apply_all fs h (PNum x) = match thread fs x with Some y => Ok (PNum y, h) | None => Err EOutOfModel end.
Proof.
  revert x. induction fs as [| f fs IH]; intro x; [reflexivity |]. cbn [apply_all apply_ufunc]. rewrite thread_cons.
  destruct (f x) as [y |]; cbn [of_option bind obind fst snd]; auto.
Qed.

(** the code of a converter computes the chain *)
Lemma code_is_chain x y cv k : lambdified x y cv k -> exists fs, (forall v, thread fs v = chain_eval (cv_ops cv) v) /\
  (forall h v, convert_value cv k h v = if existsb op_residual (cv_ops cv) then Err EName else apply_all fs h v) /\
  (fs = [] <-> k = Bare).
Proof.
  intros [N | e1 e2 _ _ D].
  - exists []. rewrite N. split; [reflexivity |]. split; [| tauto]. intros h v. unfold convert_value. rewrite N. reflexivity.
  - unfold convert_value. destruct (cv_ops cv) as [| o c].
    + exists [fun x => Some x]. split; [reflexivity |]. split; [| split; discriminate].
      intros h v. cbn [existsb apply_all]. destruct (apply_ufunc _ h v) as [[]|]; reflexivity.
    + exists (flat_map ufuncs (o :: c)). split; [intro; apply chain_thread |]. split; [reflexivity |]. split; [| discriminate].
      intro H. cbn [flat_map] in H. destruct o as [m | q | b | b |]; try discriminate H. destruct b; discriminate H.
Qed.

(** C113.  An array comes back as an array of the same shape, each element converted by itself; no array
    there was is changed. *)
Theorem C113_arrays_are_converted_element_by_element :
  forall a b cv k, mk_converter a b = Ok cv -> lambdified (core a) (core b) cv k ->
  (exists v, convert cv v <> Err EName) ->
  forall h p r, nth_error h p = Some r ->
  exists q h' r', convert_value cv k h (PArr p) = Ok (PArr q, h') /\
    nth_error h' q = Some r' /\ a_shape r' = a_shape r /\ a_data r' = map (converted cv) (a_data r) /\
    forall i old, nth_error h i = Some old -> nth_error h' i = Some old.
Proof.
  intros a b cv k _ L [v0 Nn] h p r H. destruct (code_is_chain _ _ _ _ L) as (fs & T & E & _). rewrite E.
  unfold convert in Nn. destruct (existsb op_residual (cv_ops cv)) eqn:Re; [congruence |].
  destruct (apply_all_array fs h p r H) as (q & h' & A & N & _ & _). exists q, (h ++ h').
  eexists. split; [exact A |]. split; [exact N |]. split; [reflexivity |]. split.
  - cbn [a_data]. apply map_ext. intros [x |]; [| reflexivity]. cbn [obind converted]. unfold convert. rewrite Re, T.
    destruct (chain_eval (cv_ops cv) x); reflexivity.
  - intros i old Hi. rewrite nth_error_app1; [exact Hi |]. apply nth_error_Some. congruence.
Qed.

(** ... units that convert no number convert no array; numbers are converted as ever. *)
Theorem C113_name_errors_for_arrays_too :
  forall a b cv k v0, lambdified (core a) (core b) cv k -> convert cv v0 = Err EName ->
  forall h v, convert_value cv k h v = Err EName.
Proof.
  intros a b cv k v0 L E h v. destruct (code_is_chain _ _ _ _ L) as (fs & _ & F & _). rewrite F. unfold convert in E.
  destruct (existsb op_residual (cv_ops cv)); [reflexivity |]. exfalso. destruct (chain_eval (cv_ops cv) v0); discriminate E.
Qed.
Theorem C113_numbers_are_converted_alike :
  forall a b cv k, lambdified (core a) (core b) cv k ->
  forall h v, convert_value cv k h (PNum v) = do w <- convert cv v ;; Ok (PNum w, h).
Proof.
  intros a b cv k L h v. destruct (code_is_chain _ _ _ _ L) as (fs & T & F & _). rewrite F. unfold convert.
  destruct (existsb op_residual (cv_ops cv)); [reflexivity |]. rewrite apply_all_number, T.
  destruct (chain_eval (cv_ops cv) v); reflexivity.
Qed.

(** The result is a new array if any number is changed by the conversion. *)
Theorem C113_changed_values_are_in_a_new_array :
  forall a b cv k v, lambdified (core a) (core b) cv k -> convert cv v <> Ok v ->
  forall h p r q h', nth_error h p = Some r -> convert_value cv k h (PArr p) = Ok (PArr q, h') -> nth_error h q = None.
Proof.
  intros a b cv k v L D h p r q h' H E. destruct (code_is_chain _ _ _ _ L) as (fs & T & F & B). rewrite F in E.
  unfold convert in D. destruct (existsb op_residual (cv_ops cv)); [discriminate E |].
  destruct (apply_all_array fs h p r H) as (q' & h2 & A & _ & _ & C). rewrite A in E. injection E as <- _.
  apply nth_error_None, C. intros ->. apply D. rewrite <- T. reflexivity.
Qed.

(** ** Units of the same size *)
Lemma rated_normal x e : expanded x = Ok e -> rated e -> exists m, normal_form x = Ok ([], m) /\ good m /\
  Q2R (m_coef m) = factor e /\ forall s, mget s (m_exps m) = symexp e s.
Proof.
  intros X R. destruct (rated_mono e R) as (d & m & T & M & G & C & S). exists m. split; [| auto].
  unfold normal_form, symbolic. rewrite X. cbn [bind]. unfold split_root. rewrite (split_plain e _ (rated_plain e R)). cbn [bind fst snd].
  rewrite T. cbn [bind fst snd chain_of]. rewrite M. reflexivity.
Qed.

Lemma same_size_no_steps dl x y e1 e2 cv : describable dl x e1 -> describable dl y e2 -> rated e1 -> rated e2 ->
  (forall s, symexp e1 s = symexp e2 s) -> factor e1 = factor e2 ->
  mk_converter (AUnit x) (AUnit y) = Ok cv -> cv_ops cv = [].
Proof.
  intros D1 D2 R1 R2 S F MK. assert (D1' := D1). assert (D2' := D2).
  destruct D1 as (_ & _ & _ & X1 & M1). destruct D2 as (_ & _ & _ & X2 & M2).
  destruct (rated_normal x e1 X1 R1) as (m1 & N1 & G1 & C1 & E1). destruct (rated_normal y e2 X2 R2) as (m2 & N2 & G2 & C2 & E2).
  destruct (mono_inv_ok _ G2) as (i & I & Gi & Ci & Ei). destruct (mono_mul_ok _ _ G1 Gi) as [Gk Ek].
  assert (F2 := rated_factor _ R2).
  assert (One : mono_eqb (mono_mul m1 i) mono_one = true).
  { unfold mono_eqb. apply andb_true_intro. split.
    - apply Qeq_bool_iff, eqR_Qeq. rewrite mono_mul_coef, Ci, C1, C2, F. unfold mono_one. cbn [m_coef]. rewrite RMicromega.Q2R_1. now apply Rinv_r.
    - apply (proj2 (exps_eqb_iff (m_exps (mono_mul m1 i)) (m_exps mono_one) (proj2 Gk) (conj (NoDup_nil _) (Forall_nil _)))). intro s. rewrite Ek, Ei, E1, E2, S. unfold mono_one, mget. cbn [m_exps dget]. lia. }
  destruct (describable_dims _ _ _ D1') as (da & Ha & Va). destruct (describable_dims _ _ _ D2') as (db & Hb & Vb).
  assert (De : dims_eqb da db = true).
  { apply dims_eqb_iff; [now apply dims_of_object in Ha | now apply dims_of_object in Hb |]. intro s. now rewrite Va, Vb, S. }
  revert MK. unfold mk_converter. rewrite Ha, Hb. cbn [bind dimval_inv dimval_eqb]. rewrite De. cbn [orb negb core].
  rewrite N1, N2. cbn [bind fst snd]. change (chain_inv (chain_norm [])) with (Some (@nil op)). cbn [of_option bind].
  rewrite I. cbn [obind of_option bind app]. intro H. injection H as <-. cbn [cv_ops].
  unfold chain_norm. cbn [fold_left push]. now rewrite One.
Qed.

(** C114.  Between units of the same size, written with whole numbers, convert returns the very array it is
    given: writing to the result changes the input. *)
Theorem C114_same_size_returns_the_argument :
  forall dl x y e1 e2, describable dl x e1 -> describable dl y e2 -> rated e1 -> rated e2 ->
  (forall s, symexp e1 s = symexp e2 s) -> factor e1 = factor e2 -> no_floats e1 = true -> no_floats e2 = true ->
  exists cv, mk_converter (AUnit x) (AUnit y) = Ok cv /\
  forall k, lambdified x y cv k -> forall h v, convert_value cv k h v = Ok (v, h).
Proof.
  intros dl x y e1 e2 D1 D2 R1 R2 S F W1 W2. destruct (describable_direct dl x y e1 e2 D1 D2 S) as (cv & C & _).
  assert (N := same_size_no_steps dl x y e1 e2 cv D1 D2 R1 R2 S F C). exists cv. split; [exact C |].
  intros k L h v. unfold convert_value. rewrite N. cbn [existsb]. destruct L as [_ | f1 f2 X1 X2 [K | K]]; [reflexivity | congruence |].
  destruct D1 as (_ & _ & _ & Y1 & _). destruct D2 as (_ & _ & _ & Y2 & _). rewrite Y1 in X1. rewrite Y2 in X2.
  injection X1 as <-. injection X2 as <-. rewrite W1, W2 in K. discriminate K.
Qed.

(** "The result is a new array" is false: metres to metres on the shipped database. *)
Definition metre := Eval vm_compute in form_of (u "m").
Lemma metre_shape : base_text shipped (u "m") metre /\ base_text shipped (u "meter") metre /\ rated metre /\
  timeless is_radian is_second metre /\ no_floats metre = true.
Proof.
  split; [apply (out_text_sound shipped 8); vm_compute; reflexivity |].
  split; [apply (out_text_sound shipped 8); vm_compute; reflexivity |].
  split; [apply rated_b_sound; vm_compute; reflexivity |].
  split; [apply timeless_b_sound; vm_compute; reflexivity | reflexivity].
Qed.
(** which texts have whole numbers only: a point or an exponent makes a Float, unless the Decimal is
    printed without (2. is printed as 2) *)
Example C114_whole_numbers :
  map (fun s => match parse s with Ok n => Some (no_floats n) | Err _ => None end)
    [u "3 m"; u "lg(re 2. m)"; u "2.5 m"; u "1e3 m"; u "1e-7 m"; u "m/(1.0 m)"]
  = [Some true; Some true; Some false; Some false; Some false; Some false].
Proof. vm_compute. reflexivity. Qed.
Lemma write_same h p r new : nth_error h p = Some r -> nth_error (write h p new) p = Some new.
Proof.
  revert p. induction h as [| a h IH]; intros [| p] H; cbn [nth_error write] in *; try discriminate H; [reflexivity |].
  now apply IH.
Qed.
Theorem C114_converting_makes_a_new_array_refuted :
  forall strict set_order s, rearranges set_order -> read_system strict set_order db = Ok s ->
  forall ord history1 history2 stack1 stack2, rearranges ord -> (7 < stack1)%nat -> (7 < stack2)%nat ->
  exists x y cv, fst (sys_unit ord stack1 (u "m") (after ord s history1)) = Ok (AUnit x) /\
    fst (sys_unit ord stack2 (u "meter") (after ord s history2)) = Ok (AUnit y) /\
    mk_converter (AUnit x) (AUnit y) = Ok cv /\
    forall k, lambdified x y cv k -> forall h p input new, nth_error h p = Some input ->
    exists q h', convert_value cv k h (PArr p) = Ok (PArr q, h') /\ nth_error (write h' q new) p = Some new.
Proof.
  intros strict o s P E ord h1 h2 f1 f2 Po L1 L2.
  destruct (read_any strict o P) as (s' & E' & R). rewrite E in E'. injection E' as <-.
  destruct metre_shape as (B1 & B2 & Ra & T & W). apply (par_base_text shipped s _ _ R) in B1, B2. assert (M := rated_measurable _ Ra).
  destruct (C90_texts_on_the_shipped_database strict o s P E ord h1 f1 _ _ Po L1 B1 M T) as (x & Dx & Ux).
  destruct (C90_texts_on_the_shipped_database strict o s P E ord h2 f2 _ _ Po L2 B2 M T) as (y & Dy & Uy).
  destruct (C114_same_size_returns_the_argument is_radian x y metre metre Dx Dy Ra Ra (fun _ => eq_refl) eq_refl W W) as (cv & Cv & K).
  exists x, y, cv. split; [exact Ux |]. split; [exact Uy |]. split; [exact Cv |].
  intros k L h p input new H. exists p, h. split; [apply K, L |]. now apply (write_same h p input).
Qed.

(** README.md:47-58: degrees Celsius to kelvin, an array of three, and one element that is not finite *)
Definition celsius := Eval vm_compute in form_of (u "degC").
Definition kelvin := Eval vm_compute in form_of (u "kelvin").
Lemma readme_shape : base_text shipped (u "degC") celsius /\ base_text shipped (u "kelvin") kelvin /\ measurable celsius /\ measurable kelvin /\
  timeless is_radian is_second celsius /\ timeless is_radian is_second kelvin /\ forall b, symexp celsius b = symexp kelvin b.
Proof.
  split; [apply (out_text_sound shipped 8); vm_compute; reflexivity |].
  split; [apply (out_text_sound shipped 8); vm_compute; reflexivity |].
  split; [apply measurable_b_sound; vm_compute; reflexivity |]. split; [apply measurable_b_sound; vm_compute; reflexivity |].
  split; [apply timeless_b_sound; vm_compute; reflexivity |]. split; [apply timeless_b_sound; vm_compute; reflexivity |].
  intro b. unfold symexp, celsius, kelvin. cbn [gdim]. lia.
Qed.
Example C113_example :
  forall ord history1 history2, rearranges ord ->
  exists x y cv, fst (sys_unit ord 8 (u "degC") (after ord shipped history1)) = Ok (AUnit x) /\
    fst (sys_unit ord 8 (u "kelvin") (after ord shipped history2)) = Ok (AUnit y) /\
    mk_converter (AUnit x) (AUnit y) = Ok cv /\ (exists v, convert cv v <> Err EName) /\
    (exists k, lambdified x y cv k) /\
    forall k, lambdified x y cv k -> forall h p, nth_error h p = Some (mkArray [4%nat] [Some 32%R; Some 15%R; Some (-20)%R; None]) ->
    exists q h', convert_value cv k h (PArr p) = Ok (PArr q, h') /\ nth_error h q = None /\
      nth_error h' q = Some (mkArray [4%nat] [Some 305.15%R; Some 288.15%R; Some 253.15%R; None]).
Proof.
  intros ord h1 h2 Po. destruct readme_shape as (B1 & B2 & M1 & M2 & T1 & T2 & S).
  destruct shipped_checks as (C & _ & D). assert (L : (7 < 8)%nat) by lia.
  destruct (text_verdict shipped shipped _ C D shipped_orderly (par_refl shipped) ord h1 8%nat _ _ Po L B1 M1 T1) as (x & Dx & Ux).
  destruct (text_verdict shipped shipped _ C D shipped_orderly (par_refl shipped) ord h2 8%nat _ _ Po L B2 M2 T2) as (y & Dy & Uy).
  destruct (C20_conversion_preserves_the_quantity is_radian x y _ _ Dx Dy S) as (cv & Cv & Q).
  assert (V : forall v, convert cv v = Ok (v + 273.15)%R).
  { intro v. apply Q. unfold celsius, kelvin. cbn [quantity factor num_R]. unfold Q2R. cbn. lra. }
  exists x, y, cv. split; [exact Ux |]. split; [exact Uy |]. split; [exact Cv |].
  assert (Nv : convert cv 0%R <> Ok 0%R). { rewrite V. intro H. assert (0 + 273.15 = 0)%R by congruence. lra. }
  split; [exists 0%R; rewrite V; discriminate |]. split.
  - exists (Steps (cv_ops cv)). destruct Dx as (_ & _ & _ & Y1 & _). destruct Dy as (_ & _ & _ & Y2 & _). apply (LSteps x y cv _ _ Y1 Y2). left. intro N. apply Nv. unfold convert. rewrite N. reflexivity.
  - intros k Lk h p H.
    destruct (C113_arrays_are_converted_element_by_element (AUnit x) (AUnit y) cv k Cv Lk ltac:(exists 0%R; rewrite V; discriminate) h p _ H)
      as (q & h' & [sh dt] & E & N & Sh & Dt & _).
    exists q, h'. split; [exact E |]. split; [exact (C113_changed_values_are_in_a_new_array (AUnit x) (AUnit y) cv k 0%R Lk Nv h p _ q h' H E) |].
    rewrite N. cbn [a_shape a_data] in Sh, Dt. subst sh dt. cbn [map converted]. rewrite !V. repeat f_equal; lra.
Qed.
