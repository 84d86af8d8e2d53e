(** * The project's own tests, run on the model (generated by tools/gen_conformance.py).

    These are tests, not proofs: they check that the model gives the results the project's
    test-suite expects of the code.  Fixtures are transcribed by hand. *)
From Verif Require Import PyBase PyNum Graph Visitor Expr Units Sympy Convert ConvertFacts UnitSystem Expander Xml XmlData Database.
From Coq Require Import QArith Qreals Reals Lra.
Close Scope Q_scope. Close Scope R_scope.

Definition raises {A} (e : exn) (r : res A) : bool :=
  match r, e with
  | Err ESyntax, ESyntax => true
  | Err (EValue VE_nested_date), EValue VE_nested_date => true
  | Err (EValue VE_shift_not_number), EValue VE_shift_not_number => true
  | Err (EUnresolvable a), EUnresolvable b => str_eqb a b
  | _, _ => false
  end.
Definition gives (r : res str) (t : str) : bool := match r with Ok x => str_eqb x t | _ => false end.
Definition split_is (a : str) (t : option str) (d : str) : bool :=
  match parse a with
  | Ok g => match split_root g with
            | Ok (t', d') => str_eqb (node_str d') d &&
                match t, t' with None, None => true | Some x, Some y => str_eqb (node_str y) x | _, _ => false end
            | _ => false end
  | _ => false end.
Definition expands (a : str) : res str := do g <- parse a ;; do x <- expand g ;; Ok (node_str x).
Definition expands_shifted (a : str) : res str := do g <- parse a ;; do x <- expand (Shift (Identifier (u "m")) g) ;; Ok (node_str x).

(** test_unit.py: SimpleUnit, common_id_refs *)
Definition simple (t : str) : res unit :=
  do g <- parse t ;; mk_unit g (map (fun k => (k, RUnit (UBasis k false false))) (identifiers g)).
Definition common : list (str * uref) :=
  [(u "s", RUnit (UBasis (u "s") false true)); (u "years", RUnit (UBasis (u "year") false true)); (u "m", RUnit (UBasis (u "m") false false))].
Definition eq_is (a b : res unit) (r : bool) : bool :=
  match a, b with Ok x, Ok y => match unit_eq x y with Ok v => Bool.eqb v r | _ => false end | _, _ => false end.
Definition date_is (t r : str) : bool :=
  match (do g <- parse t ;; unit_from_expression g common) with Ok (ADate _ x) => str_eqb x r | _ => false end.

(** conftest.py: simple_unit_system *)
Definition ok_or_empty (r : res system) : system := match r with Ok s => s | Err _ => empty_system end.
Definition nm1 (a : string) : option name := Some (mkName (u a) None).
Definition nm2 (a b : string) : option name := Some (mkName (u a) (Some (u b))).
Definition basis (r : reference) (it : bool) (s : system) : system :=
  match mk_basis r false it with Ok x => ok_or_empty (add_unit (EUnit x r) r false s) | Err _ => empty_system end.
Definition defined (t : string) (r : reference) (s : system) : system := ok_or_empty (add_lazy (u t) r s).
Definition simple_system : system :=
  defined "K @ 273.15" (mkRef (nm1 "degC") [] [] [])
  (basis (mkRef (nm1 "kelvin") [u "K"] [] []) false
  (defined "10 decade" (mkRef (nm2 "century" "centuries") [] [] [])
  (defined "10 year" (mkRef (nm2 "decade" "decades") [] [] [])
  (basis (mkRef (nm1 "year") [] [] []) false
  (defined "lg(re 1 mW)" (mkRef None [u "Bm"] [] [])
  (basis (mkRef (nm1 "watt") [u "W"] [] []) false
  (defined "60 minutes" (mkRef (nm2 "hour" "hours") [u "h"] [] [])
  (defined "60 seconds" (mkRef (nm2 "minute" "minutes") [u "min"] [] [])
  (basis (mkRef (nm2 "second" "seconds") [u "s"] [] []) true
  (basis (mkRef (nm2 "meter" "meters") [u "m"] [mkName (u "metre") (Some (u "metres"))] []) false
  (add_prefix (mkPrefix (u "centi") (u "100") [u "c"])
  (add_prefix (mkPrefix (u "kilo") (u "1000") [u "k"])
  (add_prefix (mkPrefix (u "deci") (u "10") [u "d"])
  (add_prefix (mkPrefix (u "milli") (u ".001") [u "m"]) empty_system)))))))))))))).

Definition unit_of (s : system) (t : str) : res anyunit := fst (sys_unit (fun l => l) 20 t s).
Definition dict_is (d : dims) (e : list (str * Z)) : bool :=
  Nat.eqb (List.length d) (List.length e) &&
  forallb (fun kv => match dims_get (fst kv) d with Some z => Z.eqb z (snd kv) | None => false end) e.
Definition dims_are (s : system) (t : str) (e : list (str * Z)) : bool :=
  match unit_of s t with
  | Ok a => match dimensionality a with Ok (DObj d) => dict_is d e | _ => false end &&
            match a with AUnit x => match is_dimensionless x with Ok b => Bool.eqb b (match e with [] => true | _ => false end) | _ => false end
                       | ADate _ _ => match e with [] => false | _ => true end end
  | _ => false end.
Definition dims_equal (a b : anyunit) : res bool := do x <- dimensionality a ;; do y <- dimensionality b ;; Ok (dimval_eqb x y).
Definition expansion (t : str) : res str :=
  match unit_of simple_system t with Ok (AUnit x) => do g <- expanded x ;; Ok (node_str g) | _ => Err EAssertion end.
Definition same_unit_text (s : system) (a b : str) : bool :=
  match unit_of s a, unit_of s b with Ok (AUnit x), Ok (AUnit y) => match unit_eq x y with Ok v => v | _ => false end | _, _ => false end.
Definition is_date (r : res anyunit) : bool := match r with Ok (ADate _ _) => true | _ => false end.
(** pytest.raises(ValueError); UnresolvableUnitException is a ValueError (_exceptions.py) *)
Definition value_or_unresolvable {A} (r : res A) : bool := match r with Err (EValue _) | Err (EUnresolvable _) => true | _ => false end.
Definition time_is (s : system) (t : str) (b : bool) : bool :=
  match unit_of s t with
  | Ok (AUnit x) => match is_time_unit x with Ok v => Bool.eqb v b | _ => false end
  | Ok (ADate _ _) => b
  | _ => false end.

(** Evaluating a conversion exactly: logarithms and powers too where the result is rational. *)
Definition lbaseQ (b : lbase) : option positive := match b with Base10 => Some 10%positive | Base2 => Some 2%positive | _ => None end.
Definition powQ (p : positive) (z : Z) : Q := (inject_Z (Zpos p) ^ z)%Q.
Definition opX (o : op) (x : Q) : option Q :=
  match o with
  | OpExp b => match lbaseQ b, Qred x with Some p, Qmake z 1 => Some (Qred (powQ p z)) | _, _ => None end
  | OpLog b => match lbaseQ b with
               | Some p => option_map (fun z => inject_Z z) (find (fun z => Qeq_bool (powQ p z) x) (map (fun n => Z.of_nat n - 30)%Z (seq 0 60)))
               | None => None end
  | _ => op_evalQ o x
  end.
Fixpoint evalX (c : Sympy.chain) (x : Q) : option Q :=
  match c with [] => Some x | o :: c' => match opX o x with Some y => evalX c' y | None => None end end.
Definition converts (a b : str) (x v : Q) : bool :=
  match (do p <- unit_of simple_system a ;; do q <- unit_of simple_system b ;; mk_converter p q) with
  | Ok c => negb (existsb op_residual (cv_ops c)) && match evalX (cv_ops c) x with Some y => Qeq_bool y v | None => false end
  | _ => false end.

(** What [converts] computes is what the real-valued model [convert] gives. *)
Lemma powQ_R p z : Q2R (powQ p z) = powerRZ (IZR (Zpos p)) z.
Proof.
  unfold powQ. assert (E : Q2R (inject_Z (Z.pos p)) = IZR (Z.pos p)) by (unfold Q2R; cbn; lra).
  rewrite Q2R_power, E; [reflexivity|]. rewrite E. apply not_0_IZR. discriminate.
Qed.
Lemma lbaseQ_R b p : lbaseQ b = Some p -> IZR (Zpos p) = base_R b /\ (1 < base_R b)%R.
Proof. destruct b; cbn [lbaseQ]; intro H; try discriminate; injection H as <-; cbn [base_R]; split; lra. Qed.
Lemma opX_sound o x y : opX o x = Some y -> op_eval o (Q2R x) = Some (Q2R y).
Proof.
  destruct o as [m|q|b|b|]; try apply op_evalQ_sound; cbn [opX op_eval].
  - destruct (lbaseQ b) as [p|] eqn:L; [|discriminate]. destruct (lbaseQ_R b p L) as [Hb H1].
    match goal with |- context [find ?f ?l] => destruct (find f l) as [z|] eqn:F end; [|discriminate].
    intro H. cbn [option_map] in H. apply Some_inj in H. subst y. apply find_some in F. destruct F as [_ F].
    apply Qeq_bool_eq, Qeq_eqR in F. rewrite powQ_R, Hb in F.
    assert (P : (0 < powerRZ (base_R b) z)%R) by (apply powerRZ_lt; lra).
    destruct (Rlt_dec 0 (Q2R x)) as [D|D]; [|exfalso; rewrite <- F in D; contradiction].
    apply f_equal. rewrite <- F, powerRZ_Rpower by lra. unfold Rpower. rewrite ln_exp.
    assert (Z0 : Q2R (inject_Z z) = IZR z) by (unfold Q2R; cbn; lra). rewrite Z0.
    assert (ln (base_R b) <> 0)%R by (rewrite <- ln_1; intro W; apply ln_inv in W; lra).
    field. assumption.
  - destruct (lbaseQ b) as [p|] eqn:L; [|discriminate]. destruct (lbaseQ_R b p L) as [Hb H1].
    destruct (Qred x) as [z [d|d|]] eqn:R; try discriminate. intro H. apply Some_inj in H. subst y.
    apply f_equal. rewrite (Qeq_eqR _ _ (Qred_correct _)), powQ_R, Hb, powerRZ_Rpower by lra.
    rewrite <- (Qeq_eqR _ _ (Qred_correct x)), R. apply f_equal. unfold Q2R. cbn. lra.
Qed.
Lemma evalX_sound c : forall x y, evalX c x = Some y -> chain_eval c (Q2R x) = Some (Q2R y).
Proof.
  induction c as [|o c IH]; intros x y H; cbn [evalX chain_eval] in *.
  - apply Some_inj in H. now subst.
  - destruct (opX o x) as [z|] eqn:E; [|discriminate]. rewrite (opX_sound _ _ _ E). cbn [obind]. now apply IH.
Qed.
Lemma converts_sound a b x v : converts a b x v = true ->
  exists p q c, unit_of simple_system a = Ok p /\ unit_of simple_system b = Ok q /\
                mk_converter p q = Ok c /\ convert c (Q2R x) = Ok (Q2R v).
Proof.
  unfold converts. destruct (unit_of simple_system a) as [p|] eqn:A; cbn [bind]; [|discriminate].
  destruct (unit_of simple_system b) as [q|] eqn:B; cbn [bind]; [|discriminate].
  destruct (mk_converter p q) as [c|] eqn:C; [|discriminate]. intro H.
  apply andb_true_iff in H. destruct H as [H1 H2]. exists p, q, c. repeat split; auto.
  unfold convert. apply negb_true_iff in H1. rewrite H1.
  destruct (evalX (cv_ops c) x) as [y|] eqn:E; [|discriminate]. rewrite (evalX_sound _ _ _ E). cbn [of_option].
  apply f_equal, Qeq_eqR, Qeq_bool_eq, H2.
Qed.

(* test_parse.py: testdata; the comparison with cf_units is not modelled *)
Example parse_testdata :
  forallb (fun t => is_ok (normalize t)) [u "";
   u "1";
   u "12";
   u "1.2";
   u "+1";
   u "+1.2";
   u "-1";
   u "-1.2";
   u "-1.2e0";
   u "2e6";
   u "2e-6";
   u "2.e-6";
   u ".1e2";
   u ".1e2.2";
   u "2e";
   u "m";
   u "meter";
   u "1 2 3";
   u "1 -2 -3";
   u "1m";
   u "1*m";
   u "2e3m";
   u ".2m";
   u "m·m";
   u "1 m";
   u "1   m";
   u "m -1";
   u "m -1.2";
   u "m 1";
   u "m 1000";
   u "m 1.2";
   u "m-+2";
   u "m--4";
   u "m*1*2";
   u "m--2--3";
   u "m(2.3)";
   u "m(2.3m)";
   u "(1.2)(2.4)";
   u "(5m(6s-1))";
   u "2*3*4/5m/6*7*8";
   u "m/2";
   u "m1";
   u "m m";
   u "m2";
   u "m+2";
   u "m¹";
   u "m²";
   u "m³";
   u "2⁴";
   u "2⁵";
   u "2⁴²";
   u "3⁻²";
   u "m2 s2";
   u "m^2*s^2";
   u "1-2";
   u "1-2-3";
   u "m-1";
   u "m^2";
   u "m^+2";
   u "m^-1";
   u "m.2";
   u "m.+2";
   u "m.2.4";
   u "m0.2";
   u "m2.5";
   u "m2.3.4";
   u "m--1";
   u "m per 2";
   u "m per s";
   u "m / 2";
   u "m@10";
   u "m @10";
   u "m @ 10";
   u "m@ 10";
   u "m from2";
   u "m from2e-1";
   u "(m @ 10) (s @ 10)";
   u "s from 1990";
   u "minutes since 1990";
   u "hour@1990";
   u "hours from 1990-1";
   u "hours from 1990-1-1";
   u "hours from 1990-1-1 0";
   u "hours from 1990-1-1 0:1:1";
   u "hours from 1990-1-1 0:0:1 +2";
   u "seconds since 1970-01-01T00:00:00Z";
   u "seconds since 1970-01Z";
   u "seconds since 1970-01-10TZ";
   u "seconds since 1970-01-10 Z";
   u "seconds since 1970-01-10T00:00UTC";
   u "seconds since 1970-01-10 00:00 GMT";
   u "s since 2020-0101";
   u "seconds since 20200101";
   u "s since 1990-01-02 Z";
   u "s since 1990-1-2+5:2:2";
   u "s since 1990-1-2+5:2";
   u "s since 1990-1-2 5 6:0";
   u "s since 19900102T5";
   u "s since 19900101T190030 +2";
   u "s since 19900101T190030 GMT";
   u "s since 199022T1";
   u "s since 1990 +2:0:2.9";
   u "s since 1990-2T1";
   u "s since -1990 +2:0:2.9";
   u "hours since 2001-12-31 23:59:59.999UTC";
   u "hours since 2001-12-31 23:59:59.999 Z";
   u "hours since 2001-12-31 23:59:59.999 GMT";
   u "days since 1970-01-01T00:00:00 UTC";
   u "hours since 2001-12-31TZ";
   u "hours from 1990-1-1 -19:4:2";
   u "hours from 1990-1-1 3+1";
   u "seconds from 1990-1-1 0:0:0 +2550";
   u "s since 1990-1-2+5:2:2";
   u "hours from 1990-1-1 0:1:60";
   u "hours from 1990-1-1 0:1:62";
   u "(hours since 1900) (s since 1980)";
   u "s since +1990 +2:0:2.9";
   u "s since -1990 +2:0:2.9";
   u "π";
   u "e";
   u "°C";
   u "lg(re W)";
   u "0.1 lg(re 1 mW)";
   u "0.1 ln(re km^2)";
   u "0.1 ln(re (K @ 10))";
   u "lg(RE km)";
   u "lb(re km)";
   u "lb(re lb)";
   u "log(re km)";
   u "lg(re log(re m))";
   u "log(re 1)^0";
   u "log(re 1)-0";
   u "log(re 1)0"] = true.
Proof. vm_compute. reflexivity. Qed.

(* test_parse.py: invalid, known_issues, not_allowed, error quality *)
Example parse_invalid :
  forallb (fun t => raises ESyntax (normalize t)) [u "1 * m";
   u "m--m";
   u "-m";
   u "m^n";
   u ".1e2.";
   u "m+-1";
   u "--1";
   u "+-1";
   u "--3.1";
   u "$";
   u "£";
   u "hours from 1990-0-0 0:0:0";
   u "hours since 1900-1 10:12 10:0 1";
   u "s since 1990:01:02T1900 +1";
   u "s since 1990:01:02T1900 TZ";
   u "s since 1990-01-02T1900 TZ";
   u "s since 1990:01:02 GMT";
   u "1990-1-1 12:00:00";
   u "days since 2000)";
   u "hours from 1990-1-1 -20:4:18 +2";
   u "m++2";
   u "m s^(-1)";
   u "m per /s";
   u "s @ UTC";
   u "m^m 2s";
   u "Thing×Another"] = true.
Proof. vm_compute. reflexivity. Qed.

(* test_parse.py: not_udunits *)
Example parse_not_udunits :
  forallb (fun ab => gives (normalize (fst ab)) (snd ab)) [(u "foo", u "foo");
   (u "mfrom1", u "mfrom^1");
   (u "m⁴", u "m^4");
   (u "2¹²³⁴⁵⁶⁷⁸⁹⁰", u "2^1234567890");
   (u "m⁻²", u "m^-2");
   (u "0.1 ln(re K @ 10)", u "0.1·(ln(re (K @ 10)))");
   (u "LOG(re W)", u "LOG·re·W");
   (u "log(re 1)^2", u "(log(re 1))^2");
   (u "log(re 1)2", u "(log(re 1))^2");
   (u "log(re 1)-1", u "(log(re 1))^-1");
   (u "log(re re)", u "(log(re re))");
   (u "À", u "À");
   (u "Á", u "Á");
   (u "Ö", u "Ö");
   (u "Ø", u "Ø");
   (u "ö", u "ö");
   (u "ø", u "ø");
   (u "ÿ", u "ÿ");
   (u "µ", u "µ");
   (u "µ°F·Ω⁻¹", u "µ°F·Ω^-1");
   (u "s since 1990-01-02 GMT", u "(s @ 1990-01-02 GMT)");
   (u "UTC", u "UTC")] = true.
Proof. vm_compute. reflexivity. Qed.

(* test_graph.py: test_large_graph *)
Example graph_large :
  match parse (u "m2/4.1.2π per second @ 10") with
  | Ok (Shift (Divide (Multiply (Multiply (Divide (Raise m two) d) f) p) s) (Number v raw)) =>
    map node_str [Number v raw; s; p; f; d; m; two; Divide (Raise m two) d; Multiply (Divide (Raise m two) d) f; Multiply (Multiply (Divide (Raise m two) d) f) p]
  | _ => [] end =
  [u "10"; u "second"; u "π"; u "0.2"; u "4.1"; u "m"; u "2"; u "m^2/4.1"; u "m^2/4.1·0.2"; u "m^2/4.1·0.2·π"].
Proof. vm_compute. reflexivity. Qed.

(* test_expr_split.py: test__split_expression *)
Example split_cases :
  forallb (fun '(a, t, d) => split_is a t d) [(u "2", None, u "2");
   (u "5·m", None, u "5·m");
   (u ".1", None, u "0.1");
   (u "1e-2", None, u "0.01");
   (u "s", None, u "s");
   (u "s @ 2", Some (u "(value @ 2)"), u "s");
   (u "(s @ 2)*1", Some (u "value·1"), u "s");
   (u "5 (s @ 2)^2", Some (u "5·value"), u "s^2");
   (u "m/s", None, u "m/s");
   (u "lg(re years)", Some (u "(lg(re value))"), u "years");
   (u "lg(re years/2)", Some (u "(lg(re value))"), u "years/2");
   (u "2 lg(re years)", Some (u "2·(lg(re value))"), u "years");
   (u "5lg(re m2)", Some (u "5·(lg(re value))"), u "m^2");
   (u "5ln(re m2)", Some (u "5·(ln(re value))"), u "m^2");
   (u "ln(re m2)·5", Some (u "(ln(re value))·5"), u "m^2");
   (u "a lb(re m @ 4)", Some (u "a·(lb(re value))"), u "m");
   (u "(lb(re m)) @ 2", Some (u "((lb(re value)) @ 2)"), u "m");
   (u "a lb(re m @ 3) @ 4", Some (u "(a·(lb(re value)) @ 4)"), u "m");
   (u "a lb(re lg(re m2/s))", Some (u "a·(lb(re (lg(re value))))"), u "m^2/s")] = true.
Proof. vm_compute. reflexivity. Qed.

(* test_unit_basis.py: test_Expander *)
Example expander_cases :
  forallb (fun ab => gives (expands (fst ab)) (snd ab)) [(u "2^2", u "2^2");
   (u "2^2·3^2", u "2^2·3^2");
   (u "2^2·2^-1", u "2");
   (u "s^0", u "1");
   (u "s^1", u "s");
   (u "s s", u "s^2");
   (u "s s s", u "s^3");
   (u "s^2 s", u "s^3");
   (u "s^2 s^5", u "s^7");
   (u "s m s", u "m·s^2");
   (u "10s 20s", u "200·s^2");
   (u "s^-1 s", u "1");
   (u "s^-2 s^1", u "s^-1");
   (u "s^-1 s^-1", u "s^-2");
   (u "s^2 3s^-3", u "3·s^-1");
   (u "s^2/3s^-3", u "3^-1·s^-1");
   (u "(s^2)^3", u "s^6");
   (u "(m s^2)^3", u "m^3·s^6");
   (u "(m^-1 s^2)^3", u "m^-3·s^6");
   (u "(m^-1 s^2)^3 m^3", u "s^6");
   (u "(s @ 100)^2", u "(s^2 @ 100^2)");
   (u "((s @ 2) @ 100)^2", u "(s^2 @ 100^2·2^2)");
   (u "7·24·60·60·s/(14·24·60·60·s)", u "14^-1·7")] = true.
Proof. vm_compute. reflexivity. Qed.

(* test_unit_basis.py: test_Expander, as_offset *)
Example expander_offsets :
  forallb (fun ab => gives (expands_shifted (fst ab)) (snd ab)) [(u "2^2", u "(m @ 2^2)");
   (u "2^2·3^2", u "(m @ 2^2·3^2)");
   (u "2^2·2^-1", u "(m @ 2)");
   (u "s^0", u "(m @ 1)");
   (u "s^1", u "(m @ s)");
   (u "s s", u "(m @ s^2)");
   (u "s s s", u "(m @ s^3)");
   (u "s^2 s", u "(m @ s^3)");
   (u "s^2 s^5", u "(m @ s^7)");
   (u "s m s", u "(m @ m·s^2)");
   (u "10s 20s", u "(m @ 200·s^2)");
   (u "s^-1 s", u "(m @ 1)");
   (u "s^-2 s^1", u "(m @ s^-1)");
   (u "s^-1 s^-1", u "(m @ s^-2)");
   (u "s^2 3s^-3", u "(m @ 3·s^-1)");
   (u "s^2/3s^-3", u "(m @ 3^-1·s^-1)");
   (u "(s^2)^3", u "(m @ s^6)");
   (u "(m s^2)^3", u "(m @ m^3·s^6)");
   (u "(m^-1 s^2)^3", u "(m @ m^-3·s^6)");
   (u "(m^-1 s^2)^3 m^3", u "(m @ s^6)");
   (u "7·24·60·60·s/(14·24·60·60·s)", u "(m @ 14^-1·7)")] = true.
Proof. vm_compute. reflexivity. Qed.

(* test_unit.py: test_unit__eq *)
Example unit_eq_cases :
  forallb (fun '(a, b, r) => eq_is (simple a) (simple b) r && eq_is (simple b) (simple a) r) [(u "a", u "a", true);
   (u "a", u "2a", false);
   (u "2a", u "a 2", true);
   (u "lg(re m)", u "lg(re m)", true);
   (u "2 lg(re m)", u "lg(re m)", false);
   (u "7 days", u "week", false)] = true.
Proof. vm_compute. reflexivity. Qed.

(* test_unit.py: test_unit__init_with_date *)
Example unit_init_with_date :
  forallb (fun ab => raises (EValue (snd ab)) (do g <- parse (fst ab) ;; mk_unit g common)) [(u "s @ 2000", VE_nested_date);
   (u "100s @ 2000", VE_nested_date);
   (u "years since 2000-01-01T00:00", VE_nested_date);
   (u "m (s @ 2000)", VE_nested_date);
   (u "m @ 2000-01-01T00:00", VE_shift_not_number);
   (u "(m/m) s @ 2000-01-01T00:00", VE_nested_date)] = true.
Proof. vm_compute. reflexivity. Qed.

(* test_unit.py: test_dateunit__reference_date *)
Example dateunit_reference :
  forallb (fun ab => date_is (fst ab) (snd ab)) [(u "s @ 2000", u "2000");
   (u "s @ 2000 +10 UTC", u "2000 +10 UTC");
   (u "100s @ 2000", u "2000");
   (u "years since 2000-01-01T00:00", u "2000-01-01T00:00");
   (u "(m/m) s @ 2000-01-01T00:00", u "2000-01-01T00:00")] = true.
Proof. vm_compute. reflexivity. Qed.

(* test_converter.py: test__converter (without the irrational 5 m -> lg(re m)), test__converter_inconsistent_w_udunits *)
Example converter_cases :
  forallb (fun '(a, b, v) => converts a b 10 v) [(u "m", u "m", (10 # 1)%Q);
   (u "m", u "km", (1 # 100)%Q);
   (u "200 m", u "km", (2 # 1)%Q);
   (u "year", u "decades", (1 # 1)%Q);
   (u "decades", u "year", (100 # 1)%Q);
   (u "centuries", u "year", (1000 # 1)%Q);
   (u "centuries", u "decade", (100 # 1)%Q);
   (u "centuries", u "10 centuries", (1 # 1)%Q);
   (u "m/s", u "s/m", (1 # 10)%Q);
   (u "km/h", u "s/m", (9 # 25)%Q);
   (u "(year @ 5)", u "year", (15 # 1)%Q);
   (u "(year @ 5)*1", u "year", (10 # 1)%Q);
   (u "(year @ 5)/2", u "year", (5 # 1)%Q);
   (u "degC", u "K", (5663 # 20)%Q);
   (u "degC*1", u "K", (10 # 1)%Q);
   (u "degC/2", u "K", (5 # 1)%Q);
   (u "lg(re degC)", u "K", (10000000000 # 1)%Q);
   (u "m", u "lg(re m)", (1 # 1)%Q);
   (u "lb(re m)", u "m", (1024 # 1)%Q);
   (u "lg(re m)", u "lg(re m)", (10 # 1)%Q);
   (u "watt", u "dBm", (40 # 1)%Q);
   (u "dBm", u "watt", (1 # 100)%Q);
   (u "lg(re m/s)", u "s/m", (1 # 10000000000)%Q);
   (u "(m2)^-3*m", u "m5", (1 # 10)%Q);
   (u "(m2)^-3*m", u "m-5", (10 # 1)%Q);
   (u "lg(re m)*5", u "2 lg(re m)", (4 # 1)%Q)] = true.
Proof. vm_compute. reflexivity. Qed.

(* test_converter.py: test_numpy_array_conversion, element by element *)
Example converter_arrays :
  forallb (fun '(a, b, x, v) => converts a b x v) [(u "m", u "m*2", (0 # 1)%Q, (0 # 2)%Q);
   (u "m", u "m*2", (1 # 1)%Q, (1 # 2)%Q);
   (u "m", u "m*2", (2 # 1)%Q, (2 # 2)%Q);
   (u "m", u "m*2", (3 # 1)%Q, (3 # 2)%Q);
   (u "m", u "m*2", (4 # 1)%Q, (4 # 2)%Q);
   (u "m @ 2", u "m", (0 # 1)%Q, (2 # 1)%Q);
   (u "m @ 2", u "m", (1 # 1)%Q, (3 # 1)%Q);
   (u "m @ 2", u "m", (2 # 1)%Q, (4 # 1)%Q);
   (u "m @ 2", u "m", (3 # 1)%Q, (5 # 1)%Q);
   (u "m @ 2", u "m", (4 # 1)%Q, (6 # 1)%Q);
   (u "lg(re m)", u "m", (1 # 1)%Q, (10 # 1)%Q);
   (u "lg(re m)", u "m", (2 # 1)%Q, (100 # 1)%Q);
   (u "lg(re m)", u "m", (3 # 1)%Q, (1000 # 1)%Q);
   (u "lg(re m)", u "m", (4 # 1)%Q, (10000 # 1)%Q)] = true.
Proof. vm_compute. reflexivity. Qed.

(* test_dimensionality.py: test__dimensionality *)
Example dimensionality_cases :
  forallb (fun ab => dims_are simple_system (fst ab) (snd ab)) [(u "2", []);
   (u "5·m", [(u "meter", (1)%Z)]);
   (u ".1", []);
   (u "1e-2", []);
   (u "s", [(u "second", (1)%Z)]);
   (u "decimeter", [(u "meter", (1)%Z)]);
   (u "m per s", [(u "meter", (1)%Z); (u "second", (-1)%Z)]);
   (u "m per meter", []);
   (u "m meter", [(u "meter", (2)%Z)]);
   (u "(m2)^-3", [(u "meter", (-6)%Z)]);
   (u "(m2)*meter-3", [(u "meter", (-1)%Z)]);
   (u "(m2)^-3*meter", [(u "meter", (-5)%Z)]);
   (u "s @ 2", [(u "second", (1)%Z)]);
   (u "(m @ 2)*1", [(u "meter", (1)%Z)]);
   (u "s2*s3", [(u "second", (5)%Z)]);
   (u "lg(re year)", [(u "year", (1)%Z)]);
   (u "lg(re year/2)", [(u "year", (1)%Z)]);
   (u "2 lg(re year)", [(u "year", (1)%Z)]);
   (u "5lg(re m2)", [(u "meter", (2)%Z)]);
   (u "lb(re lg(re m2/s))", [(u "meter", (2)%Z); (u "second", (-1)%Z)]);
   (u "century", [(u "year", (1)%Z)]);
   (u "century^-2", [(u "year", (-2)%Z)]);
   (u "century^2 year^-1", [(u "year", (1)%Z)]);
   (u "century^2 year^-3", [(u "year", (-1)%Z)]);
   (u "(century^2)^-3", [(u "year", (-6)%Z)]);
   (u "(century^2)^-3*year", [(u "year", (-5)%Z)])] = true.
Proof. vm_compute. reflexivity. Qed.

(* test_unit_system.py: test__unit__expansion *)
Example system_expansion :
  forallb (fun ab => gives (expansion (fst ab)) (snd ab)) [(u "m", u "meter");
   (u "Bm", u "(lg(re 1·0.001·watt))");
   (u "1e-3 Bm", u "0.001·(lg(re 1·0.001·watt))");
   (u "mBm", u "0.001·(lg(re 1·0.001·watt))");
   (u "km", u "1000·meter");
   (u "m 1000", u "meter·1000");
   (u "kmetres", u "1000·meter");
   (u "kilom", u "1000·meter")] = true.
Proof. vm_compute. reflexivity. Qed.

(* test_unit_system.py: test__unit__undefined_unit *)
Example system_undefined :
  forallb (fun t => raises (EUnresolvable t) (unit_of simple_system t)) [u "other";
   u "deci"] = true.
Proof. vm_compute. reflexivity. Qed.

(* test_unit_system.py: test__unit__symbolic_eq *)
Example system_symbolic_eq :
  forallb (fun ab => same_unit_text simple_system (fst ab) (snd ab)) [(u "km", u "1000 m")] = true.
Proof. vm_compute. reflexivity. Qed.

(* test_unit_system.py: test__unit__date_unit *)
Example system_dates :
  forallb (fun ab => Bool.eqb (is_date (unit_of simple_system (fst ab))) (snd ab) && (snd ab || value_or_unresolvable (unit_of simple_system (fst ab)))) [(u "s @ 2000", true);
   (u "hours since 2000-01-01T00:00", true);
   (u "kilohours since 2000-01-01T00:00", true);
   (u "m (s @ 2000)", false);
   (u "m @ 2000-01-01T00:00", false);
   (u "(m/m) s @ 2000-01-01T00:00", true);
   (u "(1000) s @ 2000-01-01T00:00", true);
   (u "(m/hr) s @ 2000-01-01T00:00", false)] = true.
Proof. vm_compute. reflexivity. Qed.

(* test_xml_parser.py: test__unit__well_known *)
Example xml_well_known :
  forallb (fun ab => same_unit_text shipped (fst ab) (snd ab)) [(u "meters", u "m");
   (u "metres", u "m");
   (u "inches", u "inch")] = true.
Proof. vm_compute. reflexivity. Qed.

(* test_xml_parser.py: test__unit__dimensionless *)
Example xml_dimensionless :
  forallb (fun ab => dims_are shipped (fst ab) (snd ab)) [(u "radian", []);
   (u "radian meters", [(u "meter", (1)%Z)]);
   (u "feet", [(u "meter", (1)%Z)]);
   (u "inches", [(u "meter", (1)%Z)])] = true.
Proof. vm_compute. reflexivity. Qed.

(* test_xml_parser.py: test__unit__is_time_unit *)
Example xml_time_units :
  forallb (fun ab => time_is shipped (fst ab) (snd ab)) [(u "s", true);
   (u "m", false);
   (u "m/s", false);
   (u "years", true);
   (u "kiloyears", true);
   (u "1000 years", true);
   (u "m @ 20", false);
   (u "hr @ 20", true);
   (u "seconds since 2000-01-01T00:00 UTC", true);
   (u "light_year", false);
   (u "eon", true);
   (u "s2/s", true);
   (u "s/s", false)] = true.
Proof. vm_compute. reflexivity. Qed.

(* test_pyudunits2.py: test_readme_example *)
Example readme_example :
  match unit_of shipped (u "km/h"), unit_of shipped (u "meters") with Ok (AUnit a), Ok b => (unit_str a, dims_equal (AUnit a) b) | _, _ => ([], Ok true) end = (u "km/h", Ok false).
Proof. vm_compute. reflexivity. Qed.
