"""Conformance.v: the tables of the project's own test-suite (/repo/pyudunits2/tests), run on
the model.  The tables are read from the test files as text (ast), nothing is imported."""
import ast, fractions
T = "/repo/pyudunits2/tests/"
def lit(n):
    """literals of the tables; calls SimpleUnit("a") give "a", other names stay names"""
    if isinstance(n, (ast.List, ast.Tuple)): return [lit(e) for e in n.elts]
    if isinstance(n, ast.Dict): return {lit(k): lit(v) for k, v in zip(n.keys, n.values)}
    if isinstance(n, ast.BinOp) and isinstance(n.op, ast.Mult) and isinstance(n.left, ast.List): return lit(n.left) * lit(n.right)
    if isinstance(n, ast.Call):
        f = ast.unparse(n.func)
        return lit(n.args[0]) if f == "SimpleUnit" else ("call", ast.unparse(n))
    if isinstance(n, (ast.Name, ast.Attribute)): return ("name", ast.unparse(n))
    if isinstance(n, ast.Constant) and isinstance(n.value, float): return ("float", fractions.Fraction(ast.unparse(n)))
    return ast.literal_eval(n)
def table(file, func):
    for n in ast.walk(ast.parse(open(T + file).read())):
        if isinstance(n, ast.FunctionDef) and n.name == func:
            for d in n.decorator_list:
                if isinstance(d, ast.Call) and ast.unparse(d.func) == "pytest.mark.parametrize" and isinstance(d.args[1], ast.List) and isinstance(d.args[0], (ast.List, ast.Constant)):
                    if isinstance(d.args[0], ast.Constant) and d.args[0].value == "as_offset": continue
                    return lit(d.args[1])
    raise KeyError(func)
def var(file, name):
    for n in ast.parse(open(T + file).read()).body:
        if isinstance(n, ast.Assign) and ast.unparse(n.targets[0]) == name: return lit(n.value)
    raise KeyError(name)
def S(s): assert '"' not in s; return 'u "%s"' % s
def L(xs, per=1): return "[" + ";\n   ".join(xs) + "]"
def Qc(v):
    f = v[1] if isinstance(v, tuple) else fractions.Fraction(v)
    return "(%d # %d)%%Q" % (f.numerator, f.denominator) if f >= 0 else "(-(%d) # %d)%%Q" % (-f.numerator, f.denominator)
B = {True: "true", False: "false"}
out = []
def ex(name, src, body): out.append(f"(* {src} *)\nExample {name} :\n  {body}.\nProof. vm_compute. reflexivity. Qed.\n")

P = "_grammar/test_parse.py"
ex("parse_testdata", "test_parse.py: testdata; the comparison with cf_units is not modelled", "forallb (fun t => is_ok (normalize t)) " + L([S(t) for t in var(P, "testdata")]) + " = true")
bad = var(P, "invalid") + [a for a, _ in var(P, "known_issues")] + var(P, "not_allowed") + ["m^m 2s", "Thing×Another"]
ex("parse_invalid", "test_parse.py: invalid, known_issues, not_allowed, error quality", "forallb (fun t => raises ESyntax (normalize t)) " + L([S(t) for t in bad]) + " = true")
ex("parse_not_udunits", "test_parse.py: not_udunits", "forallb (fun ab => gives (normalize (fst ab)) (snd ab)) " + L(["(%s, %s)" % (S(a), S(b)) for a, b in var(P, "not_udunits")]) + " = true")
ex("graph_large", "test_graph.py: test_large_graph", '''match parse (u "m2/4.1.2π per second @ 10") with
  | Ok (Shift (Divide (Multiply (Multiply (Divide (Raise m two) d) f) p) s) (Number v raw)) =>
    map node_str [Number v raw; s; p; f; d; m; two; Divide (Raise m two) d; Multiply (Divide (Raise m two) d) f; Multiply (Multiply (Divide (Raise m two) d) f) p]
  | _ => [] end =
  [u "10"; u "second"; u "π"; u "0.2"; u "4.1"; u "m"; u "2"; u "m^2/4.1"; u "m^2/4.1·0.2"; u "m^2/4.1·0.2·π"]''')
ex("split_cases", "test_expr_split.py: test__split_expression", "forallb (fun '(a, t, d) => split_is a t d) " + L(["(%s, %s, %s)" % (S(a), "None" if t is None else "Some (%s)" % S(t), S(d)) for a, t, d in table("_expr/test_expr_split.py", "test__split_expression")]) + " = true")
E_ = table("test_unit_basis.py", "test_Expander")
ex("expander_cases", "test_unit_basis.py: test_Expander", "forallb (fun ab => gives (expands (fst ab)) (snd ab)) " + L(["(%s, %s)" % (S(a), S(b)) for a, b in E_]) + " = true")
ex("expander_offsets", "test_unit_basis.py: test_Expander, as_offset", "forallb (fun ab => gives (expands_shifted (fst ab)) (snd ab)) " + L(["(%s, %s)" % (S(a), S("(m @ %s)" % b)) for a, b in E_ if "@" not in a]) + " = true")
U = "test_unit.py"
ex("unit_eq_cases", "test_unit.py: test_unit__eq", "forallb (fun '(a, b, r) => eq_is (simple a) (simple b) r && eq_is (simple b) (simple a) r) " + L(["(%s, %s, %s)" % (S(a), S(b), B[r]) for a, b, r in table(U, "test_unit__eq")]) + " = true")
MSG = {"Refusing to represent dates": "VE_nested_date", "Normalisation of non-numeric shift not possible": "VE_shift_not_number"}
ex("unit_init_with_date", "test_unit.py: test_unit__init_with_date", "forallb (fun ab => raises (EValue (snd ab)) (do g <- parse (fst ab) ;; mk_unit g common)) " + L(["(%s, %s)" % (S(a), MSG[m]) for a, m in table(U, "test_unit__init_with_date")]) + " = true")
ex("dateunit_reference", "test_unit.py: test_dateunit__reference_date", "forallb (fun ab => date_is (fst ab) (snd ab)) " + L(["(%s, %s)" % (S(a), S(r)) for a, r in table(U, "test_dateunit__reference_date")]) + " = true")
C = [(a, b, v) for a, b, v in table("test_converter.py", "test__converter")]
irr = [c for c in C if c[2] == ("float", fractions.Fraction("1.69897"))]
C = [c for c in C if c not in irr]
X = [(a, b, now) for a, b, _, now in table("test_converter.py", "test__converter_inconsistent_w_udunits")]
ex("converter_cases", "test_converter.py: test__converter (without the irrational 5 m -> lg(re m)), test__converter_inconsistent_w_udunits", "forallb (fun '(a, b, v) => converts a b 10 v) " + L(["(%s, %s, %s)" % (S(a), S(b), Qc(v)) for a, b, v in C + X]) + " = true")
ex("converter_arrays", "test_converter.py: test_numpy_array_conversion, element by element", "forallb (fun '(a, b, x, v) => converts a b x v) " + L(
    ['(u "m", u "m*2", (%d # 1)%%Q, (%d # 2)%%Q)' % (i, i) for i in range(5)] + ['(u "m @ 2", u "m", (%d # 1)%%Q, (%d # 1)%%Q)' % (i, i + 2) for i in range(5)] +
    ['(u "lg(re m)", u "m", (%d # 1)%%Q, (%d # 1)%%Q)' % (i, 10 ** i) for i in range(1, 5)]) + " = true")
def D(d): return "[" + "; ".join("(%s, (%d)%%Z)" % (S(k), v) for k, v in d.items()) + "]"
ex("dimensionality_cases", "test_dimensionality.py: test__dimensionality", "forallb (fun ab => dims_are simple_system (fst ab) (snd ab)) " + L(["(%s, %s)" % (S(a), D(d)) for a, d in table("test_dimensionality.py", "test__dimensionality")]) + " = true")
Y = "test_unit_system.py"
ex("system_expansion", "test_unit_system.py: test__unit__expansion", "forallb (fun ab => gives (expansion (fst ab)) (snd ab)) " + L(["(%s, %s)" % (S(a), S(b)) for a, b in table(Y, "test__unit__expansion")]) + " = true")
ex("system_undefined", "test_unit_system.py: test__unit__undefined_unit", "forallb (fun t => raises (EUnresolvable t) (unit_of simple_system t)) " + L([S(a) for a in table(Y, "test__unit__undefined_unit")]) + " = true")
ex("system_symbolic_eq", "test_unit_system.py: test__unit__symbolic_eq", "forallb (fun ab => same_unit_text simple_system (fst ab) (snd ab)) " + L(["(%s, %s)" % (S(a), S(b)) for a, b in table(Y, "test__unit__symbolic_eq")]) + " = true")
DU = table(Y, "test__unit__date_unit")
ex("system_dates", "test_unit_system.py: test__unit__date_unit", "forallb (fun ab => Bool.eqb (is_date (unit_of simple_system (fst ab))) (snd ab) && (snd ab || value_or_unresolvable (unit_of simple_system (fst ab)))) " + L(["(%s, %s)" % (S(a), B[e[0] == "name"]) for a, e in DU]) + " = true")
Z = "test_xml_parser.py"
ex("xml_well_known", "test_xml_parser.py: test__unit__well_known", "forallb (fun ab => same_unit_text shipped (fst ab) (snd ab)) " + L(["(%s, %s)" % (S(a), S(b)) for a, b in table(Z, "test__unit__well_known")]) + " = true")
ex("xml_dimensionless", "test_xml_parser.py: test__unit__dimensionless", "forallb (fun ab => dims_are shipped (fst ab) (snd ab)) " + L(["(%s, %s)" % (S(a), D(d)) for a, d in table(Z, "test__unit__dimensionless")]) + " = true")
ex("xml_time_units", "test_xml_parser.py: test__unit__is_time_unit", "forallb (fun ab => time_is shipped (fst ab) (snd ab)) " + L(["(%s, %s)" % (S(a), B[r]) for a, r in table(Z, "test__unit__is_time_unit")]) + " = true")
ex("readme_example", "test_pyudunits2.py: test_readme_example", 'match unit_of shipped (u "km/h"), unit_of shipped (u "meters") with Ok (AUnit a), Ok b => (unit_str a, dims_equal (AUnit a) b) | _, _ => ([], Ok true) end = (u "km/h", Ok false)')

head = r'''(** * The project's own tests, run on the model (generated by tools/gen_conformance.py).

    These are tests, not proofs: they check that the model gives the results the project's
    test-suite expects of the code.  Fixtures are transcribed by hand. *)
From Verif Require Import PyBase PyNum Graph Visitor Expr Units Sympy Convert ConvertFacts UnitSystem Expander Xml XmlData Database.
From Coq Require Import QArith Qreals Reals Lra.
Close Scope Q_scope. Close Scope R_scope.

Definition raises {A} (e : exn) (r : res A) : bool :=
  match r, e with
  | Err ESyntax, ESyntax => true
  | Err (EValue VE_nested_date), EValue VE_nested_date => true
  | Err (EValue VE_shift_not_number), EValue VE_shift_not_number => true
  | Err (EUnresolvable a), EUnresolvable b => str_eqb a b
  | _, _ => false
  end.
Definition gives (r : res str) (t : str) : bool := match r with Ok x => str_eqb x t | _ => false end.
Definition split_is (a : str) (t : option str) (d : str) : bool :=
  match parse a with
  | Ok g => match split_root g with
            | Ok (t', d') => str_eqb (node_str d') d &&
                match t, t' with None, None => true | Some x, Some y => str_eqb (node_str y) x | _, _ => false end
            | _ => false end
  | _ => false end.
Definition expands (a : str) : res str := do g <- parse a ;; do x <- expand g ;; Ok (node_str x).
Definition expands_shifted (a : str) : res str := do g <- parse a ;; do x <- expand (Shift (Identifier (u "m")) g) ;; Ok (node_str x).

(** test_unit.py: SimpleUnit, common_id_refs *)
Definition simple (t : str) : res unit :=
  do g <- parse t ;; mk_unit g (map (fun k => (k, RUnit (UBasis k false false))) (identifiers g)).
Definition common : list (str * uref) :=
  [(u "s", RUnit (UBasis (u "s") false true)); (u "years", RUnit (UBasis (u "year") false true)); (u "m", RUnit (UBasis (u "m") false false))].
Definition eq_is (a b : res unit) (r : bool) : bool :=
  match a, b with Ok x, Ok y => match unit_eq x y with Ok v => Bool.eqb v r | _ => false end | _, _ => false end.
Definition date_is (t r : str) : bool :=
  match (do g <- parse t ;; unit_from_expression g common) with Ok (ADate _ x) => str_eqb x r | _ => false end.

(** conftest.py: simple_unit_system *)
Definition ok_or_empty (r : res system) : system := match r with Ok s => s | Err _ => empty_system end.
Definition nm1 (a : string) : option name := Some (mkName (u a) None).
Definition nm2 (a b : string) : option name := Some (mkName (u a) (Some (u b))).
Definition basis (r : reference) (it : bool) (s : system) : system :=
  match mk_basis r false it with Ok x => ok_or_empty (add_unit (EUnit x r) r false s) | Err _ => empty_system end.
Definition defined (t : string) (r : reference) (s : system) : system := ok_or_empty (add_lazy (u t) r s).
Definition simple_system : system :=
  defined "K @ 273.15" (mkRef (nm1 "degC") [] [] [])
  (basis (mkRef (nm1 "kelvin") [u "K"] [] []) false
  (defined "10 decade" (mkRef (nm2 "century" "centuries") [] [] [])
  (defined "10 year" (mkRef (nm2 "decade" "decades") [] [] [])
  (basis (mkRef (nm1 "year") [] [] []) false
  (defined "lg(re 1 mW)" (mkRef None [u "Bm"] [] [])
  (basis (mkRef (nm1 "watt") [u "W"] [] []) false
  (defined "60 minutes" (mkRef (nm2 "hour" "hours") [u "h"] [] [])
  (defined "60 seconds" (mkRef (nm2 "minute" "minutes") [u "min"] [] [])
  (basis (mkRef (nm2 "second" "seconds") [u "s"] [] []) true
  (basis (mkRef (nm2 "meter" "meters") [u "m"] [mkName (u "metre") (Some (u "metres"))] []) false
  (add_prefix (mkPrefix (u "centi") (u "100") [u "c"])
  (add_prefix (mkPrefix (u "kilo") (u "1000") [u "k"])
  (add_prefix (mkPrefix (u "deci") (u "10") [u "d"])
  (add_prefix (mkPrefix (u "milli") (u ".001") [u "m"]) empty_system)))))))))))))).

Definition unit_of (s : system) (t : str) : res anyunit := fst (sys_unit (fun l => l) 20 t s).
Definition dict_is (d : dims) (e : list (str * Z)) : bool :=
  Nat.eqb (List.length d) (List.length e) &&
  forallb (fun kv => match dims_get (fst kv) d with Some z => Z.eqb z (snd kv) | None => false end) e.
Definition dims_are (s : system) (t : str) (e : list (str * Z)) : bool :=
  match unit_of s t with
  | Ok a => match dimensionality a with Ok (DObj d) => dict_is d e | _ => false end &&
            match a with AUnit x => match is_dimensionless x with Ok b => Bool.eqb b (match e with [] => true | _ => false end) | _ => false end
                       | ADate _ _ => match e with [] => false | _ => true end end
  | _ => false end.
Definition dims_equal (a b : anyunit) : res bool := do x <- dimensionality a ;; do y <- dimensionality b ;; Ok (dimval_eqb x y).
Definition expansion (t : str) : res str :=
  match unit_of simple_system t with Ok (AUnit x) => do g <- expanded x ;; Ok (node_str g) | _ => Err EAssertion end.
Definition same_unit_text (s : system) (a b : str) : bool :=
  match unit_of s a, unit_of s b with Ok (AUnit x), Ok (AUnit y) => match unit_eq x y with Ok v => v | _ => false end | _, _ => false end.
Definition is_date (r : res anyunit) : bool := match r with Ok (ADate _ _) => true | _ => false end.
(** pytest.raises(ValueError); UnresolvableUnitException is a ValueError (_exceptions.py) *)
Definition value_or_unresolvable {A} (r : res A) : bool := match r with Err (EValue _) | Err (EUnresolvable _) => true | _ => false end.
Definition time_is (s : system) (t : str) (b : bool) : bool :=
  match unit_of s t with
  | Ok (AUnit x) => match is_time_unit x with Ok v => Bool.eqb v b | _ => false end
  | Ok (ADate _ _) => b
  | _ => false end.

(** Evaluating a conversion exactly: logarithms and powers too where the result is rational. *)
Definition lbaseQ (b : lbase) : option positive := match b with Base10 => Some 10%positive | Base2 => Some 2%positive | _ => None end.
Definition powQ (p : positive) (z : Z) : Q := (inject_Z (Zpos p) ^ z)%Q.
Definition opX (o : op) (x : Q) : option Q :=
  match o with
  | OpExp b => match lbaseQ b, Qred x with Some p, Qmake z 1 => Some (Qred (powQ p z)) | _, _ => None end
  | OpLog b => match lbaseQ b with
               | Some p => option_map (fun z => inject_Z z) (find (fun z => Qeq_bool (powQ p z) x) (map (fun n => Z.of_nat n - 30)%Z (seq 0 60)))
               | None => None end
  | _ => op_evalQ o x
  end.
Fixpoint evalX (c : Sympy.chain) (x : Q) : option Q :=
  match c with [] => Some x | o :: c' => match opX o x with Some y => evalX c' y | None => None end end.
Definition converts (a b : str) (x v : Q) : bool :=
  match (do p <- unit_of simple_system a ;; do q <- unit_of simple_system b ;; mk_converter p q) with
  | Ok c => negb (existsb op_residual (cv_ops c)) && match evalX (cv_ops c) x with Some y => Qeq_bool y v | None => false end
  | _ => false end.

(** What [converts] computes is what the real-valued model [convert] gives. *)
Lemma powQ_R p z : Q2R (powQ p z) = powerRZ (IZR (Zpos p)) z.
Proof.
  unfold powQ. assert (E : Q2R (inject_Z (Z.pos p)) = IZR (Z.pos p)) by (unfold Q2R; cbn; lra).
  rewrite Q2R_power, E; [reflexivity|]. rewrite E. apply not_0_IZR. discriminate.
Qed.
Lemma lbaseQ_R b p : lbaseQ b = Some p -> IZR (Zpos p) = base_R b /\ (1 < base_R b)%R.
Proof. destruct b; cbn [lbaseQ]; intro H; try discriminate; injection H as <-; cbn [base_R]; split; lra. Qed.
Lemma opX_sound o x y : opX o x = Some y -> op_eval o (Q2R x) = Some (Q2R y).
Proof.
  destruct o as [m|q|b|b|]; try apply op_evalQ_sound; cbn [opX op_eval].
  - destruct (lbaseQ b) as [p|] eqn:L; [|discriminate]. destruct (lbaseQ_R b p L) as [Hb H1].
    match goal with |- context [find ?f ?l] => destruct (find f l) as [z|] eqn:F end; [|discriminate].
    intro H. cbn [option_map] in H. apply Some_inj in H. subst y. apply find_some in F. destruct F as [_ F].
    apply Qeq_bool_eq, Qeq_eqR in F. rewrite powQ_R, Hb in F.
    assert (P : (0 < powerRZ (base_R b) z)%R) by (apply powerRZ_lt; lra).
    destruct (Rlt_dec 0 (Q2R x)) as [D|D]; [|exfalso; rewrite <- F in D; contradiction].
    apply f_equal. rewrite <- F, powerRZ_Rpower by lra. unfold Rpower. rewrite ln_exp.
    assert (Z0 : Q2R (inject_Z z) = IZR z) by (unfold Q2R; cbn; lra). rewrite Z0.
    assert (ln (base_R b) <> 0)%R by (rewrite <- ln_1; intro W; apply ln_inv in W; lra).
    field. assumption.
  - destruct (lbaseQ b) as [p|] eqn:L; [|discriminate]. destruct (lbaseQ_R b p L) as [Hb H1].
    destruct (Qred x) as [z [d|d|]] eqn:R; try discriminate. intro H. apply Some_inj in H. subst y.
    apply f_equal. rewrite (Qeq_eqR _ _ (Qred_correct _)), powQ_R, Hb, powerRZ_Rpower by lra.
    rewrite <- (Qeq_eqR _ _ (Qred_correct x)), R. apply f_equal. unfold Q2R. cbn. lra.
Qed.
Lemma evalX_sound c : forall x y, evalX c x = Some y -> chain_eval c (Q2R x) = Some (Q2R y).
Proof.
  induction c as [|o c IH]; intros x y H; cbn [evalX chain_eval] in *.
  - apply Some_inj in H. now subst.
  - destruct (opX o x) as [z|] eqn:E; [|discriminate]. rewrite (opX_sound _ _ _ E). cbn [obind]. now apply IH.
Qed.
Lemma converts_sound a b x v : converts a b x v = true ->
  exists p q c, unit_of simple_system a = Ok p /\ unit_of simple_system b = Ok q /\
                mk_converter p q = Ok c /\ convert c (Q2R x) = Ok (Q2R v).
Proof.
  unfold converts. destruct (unit_of simple_system a) as [p|] eqn:A; cbn [bind]; [|discriminate].
  destruct (unit_of simple_system b) as [q|] eqn:B; cbn [bind]; [|discriminate].
  destruct (mk_converter p q) as [c|] eqn:C; [|discriminate]. intro H.
  apply andb_true_iff in H. destruct H as [H1 H2]. exists p, q, c. repeat split; auto.
  unfold convert. apply negb_true_iff in H1. rewrite H1.
  destruct (evalX (cv_ops c) x) as [y|] eqn:E; [|discriminate]. rewrite (evalX_sound _ _ _ E). cbn [of_option].
  apply f_equal, Qeq_eqR, Qeq_bool_eq, H2.
Qed.

'''
open("/verif/rocq/theories/Conformance.v", "w").write(head + "\n".join(out))
