(** * C109-C111: == and hash() of unit objects *)
From Verif Require Import PyBase PyNum Graph Expr Units Sympy Convert ConvertSpec ConvertFacts ConvertMore EqFacts PyObject.
From Verif Require Import RegexFacts Visitor UnitSystem Prop_Convert SystemSpec.

(** ** Specification *)

(** A unit object (Unit, NamedUnit or BasisUnit), a date unit object *)
Definition a_unit (o : object) (x : unit) : Prop := exists named, holds o = HasUnit named x.
Definition a_date (o : object) : Prop := exists x d, holds o = HasDate x d.

(** Two objects at one address are one object. *)
Definition coherent (a b : object) : Prop := address a = address b -> a = b.

(** the first entry of a dict under a key with the reference name [r] *)
Fixpoint entry_under {V} (r : str) (d : list (str * V)) : option V :=
  match d with [] => None | (k, v) :: d' => if str_eqb r k then Some v else entry_under r d' end.

(** ** Proofs *)
Lemma same_class_refl c : same_class c c = true. Proof. now destruct c. Qed.
Lemma identical_iff a b : identical a b = true <-> address a = address b. Proof. apply Nat.eqb_eq. Qed.

Lemma py_eq_units a b x y : a_unit a x -> a_unit b y -> py_eq a b = unit_eq x y \/ py_eq a b = unit_eq y x.
Proof.
  intros [n A] [m B]. unfold py_eq, eq_method. rewrite A, B.
  destruct (negb _ && _); [right|left].
  - destruct (unit_eq y x); reflexivity.
  - destruct (unit_eq x y); reflexivity.
Qed.

(** ** C109 *)

(** Two unit objects are compared by what they are, whichever is on the left and whatever their classes. *)
Theorem C109_units_are_compared_as_units :
  forall a b x y, a_unit a x -> a_unit b y ->
  forall r, (py_eq a b = Ok r <-> unit_eq x y = Ok r) /\ (py_eq b a = Ok r <-> unit_eq x y = Ok r) /\
            (py_ne a b = Ok (negb r) <-> unit_eq x y = Ok r).
Proof.
  intros a b x y A B r.
  assert (Sy : forall p q, unit_eq p q = Ok r <-> unit_eq q p = Ok r) by (intros; split; apply C28_equality_symmetric).
  assert (E1 : py_eq a b = Ok r <-> unit_eq x y = Ok r).
  { destruct (py_eq_units a b x y A B) as [-> | ->]; [reflexivity|apply Sy]. }
  assert (E2 : py_eq b a = Ok r <-> unit_eq x y = Ok r).
  { destruct (py_eq_units b a y x B A) as [-> | ->]; [apply Sy|reflexivity]. }
  split; [exact E1|]. split; [exact E2|]. rewrite <- E1. unfold py_ne. destruct (py_eq a b) as [v|e]; cbn [bind]; [|split; discriminate].
  split; intro H; injection H as H; [|now subst]. destruct v, r; auto; discriminate.
Qed.

(** A unit never equals anything that is not a unit, date units included; no exception. *)
Theorem C109_units_equal_only_units :
  forall a b x, a_unit a x -> (forall y, ~ a_unit b y) -> coherent a b -> py_eq a b = Ok false /\ py_eq b a = Ok false.
Proof.
  intros a b x [n A] B C.
  assert (I : identical a b = false /\ identical b a = false).
  { assert (N : address a <> address b) by (intro E; apply C in E; subst b; apply (B x); now exists n).
    split; apply Nat.eqb_neq; congruence. }
  destruct I as [I1 I2]. unfold py_eq, eq_method. rewrite A.
  destruct (holds b) as [m y| |] eqn:Hb; [exfalso; apply (B y); now exists m| |]; rewrite I1, I2;
    destruct (negb _ && _); destruct (negb _ && _); cbn; auto.
Qed.

(** A date unit equals itself and nothing else. *)
Theorem C109_dates_equal_only_themselves :
  forall a b, a_date a -> coherent a b ->
  exists r, py_eq a b = Ok r /\ py_eq b a = Ok r /\ (r = true <-> a = b).
Proof.
  intros a b (x & d & A) C. destruct (Nat.eq_dec (address a) (address b)) as [E|N].
  - apply C in E. subst b. exists true. unfold py_eq, eq_method. rewrite A.
    assert (I : identical a a = true) by now apply identical_iff. rewrite I, same_class_refl. cbn. tauto.
  - exists false. unfold py_eq, eq_method. rewrite A.
    assert (I1 : identical a b = false) by now apply Nat.eqb_neq.
    assert (I2 : identical b a = false) by (apply Nat.eqb_neq; congruence).
    split; [|split; [|split; [discriminate|intros ->; contradiction]]];
      destruct (holds b); destruct (negb _ && _); cbn; rewrite ?I1, ?I2; reflexivity.
Qed.

(** Equal objects that can be hashed have the same hash. *)
Theorem C109_equal_objects_hash_alike :
  forall H a b h k, coherent a b -> py_eq a b = Ok true -> py_hash H a = Ok h -> py_hash H b = Ok k -> h = k.
Proof.
  intros H a b h k C E Ha Hb. unfold py_hash, class_of in Ha, Hb.
  destruct (holds a) as [n [r dl it|d f]|x d|] eqn:A.
  - destruct (holds b) as [m [r' dl' it'|d' f']|x' d'|] eqn:B.
    + destruct n, m; congruence.
    + destruct m; discriminate Hb.
    + destruct (C109_units_equal_only_units a b (UBasis r dl it)) as [E' _]; [now exists n| |exact C|rewrite E in E'; discriminate E'].
      intros y [m Y]. rewrite B in Y. discriminate Y.
    + destruct (C109_units_equal_only_units a b (UBasis r dl it)) as [E' _]; [now exists n| |exact C|rewrite E in E'; discriminate E'].
      intros y [m Y]. rewrite B in Y. discriminate Y.
  - destruct n; discriminate Ha.
  - destruct (C109_dates_equal_only_themselves a b) as (v & E1 & _ & I); [now exists x, d|exact C|].
    rewrite E in E1. injection E1 as <-. destruct (proj1 I eq_refl). rewrite A in Hb. congruence.
  - destruct (Nat.eq_dec (address a) (address b)) as [Ad|N]; [apply C in Ad; subst b; rewrite A in Hb; congruence|]. exfalso.
    destruct (holds b) as [m [r' dl' it'|d' f']|x' d'|] eqn:B.
    + destruct (C109_units_equal_only_units b a (UBasis r' dl' it')) as [_ E']; [now exists m| | |rewrite E in E'; discriminate E'].
      * intros y [q Y]. rewrite A in Y. discriminate Y.
      * intro Q. congruence.
    + destruct m; discriminate Hb.
    + unfold py_eq, eq_method in E. rewrite A, B in E. apply Nat.eqb_neq in N. fold (identical a b) in N.
      assert (N' : identical b a = false) by (unfold identical in *; now rewrite Nat.eqb_sym).
      rewrite N, N' in E. destruct (negb _ && _); discriminate E.
    + unfold py_eq, eq_method in E. rewrite A, B in E. apply Nat.eqb_neq in N. fold (identical a b) in N.
      assert (N' : identical b a = false) by (unfold identical in *; now rewrite Nat.eqb_sym).
      rewrite N, N' in E. destruct (negb _ && _); discriminate E.
Qed.

(** Basis units are equal exactly if they have the same reference name, whatever their flags. *)
Lemma basis_normal r dl it : ~ In r own_names -> normal_form (UBasis r dl it) = Ok ([], mono_sym r).
Proof.
  intro N. unfold normal_form, symbolic. cbn. rewrite (not_reserved r N). reflexivity.
Qed.

Theorem C109_basis_units_are_equal_by_name :
  forall r dl it r' dl' it', ~ In r own_names -> ~ In r' own_names ->
  unit_eq (UBasis r dl it) (UBasis r' dl' it') = Ok (str_eqb r r').
Proof.
  intros r dl it r' dl' it' N N'. unfold unit_eq. cbn [definition_of node_str].
  destruct (str_eqb r' r) eqn:E; [apply str_eqb_eq in E; subst; now rewrite str_eqb_refl|].
  rewrite !basis_normal by assumption. cbn [bind fst snd]. unfold mono_eqb, exps_eqb, mono_sym.
  cbn [m_coef m_exps List.length forallb fst snd dget Nat.eqb andb]. rewrite ?(str_eqb_sym r r'), E. cbn.
  destruct (str_eqb r r') eqn:E'; [apply str_eqb_eq in E'; subst; now rewrite str_eqb_refl in E|reflexivity].
Qed.

(** A dict whose keys are basis units finds a basis unit by its reference name. *)
Theorem C109_dicts_of_basis_units :
  forall V H k r dl it (d : list (object * V)) names, a_unit k (UBasis r dl it) -> ~ In r own_names ->
  Forall2 (fun e n => exists r' dl' it', a_unit (fst e) (UBasis r' dl' it') /\ ~ In r' own_names /\ coherent (fst e) k /\ n = (r', snd e)) d names ->
  dict_get H k d = Ok (entry_under r names).
Proof.
  intros V H k r dl it d names K N F. destruct K as [nm K]. unfold dict_get.
  assert (Hk : py_hash H k = Ok 1%Z) by (unfold py_hash, class_of; rewrite K; now destruct nm). rewrite Hk. cbn [bind].
  induction F as [|[o v] n d names (r' & dl' & it' & A & N' & C & ->) F IH]; [reflexivity|].
  cbn [probe entry_under fst snd] in *. destruct A as [nm' A].
  assert (Ho : py_hash H o = Ok 1%Z) by (unfold py_hash, class_of; rewrite A; now destruct nm'). rewrite Ho. cbn [bind]. rewrite Z.eqb_refl.
  destruct (identical o k) eqn:I.
  - apply identical_iff, C in I. subst o. rewrite A in K. injection K as _ -> _ _. now rewrite str_eqb_refl.
  - assert (E : py_eq o k = Ok (str_eqb r r')).
    { apply (C109_units_are_compared_as_units o k (UBasis r' dl' it') (UBasis r dl it)); [now exists nm'|now exists nm|].
      rewrite C109_basis_units_are_equal_by_name by assumption. f_equal.
      destruct (str_eqb r' r) eqn:E1, (str_eqb r r') eqn:E2; auto; [apply str_eqb_eq in E1|apply str_eqb_eq in E2]; subst;
        rewrite str_eqb_refl in *; discriminate. }
    rewrite E. cbn [bind]. destruct (str_eqb r r'); [reflexivity|exact IH].
Qed.

(** ** C111: units in sets and as keys.  What unit() returns for a text cannot be hashed, unless it is
    a date unit; whatever the system and the text. *)
Lemma from_expression_expr e refs x : unit_from_expression e refs = Ok (AUnit x) -> exists d f, x = UExpr d f.
Proof.
  assert (M : forall d f, mk_unit d f = Ok x -> exists d f, x = UExpr d f).
  { intros d f. unfold mk_unit. destruct (normalised f d); cbn [bind]; [|discriminate]. intro E. injection E as <-. eauto. }
  unfold unit_from_expression.
  assert (K : forall d f, (do y <- mk_unit d f ;; Ok (AUnit y)) = Ok (AUnit x) -> exists d f, x = UExpr d f).
  { intros d f H. destruct (mk_unit d f) eqn:E; cbn [bind] in H; [|discriminate]. injection H as ->. eapply M, E. }
  destruct e; try apply K. destruct (mk_unit e1 refs) as [y|]; cbn [bind]; [|discriminate].
  destruct (is_time_unit y) as [b|]; cbn [bind]; [|discriminate]. destruct b; [|apply K].
  unfold mk_date. destruct e2; try discriminate; [|destruct raw; [|discriminate]].
  all: destruct (is_time_unit y) as [[]|]; discriminate.
Qed.

Theorem C111_units_are_hashable_refuted :
  forall ord stack text s x, fst (sys_unit ord stack text s) = Ok (AUnit x) ->
  forall H i, py_hash H (mkObj i (HasUnit false x)) = Err EType /\
    forall V (d : list (object * V)), dict_get H (mkObj i (HasUnit false x)) d = Err EType.
Proof.
  intros ord f t s x E H i.
  assert (X : exists d g, x = UExpr d g).
  { unfold sys_unit, mbind, lift in E. destruct (parse t) as [e|]; [|discriminate E].
    destruct (resolve_refs ord (lookup ord f) (identifiers e) s) as [[refs|] s']; [|discriminate E].
    apply (from_expression_expr e refs). exact E. }
  destruct X as (d & g & ->). split; [reflexivity|]. intros V dd. reflexivity.
Qed.

(** ** The hypotheses are met: a basis unit, the same word as a text, and a date, as objects *)
Definition ex_basis := UBasis (u "meter") false false.
Definition ex_metre := UExpr (Identifier (u "m")) [(u "m", RUnit ex_basis)].
Definition ex_second := UBasis (u "second") false true.
Example C109_example :
  py_eq (mkObj 1 (HasUnit false ex_metre)) (mkObj 2 (HasUnit false ex_basis)) = Ok true /\
  py_eq (mkObj 2 (HasUnit false ex_basis)) (mkObj 1 (HasUnit false ex_metre)) = Ok true /\
  py_eq (mkObj 2 (HasUnit false ex_basis)) (mkObj 3 (HasUnit false ex_second)) = Ok false /\
  py_eq (mkObj 3 (HasUnit false ex_second)) (mkObj 4 (HasDate ex_second (u "2000-01-01"))) = Ok false /\
  py_eq (mkObj 4 (HasDate ex_second (u "2000-01-01"))) (mkObj 5 (HasDate ex_second (u "2000-01-01"))) = Ok false /\
  py_eq (mkObj 4 (HasDate ex_second (u "2000-01-01"))) (mkObj 4 (HasDate ex_second (u "2000-01-01"))) = Ok true /\
  (forall H, dict_get H (mkObj 6 (HasUnit false ex_basis))
     [(mkObj 3 (HasUnit false ex_second), 2%Z); (mkObj 2 (HasUnit false ex_basis), 1%Z)] = Ok (Some 1%Z)).
Proof. repeat split; vm_compute; reflexivity. Qed.
(** unit("m") in a system with the metre *)
Definition ex_system : system :=
  match add_unit (EUnit ex_basis (mkRef None [] [] [])) (mkRef (Some (mkName (u "meter") None)) [u "m"] [] []) false empty_system with
  | Ok s => s | Err _ => empty_system end.
Example C111_example : fst (sys_unit (fun l => l) 3 (u "m") ex_system) = Ok (AUnit ex_metre).
Proof. vm_compute. reflexivity. Qed.
Print Assumptions C109_units_are_compared_as_units.
Print Assumptions C111_units_are_hashable_refuted.
