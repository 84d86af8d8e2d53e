(** * C110: == of date units *)
From Verif Require Import PyBase PyNum Graph Visitor Expr Units UnitSystem SystemSpec Prop_System Convert Xml XmlSpec XmlPrefix Prop_Xml XmlData Database Prop_Database
  BaseSpec BaseFacts Prop_Base Prop_BaseDb Prop_Dates PyObject Prop_PyObject.

Lemma date_object_eq i j x d y e : i <> j -> py_eq (mkObj i (HasDate x d)) (mkObj j (HasDate y e)) = Ok false.
Proof. intro N. unfold py_eq, eq_method, identical. cbn. rewrite (proj2 (Nat.eqb_neq i j) N), (proj2 (Nat.eqb_neq j i)) by auto. reflexivity. Qed.

(** C110.  The expectation: two calls of unit() with one text that has a reference date return
    equal units.  With the shipped database they never do: every call makes a new object, and
    DateUnit has no __eq__. *)
Theorem C110_date_units_of_one_text_are_equal_refuted :
  forall strict set_order s, rearranges set_order -> read_system strict set_order db = Ok s ->
  forall ord history1 history2 stack, rearranges ord -> (7 < stack)%nat ->
  exists x y raw, fst (sys_unit ord stack ex_time (after ord s history1)) = Ok (ADate x raw) /\
    fst (sys_unit ord stack ex_time (after ord s history2)) = Ok (ADate y raw) /\
    forall i j, i <> j -> py_eq (mkObj i (HasDate x raw)) (mkObj j (HasDate y raw)) = Ok false.
Proof.
  intros strict o s P E ord h1 h2 f Po L.
  destruct (read_any strict o P) as (s' & E' & R). rewrite E in E'. injection E' as <-.
  destruct C96_example as (g & Pt & B & Le & At & _).
  pose proof (proj2 (par_base shipped s R) g hour_form B) as B'.
  destruct (C96_date_texts strict o s P E ord h1 f _ g _ _ hour_form Po L Pt (or_intror eq_refl) B' Le At) as (x & _ & X).
  destruct (C96_date_texts strict o s P E ord h2 f _ g _ _ hour_form Po L Pt (or_intror eq_refl) B' Le At) as (y & _ & Y).
  exists x, y, (u "2000-01-01 12:00"). split; [exact X|]. split; [exact Y|]. intros i j N. now apply date_object_eq.
Qed.
Print Assumptions C110_date_units_of_one_text_are_equal_refuted.
