(** * Look-ups: histories, stack, vocabulary. *)
From Verif Require Import PyBase PyNum Graph Lexer Parser Visitor NumFacts Expr Units UnitSpec UnitFacts UnitProofs UnitSystem SystemSpec.
From Coq Require Import Permutation.

(** ** dictionaries *)
Lemma str_eq_dec (a b : str) : {a = b} + {a <> b}.
Proof. apply list_eq_dec, N.eq_dec. Qed.

Lemma eqb_spec a b : str_eqb a b = true <-> a = b. Proof. apply RegexFacts.str_eqb_eq. Qed.
Lemma eqb_refl' a : str_eqb a a = true. Proof. now apply eqb_spec. Qed.
Lemma eqb_neq a b : a <> b -> str_eqb a b = false.
Proof. apply RegexFacts.str_eqb_neq. Qed.

Lemma dget_dset {V} k k' (v : V) d : dget k (dset k' v d) = if str_eqb k k' then Some v else dget k d.
Proof.
  induction d as [|[k0 v0] d IH]; cbn [dset dget].
  - reflexivity.
  - destruct (str_eqb k' k0) eqn:E; cbn [dget].
    + apply eqb_spec in E; subst k0. destruct (str_eqb k k'); reflexivity.
    + rewrite IH. destruct (str_eqb k k0) eqn:E2; auto. apply eqb_spec in E2; subst k0.
      destruct (str_eqb k k') eqn:E3; auto. apply eqb_spec in E3; subst. now rewrite eqb_refl' in E.
Qed.

Lemma str_mem_In k l : str_mem k l = true <-> In k l.
Proof.
  induction l as [|x l IH]; simpl; [split; [discriminate|tauto]|].
  rewrite orb_true_iff, IH, eqb_spec. split; intros [->|H]; auto.
Qed.

Lemma dget_dset_all {V} k ks (v : V) : forall d, dget k (dset_all ks v d) = if str_mem k ks then Some v else dget k d.
Proof.
  unfold dset_all. induction ks as [|k' ks IH]; intro d; cbn [fold_left str_mem]; auto.
  rewrite IH, dget_dset. destruct (str_mem k ks); [now rewrite orb_true_r|]. now rewrite orb_false_r.
Qed.

Lemma dmem_In {V} k (d : dict V) : dmem k d = true <-> In k (dkeys d).
Proof.
  unfold dmem, dkeys. induction d as [|[k' v] d IH]; simpl; [split; [discriminate|tauto]|].
  destruct (str_eqb k k') eqn:E.
  - apply eqb_spec in E; subst. tauto.
  - rewrite IH. split; [auto|]. intros [->|H]; auto. now rewrite eqb_refl' in E.
Qed.

Lemma dmem_keys {V W} k (d : dict V) (d' : dict W) : dkeys d = dkeys d' -> dmem k d = dmem k d'.
Proof.
  intro H. destruct (dmem k d) eqn:E; symmetry.
  - apply dmem_In. rewrite <- H. now apply dmem_In.
  - destruct (dmem k d') eqn:E'; auto. apply dmem_In in E'. rewrite <- H in E'. apply dmem_In in E'. congruence.
Qed.

Lemma dkeys_dset {V} k (v : V) d : dmem k d = true -> dkeys (dset k v d) = dkeys d.
Proof.
  unfold dmem, dkeys. induction d as [|[k' v'] d IH]; simpl; [discriminate|].
  destruct (str_eqb k k'); simpl; [auto|]. intro H. f_equal. auto.
Qed.

Lemma dkeys_dset_all {V} ks (v : V) : forall d, (forall k, In k ks -> dmem k d = true) -> dkeys (dset_all ks v d) = dkeys d.
Proof.
  unfold dset_all. induction ks as [|k ks IH]; intros d H; cbn [fold_left]; auto.
  rewrite IH.
  - apply dkeys_dset, H. now left.
  - intros k' I. rewrite (dmem_keys k' _ d); [apply H; now right|]. apply dkeys_dset, H. now left.
Qed.

Lemma dmem_dset_all {V} k ks (v : V) d : dmem k (dset_all ks v d) = str_mem k ks || dmem k d.
Proof. unfold dmem. rewrite dget_dset_all. destruct (str_mem k ks); reflexivity. Qed.

(** ** errors of parsing and construction are never about look-ups *)
Definition routine {A} (r : res A) : Prop :=
  match r with Err (EUnresolvable _) | Err ERecursion => False | _ => True end.

Lemma ro_bind {A B} (r : res A) (f : A -> res B) : routine r ->
  (forall a, r = Ok a -> routine (f a)) -> routine (do x <- r ;; f x).
Proof. intros H1 H2. destruct r as [a|e]; simpl; auto. Qed.

Ltac ro := repeat first
  [ exact Logic.I | assumption
  | match goal with
    | |- routine (bind _ _) => apply ro_bind; [|intros ? ?]
    | |- routine (match ?x with _ => _ end) => destruct x
    | |- routine (if ?x then _ else _) => destruct x
    end ].

Lemma ro_parse_exp s : routine (parse_exp s).
Proof. unfold parse_exp. ro. Qed.
Lemma ro_py_decimal s : routine (py_decimal s).
Proof. unfold py_decimal. ro. apply ro_parse_exp. Qed.
Lemma ro_py_int s : routine (py_int s).
Proof. unfold py_int. ro. Qed.

Lemma ro_split root n : routine (Expr.split root n).
Proof. revert root. induction n; intro root; cbn [Expr.split]; ro; auto. Qed.

Lemma ro_merge op l r : (forall a b, routine (op a b)) -> routine (scope_merge op l r).
Proof. intro H. revert l. induction r as [|[k o] r IH]; intro l; cbn [scope_merge]; ro; auto. Qed.
Lemma ro_scale v l : routine (scope_scale v l).
Proof. induction l as [|[k o] l IH]; cbn [scope_scale]; ro. destruct o, v; exact Logic.I. Qed.
Lemma ro_count n : routine (count n).
Proof.
  induction n; cbn [count]; ro; auto.
  - apply ro_scale.
  - apply ro_merge. intros [] []; exact Logic.I.
  - apply ro_merge. intros [] []; exact Logic.I.
Qed.
Lemma ro_dims_add_all o m : forall acc, routine (dims_add_all o m acc).
Proof. induction m as [|[b z] m IH]; intro acc; cbn [dims_add_all]; ro; auto. Qed.

Lemma ro_udims x : routine (udims x).
Proof.
  revert x. fix IH 1. intros [r dl it|d refs]; [exact Logic.I|].
  cbn [udims]. apply ro_bind; [apply ro_split|]; intros td _.
  apply ro_bind; [apply ro_count|]; intros sc _.
  apply ro_bind; [|intros; exact Logic.I].
  generalize (@nil ((str * bool) * Z)). induction sc as [|[k o] sc IHs]; intro acc; [exact Logic.I|].
  apply ro_bind; [|intros; apply IHs]. clear IHs.
  induction refs as [|[k' v] rs IHr]; [exact Logic.I|].
  destruct (str_eqb k k'); [|apply IHr].
  destruct v as [p|y]; [exact Logic.I|].
  apply ro_bind; [apply IH|intros; apply ro_dims_add_all].
Qed.

Lemma ro_is_time x : routine (is_time_unit x).
Proof. destruct x; [exact Logic.I|]. apply ro_bind; [apply ro_udims|intros; exact Logic.I]. Qed.

Lemma ro_norm refs n : routine (norm refs n).
Proof.
  induction n; cbn [norm]; try exact Logic.I; apply ro_bind; auto; intros;
    try (apply ro_bind; auto; intros); try exact Logic.I.
  - apply ro_is_time.
  - ro.
Qed.

Lemma ro_mk_unit d refs : routine (mk_unit d refs).
Proof. unfold mk_unit, normalised. ro. apply ro_norm. Qed.

Lemma ro_mk_date x r : routine (mk_date x r).
Proof. unfold mk_date. ro. apply ro_is_time. Qed.

Lemma ro_unit_from e refs : routine (unit_from_expression e refs).
Proof.
  assert (H : routine (do y <- mk_unit e refs ;; Ok (AUnit y))) by (apply ro_bind; [apply ro_mk_unit|intros; exact Logic.I]).
  destruct e; try exact H.
  cbn [unit_from_expression]. apply ro_bind; [apply ro_mk_unit|]; intros x _.
  apply ro_bind; [apply ro_is_time|]; intros it _. destruct it; [|exact H].
  destruct e2; ro; apply ro_mk_date.
Qed.

Lemma ro_mapM {A B} (f : A -> res B) l : (forall a, In a l -> routine (f a)) -> routine (mapM f l).
Proof.
  induction l as [|a l IH]; intro H; cbn [mapM]; ro.
  - apply H. now left.
  - apply IH. intros. apply H. now right.
Qed.

Lemma ro_node2 f a b : routine (node2 f a b).
Proof. unfold node2, as_node. ro. Qed.

Lemma ro_visit t : routine (visit t).
Proof.
  revert t. fix IH 1. intros [r cs|tok|].
  2: { cbn [visit]. unfold visit_terminal. destruct (tkind tok); ro; first [apply ro_py_decimal | apply ro_py_int]. }
  2: exact Logic.I.
  - assert (C : routine ((fix go l := match l with
                          | [] => Ok []
                          | x :: l' => do v <- visit x ;; do vs <- go l' ;; Ok (v :: vs)
                          end) cs)).
    { induction cs as [|c cs IHc]; [exact Logic.I|]. apply ro_bind; [apply IH|]. intros v _.
      apply ro_bind; [apply IHc|]. intros; exact Logic.I. }
    destruct r; cbn [visit]; try exact Logic.I; apply ro_bind; auto; intros vs _; cbn zeta; try exact Logic.I;
      generalize (aggregate vs); intro v.
    all: unfold visit_product, visit_power, visit_logarithm, visit_shift_spec, visit_unit_spec, as_node; ro; apply ro_node2.
Qed.

Lemma ro_parse s : routine (parse s).
Proof. unfold parse. ro; [apply ro_visit|]. unfold as_node. ro. Qed.

Lemma ro_prefixed key p k x : routine (prefixed_unit key p k x).
Proof. apply ro_mk_unit. Qed.

(** ** more stack never changes an outcome *)
Definition outcome {A} (p : res A * system) := fst p.

(** [m'] agrees with [m] wherever [m] does not run out of stack. *)
Definition extends {A} (m m' : M A) : Prop := forall s, fst (m s) <> Err ERecursion -> m' s = m s.

Lemma ext_refl {A} (m : M A) : extends m m. Proof. intros s _. reflexivity. Qed.

Lemma ext_bind {A B} (m m' : M A) (f f' : A -> M B) : extends m m' -> (forall a, extends (f a) (f' a)) ->
  extends (mbind m f) (mbind m' f').
Proof.
  intros H1 H2 s N. unfold mbind in *. destruct (m s) as [[a|e] s1] eqn:E.
  - rewrite H1 by (rewrite E; discriminate). rewrite E. apply H2. exact N.
  - rewrite H1, E; auto. rewrite E. cbn [fst] in *. congruence.
Qed.

Lemma ext_mmapM {A B} (f f' : A -> M B) l : (forall a, extends (f a) (f' a)) -> extends (mmapM f l) (mmapM f' l).
Proof.
  intro H. induction l as [|a l IH]; cbn [mmapM]; [apply ext_refl|].
  apply ext_bind; auto. intro b. apply ext_bind; auto. intro. apply ext_refl.
Qed.

Section Ext.
Variable ord : list str -> list str.
Variables rec rec' : str -> M unit.
Hypothesis R : forall k, extends (rec k) (rec' k).

Lemma ext_refs ids : extends (resolve_refs ord rec ids) (resolve_refs ord rec' ids).
Proof. apply ext_mmapM. intro k. apply ext_bind; auto. intro. apply ext_refl. Qed.

Lemma ext_resolve i : extends (resolve ord rec i) (resolve ord rec' i).
Proof.
  intros s. unfold resolve. destruct (nth_error (s_lazies s) i) as [l|]; [|reflexivity].
  destruct (lz_resolved l); [reflexivity|].
  revert s. apply ext_bind; [apply ext_refl|]. intro g. apply ext_bind; [apply ext_refs|]. intro refs. apply ext_refl.
Qed.

Lemma ext_force o : extends (force_entry ord rec o) (force_entry ord rec' o).
Proof.
  destruct o as [[i|x r]|]; cbn [force_entry]; try apply ext_refl.
  intro s. destruct (nth_error (s_lazies s) i) as [l|]; [|reflexivity].
  revert s. apply ext_bind; [apply ext_resolve|]. intro. apply ext_refl.
Qed.

Lemma ext_either k : extends (unit_by_either ord rec k) (unit_by_either ord rec' k).
Proof.
  unfold unit_by_either, unit_by_name, unit_by_symbol. apply ext_bind.
  - intros s N. now apply ext_force.
  - intros [x|]; [apply ext_refl|]. intros s N. now apply ext_force.
Qed.

Lemma ext_try ps q : extends (try_prefixes ord rec ps q) (try_prefixes ord rec' ps q).
Proof.
  induction ps as [|[key p] ps IH]; cbn [try_prefixes]; [apply ext_refl|].
  destruct (strip_prefix key q) as [k|]; [|exact IH].
  apply ext_bind; [apply ext_either|]. intros [x|]; [apply ext_refl|exact IH].
Qed.

Lemma ext_body q : extends (lookup_body ord rec q) (lookup_body ord rec' q).
Proof.
  unfold lookup_body. apply ext_bind; [apply ext_either|]. intros [x|]; [apply ext_refl|].
  apply ext_bind; [intros s N; now apply ext_try|]. intros [x|]; [apply ext_refl|].
  apply ext_bind; [intros s N; now apply ext_try|]. intros [x|]; apply ext_refl.
Qed.
End Ext.

Lemma lookup_extends ord f : forall f' q, (f <= f')%nat -> extends (lookup ord f q) (lookup ord f' q).
Proof.
  induction f as [|f IH]; intros f' q L.
  - intros s N. exfalso. apply N. reflexivity.
  - destruct f' as [|f']; [lia|]. cbn [lookup]. apply ext_body. intro k. apply IH. lia.
Qed.

Lemma unit_extends ord f f' t : (f <= f')%nat -> extends (sys_unit ord f t) (sys_unit ord f' t).
Proof.
  intro L. unfold sys_unit. apply ext_bind; [apply ext_refl|]. intro g.
  apply ext_bind; [|intro; apply ext_refl]. apply ext_refs. intro. now apply lookup_extends.
Qed.
