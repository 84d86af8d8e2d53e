(** * C09: dimensionality with superscripts. *)
From Verif Require Import PyBase PyNum Graph RegexFacts Expr Units UnitSpec UnitFacts UnitProofs PrintSpec SuperSpec.
Open Scope Z_scope.

(** ints instead of strs *)
Definition orel (a b : order) : Prop :=
  match a, b with OInt x, OInt y => x = y | OStr _, OInt _ => True | _, OStr _ => False end.
Definition srel (l r : scope) : Prop := Forall2 (fun a b => fst a = fst b /\ orel (snd a) (snd b)) l r.

Lemma dget_srel k l r : srel l r ->
  match dget k l, dget k r with Some a, Some b => orel a b | None, None => True | _, _ => False end.
Proof.
  induction 1 as [|[k1 a] [k2 b] l r [E O] F IH]; cbn; auto. cbn in E, O. subst k2.
  destruct (str_eqb k k1); auto.
Qed.
Lemma dset_srel k a b l r : orel a b -> srel l r -> srel (dset k a l) (dset k b r).
Proof.
  intro O. induction 1 as [|[k1 x] [k2 y] l r [E Ox] F IH]; cbn.
  - repeat constructor; auto.
  - cbn in E, Ox. subst k2. destruct (str_eqb k k1); constructor; cbn; auto.
Qed.
Lemma op_srel (sub : bool) a a' b b' o : orel a a' -> orel b b' ->
  (if sub then order_sub else order_add) a b = Ok o ->
  exists o', (if sub then order_sub else order_add) a' b' = Ok o' /\ orel o o'.
Proof.
  destruct sub, a, a', b, b'; cbn; intros; try discriminate; try contradiction; subst;
    match goal with H : Ok _ = Ok _ |- _ => injection H as H; subst end; eexists; split; try reflexivity; cbn; auto.
Qed.
Lemma merge_srel (sub : bool) r r' : srel r r' -> forall l l' o, srel l l' ->
  scope_merge (if sub then order_sub else order_add) l r = Ok o ->
  exists o', scope_merge (if sub then order_sub else order_add) l' r' = Ok o' /\ srel o o'.
Proof.
  induction 1 as [|[k a] [k2 b] r r' [E O] F IH]; cbn; intros l l' o R.
  - intro H. injection H as <-. eauto.
  - cbn in E, O. subst k2. intro H. pose proof (dget_srel k l l' R) as G.
    assert (Og : orel (match dget k l with Some x => x | None => OInt 0 end) (match dget k l' with Some x => x | None => OInt 0 end)).
    { destruct (dget k l), (dget k l'); auto; try contradiction. reflexivity. }
    destruct ((if sub then order_sub else order_add) (match dget k l with Some x => x | None => OInt 0 end) a) as [o1|e] eqn:E1; [|discriminate].
    cbn [bind] in H. destruct (op_srel sub _ _ _ _ _ Og O E1) as (o2 & -> & O2). cbn [bind].
    eapply IH; [|exact H]. now apply dset_srel.
Qed.
Definition int_of (v : numv) : numv := match v with NStr s => NInt (text_value s) | v => v end.
Lemma scale_srel v l l' : srel l l' -> forall o, scope_scale v l = Ok o ->
  exists o', scope_scale (int_of v) l' = Ok o' /\ srel o o'.
Proof.
  induction 1 as [|[k a] [k2 b] r r' [E O] F IH]; cbn; intros o H.
  - injection H as <-. eexists. split; [reflexivity|constructor].
  - cbn in E, O. subst k2. destruct (order_mul a v) as [a1|] eqn:Ea; [|discriminate]. cbn [bind] in H.
    destruct (scope_scale v r) as [r1|] eqn:Er; [|discriminate]. cbn [bind] in H. injection H as <-.
    destruct (IH r1 eq_refl) as (r2 & -> & R2).
    assert (exists b1, order_mul b (int_of v) = Ok b1 /\ orel a1 b1) as (b1 & -> & O1).
    { destruct a, b, v; cbn in *; try discriminate; try contradiction; injection Ea as <-; subst;
        eexists; (split; [reflexivity|]); cbn; auto. }
    cbn [bind]. eexists. split; [reflexivity|]. constructor; auto.
Qed.
Lemma with_ints_number v r : with_ints (Number v r) = Number (int_of v) r.
Proof. destruct v; reflexivity. Qed.

Lemma count_with_ints g : forall sc, count g = Ok sc -> exists sc', count (with_ints g) = Ok sc' /\ srel sc sc'.
Proof.
  induction g; intros sc H; cbn [with_ints].
  - discriminate.
  - injection H as <-. destruct v; eexists; (split; [reflexivity|constructor]).
  - injection H as <-. eexists. split; [reflexivity|]. repeat constructor.
  - cbn [count] in *. destruct g2 as [ |v raw| | | | | | ]; try discriminate.
    rewrite with_ints_number. destruct (count g1) as [l|] eqn:E; [|discriminate]. cbn [bind] in H.
    destruct (IHg1 l eq_refl) as (l' & -> & R). cbn [bind]. now apply (scale_srel v l).
  - cbn [count] in *. destruct (count g1) as [l|] eqn:E1; [|discriminate]. destruct (count g2) as [r|] eqn:E2; [|discriminate].
    destruct (IHg1 l eq_refl) as (l' & -> & R1). destruct (IHg2 r eq_refl) as (r' & -> & R2). cbn [bind] in *.
    exact (merge_srel false r r' R2 l l' sc R1 H).
  - cbn [count] in *. destruct (count g1) as [l|] eqn:E1; [|discriminate]. destruct (count g2) as [r|] eqn:E2; [|discriminate].
    destruct (IHg1 l eq_refl) as (l' & -> & R1). destruct (IHg2 r eq_refl) as (r' & -> & R2). cbn [bind] in *.
    exact (merge_srel true r r' R2 l l' sc R1 H).
  - cbn [count] in *. auto.
  - cbn [count] in *. auto.
Qed.

Definition wi2 (td : option node * node) := (option_map with_ints (fst td), with_ints (snd td)).
Lemma split_with_ints g : forall root,
  Expr.split root (with_ints g) = match Expr.split root g with Ok td => Ok (wi2 td) | Err e => Err e end.
Proof.
  induction g; intro root; cbn [with_ints Expr.split].
  - reflexivity.
  - destruct v; reflexivity.
  - reflexivity.
  - rewrite IHg1, IHg2. destruct (Expr.split false g1) as [[t1 d1]|]; auto. cbn [bind].
    destruct (Expr.split false g2) as [[[t2|] d2]|]; reflexivity.
  - rewrite IHg1, IHg2. destruct (Expr.split false g1) as [[[t1|] d1]|]; auto; cbn [bind];
    destruct (Expr.split false g2) as [[[t2|] d2]|]; reflexivity.
  - rewrite IHg1, IHg2. destruct (Expr.split false g1) as [[[t1|] d1]|]; auto; cbn [bind];
    destruct (Expr.split false g2) as [[[t2|] d2]|]; reflexivity.
  - rewrite IHg1. destruct (Expr.split false g1) as [[[t1|] d1]|]; auto; cbn [bind]; destruct root; reflexivity.
  - rewrite IHg. destruct (Expr.split false g) as [[[t1|] d1]|]; reflexivity.
Qed.

Section Ind.
  Variable P : unit -> Prop.
  Hypothesis Pb : forall r dl it, P (UBasis r dl it).
  Hypothesis Pe : forall g refs, (forall k y, In (k, RUnit y) refs -> P y) -> P (UExpr g refs).
  Fixpoint unit_ind' (x : unit) : P x :=
    match x with
    | UBasis r dl it => Pb r dl it
    | UExpr g refs => Pe g refs
        ((fix go (l : list (str * uref)) : forall k y, In (k, RUnit y) l -> P y :=
           match l with
           | [] => fun k y H => match H with end
           | (k0, r) :: l' => fun k y H =>
             match H with
             | or_introl E =>
               match r as r0 return (k0, r0) = (k, RUnit y) -> P y with
               | RPrefix _ => fun E' => False_ind _ (eq_ind (k0, RPrefix _) (fun p => match snd p with RPrefix _ => True | RUnit _ => False end) Logic.I _ E')
               | RUnit z => fun E' => eq_ind z P (unit_ind' z) y (f_equal (fun p => match snd p with RUnit w => w | RPrefix _ => z end) E')
               end E
             | or_intror H' => go l' k y H'
             end
           end) refs)
    end.
End Ind.

Lemma find_ref_with_ints k refs :
  find_ref k (map (fun kv => (fst kv, uref_with_ints (snd kv))) refs) = option_map uref_with_ints (find_ref k refs).
Proof. induction refs as [|[k' v] refs IH]; cbn; auto. destruct (str_eqb k k'); auto. Qed.
Lemma find_ref_In k refs v : find_ref k refs = Some v -> exists k', In (k', v) refs.
Proof.
  induction refs as [|[k' w] refs IH]; cbn; [discriminate|]. destruct (str_eqb k k').
  - intro H. injection H as <-. eauto.
  - intro H. destruct (IH H) as (k2 & ?). eauto.
Qed.

Lemma udims_with_ints x : forall d, udims x = Ok d -> udims (unit_with_ints x) = Ok d.
Proof.
  induction x as [r dl it|g refs IH] using unit_ind'; intros d; [auto|].
  cbn [unit_with_ints]. rewrite !udims_expr. unfold split_root. rewrite split_with_ints.
  destruct (Expr.split true g) as [[t dd]|]; [|discriminate]. cbn [bind wi2 snd].
  destruct (count dd) as [sc|] eqn:C; [|discriminate]. cbn [bind].
  destruct (count_with_ints dd sc C) as (sc' & -> & R). cbn [bind].
  assert (W : forall acc a, walk refs sc acc = Ok a -> walk (map (fun kv => (fst kv, uref_with_ints (snd kv))) refs) sc' acc = Ok a).
  { clear C. induction R as [|[k o] [k2 o'] sc sc' [E O] F IHF]; intros acc a H; auto. cbn in E, O. subst k2.
    cbn [walk] in *. unfold step in *. rewrite find_ref_with_ints.
    destruct (find_ref k refs) as [[v|y]|] eqn:Fr; [| |discriminate]; cbn [option_map uref_with_ints bind] in *.
    - now apply IHF.
    - destruct (udims y) as [m|] eqn:U; [|discriminate]. cbn [bind] in H.
      apply find_ref_In in Fr as (k' & Hin). rewrite (IH k' y Hin m U). cbn [bind].
      destruct m as [|[b bo] m]; [cbn [dims_add_all bind] in *; now apply IHF|].
      destruct o as [z|s]; [|discriminate H]. destruct o' as [z'|]; [|contradiction]. cbn in O. subst z'.
      destruct (dims_add_all (OInt z) ((b, bo) :: m) acc); [|discriminate]. cbn [bind] in *. now apply IHF. }
  destruct (walk refs sc []) as [a|] eqn:E; [|discriminate]. now rewrite (W _ _ E).
Qed.
