(** * Construction, convertibility, expansion. *)
From Verif Require Import PyBase PyNum Graph RegexFacts Expr Units UnitSpec UnitFacts Sympy Convert.
Open Scope Z_scope.

(** ** normalisation *)
Lemma norm_ok refs d : forall o, norm refs d = Ok o ->
  acceptable refs d /\ (o = None \/ o = Some d).
Proof.
  assert (B : forall f a b, (norm refs (f a b) = do na <- norm refs a ;; do nb <- norm refs b ;; Ok (norm2 f a b na nb)) ->
    (acceptable refs a -> acceptable refs b -> acceptable refs (f a b)) ->
    (forall o, norm refs a = Ok o -> acceptable refs a /\ (o = None \/ o = Some a)) ->
    (forall o, norm refs b = Ok o -> acceptable refs b /\ (o = None \/ o = Some b)) ->
    forall o, norm refs (f a b) = Ok o -> acceptable refs (f a b) /\ (o = None \/ o = Some (f a b))).
  { intros f a b E HA IHa IHb o. rewrite E.
    destruct (norm refs a) as [na|]; [|discriminate]. destruct (norm refs b) as [nb|]; [|discriminate].
    cbn [bind]. intro Eo. injection Eo as <-.
    destruct (IHa na eq_refl) as [A1 [-> | ->]]; destruct (IHb nb eq_refl) as [A2 [-> | ->]]; cbn [norm2]; auto. }
  induction d; intros o E.
  - discriminate.
  - injection E as <-. split; [constructor|auto].
  - injection E as <-. split; [constructor|auto].
  - apply (B Raise _ _ eq_refl); auto. now constructor.
  - apply (B Multiply _ _ eq_refl); auto. now constructor.
  - apply (B Divide _ _ eq_refl); auto. now constructor.
  - cbn [norm] in E. destruct (norm refs d1) as [na|]; [|discriminate]. cbn [bind] in E.
    destruct (IHd1 na eq_refl) as [A Hn].
    assert (Ea : match na with Some x => x | None => d1 end = d1) by (destruct Hn; subst; auto).
    rewrite Ea in E. destruct (is_time_unit (UExpr d1 refs)) as [it|] eqn:Et; [|discriminate]. cbn [bind] in E.
    destruct it; [discriminate|]. destruct d2; try discriminate. injection E as <-.
    split; [now constructor|auto].
  - simpl in E. destruct (norm refs d) as [nt|]; [|discriminate]. cbn [bind] in E. injection E as <-.
    destruct (IHd nt eq_refl) as [A [-> | ->]]; (split; [now constructor|]); simpl; auto.
Qed.

Lemma norm_acceptable refs d : acceptable refs d -> exists o, norm refs d = Ok o.
Proof.
  induction 1; cbn [norm]; eauto;
    repeat match goal with H : exists o, norm refs _ = Ok o |- _ => destruct H as [? H]; rewrite H; cbn [bind] end; eauto.
  match goal with H : norm refs _ = Ok ?x |- _ => pose proof (norm_ok _ _ _ H) as [_ N] end.
  assert (Ea : match x with Some y => y | None => a end = a) by (destruct N; subst; auto).
  rewrite Ea, H0. cbn [bind]. eauto.
Qed.

Lemma normalised_same refs d e : normalised refs d = Ok e -> e = d.
Proof.
  unfold normalised. destruct (norm refs d) as [o|] eqn:E; [|discriminate]. cbn [bind].
  intro H. injection H as <-. destruct (norm_ok _ _ _ E) as [_ [-> | ->]]; auto.
Qed.

Lemma mk_unit_iff d refs x : mk_unit d refs = Ok x <-> x = UExpr d refs /\ acceptable refs d.
Proof.
  unfold mk_unit, normalised. split.
  - destruct (norm refs d) as [o|] eqn:E; [|discriminate]. cbn [bind]. intro H. injection H as <-.
    split; auto. now apply (norm_ok _ _ _ E).
  - intros [-> A]. destruct (norm_acceptable _ _ A) as [o E]. now rewrite E.
Qed.

Lemma acceptable_sub refs d a s : acceptable refs d -> sub (Shift a s) d ->
  (exists v r, s = Number v r) /\ is_time_unit (UExpr a refs) = Ok false.
Proof.
  intros A S. remember (Shift a s) as n. induction S; subst; inversion A; subst; eauto.
  inversion S.
Qed.

Lemma is_time_expr d refs : is_time_unit (UExpr d refs) = do m <- udims (UExpr d refs) ;; Ok (dims_time m).
Proof. reflexivity. Qed.

(** ** equality of dimension maps *)
Lemma dims_get_notin b d : ~ In b (dkeys_of d) -> dims_get b d = None.
Proof.
  intro N. destruct (dims_get b d) eqn:E; auto. exfalso. apply N, dims_get_in. congruence.
Qed.

Lemma dims_get_nth k f z d : NoDup (dkeys_of d) -> In ((k, f), z) d -> dims_get k d = Some z.
Proof.
  induction d as [|[[k' f'] z'] d IH]; simpl; [tauto|]. intros N [H|H]; inversion N; subst.
  - injection H as <- <- <-. now rewrite str_eqb_refl.
  - destruct (str_eqb k k') eqn:E; auto. apply str_eqb_eq in E. subst. exfalso. apply H2.
    apply (in_map (fun e => fst (fst e))) in H. exact H.
Qed.

Lemma dims_get_some k z d : dims_get k d = Some z -> exists f, In ((k, f), z) d.
Proof.
  induction d as [|[[k' f'] z'] d IH]; simpl; [discriminate|]. destruct (str_eqb k k') eqn:E.
  - apply str_eqb_eq in E. subst. intro H. injection H as <-. eauto.
  - intro H. destruct (IH H) as [f F]. eauto.
Qed.

Definition wf_dims (d : dims) : Prop := NoDup (dkeys_of d) /\ Forall (fun e => snd e <> 0) d.

Lemma in_keys_val d b : wf_dims d -> (In b (dkeys_of d) <-> dval d b <> 0).
Proof.
  intros [N F]. rewrite <- dims_get_in. unfold dval. destruct (dims_get b d) as [z|] eqn:E.
  - split; [|discriminate]. intros _. destruct (dims_get_some _ _ _ E) as [f I].
    rewrite Forall_forall in F. apply (F _ I).
  - split; congruence.
Qed.

Lemma dims_eqb_iff a b : wf_dims a -> wf_dims b ->
  (dims_eqb a b = true <-> forall k, dval a k = dval b k).
Proof.
  intros Wa Wb. unfold dims_eqb. rewrite andb_true_iff, Nat.eqb_eq, forallb_forall. split.
  - intros [L A] k.
    assert (Inc : incl (dkeys_of a) (dkeys_of b)).
    { intros x Hx. apply in_map_iff in Hx as (((x' & f) & z) & E & I). simpl in E. subst x'.
      specialize (A _ I). simpl in A. apply dims_get_in. destruct (dims_get x b); congruence. }
    assert (Inc2 : incl (dkeys_of b) (dkeys_of a)).
    { apply NoDup_length_incl; auto; [apply Wa|]. unfold dkeys_of. rewrite !map_length. lia. }
    unfold dval. destruct (dims_get k a) as [z|] eqn:E.
    + destruct (dims_get_some _ _ _ E) as [f I]. specialize (A _ I). simpl in A.
      destruct (dims_get k b); [|discriminate]. apply Z.eqb_eq in A. congruence.
    + destruct (dims_get k b) eqn:E2; auto. exfalso.
      assert (In k (dkeys_of b)) by (apply dims_get_in; congruence).
      apply Inc2 in H. apply dims_get_in in H. congruence.
  - intro V. assert (K : forall k, In k (dkeys_of a) <-> In k (dkeys_of b)).
    { intro k. rewrite !in_keys_val by auto. now rewrite V. }
    split.
    + assert (L1 : (List.length (dkeys_of a) <= List.length (dkeys_of b))%nat)
        by (apply NoDup_incl_length; [apply Wa|]; intros k; apply K).
      assert (L2 : (List.length (dkeys_of b) <= List.length (dkeys_of a))%nat)
        by (apply NoDup_incl_length; [apply Wb|]; intros k; apply K).
      unfold dkeys_of in *. rewrite !map_length in *. lia.
    + intros ((k & f) & z) I. simpl. specialize (V k). unfold dval in V.
      rewrite (dims_get_nth k f z a (proj1 Wa) I) in V.
      assert (z <> 0) by (destruct Wa as [_ F]; rewrite Forall_forall in F; apply (F _ I)).
      destruct (dims_get k b); [|congruence]. subst. apply Z.eqb_refl.
Qed.

Lemma dims_inv_keys d : dkeys_of (dims_inv d) = dkeys_of d.
Proof. unfold dkeys_of, dims_inv. rewrite map_map. reflexivity. Qed.
Lemma dims_inv_val d k : dval (dims_inv d) k = - dval d k.
Proof.
  unfold dval. induction d as [|[[k' f] z] d IH]; simpl; auto. destruct (str_eqb k k'); auto.
Qed.
Lemma dims_inv_wf d : wf_dims d -> wf_dims (dims_inv d).
Proof.
  intros [N F]. split; [now rewrite dims_inv_keys|]. unfold dims_inv. apply Forall_map.
  eapply Forall_impl; [|exact F]. simpl. intros. lia.
Qed.

Lemma udims_wf_dims x d : udims x = Ok d -> wf_dims d.
Proof. intro H. apply udims_wf in H. exact H. Qed.

(** ** convertibility *)
Lemma convertible_dims x y dx dy : is_expr_unit x -> is_expr_unit y ->
  udims x = Ok dx -> udims y = Ok dy ->
  exists r, is_convertible_to (AUnit x) (AUnit y) = Ok r /\
    (r = true <-> interconvertible (dval dx) (dval dy)).
Proof.
  intros Hx Hy Ex Ey. destruct x as [|ex rx]; [destruct Hx|]. destruct y as [|ey ry]; [destruct Hy|].
  unfold is_convertible_to, dimensionality. rewrite Ex, Ey. cbn [bind dimval_eqb dimval_inv].
  pose proof (udims_wf_dims _ _ Ex) as Wx. pose proof (udims_wf_dims _ _ Ey) as Wy.
  destruct (dims_eqb dx dy) eqn:E.
  - exists true. split; auto. split; auto. intros _. left. now apply dims_eqb_iff.
  - exists (dims_eqb (dims_inv dx) dy). split; auto.
    rewrite dims_eqb_iff by (auto using dims_inv_wf). split.
    + intro V. right. intro b. specialize (V b). rewrite dims_inv_val in V. lia.
    + intros [V|V].
      * exfalso. apply (dims_eqb_iff dx dy Wx Wy) in V. congruence.
      * intro b. rewrite dims_inv_val, V. lia.
Qed.

Lemma convertible_inv x y r : is_convertible_to (AUnit x) (AUnit y) = Ok r ->
  exists dx dy, udims x = Ok dx /\ udims y = Ok dy.
Proof.
  intro H.
  assert (D : forall z, exists k, dimensionality (AUnit z) = do d <- udims z ;; Ok (k d)).
  { intros [r0 dl it|d refs]; [exists DDict|exists DObj]; reflexivity. }
  unfold is_convertible_to in H. destruct (D x) as [kx Ex], (D y) as [ky Ey]. rewrite Ex, Ey in H.
  destruct (udims x) as [dx|]; [|discriminate]. destruct (udims y) as [dy|]; [|discriminate]. eauto.
Qed.

Lemma interconvertible_refl f : interconvertible f f.
Proof. left; auto. Qed.
Lemma interconvertible_sym f g : interconvertible f g -> interconvertible g f.
Proof. intros [H|H]; [left|right]; intro b; rewrite H; lia. Qed.
Lemma interconvertible_trans f g h : interconvertible f g -> interconvertible g h -> interconvertible f h.
Proof.
  intros [H|H] [K|K]; [left|right|right|left]; intro b; rewrite H, K; lia.
Qed.

(** ** the Converter's constructor *)
Definition not_incompatible {A} (r : res A) : Prop := r <> Err EIncompatible.

Lemma ni_bind {A B} (r : res A) (f : A -> res B) : not_incompatible r ->
  (forall a, r = Ok a -> not_incompatible (f a)) -> not_incompatible (do x <- r ;; f x).
Proof.
  intros H1 H2. destruct r as [a|e]; simpl.
  - apply H2; auto.
  - intro E. apply H1. injection E as ->. reflexivity.
Qed.

Lemma ni_ok {A} (a : A) : not_incompatible (Ok a). Proof. discriminate. Qed.

Lemma ni_parse_exp s : not_incompatible (parse_exp s).
Proof.
  unfold parse_exp. destruct s as [|c r]; [discriminate|].
  destruct ((c =? 69)%N || (c =? 101)%N); [|discriminate].
  destruct (split_sign r) as [neg r1]. destruct (take_digits r1) as [[|d ds] [|x rest]]; discriminate.
Qed.

Lemma ni_py_decimal s : not_incompatible (py_decimal s).
Proof.
  unfold py_decimal. destruct (split_sign s) as [neg r]. destruct (take_digits r) as [ip r1].
  set (p := match r1 with [] => ([], []) | c :: r' => if (c =? 46)%N then take_digits r' else ([], r1) end).
  destruct p as [fp r2]. destruct (ip ++ fp)%list; [discriminate|].
  apply ni_bind; [apply ni_parse_exp|]. intros e _. destruct (_ || _)%bool; discriminate.
Qed.

Lemma ni_expanded x : not_incompatible (expanded x).
Proof.
  revert x. fix IH 1. intros [r dl it|d refs].
  - discriminate.
  - simpl. apply ni_bind.
    + induction refs as [|[k v] rs IHr]; [discriminate|].
      apply ni_bind.
      * destruct v as [p|y].
        -- unfold prefix_expanded. apply ni_bind; [apply ni_py_decimal|discriminate].
        -- apply IH.
      * intros e _. apply ni_bind; [apply IHr|discriminate].
    + discriminate.
Qed.

Lemma ni_split root n : not_incompatible (split root n).
Proof.
  revert root. induction n; intro root; cbn [split]; try discriminate.
  - apply ni_bind; [auto|]; intros [t d] _. apply ni_bind; [auto|]; intros [t2 d2] _.
    cbn [fst snd]. destruct t2; discriminate.
  - apply ni_bind; [auto|]; intros [t d] _. apply ni_bind; [auto|]; intros [t2 d2] _.
    cbn [fst snd]. destruct t, t2; discriminate.
  - apply ni_bind; [auto|]; intros [t d] _. apply ni_bind; [auto|]; intros [t2 d2] _.
    cbn [fst snd]. destruct t, t2; discriminate.
  - apply ni_bind; [auto|]; intros [t d] _. cbn zeta. destruct root; discriminate.
  - apply ni_bind; [auto|]; intros [t d] _. discriminate.
Qed.

Lemma ni_to_sympy n : not_incompatible (to_sympy n).
Proof.
  induction n; simpl; try discriminate.
  - destruct v; simpl; try discriminate. destruct (sympy_parse_int s); discriminate.
  - apply ni_bind; auto. intros; apply ni_bind; auto. discriminate.
  - apply ni_bind; auto. intros; apply ni_bind; auto. discriminate.
  - apply ni_bind; auto. intros; apply ni_bind; auto. discriminate.
  - apply ni_bind; auto. intros; apply ni_bind; auto. discriminate.
  - destruct (log_base function); [|discriminate]. apply ni_bind; auto. discriminate.
Qed.

Lemma ni_of_option {A} (o : option A) e : e <> EIncompatible -> not_incompatible (of_option o e).
Proof. intros H. destruct o; simpl; [discriminate|]. intro E. injection E as ->. auto. Qed.

Lemma ni_normal_form x : not_incompatible (normal_form x).
Proof.
  unfold normal_form, symbolic. apply ni_bind.
  - apply ni_bind; [apply ni_expanded|]. intros e _. apply ni_bind; [apply ni_split|]. intros [t d] _. cbn [fst snd].
    apply ni_bind.
    + destruct t; [apply ni_to_sympy|discriminate].
    + intros. apply ni_bind; [apply ni_to_sympy|discriminate].
  - intros [t d] _. apply ni_bind; [apply ni_of_option; discriminate|].
    intros. apply ni_bind; [apply ni_of_option; discriminate|discriminate].
Qed.

Lemma converter_incompatible x y : is_expr_unit x -> is_expr_unit y ->
  (mk_converter (AUnit x) (AUnit y) = Err EIncompatible <-> is_convertible_to (AUnit x) (AUnit y) = Ok false)
  \/ (exists e, udims x = Err e /\ is_convertible_to (AUnit x) (AUnit y) = Err e /\
                mk_converter (AUnit x) (AUnit y) = Err e)
  \/ (exists e, udims y = Err e /\ is_convertible_to (AUnit x) (AUnit y) = Err e /\
                mk_converter (AUnit x) (AUnit y) = Err e).
Proof.
  intros Hx Hy. destruct x as [|ex rx]; [destruct Hx|]. destruct y as [|ey ry]; [destruct Hy|].
  destruct (udims (UExpr ex rx)) as [dx|e] eqn:Ex.
  2:{ right; left. exists e. unfold mk_converter, is_convertible_to, dimensionality. rewrite Ex. auto. }
  destruct (udims (UExpr ey ry)) as [dy|e] eqn:Ey.
  2:{ right; right. exists e. unfold mk_converter, is_convertible_to, dimensionality. rewrite Ex, Ey. auto. }
  left. unfold mk_converter, is_convertible_to, dimensionality. rewrite Ex, Ey. cbn [bind dimval_inv dimval_eqb].
  destruct (dims_eqb dx dy).
  - cbn [orb negb]. split; [|discriminate]. intro E. exfalso. revert E. cbn [core].
    apply ni_bind; [apply ni_normal_form|]. intros n1 _. apply ni_bind; [apply ni_normal_form|]. intros n2 _.
    apply ni_bind; [apply ni_of_option; discriminate|]. intros s _.
    apply ni_bind; [apply ni_of_option; discriminate|]. discriminate.
  - destruct (dims_eqb (dims_inv dx) dy).
    + cbn [orb negb]. split; [|discriminate]. intro E. exfalso. revert E. cbn [core].
      apply ni_bind; [apply ni_normal_form|]. intros n1 _. apply ni_bind; [apply ni_normal_form|]. intros n2 _.
      apply ni_bind; [apply ni_of_option; discriminate|]. intros s _.
      destruct (Q_is0 _); discriminate.
    + cbn [orb negb]. split; auto.
Qed.

(** ** expansion *)
Definition expand_ref (v : uref) : res node :=
  match v with RPrefix p => prefix_expanded p | RUnit y => expanded y end.

Fixpoint expand_refs (rs : list (str * uref)) : res (dict node) :=
  match rs with
  | [] => Ok []
  | (k, v) :: rs' => do e <- expand_ref v ;; do m <- expand_refs rs' ;; Ok ((k, e) :: m)
  end.

Lemma expanded_expr d refs : expanded (UExpr d refs) = do m <- expand_refs refs ;; Ok (subst m d).
Proof.
  simpl. assert (E : forall rs, (fix go (rs : list (str * uref)) : res (dict node) :=
               match rs with
               | [] => Ok []
               | (k, v) :: rs' =>
                 do e <- match v with
                         | RPrefix p => prefix_expanded p
                         | RUnit y => expanded y
                         end ;;
                 do m <- go rs' ;;
                 Ok ((k, e) :: m)
               end) rs = expand_refs rs).
  { induction rs as [|[k v] rs IH]; auto. }
  now rewrite E.
Qed.

Lemma expand_refs_get refs m s : expand_refs refs = Ok m ->
  match find_ref s refs with
  | None => dget s m = None
  | Some v => exists e, expand_ref v = Ok e /\ dget s m = Some e
  end.
Proof.
  revert m. induction refs as [|[k v] rs IH]; simpl; intros m E.
  - injection E as <-. reflexivity.
  - destruct (expand_ref v) as [e|] eqn:Ev; [|discriminate]. cbn [bind] in E.
    destruct (expand_refs rs) as [m'|]; [|discriminate]. cbn [bind] in E. injection E as <-.
    simpl. destruct (str_eqb s k); [eauto|now apply IH].
Qed.

Lemma prefix_expanded_number p e : prefix_expanded p = Ok e -> exists d, e = Number (NDec d) (Some p).
Proof.
  unfold prefix_expanded. destruct (py_decimal p); [|discriminate]. intro H. injection H as <-. eauto.
Qed.

Lemma gdim_subst rho m d b : tidy rho d ->
  forall rho' , (forall s, occurs s d -> match dget s m with Some e => gdim rho' e b | None => rho' s b end = rho s b) ->
  gdim rho' (subst m d) b = gdim rho d b.
Proof.
  induction d; simpl; intros T rho' H; auto.
  - specialize (H name eq_refl). destruct (dget name m); auto.
  - destruct T as (T & z & r & ->). simpl. f_equal. apply IHd1; auto.
  - destruct T as (T1 & T2 & _). rewrite IHd1, IHd2; auto.
  - destruct T as (T1 & T2 & _). rewrite IHd1, IHd2; auto.
Qed.

Lemma exps_expanded dl x : sound_unit x -> bases_agree dl x -> forall e, expanded x = Ok e ->
  forall b, exps x b = gdim (basis_exps dl) e b.
Proof.
  induction 1 as [r d it|d refs T O S IH]; intros B e E b.
  - inversion B; subst. simpl in E. injection E as <-. simpl. reflexivity.
  - inversion B as [|? ? B']; subst. rewrite expanded_expr in E.
    destruct (expand_refs refs) as [m|] eqn:Em; [|discriminate]. cbn [bind] in E. injection E as <-.
    rewrite exps_expr. symmetry. apply gdim_subst; auto. intros s Hs.
    pose proof (expand_refs_get refs m s Em) as G. pose proof (O s Hs) as Hf. unfold ref_exps.
    destruct (find_ref s refs) as [[p|y]|] eqn:F; [| |congruence].
    + destruct G as (e & Ee & ->). apply prefix_expanded_number in Ee as [dd ->]. reflexivity.
    + destruct G as (e & Ee & ->). symmetry. eapply IH; eauto.
Qed.

(** ** products, quotients, powers, scale factors *)
Lemma plain_tidy rho d : plain d -> tidy rho d /\ moves d = false.
Proof.
  induction d; simpl; intro P; try contradiction; auto.
  - destruct P as (P & z & r & ->). destruct (IHd1 P). split; eauto.
  - destruct P as [P1 P2]. destruct (IHd1 P1), (IHd2 P2). rewrite H0, H2. simpl. repeat split; auto; discriminate.
  - destruct P as [P1 P2]. destruct (IHd1 P1), (IHd2 P2). rewrite H0, H2. simpl. repeat split; auto; discriminate.
Qed.

Definition resolved (d : node) (refs : list (str * uref)) : Prop :=
  (forall s, occurs s d -> find_ref s refs <> None) /\
  (forall s y, find_ref s refs = Some (RUnit y) -> occurs s d -> sound_unit y).

Lemma sound_plain d refs : plain d -> resolved d refs -> sound_unit (UExpr d refs).
Proof. intros P [R S]. constructor; auto. now apply plain_tidy. Qed.

Lemma dims_of_plain d refs : plain d -> resolved d refs ->
  exists m, udims (UExpr d refs) = Ok m /\ forall b, dval m b = gdim (ref_exps refs) d b.
Proof.
  intros P R. destruct (udims_sound _ (sound_plain d refs P R)) as (m & E & Re).
  exists m. split; auto. intro b. rewrite (represents_val _ _ Re). apply exps_expr.
Qed.

Lemma dims_of_sound d refs : sound_unit (UExpr d refs) ->
  exists m, udims (UExpr d refs) = Ok m /\ forall b, dval m b = gdim (ref_exps refs) d b.
Proof.
  intros P. destruct (udims_sound _ P) as (m & E & Re).
  exists m. split; auto. intro b. rewrite (represents_val _ _ Re). apply exps_expr.
Qed.

Lemma sound_scaled v r d refs : sound_unit (UExpr d refs) ->
  sound_unit (UExpr (Multiply (Number v r) d) refs) /\ sound_unit (UExpr (Multiply d (Number v r)) refs) /\
  sound_unit (UExpr (Divide d (Number v r)) refs).
Proof.
  intro S. inversion S; subst.
  assert (M : moves d && false = false) by (destruct (moves d); auto).
  repeat split; constructor; simpl; auto; try (rewrite M; repeat split; auto; discriminate);
    try (repeat split; auto; discriminate);
    try (intros s [[]|Hs]; auto; fail); try (intros s [Hs|[]]; auto; fail);
    try (intros s y F [[]|Hs]; eauto; fail); try (intros s y F [Hs|[]]; eauto; fail).
Qed.

(** the unit built for a prefixed name, when prefix key and unit key differ *)
Definition prefixed_refs (p k : str) (v : str) (y : unit) : list (str * uref) :=
  dset k (RUnit y) [(p, RPrefix v)].

Lemma prefixed_find p k v y : p <> k ->
  find_ref p (prefixed_refs p k v y) = Some (RPrefix v) /\ find_ref k (prefixed_refs p k v y) = Some (RUnit y).
Proof.
  intro N. unfold prefixed_refs. simpl. assert (E : str_eqb k p = false) by (apply str_eqb_neq; auto).
  rewrite E. simpl. rewrite E, !str_eqb_refl. auto.
Qed.

Lemma prefixed_exps p k v y : p <> k -> sound_unit y ->
  let x := UExpr (Multiply (Identifier p) (Identifier k)) (prefixed_refs p k v y) in
  sound_unit x /\ forall b, exps x b = exps y b.
Proof.
  intros N S x. destruct (prefixed_find p k v y N) as [F1 F2]. split.
  - apply sound_plain; [simpl; auto|]. split.
    + intros s [E|E]; simpl in E; subst; congruence.
    + intros s z F [E|E]; simpl in E; subst; rewrite F in *; congruence.
  - intro b. unfold x. rewrite exps_expr. simpl. unfold ref_exps. now rewrite F1, F2.
Qed.

Lemma prefixed_collision k v y : sound_unit y ->
  let x := UExpr (Multiply (Identifier k) (Identifier k)) (prefixed_refs k k v y) in
  sound_unit x /\ forall b, exps x b = 2 * exps y b.
Proof.
  intros S x. assert (F : find_ref k (prefixed_refs k k v y) = Some (RUnit y)).
  { unfold prefixed_refs. simpl. rewrite str_eqb_refl. simpl. now rewrite str_eqb_refl. }
  split.
  - apply sound_plain; [simpl; auto|]. split.
    + intros s [E|E]; simpl in E; subst; congruence.
    + intros s z F' [E|E]; simpl in E; subst; rewrite F in *; congruence.
  - intro b. unfold x. rewrite exps_expr. cbn [gdim]. unfold ref_exps. rewrite F. lia.
Qed.

(** ** dates *)
Lemma dims_time_iff d : dims_time d = true <-> exists b, d = [((b, true), 1)].
Proof.
  unfold dims_time. split.
  - destruct d as [|[[b it] z] [|]]; try discriminate. rewrite andb_true_iff. intros [-> E].
    apply Z.eqb_eq in E. subst. eauto.
  - intros [b ->]. reflexivity.
Qed.

Lemma date_iff e refs x r : unit_from_expression e refs = Ok (ADate x r) <->
  exists a s, e = Shift a s /\ x = UExpr a refs /\ acceptable refs a /\ is_time_unit (UExpr a refs) = Ok true /\
    ((exists v, s = Number v (Some r)) \/ s = Unhandled r).
Proof.
  split.
  - unfold unit_from_expression.
    assert (U : forall e, (do y <- mk_unit e refs ;; Ok (AUnit y)) <> Ok (ADate x r)).
    { intros e'. destruct (mk_unit e' refs); discriminate. }
    destruct e as [raw|v raw|nm|l rr|l rr|l rr|a s|f t]; try (intro H; exfalso; eapply U; exact H).
    destruct (mk_unit a refs) as [y|] eqn:E; [|discriminate]. cbn [bind].
    apply mk_unit_iff in E as [-> A].
    destruct (is_time_unit (UExpr a refs)) as [[|]|] eqn:T; cbn [bind].
    + destruct s; try discriminate.
      * unfold mk_date. rewrite T. cbn [bind]. intro H. injection H as <- <-. eauto 10.
      * destruct raw; [|discriminate]. unfold mk_date. rewrite T. cbn [bind]. intro H. injection H as <- <-. eauto 12.
    + intro H. exfalso. eapply U; exact H.
    + discriminate.
  - intros (a & s & -> & -> & A & T & S). unfold unit_from_expression.
    rewrite (proj2 (mk_unit_iff a refs _) (conj eq_refl A)). cbn [bind]. rewrite T. cbn [bind].
    destruct S as [[v ->]| ->]; unfold mk_date; rewrite T; reflexivity.
Qed.

Lemma unit_iff e refs x : unit_from_expression e refs = Ok (AUnit x) <->
  x = UExpr e refs /\ acceptable refs e.
Proof.
  split.
  - unfold unit_from_expression.
    assert (U : forall e, (do y <- mk_unit e refs ;; Ok (AUnit y)) = Ok (AUnit x) -> x = UExpr e refs /\ acceptable refs e).
    { intros e' H. destruct (mk_unit e' refs) as [y|] eqn:E; [|discriminate]. injection H as <-.
      now apply mk_unit_iff in E. }
    destruct e as [raw|v raw|nm|l rr|l rr|l rr|a s|f t]; auto.
    destruct (mk_unit a refs) as [y|] eqn:E; [|discriminate]. cbn [bind].
    apply mk_unit_iff in E as [-> A].
    destruct (is_time_unit (UExpr a refs)) as [[|]|] eqn:T; cbn [bind]; auto; [|discriminate].
    destruct s; try discriminate; unfold mk_date; try rewrite T; try discriminate.
    destruct raw; try rewrite T; discriminate.
  - intros [-> A]. pose proof (proj2 (mk_unit_iff e refs _) (conj eq_refl A)) as E.
    unfold unit_from_expression. destruct e as [raw|v raw|nm|l rr|l rr|l rr|a s|f t]; try (rewrite E; reflexivity).
    inversion A as [| | | | | |? ? ? A' T]; subst. rewrite (proj2 (mk_unit_iff a refs _) (conj eq_refl A')). cbn [bind].
    rewrite T. cbn [bind]. now rewrite E.
Qed.

(** ** splitting and substitution *)
Lemma split_pure_part n : forall root t d, split root n = Ok (t, d) ->
  forall m, sub m d -> (forall a b, m <> Shift a b) /\ (forall f a, m <> Logarithm f a).
Proof.
  induction n; intros root t d E m S; cbn [split] in E.
  - injection E as <- <-. inversion S; subst. split; discriminate.
  - injection E as <- <-. inversion S; subst. split; discriminate.
  - injection E as <- <-. inversion S; subst. split; discriminate.
  - destruct (split false n1) as [[t1 d1]|] eqn:E1; [|discriminate]. cbn [bind fst snd] in E.
    destruct (split false n2) as [[t2 d2]|] eqn:E2; [|discriminate]. cbn [bind fst snd] in E.
    destruct t2; [discriminate|]. injection E as <- <-.
    inversion S; subst; eauto. split; discriminate.
  - destruct (split false n1) as [[t1 d1]|] eqn:E1; [|discriminate]. cbn [bind fst snd] in E.
    destruct (split false n2) as [[t2 d2]|] eqn:E2; [|discriminate]. cbn [bind fst snd] in E.
    destruct t1, t2; try discriminate; injection E as <- <-; eauto.
    inversion S; subst; eauto. split; discriminate.
  - destruct (split false n1) as [[t1 d1]|] eqn:E1; [|discriminate]. cbn [bind fst snd] in E.
    destruct (split false n2) as [[t2 d2]|] eqn:E2; [|discriminate]. cbn [bind fst snd] in E.
    destruct t1, t2; try discriminate; injection E as <- <-; inversion S; subst; eauto; split; discriminate.
  - destruct (split false n1) as [[t1 d1]|] eqn:E1; [|discriminate]. cbn [bind fst snd] in E.
    destruct root; injection E as <- <-; eauto.
  - destruct (split false n) as [[t1 d1]|] eqn:E1; [|discriminate]. cbn [bind fst snd] in E.
    injection E as <- <-; eauto.
Qed.

Lemma split_plain n : forall root, plain n -> split root n = Ok (None, n).
Proof.
  induction n; intros root P; simpl in P; try contradiction; auto.
  - destruct P as (P & z & r & ->). cbn [split]. now rewrite IHn1.
  - destruct P as [P1 P2]. cbn [split]. now rewrite IHn1, IHn2.
  - destruct P as [P1 P2]. cbn [split]. now rewrite IHn1, IHn2.
Qed.

Lemma subst_fusion m1 m2 n :
  subst m2 (subst m1 n) = subst (map (fun kv => (fst kv, subst m2 (snd kv))) m1 ++ m2) n.
Proof.
  induction n; simpl; try congruence.
  induction m1 as [|[k v] m1 IH]; simpl; auto.
  destruct (str_eqb name k); auto.
Qed.
