(** * The order in which a set of identifiers is visited does not matter. *)
From Verif Require Import PyBase PyNum Graph Visitor Expr Units UnitSpec UnitFacts UnitProofs Sympy Convert UnitSystem SystemSpec SystemFacts SystemProofs SystemMore.
From Coq Require Import Permutation.

Lemma nodup_app {A} (a b : list A) : NoDup a -> NoDup b -> (forall x, In x a -> ~ In x b) -> NoDup (a ++ b).
Proof.
  induction 1 as [|x a N _ IH]; intros Hb D; cbn [app]; auto.
  constructor.
  - intro I. apply in_app_or in I as [I|I]; [contradiction|]. apply (D x); auto. now left.
  - apply IH; auto. intros y I. apply D. now right.
Qed.

Lemma identifiers_nodup n : NoDup (identifiers n).
Proof.
  assert (U : forall a b, NoDup a -> NoDup b -> NoDup (set_union a b)).
  { intros a b Ha Hb. unfold set_union. apply nodup_app; auto.
    - apply NoDup_filter, Hb.
    - intros x I J. apply filter_In in J as [_ J]. apply str_mem_In in I. rewrite I in J. discriminate. }
  induction n; cbn [identifiers]; auto; try constructor; auto. constructor.
Qed.

(** ** find_ref under rearrangement *)
Lemma find_ref_in k refs v : NoDup (map fst refs) -> (find_ref k refs = Some v <-> In (k, v) refs).
Proof.
  induction refs as [|[k' v'] rs IH]; cbn [find_ref map fst In]; intro N.
  - split; [discriminate|contradiction].
  - inversion N as [|? ? N1 N2]; subst. destruct (str_eqb k k') eqn:E.
    + apply eqb_spec in E; subst k'. split; [injection 1 as ->; auto|]. intros [X|X]; [congruence|].
      exfalso. apply N1. apply in_map_iff. now exists (k, v).
    + rewrite IH by auto. split; auto. intros [X|X]; auto. injection X as -> ->. now rewrite eqb_refl' in E.
Qed.

Lemma find_ref_perm k refs refs' : NoDup (map fst refs) -> Permutation refs refs' -> find_ref k refs = find_ref k refs'.
Proof.
  intros N P. assert (N' : NoDup (map fst refs')) by (eapply Permutation_NoDup; [apply Permutation_map, P|auto]).
  destruct (find_ref k refs) as [v|] eqn:E.
  - symmetry. apply find_ref_in; auto. apply (Permutation_in _ P). now apply find_ref_in.
  - destruct (find_ref k refs') as [v|] eqn:E'; auto. apply find_ref_in in E'; auto.
    apply (Permutation_in _ (Permutation_sym P)) in E'. apply find_ref_in in E'; auto. congruence.
Qed.

Scheme same_unit_mind := Induction for same_unit Sort Prop
  with same_refs_mind := Induction for same_refs Sort Prop.

Lemma same_refs_keys refs refs' : same_refs refs refs' -> map fst refs = map fst refs'.
Proof. induction 1; cbn [map fst]; congruence. Qed.

(** values at a key have equal dimensionalities *)
Definition alike (P : unit -> unit -> Prop) (a b : option uref) : Prop :=
  match a, b with
  | None, None => True
  | Some (RPrefix v), Some (RPrefix w) => v = w
  | Some (RUnit x), Some (RUnit y) => P x y
  | _, _ => False
  end.

Lemma udims_alike d refs refs' : (forall k, alike (fun x y => udims x = udims y) (find_ref k refs) (find_ref k refs')) ->
  udims (UExpr d refs) = udims (UExpr d refs').
Proof.
  intro H. rewrite !udims_expr. destruct (split_root d) as [td|]; auto. cbn [bind].
  destruct (count (snd td)) as [sc|]; auto. cbn [bind].
  enough (W : forall acc, walk refs sc acc = walk refs' sc acc) by now rewrite W.
  induction sc as [|[k o] sc IH]; intro acc; cbn [walk]; auto.
  assert (S : step refs k o acc = step refs' k o acc).
  { unfold step. specialize (H k). unfold alike in H.
    destruct (find_ref k refs) as [[v|x]|], (find_ref k refs') as [[w|y]|]; try contradiction; auto. now rewrite H. }
  rewrite S. destruct (step refs' k o acc); cbn [bind]; auto.
Qed.

Lemma same_udims x y : same_unit x y -> udims x = udims y.
Proof.
  intro H. induction H using same_unit_mind with
    (P0 := fun refs refs' _ => forall k, alike (fun x y => udims x = udims y) (find_ref k refs) (find_ref k refs')).
  - reflexivity.
  - apply udims_alike. intro k. rewrite <- (find_ref_perm k refs1 refs'); auto. now rewrite <- (same_refs_keys _ _ s).
  - intro k. exact Logic.I.
  - intro k0. cbn [find_ref]. destruct (str_eqb k0 k); [reflexivity|apply IHsame_unit].
  - intro k0. cbn [find_ref]. destruct (str_eqb k0 k); [exact IHsame_unit|apply IHsame_unit0].
Qed.

Lemma same_time x y : same_unit x y -> is_time_unit x = is_time_unit y.
Proof.
  intro H. pose proof (same_udims x y H) as E. destruct H; [reflexivity|]. rewrite !is_time_expr. now rewrite E.
Qed.

Lemma norm_same refs refs' : (forall d, same_unit (UExpr d refs) (UExpr d refs')) -> forall n, norm refs n = norm refs' n.
Proof.
  intros H. induction n; cbn [norm]; auto; try (now rewrite IHn1, IHn2); try now rewrite IHn.
  rewrite IHn1. destruct (norm refs' n1) as [na|]; cbn [bind]; auto. now rewrite (same_time _ _ (H _)).
Qed.

Lemma same_expr d d' refs refs' : same_unit (UExpr d refs) (UExpr d refs') -> same_unit (UExpr d' refs) (UExpr d' refs').
Proof. inversion 1; subst. eapply Sm_expr; eauto. Qed.

Lemma mk_unit_same d refs refs' : same_unit (UExpr d refs) (UExpr d refs') ->
  match mk_unit d refs, mk_unit d refs' with
  | Ok x, Ok y => same_unit x y
  | Err e, Err e' => e = e'
  | _, _ => False
  end.
Proof.
  intro H. unfold mk_unit, normalised. rewrite (norm_same refs refs').
  - destruct (norm refs' d); cbn [bind]; auto.
  - intro d'. now apply same_expr with d.
Qed.

(** ** expansion *)
Definition same_ok {A} (a b : res A) : Prop := forall v, a = Ok v <-> b = Ok v.

Lemma expand_refs_ok refs m : expand_refs refs = Ok m -> map fst m = map fst refs /\
  forall k e, NoDup (map fst refs) -> (dget k m = Some e <-> exists v, find_ref k refs = Some v /\ expand_ref v = Ok e).
Proof.
  revert m. induction refs as [|[k' v'] rs IH]; cbn [expand_refs]; intros m E.
  - injection E as <-. split; auto. intros k e _. cbn. split; [discriminate|]. intros (v & X & _); discriminate.
  - destruct (expand_ref v') as [e'|] eqn:Ev; [|discriminate]. cbn [bind] in E.
    destruct (expand_refs rs) as [m'|]; [|discriminate]. cbn [bind] in E. injection E as <-.
    destruct (IH m' eq_refl) as [K V]. split; [cbn [map fst]; congruence|].
    intros k e N. inversion N; subst. cbn [dget find_ref]. destruct (str_eqb k k'); [|now apply V].
    split; [injection 1 as <-; eauto|]. intros (v & X & Y). congruence.
Qed.

Lemma expand_refs_total refs : (exists m, expand_refs refs = Ok m) <-> forall k v, In (k, v) refs -> exists e, expand_ref v = Ok e.
Proof.
  induction refs as [|[k' v'] rs IH]; cbn [expand_refs].
  - split; [intros _ k v []|eauto].
  - split.
    + intros [m E] k v I. destruct (expand_ref v') as [e'|] eqn:Ev; [|discriminate]. cbn [bind] in E.
      destruct (expand_refs rs) as [m'|]; [|discriminate]. destruct I as [I|I]; [injection I as <- <-; eauto|].
      apply (proj1 IH) with k; eauto.
    + intro H. destruct (H k' v' ltac:(now left)) as [e' ->]. cbn [bind].
      destruct (proj2 IH) as [m ->]; [intros k v I; apply H with k; now right|]. cbn [bind]. eauto.
Qed.

Lemma subst_ext m m' n : (forall k, dget k m = dget k m') -> subst m n = subst m' n.
Proof. intro H. induction n; cbn [subst]; auto; try congruence. now rewrite H. Qed.

Lemma same_ok_sym {A} (a b : res A) : same_ok a b -> same_ok b a.
Proof. intros H v. symmetry. apply H. Qed.

Lemma expanded_alike d refs refs' : NoDup (map fst refs) -> NoDup (map fst refs') ->
  (forall k, alike (fun x y => same_ok (expanded x) (expanded y)) (find_ref k refs) (find_ref k refs')) ->
  forall e, expanded (UExpr d refs) = Ok e -> expanded (UExpr d refs') = Ok e.
Proof.
  intros N N' H e. rewrite !expanded_expr. destruct (expand_refs refs) as [m|] eqn:E; [|discriminate]. cbn [bind].
  intro X. injection X as <-.
  assert (T : exists m', expand_refs refs' = Ok m').
  { apply expand_refs_total. intros k v I. apply find_ref_in in I; auto. specialize (H k). rewrite I in H.
    pose proof (proj1 (expand_refs_total refs) (ex_intro _ m E) k) as T.
    destruct (find_ref k refs) as [[p|x]|] eqn:F; destruct v as [p'|y]; cbn [alike] in H; try contradiction; apply find_ref_in in F; auto.
    - subst p'. eauto.
    - destruct (T _ F) as [e Ee]. cbn [expand_ref] in *. apply H in Ee. eauto. }
  destruct T as [m' E']. rewrite E'. cbn [bind]. f_equal. symmetry. apply subst_ext. intro k.
  apply expand_refs_ok in E as [_ V]. apply expand_refs_ok in E' as [_ V'].
  assert (W : forall e, dget k m = Some e <-> dget k m' = Some e).
  { intro e. rewrite V, V' by auto. specialize (H k).
    destruct (find_ref k refs) as [[p|x]|], (find_ref k refs') as [[p'|y]|]; cbn [alike] in H; try contradiction.
    - subst p'. reflexivity.
    - split; intros (v & Q & X); injection Q as <-; exists (RUnit y) + exists (RUnit x); cbn [expand_ref] in *; split; auto; now apply H.
    - reflexivity. }
  destruct (dget k m) as [e|]; [symmetry; now apply W|]. destruct (dget k m') as [e|]; auto. now apply W.
Qed.

Lemma alike_sym (P : unit -> unit -> Prop) a b : (forall x y, P x y -> P y x) -> alike P a b -> alike P b a.
Proof. intros S. destruct a as [[?|?]|], b as [[?|?]|]; cbn [alike]; auto. Qed.

Lemma same_expanded x y : same_unit x y -> same_ok (expanded x) (expanded y).
Proof.
  intro H. induction H using same_unit_mind with
    (P0 := fun refs refs' _ => forall k, alike (fun x y => same_ok (expanded x) (expanded y)) (find_ref k refs) (find_ref k refs')).
  - intro v. reflexivity.
  - assert (N1 : NoDup (map fst refs1)) by now rewrite <- (same_refs_keys _ _ s).
    assert (N' : NoDup (map fst refs')) by (eapply Permutation_NoDup; [apply Permutation_map, p|auto]).
    assert (A : forall k, alike (fun x y => same_ok (expanded x) (expanded y)) (find_ref k refs) (find_ref k refs')).
    { intro k. rewrite <- (find_ref_perm k refs1 refs'); auto. }
    intro v. split; apply expanded_alike; auto. intro k. apply alike_sym; auto. intros a b. apply same_ok_sym.
  - intro k. exact Logic.I.
  - intro k0. cbn [find_ref]. destruct (str_eqb k0 k); [reflexivity|apply IHsame_unit].
  - intro k0. cbn [find_ref]. destruct (str_eqb k0 k); [exact IHsame_unit|apply IHsame_unit0].
Qed.

(** symmetry *)
Lemma same_refs_perm refs' refs1 refs : Permutation refs1 refs' -> same_refs refs1 refs ->
  exists l, same_refs refs' l /\ Permutation l refs.
Proof.
  intro PM. revert refs. induction PM as [|e l l' PM IH|e1 e2 l|l1 l2 l3 _ IH1 _ IH2]; intros refs SR.
  - inversion SR; subst. exists []. split; constructor.
  - inversion SR as [|k v a b H|k x1 y1 a b H1 H]; subst; destruct (IH _ H) as (l0 & A & B).
    + exists ((k, RPrefix v) :: l0). split; [now constructor|now apply perm_skip].
    + exists ((k, RUnit y1) :: l0). split; [now constructor|now apply perm_skip].
  - inversion SR as [|k v a b H|k x1 y1 a b H1 H]; subst; inversion H as [|k' v' a' b' H'|k' x1' y1' a' b' H1' H']; subst;
      eexists; (split; [|apply perm_swap]); repeat (constructor; auto).
  - destruct (IH1 _ SR) as (l0 & A & B). destruct (IH2 _ A) as (l0' & A' & B'). exists l0'. split; auto.
    eapply Permutation_trans; eauto.
Qed.

Lemma same_unit_sym x y : same_unit x y -> same_unit y x.
Proof.
  intro H. induction H using same_unit_mind with (P0 := fun refs refs' _ => same_refs refs' refs).
  - constructor.
  - destruct (same_refs_perm refs' refs1 refs p IHsame_unit) as (l & A & B). apply Sm_expr with l; auto.
    rewrite (same_refs_keys _ _ s) in n. eapply Permutation_NoDup; [apply Permutation_map, p|exact n].
  - constructor.
  - now constructor.
  - now constructor.
Qed.

(** ** what else is read off a unit *)
Lemma same_str x y : same_unit x y -> unit_str x = unit_str y.
Proof. now destruct 1. Qed.

Lemma same_dimensionality a b : same_any a b -> dimensionality a = dimensionality b.
Proof.
  intros [x y H|x y r H]; pose proof (same_udims x y H) as E.
  - destruct H; [reflexivity|]. cbn [dimensionality]. now rewrite E.
  - cbn [dimensionality]. now rewrite E.
Qed.

Lemma same_normal_form x y : same_unit x y -> same_ok (normal_form x) (normal_form y).
Proof.
  intros H. pose proof (same_expanded x y H) as E. unfold normal_form, symbolic.
  assert (G : forall x y v, same_ok (expanded x) (expanded y) ->
    (do td <- (do e <- expanded x ;; do td <- split_root e ;;
       do t <- match fst td with Some t => to_sympy t | None => Ok (SSym (u "value")) end ;;
       do d <- to_sympy (snd td) ;; Ok (t, d)) ;;
     do c <- of_option (chain_of (fst td)) EOutOfModel ;; do m <- of_option (mono_of (snd td)) EOutOfModel ;; Ok (c, m)) = Ok v ->
    (do td <- (do e <- expanded y ;; do td <- split_root e ;;
       do t <- match fst td with Some t => to_sympy t | None => Ok (SSym (u "value")) end ;;
       do d <- to_sympy (snd td) ;; Ok (t, d)) ;;
     do c <- of_option (chain_of (fst td)) EOutOfModel ;; do m <- of_option (mono_of (snd td)) EOutOfModel ;; Ok (c, m)) = Ok v).
  { intros x' y' v S. destruct (expanded x') as [e|]; [|discriminate]. rewrite (proj1 (S e) eq_refl). auto. }
  intro v. split; apply G; auto. now apply same_ok_sym.
Qed.

Lemma same_core a b : same_any a b -> same_unit (core a) (core b).
Proof. now destruct 1. Qed.

Lemma same_converter a a' b b' c : same_any a a' -> same_any b b' -> mk_converter a b = Ok c -> mk_converter a' b' = Ok c.
Proof.
  intros A B. unfold mk_converter. rewrite (same_dimensionality _ _ A), (same_dimensionality _ _ B).
  destruct (dimensionality a') as [da|]; [|discriminate]. cbn [bind]. destruct (dimensionality b') as [db|]; [|discriminate]. cbn [bind].
  destruct (dimval_inv da) as [ia|]; [|discriminate]. cbn [bind]. destruct (negb _); [auto|].
  pose proof (same_normal_form _ _ (same_core _ _ A)) as NA. pose proof (same_normal_form _ _ (same_core _ _ B)) as NB.
  destruct (normal_form (core a)) as [n1|]; [|discriminate]. rewrite (proj1 (NA n1) eq_refl). cbn [bind].
  destruct (normal_form (core b)) as [n2|]; [|discriminate]. rewrite (proj1 (NB n2) eq_refl). auto.
Qed.

Lemma same_convertible a a' b b' : same_any a a' -> same_any b b' -> is_convertible_to a b = is_convertible_to a' b'.
Proof.
  intros A B. pose proof (same_dimensionality _ _ A) as DA. pose proof (same_dimensionality _ _ B) as DB.
  destruct A, B; auto. cbn [is_convertible_to]. now rewrite DA, DB.
Qed.

(** reflexivity, for proper units *)
Lemma proper_same x : proper x -> same_unit x x.
Proof.
  induction 1 as [r dl it|d refs N _ F]; [constructor|].
  apply Sm_expr with refs; auto. clear N.
  induction refs as [|[k [v|y]] rs IHF]; constructor.
  - apply IHF. intros k' y J. apply (F k' y). now right.
  - apply (F k y). now left.
  - apply IHF. intros k' y' J. apply (F k' y'). now right.
Qed.

(** ** the evaluator with two visiting orders *)
Section Two.
Variable s : system.
Variables ord ord' : list str -> list str.
Hypothesis P1 : rearranges ord.
Hypothesis P2 : rearranges ord'.

Definition rrel {A} (R : A -> A -> Prop) (a b : res A) : Prop :=
  match a, b with Ok x, Ok y => R x y | Err _, Err _ => True | _, _ => False end.

Lemma mapM_rel {A B} (R : B -> B -> Prop) (f g : A -> res B) l : (forall a, In a l -> rrel R (f a) (g a)) ->
  rrel (Forall2 R) (mapM f l) (mapM g l).
Proof.
  induction l as [|a l IH]; cbn [mapM]; intro H; [constructor|].
  pose proof (H a ltac:(now left)) as Ha. destruct (f a), (g a); cbn [bind]; try contradiction; [|exact Logic.I].
  specialize (IH ltac:(intros; apply H; now right)). destruct (mapM f l), (mapM g l); cbn [bind]; try contradiction; [|exact Logic.I].
  now constructor.
Qed.

Lemma mapM_perm {A B} (f : A -> res B) l l' : Permutation l l' ->
  rrel (fun a b => Permutation a b) (mapM f l) (mapM f l').
Proof.
  induction 1 as [|a l l' _ IH|a b l|l1 l2 l3 _ IH1 _ IH2]; cbn [mapM].
  - constructor.
  - destruct (f a); cbn [bind]; [|exact Logic.I]. destruct (mapM f l), (mapM f l'); cbn [bind]; try contradiction; [|exact Logic.I].
    now apply perm_skip.
  - destruct (f a) as [x|], (f b) as [y|]; cbn [bind]; try exact Logic.I.
    destruct (mapM f l); cbn [bind]; [apply perm_swap|exact Logic.I].
  - destruct (mapM f l1), (mapM f l2), (mapM f l3); cbn in *; try contradiction; auto. eapply Permutation_trans; eauto.
Qed.

Lemma refs_rel rec rec' ids : (forall k, rrel same_unit (rec k) (rec' k)) -> NoDup ids ->
  rrel (fun a b => forall d, same_unit (UExpr d a) (UExpr d b)) (p_refs ord rec ids) (p_refs ord' rec' ids).
Proof.
  intros H N. unfold p_refs.
  pose proof (mapM_rel (fun a b => exists x y, a = (fst a, RUnit x) /\ b = (fst a, RUnit y) /\ same_unit x y)
    (fun k => do x <- rec k ;; Ok (k, RUnit x)) (fun k => do x <- rec' k ;; Ok (k, RUnit x)) (ord ids)) as M1.
  match type of M1 with ?P -> ?Q => assert (M1' : Q) end.
  { apply M1. intros a _. specialize (H a). destruct (rec a) as [x|], (rec' a) as [y|]; cbn [bind rrel] in *; try contradiction; auto.
    exists x, y. auto. }
  clear M1.
  pose proof (mapM_perm (fun k => do x <- rec' k ;; Ok (k, RUnit x)) (ord ids) (ord' ids)
    (Permutation_trans (P1 ids) (Permutation_sym (P2 ids)))) as M2.
  assert (K : forall refs, mapM (fun k => do x <- rec k ;; Ok (k, RUnit x)) (ord ids) = Ok refs -> map fst refs = ord ids).
  { generalize (ord ids). intro l. induction l as [|k l IH]; intros refs; cbn [mapM]; [injection 1 as <-; auto|].
    destruct (rec k); [|discriminate]. cbn [bind]. destruct (mapM _ l) as [rs|]; [|discriminate]. cbn [bind]. injection 1 as <-.
    cbn [map fst]. f_equal. auto. }
  destruct (mapM (fun k => do x <- rec k ;; Ok (k, RUnit x)) (ord ids)) as [r1|];
    destruct (mapM (fun k => do x <- rec' k ;; Ok (k, RUnit x)) (ord ids)) as [r2|];
    destruct (mapM (fun k => do x <- rec' k ;; Ok (k, RUnit x)) (ord' ids)) as [r3|]; cbn [rrel] in *; try contradiction; auto.
  intro d. apply Sm_expr with r2; auto.
  - clear - M1'. induction M1' as [|a b l l' (x & y & -> & -> & S) _ IH]; constructor; auto.
  - rewrite (K r1 eq_refl). apply (Permutation_NoDup (Permutation_sym (P1 ids))). exact N.
Qed.

Hypothesis props : proper_system s.

Lemma entry_rel rec rec' e : (forall k, rrel same_unit (rec k) (rec' k)) -> (exists k, known s k e) ->
  rrel same_unit (p_entry ord s rec e) (p_entry ord' s rec' e).
Proof.
  intros H [k0 K0]. destruct e as [i|x r]; cbn [p_entry].
  - unfold p_resolve. destruct (nth_error (s_lazies s) i) as [l|] eqn:N; [|exact Logic.I].
    destruct (lz_resolved l) as [x|] eqn:R.
    + apply proper_same. eapply (proj2 props); eauto.
    + destruct (parse (lz_def l)) as [g|]; cbn [bind]; [|exact Logic.I].
      pose proof (refs_rel rec rec' (identifiers g) H (identifiers_nodup g)) as RR.
      destruct (p_refs ord rec (identifiers g)) as [r1|], (p_refs ord' rec' (identifiers g)) as [r2|]; cbn [bind rrel] in *; try contradiction; auto.
      pose proof (mk_unit_same g r1 r2 (RR g)) as M. destruct (mk_unit g r1), (mk_unit g r2); try contradiction; auto. exact Logic.I.
  - apply proper_same. eapply (proj1 props); eauto.
Qed.

Lemma prefixed_rel key p k x y : same_unit x y -> rrel same_unit (prefixed_unit key p k x) (prefixed_unit key p k y).
Proof.
  intro S. unfold prefixed_unit.
  assert (H : forall d, same_unit (UExpr d (dset k (RUnit x) [(key, RPrefix (pf_value p))])) (UExpr d (dset k (RUnit y) [(key, RPrefix (pf_value p))]))).
  { intro d. cbn [dset]. destruct (str_eqb k key) eqn:E.
    - eapply Sm_expr; [|apply Permutation_refl|].
      + repeat constructor; auto.
      + repeat constructor; auto.
    - eapply Sm_expr; [|apply Permutation_refl|].
      + constructor. constructor; auto. constructor.
      + cbn [map fst]. constructor; [|repeat constructor; auto]. intros [X|[]]. subst. rewrite eqb_refl' in E. discriminate. }
  pose proof (mk_unit_same (Multiply (Identifier key) (Identifier k)) _ _ (H _)) as M.
  destruct (mk_unit _ (dset k (RUnit x) _)), (mk_unit _ (dset k (RUnit y) _)); try contradiction; auto. exact Logic.I.
Qed.

Lemma reading_known q pre e : reading s q pre e -> exists k, known s k e.
Proof. intros [e' K|key p k e' U (b & a & _ & [_ K] & _)|key p k e' U N (b & a & _ & [_ K] & _)]; eauto. Qed.

Lemma lookup_rel f : forall q, rrel same_unit (p_lookup ord s f q) (p_lookup ord' s f q).
Proof.
  induction f as [|f IH]; intro q; cbn [p_lookup]; [exact Logic.I|].
  rewrite !p_body_reading. destruct (reading_opt s q) as [[pre e]|] eqn:Rd; cbn [of_reading]; [|exact Logic.I].
  pose proof (entry_rel _ _ e IH (reading_known q pre e (proj2 (reading_iff _ _ _ _) Rd))) as ER.
  destruct pre as [[[key p] k]|]; auto.
  destruct (p_entry ord s (p_lookup ord s f) e), (p_entry ord' s (p_lookup ord' s f) e); cbn [bind rrel] in *; try contradiction; auto.
  now apply prefixed_rel.
Qed.

Lemma unit_from_rel g r1 r2 : (forall d, same_unit (UExpr d r1) (UExpr d r2)) ->
  rrel same_any (unit_from_expression g r1) (unit_from_expression g r2).
Proof.
  intro H.
  assert (G : rrel same_any (do y <- mk_unit g r1 ;; Ok (AUnit y)) (do y <- mk_unit g r2 ;; Ok (AUnit y))).
  { pose proof (mk_unit_same g r1 r2 (H g)) as M. destruct (mk_unit g r1), (mk_unit g r2); cbn [bind rrel]; try contradiction; auto. now constructor. }
  destruct g; try exact G. cbn [unit_from_expression].
  pose proof (mk_unit_same g1 r1 r2 (H g1)) as M. destruct (mk_unit g1 r1) as [x|], (mk_unit g1 r2) as [y|]; cbn [bind rrel]; try contradiction; auto.
  rewrite (same_time x y M). destruct (is_time_unit y) as [[|]|] eqn:T; cbn [bind]; try exact Logic.I.
  - assert (D : forall raw, rrel same_any (mk_date x raw) (mk_date y raw)).
    { intro raw. unfold mk_date. rewrite (same_time x y M), T. cbn [bind rrel]. now constructor. }
    destruct g2; try exact Logic.I; [apply D|]. destruct raw; [apply D|exact Logic.I].
  - exact G.
Qed.

Lemma unit_rel f t : rrel same_any (p_unit ord s f t) (p_unit ord' s f t).
Proof.
  unfold p_unit. destruct (parse t) as [g|]; cbn [bind]; [|exact Logic.I].
  pose proof (refs_rel _ _ (identifiers g) (lookup_rel f) (identifiers_nodup g)) as RR.
  destruct (p_refs ord _ (identifiers g)) as [r1|], (p_refs ord' _ (identifiers g)) as [r2|]; cbn [bind rrel] in *; try contradiction; auto.
  now apply unit_from_rel.
Qed.
End Two.
