(** * C86, C87: dimensionalities as values *)
From Verif Require Import PyBase PyNum Graph RegexFacts Expr Units UnitSpec UnitFacts UnitProofs
  NumText NumFacts Dimension.
Require Import Lia Permutation.
Local Open Scope Z_scope.

(** ** Dictionaries *)
Lemma dset_new {V} k (v : V) m : ~ In k (map fst m) -> dset k v m = m ++ [(k, v)].
Proof.
  induction m as [| [k' v'] m IH]; cbn [dset map fst In]; intros H; [reflexivity |].
  destruct (str_eqb k k') eqn:E; [apply str_eqb_eq in E; subst; tauto |].
  cbn [app]. rewrite IH; tauto.
Qed.

Lemma fold_dset l : forall m : dict Z, NoDup (map fst m ++ map fst l) ->
  fold_left (fun m e => dset (fst e) (snd e) m) l m = m ++ l.
Proof.
  induction l as [| [k v] l IH]; intros m N; cbn [fold_left fst snd map] in *; [now rewrite app_nil_r |].
  rewrite dset_new.
  - rewrite IH; [now rewrite <- app_assoc |]. rewrite map_app. cbn [map fst]. now rewrite <- app_assoc.
  - intros I. apply NoDup_remove_2 in N. apply N. apply in_app_iff. now left.
Qed.

Lemma items_keys d : map fst (items d) = dkeys_of d.
Proof. unfold items, dkeys_of. rewrite map_map. reflexivity. Qed.

Lemma name_form_items d : NoDup (dkeys_of d) -> name_form d = items d.
Proof.
  intros N. unfold name_form. rewrite fold_dset; [reflexivity |]. cbn. now rewrite items_keys.
Qed.

Lemma dget_items d k : dget k (items d) = dims_get k d.
Proof.
  unfold items. induction d as [| [[k' f] z] d IH]; [reflexivity |]. cbn [map dget dims_get fst snd].
  now rewrite IH.
Qed.

Lemma dget_In {V} k (v : V) m : dget k m = Some v -> In (k, v) m.
Proof.
  induction m as [| [k' v'] m IH]; cbn; [discriminate |]. destruct (str_eqb k k') eqn:E.
  - apply str_eqb_eq in E. intros Q. injection Q as ->. subst. now left.
  - intros Q. right. now apply IH.
Qed.

Lemma In_dget {V} k (v : V) m : NoDup (map fst m) -> In (k, v) m -> dget k m = Some v.
Proof.
  induction m as [| [k' v'] m IH]; cbn; [tauto |]. intros N [E | I]; inversion N as [| ? ? N1 N2]; subst.
  - injection E as -> ->. now rewrite str_eqb_refl.
  - destruct (str_eqb k k') eqn:E; [| now apply IH]. apply str_eqb_eq in E. subst k'.
    destruct N1. apply in_map_iff. now exists (k, v).
Qed.

Lemma dget_key {V} k (m : dict V) : dget k m <> None <-> In k (map fst m).
Proof.
  induction m as [| [k' v'] m IH]; cbn; [tauto |]. destruct (str_eqb k k') eqn:E.
  - apply str_eqb_eq in E. subst. split; [now left | discriminate].
  - rewrite IH. split; [now right |]. intros [-> | H]; [now rewrite str_eqb_refl in E | exact H].
Qed.

Lemma dict_eqb_iff a b : NoDup (map fst a) -> NoDup (map fst b) ->
  (dict_eqb a b = true <-> forall k, dget k a = dget k b).
Proof.
  intros Na Nb. unfold dict_eqb. rewrite andb_true_iff, Nat.eqb_eq, forallb_forall. split.
  - intros [L A].
    assert (Inc : incl (map fst a) (map fst b)).
    { intros k I. apply in_map_iff in I as ([k' z] & <- & I). specialize (A _ I). cbn in *.
      apply dget_key. destruct (dget k' b); [discriminate | discriminate A]. }
    assert (Inc2 : incl (map fst b) (map fst a)).
    { apply NoDup_length_incl; auto. rewrite !map_length. lia. }
    intros k. destruct (dget k a) as [z |] eqn:E.
    + pose proof (A _ (dget_In _ _ _ E)) as Q. cbn in Q. destruct (dget k b) as [z' |]; [| discriminate Q].
      apply Z.eqb_eq in Q. now subst.
    + destruct (dget k b) eqn:E2; auto. exfalso.
      assert (I : In k (map fst b)) by (apply dget_key; congruence).
      apply Inc2 in I. apply dget_key in I. congruence.
  - intros V.
    assert (K : forall k, In k (map fst a) <-> In k (map fst b)) by (intros k; rewrite <- !dget_key, V; tauto).
    split.
    + assert ((List.length (map fst a) <= List.length (map fst b))%nat)
        by (apply NoDup_incl_length; auto; intros k; apply K).
      assert ((List.length (map fst b) <= List.length (map fst a))%nat)
        by (apply NoDup_incl_length; auto; intros k; apply K).
      rewrite !map_length in *. lia.
    + intros [k z] I. cbn. rewrite <- V, (In_dget k z a Na I). apply Z.eqb_refl.
Qed.

(** ** C86 *)

(** The dimensionality object of what unit() returned. *)
Definition dimension_object (a : anyunit) (d : dims) : Prop := dimensionality a = Ok (DObj d).

Definition unit_in (a : anyunit) : unit := match a with AUnit x => x | ADate x _ => x end.

Lemma object_udims a d : dimension_object a d -> udims (unit_in a) = Ok d.
Proof.
  unfold dimension_object, dimensionality. destruct a as [[r dl it | g refs] | x r]; cbn [unit_in].
  - destruct (udims (UBasis r dl it)); discriminate.
  - destruct (udims (UExpr g refs)); cbn; [| discriminate]. intros E. now injection E as ->.
  - destruct (udims x); cbn; [| discriminate]. intros E. now injection E as ->.
Qed.

Lemma object_wf a d : dimension_object a d -> wf_dims d.
Proof. intros H. exact (udims_wf_dims _ _ (object_udims a d H)). Qed.

Lemma object_exps a d : dimension_object a d -> sound_unit (unit_in a) ->
  forall b, dims_get b d = if exps (unit_in a) b =? 0 then None else Some (exps (unit_in a) b).
Proof.
  intros H S. destruct (udims_sound _ S) as (e & E & [_ R]). rewrite (object_udims a d H) in E.
  injection E as ->. exact R.
Qed.

(** The question of the README: unit.dimensionality() == meters.dimensionality() exactly when
    every basis unit has the same exponent in both, through all definitions. *)
Theorem C86_equal_means_same_exponents :
  forall a b d e, dimension_object a d -> dimension_object b e ->
  sound_unit (unit_in a) -> sound_unit (unit_in b) ->
  (dim_eq d (ADimensionality e) = true <-> forall k, exps (unit_in a) k = exps (unit_in b) k).
Proof.
  intros a b d e Ha Hb Sa Sb. cbn [dim_eq].
  rewrite (dims_eqb_iff d e (object_wf a d Ha) (object_wf b e Hb)).
  unfold dval. split; intros V k; specialize (V k).
  - rewrite (object_exps a d Ha Sa), (object_exps b e Hb Sb) in V.
    destruct (Z.eqb_spec (exps (unit_in a) k) 0), (Z.eqb_spec (exps (unit_in b) k) 0); lia.
  - now rewrite (object_exps a d Ha Sa), (object_exps b e Hb Sb), V.
Qed.

(** == is an equivalence on the dimensionalities of units. *)
Theorem C86_equality_is_an_equivalence :
  forall a b c d e f, dimension_object a d -> dimension_object b e -> dimension_object c f ->
  dim_eq d (ADimensionality d) = true /\
  dim_eq d (ADimensionality e) = dim_eq e (ADimensionality d) /\
  (dim_eq d (ADimensionality e) = true -> dim_eq e (ADimensionality f) = true ->
   dim_eq d (ADimensionality f) = true).
Proof.
  intros a b c d e f Ha Hb Hc. cbn [dim_eq].
  pose proof (object_wf a d Ha) as Wa. pose proof (object_wf b e Hb) as Wb. pose proof (object_wf c f Hc) as Wc.
  split; [now apply dims_eqb_iff |]. split.
  - apply eq_true_iff_eq. rewrite !dims_eqb_iff by assumption. split; intros V k; now rewrite V.
  - rewrite !dims_eqb_iff by assumption. intros A B k. now rewrite A.
Qed.

(** Compared with a dict of names: equal exactly when the dict holds the non-zero exponents. *)
Theorem C86_equal_to_a_dict :
  forall a d m, dimension_object a d -> sound_unit (unit_in a) -> NoDup (map fst m) ->
  (dim_eq d (ADict m) = true <->
   forall k, dget k m = if exps (unit_in a) k =? 0 then None else Some (exps (unit_in a) k)).
Proof.
  intros a d m H S N. pose proof (object_wf a d H) as [W _]. cbn [dim_eq].
  rewrite (name_form_items d W), (dict_eqb_iff (items d) m); [| now rewrite items_keys | exact N].
  split; intros V k; specialize (V k).
  - rewrite <- V, dget_items. now apply object_exps.
  - rewrite V, dget_items. now apply object_exps.
Qed.

(** Compared with a dict whose keys are BasisUnit objects (as BasisUnit.dimensionality() returns):
    equal only if both are empty; and never to anything but a Dimensionality or a dict. *)
Theorem C86_equal_to_other_objects :
  forall a d e, dimension_object a d ->
  (dim_eq d (AUnitDict e) = true <-> d = [] /\ e = []) /\ dim_eq d AnythingElse = false.
Proof.
  intros a d e H. pose proof (object_wf a d H) as [W _]. split; [| reflexivity]. cbn [dim_eq].
  rewrite (name_form_items d W). destruct d as [| [[k f] z] d], e; cbn [items map]; split; try discriminate; auto;
    intros [A B]; discriminate.
Qed.

(** len(), keys(), values(), items(): each basis unit with a non-zero exponent once, with it. *)
Theorem C86_entries :
  forall a d, dimension_object a d -> sound_unit (unit_in a) ->
  NoDup (dim_keys d) /\
  (forall k, In k (dim_keys d) <-> exps (unit_in a) k <> 0) /\
  (forall k z, In (k, z) (items d) <-> z = exps (unit_in a) k /\ z <> 0) /\
  items d = combine (dim_keys d) (dim_values d) /\
  dim_len d = List.length (dim_keys d) /\
  (dim_len d = 0%nat <-> forall k, exps (unit_in a) k = 0).
Proof.
  intros a d H S. pose proof (object_wf a d H) as [W F]. pose proof (object_exps a d H S) as X.
  assert (K : forall k, In k (dim_keys d) <-> exps (unit_in a) k <> 0).
  { intros k. unfold dim_keys. rewrite <- (dims_get_in k d), X.
    destruct (Z.eqb_spec (exps (unit_in a) k) 0); split; congruence. }
  assert (I : forall k z, In (k, z) (items d) <-> z = exps (unit_in a) k /\ z <> 0).
  { intros k z. split.
    - intros I. assert (G : dget k (items d) = Some z) by (apply In_dget; [now rewrite items_keys | exact I]).
      rewrite dget_items, X in G. destruct (Z.eqb_spec (exps (unit_in a) k) 0); [discriminate G |].
      injection G as <-. auto.
    - intros [-> Z]. apply dget_In. rewrite dget_items, X. destruct (Z.eqb_spec (exps (unit_in a) k) 0); congruence. }
  split; [exact W |]. split; [exact K |]. split; [exact I |]. split.
  { unfold items, dim_keys, dim_values. clear. induction d as [| e d IH]; cbn; auto. now rewrite IH. }
  split; [unfold dim_len, dim_keys; now rewrite map_length |].
  unfold dim_len. split.
  - intros L k. destruct d; [| discriminate L]. specialize (X k). cbn in X.
    destruct (Z.eqb_spec (exps (unit_in a) k) 0); [auto | discriminate X].
  - intros Z. destruct d as [| [[k f] z] d]; [reflexivity |]. exfalso.
    apply (proj1 (K k)); [now left | apply Z].
Qed.

(** inverted(): every exponent changes its sign; twice is the object again; a dimensionality is
    its own inverse only when it is empty. *)
Theorem C86_inverted :
  forall a d, dimension_object a d ->
  inverted (inverted d) = d /\
  (forall k z, In (k, z) (items d) <-> In (k, - z) (items (inverted d))) /\
  (dim_eq (inverted d) (ADimensionality d) = true <-> d = []).
Proof.
  intros a d H. pose proof (object_wf a d H) as W.
  assert (T : inverted (inverted d) = d).
  { unfold inverted, dims_inv. rewrite map_map. cbn [fst snd]. rewrite <- (map_id d) at 2. apply map_ext.
    intros [k z]. cbn. now rewrite Z.opp_involutive. }
  split; [exact T |]. split.
  - assert (A : forall d k z, In (k, z) (items d) -> In (k, - z) (items (inverted d))).
    { clear. intros d k z I. unfold items, inverted, dims_inv in *. rewrite map_map.
      apply in_map_iff in I as (e & E & I). injection E as <- <-. apply in_map_iff. now exists e. }
    intros k z. split; [apply A |]. intros I. apply A in I. now rewrite T, Z.opp_involutive in I.
  - cbn [dim_eq]. rewrite (dims_eqb_iff _ _ (dims_inv_wf d W) W). split.
    + intros V. destruct d as [| [[k f] z] d]; [reflexivity |]. exfalso. specialize (V k).
      unfold inverted in V. rewrite dims_inv_val in V. unfold dval in V. cbn in V. rewrite str_eqb_refl in V.
      destruct W as [_ F]. inversion F as [| ? ? Z]; subst. cbn in Z. lia.
    + intros -> k. reflexivity.
Qed.

(** ** The text *)
Definition quote_free (d : dims) : Prop := Forall (fun k => ~ In 39%N k) (dim_keys d).

Lemma split_quote (a b r s : str) : ~ In 39%N a -> ~ In 39%N b -> a ++ 39%N :: r = b ++ 39%N :: s -> a = b /\ r = s.
Proof.
  revert b. induction a as [| x a IH]; intros [| y b] Ha Hb E; cbn in E.
  - injection E as ->. auto.
  - injection E as <- _. destruct Hb. now left.
  - injection E as -> _. destruct Ha. now left.
  - injection E as -> E. destruct (IH b) as [-> ->]; auto; intros I; [apply Ha | apply Hb]; now right.
Qed.

Definition numeric (c : N) : Prop := (c = 45 \/ 48 <= c <= 57)%N.

Lemma Z_str_numeric z : Forall numeric (Z_str z).
Proof.
  assert (A : forall n, Forall numeric (N_str n)).
  { intros n. eapply Forall_impl; [| apply N_str_digits]. intros c H. now right. }
  destruct z as [| p | p]; cbn [Z_str].
  - constructor; [right; lia | constructor].
  - apply A.
  - constructor; [now left | apply A].
Qed.

Lemma Z_str_inj a b : Z_str a = Z_str b -> a = b.
Proof.
  assert (I : forall m n, N_str m = N_str n -> m = n).
  { intros m n E. rewrite <- (N_str_value m), <- (N_str_value n). now rewrite E. }
  assert (D : forall n r, N_str n = 45%N :: r -> False).
  { intros n r E. pose proof (N_str_digits n) as F. rewrite E in F. inversion F as [| ? ? H]; subst. lia. }
  destruct a as [| p | p], b as [| q | q]; cbn [Z_str]; intros E; auto.
  - exfalso. change [48%N] with (N_str 0) in E. apply I in E. discriminate E.
  - discriminate E.
  - exfalso. change [48%N] with (N_str 0) in E. apply I in E. discriminate E.
  - apply I in E. congruence.
  - destruct (D _ _ E).
  - discriminate E.
  - destruct (D _ _ (eq_sym E)).
  - injection E as E. apply I in E. congruence.
Qed.

Lemma split_numeric a : forall b r s x y, Forall numeric a -> Forall numeric b -> ~ numeric x -> ~ numeric y ->
  a ++ x :: r = b ++ y :: s -> a = b /\ x :: r = y :: s.
Proof.
  induction a as [| c a IH]; intros [| d b] r s x y Fa Fb X Y E; cbn [app] in E.
  - auto.
  - injection E as -> _. inversion Fb; subst. contradiction.
  - injection E as <- _. inversion Fa; subst. contradiction.
  - injection E as -> E. inversion Fa; subst. inversion Fb; subst.
    destruct (IH b r s x y) as [-> Q]; auto.
Qed.

(** what follows an item *)
Definition tail_of (l : list (str * Z)) : str :=
  match l with [] => u "}" | _ => u ", " ++ joined (u ", ") (map repr_item l) ++ u "}" end.

Lemma joined_tail e l : joined (u ", ") (map repr_item (e :: l)) ++ u "}" = repr_item e ++ tail_of l.
Proof.
  destruct l as [| f l]; [reflexivity |]. cbn [map joined tail_of]. now rewrite <- !app_assoc.
Qed.

Lemma tail_head l : exists x r, tail_of l = x :: r /\ ~ numeric x.
Proof.
  destruct l as [| e l].
  - exists 125%N, []. split; [reflexivity |]. intros [H | H]; lia.
  - exists 44%N. eexists. split; [reflexivity |]. intros [H | H]; lia.
Qed.

Lemma joined_inj l : forall m, Forall (fun e => ~ In 39%N (fst e)) l -> Forall (fun e => ~ In 39%N (fst e)) m ->
  tail_of l = tail_of m -> l = m.
Proof.
  induction l as [| [k z] l IH]; intros [| [k' z'] m] Fl Fm E.
  - reflexivity.
  - discriminate E.
  - discriminate E.
  - assert (E' : joined (u ", ") (map repr_item ((k, z) :: l)) ++ u "}"
               = joined (u ", ") (map repr_item ((k', z') :: m)) ++ u "}").
    { cbn [tail_of] in E. exact (app_inv_head _ _ _ E). }
    rewrite !joined_tail in E'. unfold repr_item, repr_name in E'. cbn [fst snd] in E'.
    rewrite <- !app_assoc in E'. apply app_inv_head in E'.
    inversion Fl as [| ? ? Hk Fl']; subst. inversion Fm as [| ? ? Hk' Fm']; subst. cbn [fst] in Hk, Hk'.
    destruct (split_quote k k' _ _ Hk Hk' E') as [-> E2].
    apply (app_inv_head (u ": ")) in E2.
    destruct (tail_head l) as (x & r & El & X). destruct (tail_head m) as (y & s & Em & Y).
    rewrite El, Em in E2.
    destruct (split_numeric _ _ _ _ _ _ (Z_str_numeric z) (Z_str_numeric z') X Y E2) as [Ez Et].
    apply Z_str_inj in Ez. subst z'. rewrite <- El, <- Em in Et. f_equal. now apply IH.
Qed.

(** The text tells the dimensionality. *)
Theorem C86_text_tells_the_dimensionality :
  forall a b d e, dimension_object a d -> dimension_object b e -> quote_free d -> quote_free e ->
  dim_str d = dim_str e -> items d = items e /\ dim_eq d (ADimensionality e) = true.
Proof.
  intros a b d e Ha Hb Qd Qe E. pose proof (object_wf a d Ha) as Wd. pose proof (object_wf b e Hb) as We.
  assert (I : items d = items e).
  { unfold dim_str in E. rewrite (name_form_items d (proj1 Wd)), (name_form_items e (proj1 We)) in E.
    assert (F : forall d, quote_free d -> Forall (fun x => ~ In 39%N (fst x)) (items d)).
    { clear. intros d Q. unfold quote_free, dim_keys in Q. unfold items. rewrite Forall_map in *. exact Q. }
    apply app_inv_head in E. destruct (items d) as [| x l] eqn:Ed, (items e) as [| y m] eqn:Ee; auto.
    - rewrite joined_tail in E. discriminate E.
    - rewrite joined_tail in E. discriminate E.
    - apply joined_inj; [rewrite <- Ed; now apply F | rewrite <- Ee; now apply F |].
      unfold tail_of. now rewrite E. }
  split; [exact I |]. cbn [dim_eq]. apply (dims_eqb_iff d e Wd We). intros k. unfold dval.
  now rewrite <- !dget_items, I.
Qed.

(** ** Examples *)
Definition refs2 : list (str * uref) :=
  [(u "m", RUnit (UBasis (u "meter") false false)); (u "s", RUnit (UBasis (u "second") false true))].
Definition I2 (s : string) : node := Identifier (u s).
Definition ms : anyunit := AUnit (UExpr (Divide (I2 "m") (Raise (I2 "s") (Number (NInt 2) None))) refs2).

Example C86_example : exists d, dimension_object ms d /\ sound_unit (unit_in ms) /\ quote_free d /\
  dim_eq d (ADict [(u "second", -2); (u "meter", 1)]) = true /\
  dim_eq d (ADict [(u "meter", 1)]) = false /\
  dim_str d = u "{'meter': 1, 'second': -2}" /\ dim_str (inverted d) = u "{'meter': -1, 'second': 2}".
Proof.
  eexists. split; [reflexivity |]. split.
  { apply (sound_plain (Divide (I2 "m") (Raise (I2 "s") (Number (NInt 2) None))) refs2); [cbn; eauto |].
    split.
    - intros s H. cbn in H. destruct H as [-> | [-> | []]]; discriminate.
    - intros s y H O. cbn in O.
      destruct O as [-> | [-> | []]]; cbn in H; injection H as <-; constructor. }
  split; [repeat constructor; cbn; intros I; repeat (destruct I as [I | I]; [discriminate I |]); destruct I |].
  vm_compute. auto.
Qed.

(** ** C87 is false: for any two basis units, r·t and t·r have equal dimensionalities that print
    differently. *)
Theorem C87_equal_dimensionalities_print_differently_refuted :
  forall r t, r <> t ->
  let refs := [(r, RUnit (UBasis r false false)); (t, RUnit (UBasis t false false))] in
  let a := AUnit (UExpr (Multiply (Identifier r) (Identifier t)) refs) in
  let b := AUnit (UExpr (Multiply (Identifier t) (Identifier r)) refs) in
  exists d e, dimension_object a d /\ dimension_object b e /\
    dim_eq d (ADimensionality e) = true /\
    dim_str d = u "{" ++ repr_name r ++ u ": 1, " ++ repr_name t ++ u ": 1}" /\
    dim_str e = u "{" ++ repr_name t ++ u ": 1, " ++ repr_name r ++ u ": 1}".
Proof.
  intros r t N.
  assert (E1 : str_eqb r t = false) by (destruct (str_eqb r t) eqn:E; auto; apply str_eqb_eq in E; contradiction).
  assert (E2 : str_eqb t r = false) by (destruct (str_eqb t r) eqn:E; auto; apply str_eqb_eq in E; congruence).
  exists [((r, false), 1); ((t, false), 1)], [((t, false), 1); ((r, false), 1)].
  unfold dimension_object.
  split; [| split; [| split; [| split]]].
  - cbn. rewrite ?str_eqb_refl, ?E1, ?E2. cbn. rewrite ?str_eqb_refl, ?E1, ?E2. cbn.
    rewrite ?str_eqb_refl, ?E1, ?E2. reflexivity.
  - cbn. rewrite ?str_eqb_refl, ?E1, ?E2. cbn. rewrite ?str_eqb_refl, ?E1, ?E2. cbn.
    rewrite ?str_eqb_refl, ?E1, ?E2. reflexivity.
  - cbn. rewrite ?str_eqb_refl, ?E1, ?E2. cbn. rewrite ?str_eqb_refl, ?E1, ?E2. reflexivity.
  - unfold dim_str, name_form. cbn [items map fold_left dset fst snd]. rewrite E2.
    cbn [map joined repr_item fst snd app]. unfold repr_item. cbn [fst snd]. rewrite <- !app_assoc. reflexivity.
  - unfold dim_str, name_form. cbn [items map fold_left dset fst snd]. rewrite E1.
    cbn [map joined repr_item fst snd app]. unfold repr_item. cbn [fst snd]. rewrite <- !app_assoc. reflexivity.
Qed.
