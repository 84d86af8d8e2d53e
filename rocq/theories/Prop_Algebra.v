(** * C123: the laws of products, quotients and powers hold for the units of composed texts *)
From Verif Require Import PyBase PyNum Graph Units UnitSystem UnitSpec SystemSpec SystemOrd ConvertSpec Convert ConvertFacts BaseSpec BaseFacts
  RegexFacts Prop_Base Prop_Convert Visitor Lexer LexSpec PrintSpec Xml XmlSpec XmlData Database Prop_Database Prop_BaseDb FloatEq Prop_FloatEq SystemProofs Prop_Xml Xml XmlPrefix Prop_FloatEqDb ComposeSpec Prop_Compose AlgebraSpec.
From Coq Require Import QArith Reals Qreals Lia Lra.
Open Scope list_scope.

(** ** Size and exponents of a recipe, part by part *)
Fixpoint size (f : str -> R) (r : recipe) : R :=
  match r with
  | Part t => f t
  | Bracketed a => size f a
  | Times _ a b => size f a * size f b
  | Over _ a b => size f a / size f b
  | Raised _ a n => powerRZ (size f a) n
  | Level _ a => 1
  end%R.
Fixpoint order (f : str -> Z) (r : recipe) : Z :=
  match r with
  | Part t => f t
  | Bracketed a => order f a
  | Times _ a b => order f a + order f b
  | Over _ a b => order f a - order f b
  | Raised _ a n => n * order f a
  | Level _ a => order f a
  end%Z.
Lemma size_nonzero f r : (forall t, f t <> 0)%R -> size f r <> 0%R.
Proof.
  intro N. induction r as [t | r IH | s a IHa b IHb | s a IHa b IHb | s a IH n | l a IH]; cbn [size].
  - apply N.
  - exact IH.
  - now apply Rmult_integral_contrapositive_currified.
  - apply Rmult_integral_contrapositive_currified; [exact IHa | now apply Rinv_neq_0_compat].
  - now apply powerRZ_NOR.
  - exact R1_neq_R0.
Qed.
Lemma powerRZ_succ x n : x <> 0%R -> powerRZ x (Z.succ n) = (powerRZ x n * x)%R.
Proof. intro N. unfold Z.succ. rewrite powerRZ_add by auto. f_equal. apply powerRZ_1. Qed.
Lemma powerRZ_pred x n : x <> 0%R -> powerRZ x (Z.pred n) = (powerRZ x n / x)%R.
Proof.
  intro N. unfold Z.pred. rewrite powerRZ_add by auto. change (-1)%Z with (- Z.succ 0)%Z. rewrite powerRZ_neg', powerRZ_1. reflexivity.
Qed.
Lemma powerRZ_times x m n : x <> 0%R -> powerRZ (powerRZ x m) n = powerRZ x (m * n).
Proof.
  intro N. pose proof (powerRZ_NOR x m N) as M. induction n as [| n IH | n IH] using Z.peano_ind.
  - now rewrite Z.mul_0_r.
  - rewrite powerRZ_succ, IH, Z.mul_succ_r, powerRZ_add by auto. reflexivity.
  - rewrite powerRZ_pred, IH, Z.mul_pred_r by auto. unfold Z.sub. rewrite powerRZ_add, powerRZ_neg' by auto. reflexivity.
Qed.
Lemma alike_size f a b : (forall t, f t <> 0)%R -> alike a b -> size f a = size f b.
Proof.
  intros N H. induction H; cbn [size]; try congruence.
  - lra.
  - lra.
  - pose proof (size_nonzero f b N). field. auto.
  - pose proof (size_nonzero f b N). pose proof (size_nonzero f c N). field. auto.
  - pose proof (size_nonzero f b N). pose proof (size_nonzero f c N). field. auto.
  - apply powerRZ_1.
  - cbn. lra.
  - apply powerRZ_add. now apply size_nonzero.
  - pose proof (size_nonzero f a N). unfold Z.sub. rewrite powerRZ_add by auto. unfold Rdiv. f_equal. apply powerRZ_neg'.
  - apply powerRZ_times. now apply size_nonzero.
  - apply powerRZ_mult.
  - unfold Rdiv. rewrite powerRZ_mult. f_equal. apply powerRZ_inv'.
Qed.
Lemma alike_order f a b : alike a b -> order f a = order f b.
Proof. intro H. induction H; cbn [order]; try congruence; ring. Qed.

(** ** From the parts to the whole *)
Fixpoint parts (r : recipe) : list str :=
  match r with
  | Part t => [t]
  | Bracketed a | Raised _ a _ | Level _ a => parts a
  | Times _ a b | Over _ a b => parts a ++ parts b
  end.
Lemma made_parts m r e : made m r e -> rated e -> forall t, In t (parts r) -> exists h, m t h /\ rated h.
Proof.
  induction 1 as [t h M | a g H IH | sg a b g h S A IHa B IHb | sg a b g h S A IHa B IHb | sg a n g S Sh A IH | l a g L A IH];
    cbn [rated parts]; intros R t' I.
  - destruct I as [<- | []]. eauto.
  - auto.
  - destruct R as [Ra Rb]. apply in_app_or in I as [I | I]; auto.
  - destruct R as [Ra Rb]. apply in_app_or in I as [I | I]; auto.
  - auto.
  - contradiction.
Qed.
Lemma choose (P : str -> node -> Prop) (d : node) l : (forall t, In t l -> exists h, P t h) ->
  exists f, (forall t, In t l -> P t (f t)) /\ forall t, ~ In t l -> f t = d.
Proof.
  induction l as [| x l IH]; intro H.
  - exists (fun _ => d). split; [intros t [] | auto].
  - destruct IH as (f & F & D); [intros t I; apply H; now right |]. destruct (H x (or_introl eq_refl)) as (h & Ph).
    exists (fun t => if str_eqb x t then h else f t). split.
    + intros t I. destruct (str_eqb x t) eqn:E.
      * apply str_eqb_eq in E as <-. exact Ph.
      * destruct I as [-> | I]; [now rewrite str_eqb_refl in E | auto].
    + intros t N. destruct (str_eqb x t) eqn:E; [apply str_eqb_eq in E as <-; exfalso; apply N; now left |].
      apply D. intro I. apply N. now right.
Qed.
Lemma made_value (m : str -> node -> Prop) f r e : (forall t g h, m t g -> m t h -> g = h) -> made m r e -> rated e ->
  (forall t, In t (parts r) -> m t (f t)) ->
  factor e = size (fun t => factor (f t)) r /\ forall b, symexp e b = order (fun t => symexp (f t) b) r.
Proof.
  intros U H. induction H as [t h M | a g H IH | sg a b g h S A IHa B IHb | sg a b g h S A IHa B IHb | sg a n g S Sh A IH | l a g L A IH];
    cbn [rated parts size order factor]; intros R F.
  - rewrite (U t h (f t) M); [auto | apply F; now left].
  - auto.
  - destruct R as [Ra Rb]. destruct IHa as [-> Oa]; auto using in_or_app. destruct IHb as [-> Ob]; auto using in_or_app.
    split; [reflexivity |]. intro s. unfold symexp in *. cbn [gdim]. now rewrite Oa, Ob.
  - destruct R as [Ra Rb]. destruct IHa as [-> Oa]; auto using in_or_app. destruct IHb as [-> Ob]; auto using in_or_app.
    split; [reflexivity |]. intro s. unfold symexp in *. cbn [gdim]. now rewrite Oa, Ob.
  - destruct IH as [-> Oa]; auto. split; [reflexivity |]. intro s. unfold symexp in *. cbn [gdim]. now rewrite Oa.
  - contradiction.
Qed.

Definition out (s : system) (t : str) (e : node) : Prop := part t /\ base_text s t e.
Lemma alike_forms s a b e1 e2 : alike a b -> made (out s) a e1 -> made (out s) b e2 -> rated e1 -> rated e2 ->
  factor e1 = factor e2 /\ forall t, symexp e1 t = symexp e2 t.
Proof.
  intros H M1 M2 R1 R2.
  destruct (choose (fun t h => out s t h /\ rated h) (Number (NInt 1) None) (parts a ++ parts b)) as (f & F & D).
  { intros t I. apply in_app_or in I as [I | I]; [exact (made_parts _ _ _ M1 R1 t I) | exact (made_parts _ _ _ M2 R2 t I)]. }
  assert (U : forall t g h, out s t g -> out s t h -> g = h) by (intros t g h [_ A] [_ B]; exact (C90_written_out_in_one_way_only s t h g B A)).
  assert (N : forall t, factor (f t) <> 0%R).
  { intro t. apply rated_factor. destruct (in_dec (list_eq_dec N.eq_dec) t (parts a ++ parts b)) as [I | I]; [now apply F |].
    rewrite (D t I). cbn. split; [exact Logic.I | apply not_eq_sym, R1_neq_R0 || exact R1_neq_R0]. }
  destruct (made_value _ f a e1 U M1 R1) as [-> O1]; [intros t I; apply F, in_or_app; now left |].
  destruct (made_value _ f b e2 U M2 R2) as [-> O2]; [intros t I; apply F, in_or_app; now right |].
  split; [exact (alike_size _ a b N H) |]. intro t. rewrite O1, O2. now apply alike_order.
Qed.

Lemma quantity_rated e v : rated e -> quantity e v = (factor e * v)%R.
Proof. destruct e; cbn [rated quantity]; intro R; try reflexivity; contradiction. Qed.

(** ** Net powers *)
Fixpoint prod (f : str -> R) (n : str -> Z) (l : list str) : R :=
  match l with [] => 1 | t :: l => powerRZ (f t) (n t) * prod f n l end%R.
Fixpoint total (f : str -> Z) (n : str -> Z) (l : list str) : Z :=
  match l with [] => 0 | t :: l => n t * f t + total f n l end%Z.
Lemma prod_ext f n m l : (forall t, n t = m t) -> prod f n l = prod f m l.
Proof. intro E. induction l as [| t l IH]; cbn [prod]; [reflexivity |]. now rewrite E, IH. Qed.
Lemma total_ext f n m l : (forall t, n t = m t) -> total f n l = total f m l.
Proof. intro E. induction l as [| t l IH]; cbn [total]; [reflexivity |]. now rewrite E, IH. Qed.
Lemma prod_nonzero f n l : (forall t, f t <> 0)%R -> prod f n l <> 0%R.
Proof.
  intro N. induction l as [| t l IH]; cbn [prod]; [exact R1_neq_R0 |].
  apply Rmult_integral_contrapositive_currified; [now apply powerRZ_NOR | exact IH].
Qed.
Lemma prod_zero f n l : (forall t, In t l -> n t = 0%Z) -> prod f n l = 1%R.
Proof.
  induction l as [| t l IH]; cbn [prod]; intro Z0; [reflexivity |]. rewrite (Z0 t (or_introl eq_refl)), IH; [cbn; lra |].
  intros x I. apply Z0. now right.
Qed.
Lemma total_zero f n l : (forall t, In t l -> n t = 0%Z) -> total f n l = 0%Z.
Proof.
  induction l as [| t l IH]; cbn [total]; intro Z0; [reflexivity |]. rewrite (Z0 t (or_introl eq_refl)), IH; [ring |].
  intros x I. apply Z0. now right.
Qed.
Lemma powerRZ_one x : powerRZ x 1 = x. Proof. apply powerRZ_1. Qed.
Lemma prod_one f t l : NoDup l -> In t l -> prod f (fun x => net x (Part t)) l = f t.
Proof.
  induction 1 as [| x l N D IH]; intros [].
  - subst x. cbn [prod net]. rewrite str_eqb_refl, prod_zero; [now rewrite powerRZ_one, Rmult_1_r |]. intros y I. destruct (str_eqb t y) eqn:E; [| reflexivity].
    apply str_eqb_eq in E as <-. contradiction.
  - cbn [prod net] in *. rewrite IH by assumption. destruct (str_eqb t x) eqn:E; [apply str_eqb_eq in E as <-; contradiction | cbn; lra].
Qed.
Lemma total_one f t l : NoDup l -> In t l -> total f (fun x => net x (Part t)) l = f t.
Proof.
  induction 1 as [| x l N D IH]; intros [].
  - subst x. cbn [total net]. rewrite str_eqb_refl, total_zero; [lia |]. intros y I. destruct (str_eqb t y) eqn:E; [| reflexivity].
    apply str_eqb_eq in E as <-. contradiction.
  - cbn [total net] in *. rewrite IH by assumption. destruct (str_eqb t x) eqn:E; [apply str_eqb_eq in E as <-; contradiction | lia].
Qed.
Lemma prod_plus f n m l : (forall t, f t <> 0)%R -> prod f (fun t => n t + m t)%Z l = (prod f n l * prod f m l)%R.
Proof. intro N. induction l as [| t l IH]; cbn [prod]; [lra |]. rewrite powerRZ_add, IH by apply N. ring. Qed.
Lemma prod_minus f n m l : (forall t, f t <> 0)%R -> prod f (fun t => n t - m t)%Z l = (prod f n l / prod f m l)%R.
Proof.
  intro N. induction l as [| t l IH]; cbn [prod]; [field |]. unfold Z.sub. rewrite powerRZ_add by apply N. rewrite powerRZ_neg'.
  change (prod f (fun t => n t + - m t)%Z l) with (prod f (fun t => n t - m t)%Z l). rewrite IH.
  pose proof (prod_nonzero f m l N). pose proof (powerRZ_NOR (f t) (m t) (N t)). field. auto.
Qed.
Lemma prod_times f n k l : (forall t, f t <> 0)%R -> prod f (fun t => k * n t)%Z l = powerRZ (prod f n l) k.
Proof.
  intro N. induction l as [| t l IH]; cbn [prod]; [now rewrite powerRZ_R1 |].
  rewrite powerRZ_mult, <- IH, powerRZ_times by apply N. now rewrite (Z.mul_comm (n t)).
Qed.
Lemma total_plus f n m l : total f (fun t => n t + m t)%Z l = (total f n l + total f m l)%Z.
Proof. induction l as [| t l IH]; cbn [total]; [reflexivity |]. rewrite IH. ring. Qed.
Lemma total_minus f n m l : total f (fun t => n t - m t)%Z l = (total f n l - total f m l)%Z.
Proof. induction l as [| t l IH]; cbn [total]; [reflexivity |]. rewrite IH. ring. Qed.
Lemma total_times f n k l : total f (fun t => k * n t)%Z l = (k * total f n l)%Z.
Proof. induction l as [| t l IH]; cbn [total]; [ring |]. rewrite IH. ring. Qed.

Fixpoint level_free (r : recipe) : Prop :=
  match r with
  | Part _ => True
  | Bracketed a | Raised _ a _ => level_free a
  | Times _ a b | Over _ a b => level_free a /\ level_free b
  | Level _ _ => False
  end.
Lemma rated_level_free m r e : made m r e -> rated e -> level_free r.
Proof. induction 1; cbn [rated level_free]; intro R; auto; destruct R; auto. Qed.
Lemma size_net f l r : (forall t, f t <> 0)%R -> NoDup l -> level_free r -> (forall t, In t (parts r) -> In t l) ->
  size f r = prod f (fun t => net t r) l.
Proof.
  intros N D. induction r as [t | r IH | s a IHa b IHb | s a IHa b IHb | s a IH n | g a IH]; cbn [size parts level_free]; intros L I.
  - symmetry. apply prod_one; [exact D | apply I; now left].
  - now rewrite IH.
  - destruct L. rewrite IHa, IHb; auto using in_or_app. symmetry. now apply prod_plus.
  - destruct L. rewrite IHa, IHb; auto using in_or_app. symmetry. now apply prod_minus.
  - rewrite IH; auto. symmetry. now apply prod_times.
  - contradiction.
Qed.
Lemma order_net f l r : NoDup l -> level_free r -> (forall t, In t (parts r) -> In t l) ->
  order f r = total f (fun t => net t r) l.
Proof.
  intro D. induction r as [t | r IH | s a IHa b IHb | s a IHa b IHb | s a IH n | g a IH]; cbn [order parts level_free]; intros L I.
  - symmetry. apply total_one; [exact D | apply I; now left].
  - now rewrite IH.
  - destruct L. rewrite IHa, IHb; auto using in_or_app. symmetry. apply total_plus.
  - destruct L. rewrite IHa, IHb; auto using in_or_app. symmetry. apply total_minus.
  - rewrite IH; auto. symmetry. apply total_times.
  - contradiction.
Qed.
Lemma net_forms s a b e1 e2 : (forall t, net t a = net t b) -> made (out s) a e1 -> made (out s) b e2 -> rated e1 -> rated e2 ->
  factor e1 = factor e2 /\ forall t, symexp e1 t = symexp e2 t.
Proof.
  intros H M1 M2 R1 R2. set (l := nodup (list_eq_dec N.eq_dec) (parts a ++ parts b)).
  destruct (choose (fun t h => out s t h /\ rated h) (Number (NInt 1) None) (parts a ++ parts b)) as (f & F & D).
  { intros t I. apply in_app_or in I as [I | I]; [exact (made_parts _ _ _ M1 R1 t I) | exact (made_parts _ _ _ M2 R2 t I)]. }
  assert (U : forall t g h, out s t g -> out s t h -> g = h) by (intros t g h [_ A] [_ B]; exact (C90_written_out_in_one_way_only s t h g B A)).
  assert (N : forall t, factor (f t) <> 0%R).
  { intro t. apply rated_factor. destruct (in_dec (list_eq_dec N.eq_dec) t (parts a ++ parts b)) as [I | I]; [now apply F |].
    rewrite (D t I). cbn. split; [exact Logic.I | exact R1_neq_R0]. }
  assert (Dl : NoDup l) by apply NoDup_nodup.
  assert (Ia : forall t, In t (parts a) -> In t l) by (intros t I; apply nodup_In, in_or_app; now left).
  assert (Ib : forall t, In t (parts b) -> In t l) by (intros t I; apply nodup_In, in_or_app; now right).
  pose proof (rated_level_free _ _ _ M1 R1) as La. pose proof (rated_level_free _ _ _ M2 R2) as Lb.
  destruct (made_value _ f a e1 U M1 R1) as [-> O1]; [intros t I; apply F, in_or_app; now left |].
  destruct (made_value _ f b e2 U M2 R2) as [-> O2]; [intros t I; apply F, in_or_app; now right |].
  split.
  - rewrite (size_net _ l a), (size_net _ l b) by assumption. now apply prod_ext.
  - intro t. rewrite O1, O2, (order_net _ l a), (order_net _ l b) by assumption. now apply total_ext.
Qed.

Section InASystem.
Variables (ord : list str -> list str) (s : system) (dl tm : str -> bool).
Hypothesis (Po : rearranges ord) (C : clash_free s) (O : orderly dl tm s).
Lemma composed_unit r e : made (out s) r e -> rated e -> exists x, describable dl x e /\ is_unit ord s (text r) x.
Proof.
  intros M R. apply (C120_units_of_composed_texts ord s dl tm r e Po C O M); [now apply rated_measurable |].
  intros a b ->. exact R.
Qed.
Lemma composed_converts a b e1 e2 k : made (out s) a e1 -> made (out s) b e2 -> rated e1 -> rated e2 ->
  (forall t, symexp e1 t = symexp e2 t) -> k = (factor e1 / factor e2)%R -> converts ord s (text a) (text b) k.
Proof.
  intros M1 M2 R1 R2 S ->. destruct (composed_unit a e1 M1 R1) as (x & Dx & Ux). destruct (composed_unit b e2 M2 R2) as (y & Dy & Uy).
  destruct (C20_conversion_preserves_the_quantity dl x y e1 e2 Dx Dy S) as (cv & Cv & Q).
  exists x, y, cv. do 3 (split; [assumption |]). intro v. apply Q. rewrite !quantity_rated by assumption.
  pose proof (rated_factor e2 R2). field. assumption.
Qed.
End InASystem.

Lemma same_forms ord s dl tm a b e1 e2 : rearranges ord -> clash_free s -> orderly dl tm s ->
  made (out s) a e1 -> made (out s) b e2 -> rated e1 -> rated e2 ->
  factor e1 = factor e2 -> (forall t, symexp e1 t = symexp e2 t) ->
  converts ord s (text a) (text b) 1 /\
  exists x y, is_unit ord s (text a) x /\ is_unit ord s (text b) y /\ unit_eq x y = Ok true /\
    (whole e1 = true -> whole e2 = true -> has_basis e1 -> forall fpow, float_eq fpow x y = Ok true).
Proof.
  intros Po C O M1 M2 R1 R2 F S. split.
  - apply (composed_converts ord s dl tm Po C O a b e1 e2); auto. rewrite F. pose proof (rated_factor e2 R2). field. assumption.
  - destruct (composed_unit ord s dl tm Po C O a e1 M1 R1) as (x & Dx & Ux). destruct (composed_unit ord s dl tm Po C O b e2 M2 R2) as (y & Dy & Uy).
    exists x, y. split; [assumption |]. split; [assumption |].
    destruct Dx as (_ & _ & _ & Ex & _). destruct Dy as (_ & _ & _ & Ey & _).
    assert (E : unit_eq x y = Ok true) by (apply (C28_equality_complete x y e1 e2 Ex Ey); apply SM_plain, SS_product; assumption).
    split; [exact E |]. intros W1 W2 B fpow. rewrite <- E. now apply (C28_whole_numbers_are_compared_exactly fpow x y e1 e2).
Qed.

(** ** C123.  Texts that are alike by the laws are the same unit: they convert into each other unchanged and are
    equal (by exact comparison; and by the one of the code when all numbers are whole, see C28, C99). *)
Theorem C123_laws_hold_for_unit_texts :
  forall ord s dl tm a b e1 e2, rearranges ord -> clash_free s -> orderly dl tm s ->
  made (fun t h => part t /\ base_text s t h) a e1 -> made (fun t h => part t /\ base_text s t h) b e2 ->
  rated e1 -> rated e2 -> alike a b ->
  converts ord s (text a) (text b) 1 /\
  exists x y, is_unit ord s (text a) x /\ is_unit ord s (text b) y /\ unit_eq x y = Ok true /\
    (whole e1 = true -> whole e2 = true -> has_basis e1 -> forall fpow, float_eq fpow x y = Ok true).
Proof.
  intros ord s dl tm a b e1 e2 Po C O M1 M2 R1 R2 H. destruct (alike_forms s a b e1 e2 H M1 M2 R1 R2) as [F S].
  now apply (same_forms ord s dl tm a b e1 e2).
Qed.

(** C123.  The same for texts in which every part has the same net power. *)
Theorem C123_net_powers_decide :
  forall ord s dl tm a b e1 e2, rearranges ord -> clash_free s -> orderly dl tm s ->
  made (fun t h => part t /\ base_text s t h) a e1 -> made (fun t h => part t /\ base_text s t h) b e2 ->
  rated e1 -> rated e2 -> (forall t, net t a = net t b) ->
  converts ord s (text a) (text b) 1 /\
  exists x y, is_unit ord s (text a) x /\ is_unit ord s (text b) y /\ unit_eq x y = Ok true /\
    (whole e1 = true -> whole e2 = true -> has_basis e1 -> forall fpow, float_eq fpow x y = Ok true).
Proof.
  intros ord s dl tm a b e1 e2 Po C O M1 M2 R1 R2 H. destruct (net_forms s a b e1 e2 H M1 M2 R1 R2) as [F S].
  now apply (same_forms ord s dl tm a b e1 e2).
Qed.

(** C123.  Conversion factors multiply, divide and are raised as the units are. *)
Theorem C123_factors_of_composed_texts :
  forall ord s dl tm a a' b b' ea ea' eb eb', rearranges ord -> clash_free s -> orderly dl tm s ->
  let out := fun t h => part t /\ base_text s t h in
  made out a ea -> made out a' ea' -> made out b eb -> made out b' eb' ->
  rated ea -> rated ea' -> rated eb -> rated eb' ->
  (forall t, symexp ea t = symexp ea' t) -> (forall t, symexp eb t = symexp eb' t) ->
  exists k l, converts ord s (text a) (text a') k /\ converts ord s (text b) (text b') l /\ k <> 0%R /\ l <> 0%R /\
    (forall p q, In p times_signs -> In q times_signs -> converts ord s (text (Times p a b)) (text (Times q a' b')) (k * l)) /\
    (forall p q, In p over_signs -> In q over_signs -> converts ord s (text (Over p a b)) (text (Over q a' b')) (k / l)) /\
    (forall p q n, In p power_signs -> In q power_signs -> PrintSpec.short (Z_str n) ->
       converts ord s (text (Raised p a n)) (text (Raised q a' n)) (powerRZ k n)).
Proof.
  intros ord s dl tm a a' b b' ea ea' eb eb' Po C O m Ma Ma' Mb Mb' Ra Ra' Rb Rb' Sa Sb.
  pose proof (rated_factor ea Ra) as Na. pose proof (rated_factor ea' Ra') as Na'.
  pose proof (rated_factor eb Rb) as Nb. pose proof (rated_factor eb' Rb') as Nb'.
  exists (factor ea / factor ea')%R, (factor eb / factor eb')%R.
  split; [now apply (composed_converts ord s dl tm Po C O a a' ea ea') |].
  split; [now apply (composed_converts ord s dl tm Po C O b b' eb eb') |].
  split; [apply Rmult_integral_contrapositive_currified; [assumption | now apply Rinv_neq_0_compat] |].
  split; [apply Rmult_integral_contrapositive_currified; [assumption | now apply Rinv_neq_0_compat] |].
  split; [| split].
  - intros p q P Q. apply (composed_converts ord s dl tm Po C O _ _ (Multiply ea eb) (Multiply ea' eb')).
    + now apply M_times.
    + now apply M_times.
    + now split.
    + now split.
    + intro t. unfold symexp in *. cbn [gdim]. now rewrite Sa, Sb.
    + cbn [factor]. field. auto.
  - intros p q P Q. apply (composed_converts ord s dl tm Po C O _ _ (Divide ea eb) (Divide ea' eb')).
    + now apply M_over.
    + now apply M_over.
    + now split.
    + now split.
    + intro t. unfold symexp in *. cbn [gdim]. now rewrite Sa, Sb.
    + cbn [factor]. field. auto.
  - intros p q n P Q S. apply (composed_converts ord s dl tm Po C O _ _ (Raise ea (Number (NInt n) (Some (Z_str n)))) (Raise ea' (Number (NInt n) (Some (Z_str n))))).
    + now apply M_raised.
    + now apply M_raised.
    + exact Ra.
    + exact Ra'.
    + intro t. unfold symexp in *. cbn [gdim]. now rewrite Sa.
    + cbn [factor]. unfold Rdiv. now rewrite powerRZ_mult, powerRZ_inv'.
Qed.

(** The hypotheses are met: parts of the shipped database, and texts alike by the laws. *)
Definition left_side : recipe := Over (u "/") (Raised (u "^") (Part (u "km/h")) 2) (Times (u " ") (Part (u "2.5 K")) (Part (u "km/h"))).
Definition right_side : recipe := Times (u "*") (Raised (u "**") (Part (u "2.5 K")) (-1)) (Bracketed (Part (u "km/h"))).
Definition left_form : node := Divide (Raise speed (Number (NInt 2) (Some (u "2")))) (Multiply warm speed).
Definition right_form : node := Multiply (Raise warm (Number (NInt (-1)) (Some (u "-1")))) speed.
Lemma sides_alike : alike left_side right_side.
Proof.
  unfold left_side, right_side. set (a := Part (u "km/h")). set (b := Part (u "2.5 K")).
  assert (S2 : alike (Raised (u "^") a 2) (Times (u "") a a)).
  { eapply Al_through; [apply (Al_sum (u "^") (u "") a 1 1) |]. apply Al_times; apply Al_first. }
  (* a^2 / (b a) = ((a a) / a) / b = a / b = b^-1 a *)
  assert (C1 : alike (Over (u "/") (Times (u "") a a) a) a).
  { eapply Al_through; [| apply (Al_cancel (u "") (u "/") a a)].
    (* (a a) / a = (a / a) a *)
    apply Al_back. eapply Al_through; [apply (Al_order (u "") (Over (u "/") a a) a) |].
    (* a (a / a) = (a a) / a *)
    apply Al_back. eapply Al_through; [| apply Al_times; [apply Al_same | apply Al_over; [apply (Al_first (u "^") a) | apply (Al_first (u "^") a)]]].
    eapply Al_through; [apply (Al_over (u "/") (u "/")); [apply Al_back, S2 | apply Al_back, (Al_first (u "^") a)] |].
    eapply Al_through; [apply Al_back, (Al_difference (u "^") (u "/") a 2 1) |].
    eapply Al_through; [apply (Al_first (u "^") a) |].
    apply Al_back. eapply Al_through; [apply (Al_times (u "") (u "")); [apply Al_same | apply Al_back, (Al_difference (u "^") (u "/") a 1 1)] |].
    eapply Al_through; [apply Al_order |]. apply Al_none. }
  assert (C2 : alike (Raised (u "**") b (-1)) (Over (u "/") (Raised (u "**") b 0) b)).
  { eapply Al_through; [apply (Al_difference (u "**") (u "/") b 0 1) |]. apply Al_over; [apply Al_same | apply Al_first]. }
  (* left side: a / b *)
  assert (L : alike (Over (u "/") (Raised (u "^") a 2) (Times (u " ") b a)) (Over (u "/") a b)).
  { eapply Al_through; [apply (Al_over (u "/") (u "/")); [apply S2 | apply (Al_order (u " ") b a)] |].
    eapply Al_through; [apply (Al_over_product (u "/") (u " ") (Times (u "") a a) a b) |].
    apply Al_over; [apply C1 | apply Al_same]. }
  eapply Al_through; [apply L |]. apply Al_back.
  eapply Al_through; [apply (Al_times (u "*") (u "*")); [apply Al_same | apply Al_bracketed] |].
  (* b^-1 a = ((b^-1 (a/b)) b) = (a/b) (b^-1 b) = a/b *)
  eapply Al_through; [apply (Al_times (u "*") (u "*")); [apply Al_same | apply Al_back, (Al_cancel (u "*") (u "/") a b)] |].
  eapply Al_through; [apply (Al_times (u "*") (u "*")); [apply Al_same | apply (Al_order (u "*"))] |].
  eapply Al_through; [apply (Al_group (u "*") (Raised (u "**") b (-1)) b (Over (u "/") a b)) |].
  eapply Al_through; [apply (Al_times (u "*") (u "*")); [| apply Al_same] | apply (Al_none (u "**") (u "*") b)].
  eapply Al_through; [apply (Al_times (u "*") (u "*")); [apply Al_same | apply Al_back, (Al_first (u "**") b)] |].
  apply Al_back. apply (Al_sum (u "**") (u "*") b (-1) 1).
Qed.
Example C123_example :
  text left_side = u "((km/h)^2)/((2.5 K) (km/h))" /\ text right_side = u "((2.5 K)**-1)*((km/h))" /\
  alike left_side right_side /\ made (out shipped) left_side left_form /\ made (out shipped) right_side right_form /\
  rated left_form /\ rated right_form /\ clash_free shipped /\ orderly is_radian is_second shipped /\
  converts (fun l => l) shipped (text left_side) (text right_side) 1 /\ (forall t, net t left_side = net t right_side).
Proof.
  assert (A : out shipped (u "km/h") speed)
    by (split; [apply part_check; vm_compute; reflexivity | apply (out_text_sound shipped 8); vm_compute; reflexivity]).
  assert (B : out shipped (u "2.5 K") warm)
    by (split; [apply part_check; vm_compute; reflexivity | apply (out_text_sound shipped 8); vm_compute; reflexivity]).
  assert (M1 : made (out shipped) left_side left_form).
  { unfold left_side, left_form. apply M_over; [left; reflexivity | |].
    - change (Some (u "2")) with (Some (Z_str 2)). apply M_raised; [left; reflexivity | vm_compute; discriminate | now constructor].
    - apply M_times; [do 3 right; left; reflexivity | now constructor | now constructor]. }
  assert (M2 : made (out shipped) right_side right_form).
  { unfold right_side, right_form. apply M_times; [left; reflexivity | |].
    - change (Some (u "-1")) with (Some (Z_str (-1))). apply M_raised; [right; left; reflexivity | vm_compute; discriminate | now constructor].
    - constructor. now constructor. }
  assert (R1 : rated left_form) by (apply rated_b_sound; vm_compute; reflexivity).
  assert (R2 : rated right_form) by (apply rated_b_sound; vm_compute; reflexivity).
  assert (C : clash_free shipped) by apply shipped_checks.
  split; [vm_compute; reflexivity |]. split; [vm_compute; reflexivity |]. split; [exact sides_alike |].
  do 5 (split; [assumption |]). split; [exact shipped_orderly |].
  split.
  - apply (C123_laws_hold_for_unit_texts (fun l => l) shipped is_radian is_second left_side right_side left_form right_form); auto using sides_alike, shipped_orderly.
    intro l. apply Permutation.Permutation_refl.
  - intro t. unfold left_side, right_side. cbn [net]. lia.
Qed.

(** whole numbers: minutes are 60 seconds *)
Definition minute_form : node := Eval vm_compute in form_of (u "min").
Definition metre_form : node := Eval vm_compute in form_of (u "m").
Definition order_1 : recipe := Times (u "*") (Part (u "min")) (Part (u "m")).
Definition order_2 : recipe := Times (u " ") (Part (u "m")) (Part (u "min")).
Example C123_example_of_whole_numbers :
  alike order_1 order_2 /\ made (out shipped) order_1 (Multiply minute_form metre_form) /\ made (out shipped) order_2 (Multiply metre_form minute_form) /\
  rated (Multiply minute_form metre_form) /\ rated (Multiply metre_form minute_form) /\
  whole (Multiply minute_form metre_form) = true /\ whole (Multiply metre_form minute_form) = true /\ has_basis (Multiply minute_form metre_form) /\
  texts_differ (text order_1) (text order_2) = true.
Proof.
  assert (A : out shipped (u "min") minute_form)
    by (split; [apply part_check; vm_compute; reflexivity | apply (out_text_sound shipped 8); vm_compute; reflexivity]).
  assert (B : out shipped (u "m") metre_form)
    by (split; [apply part_check; vm_compute; reflexivity | apply (out_text_sound shipped 8); vm_compute; reflexivity]).
  split. { unfold order_1, order_2. apply Al_through with (Times (u "*") (Part (u "m")) (Part (u "min"))); [apply Al_order |]. apply Al_times; apply Al_same. }
  split; [apply M_times; [left; reflexivity | now constructor | now constructor] |].
  split; [apply M_times; [do 3 right; left; reflexivity | now constructor | now constructor] |].
  split; [apply rated_b_sound; vm_compute; reflexivity |]. split; [apply rated_b_sound; vm_compute; reflexivity |].
  split; [vm_compute; reflexivity |]. split; [vm_compute; reflexivity |].
  split; [| vm_compute; reflexivity].
  exists (u "meter"). assert (E : symexp (Multiply minute_form metre_form) (u "meter") = 1%Z) by (vm_compute; reflexivity). rewrite E. discriminate.
Qed.

(** ** C124 is false: with decimals the order of the factors of a product changes the answer of ==. *)
Definition grouped_right : recipe := Times (u "*") (Part (u "0.1 m")) (Times (u "*") (Part (u "0.2 m")) (Part (u "0.3 m"))).
Definition grouped_left : recipe := Times (u "*") (Times (u "*") (Part (u "0.2 m")) (Part (u "0.1 m"))) (Part (u "0.3 m")).
Definition right_group : node := Eval vm_compute in form_of (text grouped_right).
Definition left_group : node := Eval vm_compute in form_of (text grouped_left).
Theorem C124_laws_hold_for_equality_of_units_refuted :
  alike grouped_right grouped_left /\ text grouped_right = u "(0.1 m)*((0.2 m)*(0.3 m))" /\ text grouped_left = u "((0.2 m)*(0.1 m))*(0.3 m)" /\
  forall fpow strict set_order s, rearranges set_order -> read_system strict set_order db = Ok s ->
  forall ord history1 history2 stack1 stack2, rearranges ord -> (7 < stack1)%nat -> (7 < stack2)%nat ->
  exists x y, fst (sys_unit ord stack1 (text grouped_right) (after ord s history1)) = Ok (AUnit x) /\
    fst (sys_unit ord stack2 (text grouped_left) (after ord s history2)) = Ok (AUnit y) /\ float_eq fpow x y = Ok false.
Proof.
  split.
  { eapply Al_through; [apply Al_group |]. apply Al_times; [apply Al_order | apply Al_same]. }
  split; [vm_compute; reflexivity |]. split; [vm_compute; reflexivity |].
  intros fpow strict o s P E ord h1 h2 f1 f2 Po L1 L2.
  destruct (read_any strict o P) as (s' & E' & R). rewrite E in E'. injection E' as <-.
  destruct shipped_checks as (C & _ & D).
  assert (B1 : base_text shipped (text grouped_right) right_group) by (apply (out_text_sound shipped 8); vm_compute; reflexivity).
  assert (B2 : base_text shipped (text grouped_left) left_group) by (apply (out_text_sound shipped 8); vm_compute; reflexivity).
  assert (R1 : rated right_group) by (apply rated_b_sound; vm_compute; reflexivity).
  assert (R2 : rated left_group) by (apply rated_b_sound; vm_compute; reflexivity).
  assert (T : texts_differ (text grouped_right) (text grouped_left) = true) by (vm_compute; reflexivity).
  assert (Hb : has_basis right_group).
  { exists (u "meter"). assert (X : symexp right_group (u "meter") = 3%Z) by (vm_compute; reflexivity). rewrite X. discriminate. }
  assert (V : verdict fpow right_group left_group = Some false) by (vm_compute; reflexivity).
  destruct (both shipped s _ _ _ _ _ C D shipped_orderly R B1 B2 R1 R2 T Hb ord h1 h2 f1 f2 Po L1 L2) as (x & y & U1 & U2 & _ & _ & F).
  exists x, y. auto.
Qed.

Print Assumptions C123_laws_hold_for_unit_texts.
Print Assumptions C123_net_powers_decide.
Print Assumptions C123_factors_of_composed_texts.
Print Assumptions C124_laws_hold_for_equality_of_units_refuted.
