(** * Texts written out in basis units: what UnitSystem.unit makes of them *)
From Verif Require Import PyBase PyNum Graph RegexFacts Visitor Expr Units UnitSystem UnitSpec UnitFacts UnitProofs
  SystemSpec SystemFacts SystemProofs SystemMore SystemOrd Sympy Convert ConvertSpec ConvertFacts ConvertMore Prop_Convert BaseSpec.
From Coq Require Import Permutation Lia.

(** ** Time flags *)
Inductive times_agree (tm : str -> bool) : unit -> Prop :=
| Ta_basis r d : times_agree tm (UBasis r d (tm r))
| Ta_expr d refs : (forall s y, find_ref s refs = Some (RUnit y) -> times_agree tm y) ->
    times_agree tm (UExpr d refs).

Definition flags (tm : str -> bool) (d : dims) : Prop := Forall (fun e => snd (fst e) = tm (fst (fst e))) d.

Lemma flags_add tm b z d : snd b = tm (fst b) -> flags tm d -> flags tm (dims_add b z d).
Proof.
  intros B F. induction d as [| [[k f] z'] d IH]; cbn [dims_add]; [constructor; auto |].
  inversion F; subst. destruct (str_eqb (fst b) k); constructor; auto.
  now apply IH.
Qed.

Lemma flags_add_all tm o m : forall acc d, flags tm m -> flags tm acc -> dims_add_all o m acc = Ok d -> flags tm d.
Proof.
  induction m as [| [b bo] m IH]; intros acc d M A E; cbn [dims_add_all] in E; [now injection E as <- |].
  inversion M; subst. destruct o; [| discriminate]. apply (IH _ _ ltac:(assumption)) in E; auto. now apply flags_add.
Qed.

Lemma flags_udims tm x : times_agree tm x -> forall d, udims x = Ok d -> flags tm d.
Proof.
  induction 1 as [r dl | df refs H IH]; intros d E.
  - rewrite udims_basis in E. injection E as <-. destruct dl; repeat constructor.
  - rewrite udims_expr in E. destruct (split_root df) as [td |]; [| discriminate]. cbn [bind] in E.
    destruct (count (snd td)) as [sc |]; [| discriminate]. cbn [bind] in E.
    destruct (walk refs sc []) as [acc |] eqn:W; [| discriminate]. cbn [bind] in E. injection E as <-.
    assert (F : flags tm acc).
    { assert (N : flags tm []) by constructor. revert N W. generalize (@nil ((str * bool) * Z)).
      induction sc as [| [k o] sc IHs]; intros a N W; cbn [walk] in W; [now injection W as <- |].
      destruct (step refs k o a) as [a' |] eqn:St; [| discriminate]. cbn [bind] in W. apply (IHs a'); auto.
      unfold step in St. destruct (find_ref k refs) as [[p | y] |] eqn:Fr; try discriminate St; try (injection St as <-; exact N).
      destruct (udims y) as [m |] eqn:U; [| discriminate]. cbn [bind] in St. exact (flags_add_all tm o m a a' (IH _ _ Fr _ U) N St). }
    unfold drop_zero. apply Forall_forall. intros e I. apply filter_In in I as [I _]. unfold flags in F. rewrite Forall_forall in F. auto.
Qed.

(** is_time_unit in terms of the written-out definition *)
Lemma time_spec dl tm d refs e : sound_unit (UExpr d refs) -> bases_agree dl (UExpr d refs) -> times_agree tm (UExpr d refs) ->
  expanded (UExpr d refs) = Ok e -> ~ a_time dl tm e -> is_time_unit (UExpr d refs) = Ok false.
Proof.
  intros S B T X N. unfold is_time_unit. destruct (udims_sound _ S) as (m & U & R). rewrite U. cbn [bind]. f_equal.
  destruct (dims_time m) eqn:D; [| reflexivity]. exfalso. apply N.
  destruct m as [| [[r it] z] [|]]; cbn [dims_time] in D; try discriminate. apply andb_prop in D as [-> Z1].
  apply Z.eqb_eq in Z1. subst z. exists r. split.
  - pose proof (flags_udims tm _ T _ U) as F. inversion F as [| ? ? F1 _]; subst. cbn in F1. now symmetry.
  - intros b. rewrite <- (exps_expanded dl _ S B _ X b). rewrite <- (represents_val _ _ R b). unfold dval. cbn [dims_get].
    rewrite str_eqb_sym. now destruct (str_eqb r b).
Qed.

Lemma prefixed_known s q key p k ent : reading s q (Some (key, p, k)) ent -> known s k ent.
Proof.
  intros H. inversion H as [| key' p' k' e U (b & a & _ & [_ K] & _) | key' p' k' e U _ (b & a & _ & [_ K] & _)]; subst; exact K.
Qed.

Lemma set_union_In k a b : In k (set_union a b) <-> In k a \/ In k b.
Proof.
  unfold set_union. rewrite in_app_iff, filter_In. split; [tauto |]. intros [A | B]; [now left |].
  destruct (str_mem k a) eqn:M; [left; now apply str_mem_In | right; split; [exact B | reflexivity]].
Qed.

Lemma occurs_identifiers n : plain n -> forall k, occurs k n -> In k (identifiers n).
Proof.
  induction n; intros P k H; cbn [plain occurs identifiers] in *; try contradiction.
  - now left.
  - destruct P as [P (z & r & ->)]. destruct H as [H | H]; [| destruct H]. apply set_union_In. left. now apply IHn1.
  - destruct P as [P1 P2]. apply set_union_In. destruct H; [left | right]; auto.
  - destruct P as [P1 P2]. apply set_union_In. destruct H; [left | right]; auto.
Qed.

Lemma plain_tidy rho n : plain n -> tidy rho n /\ moves n = false.
Proof.
  induction n; intros P; cbn [plain tidy moves] in *; try contradiction; auto.
  - destruct P as [P E]. destruct (IHn1 P). auto.
  - destruct P as [P1 P2]. destruct (IHn1 P1) as [T1 M1], (IHn2 P2) as [T2 M2]. rewrite M1, M2. cbn.
    repeat split; auto; discriminate.
  - destruct P as [P1 P2]. destruct (IHn1 P1) as [T1 M1], (IHn2 P2) as [T2 M2]. rewrite M1, M2. auto.
Qed.

Lemma plain_acceptable refs n : plain n -> acceptable refs n.
Proof.
  induction n; intros P; cbn [plain] in *; try contradiction; try constructor; auto.
  - now apply IHn1.
  - destruct P as [_ (z & r & ->)]. constructor.
  - now apply IHn1.
  - now apply IHn2.
  - now apply IHn1.
  - now apply IHn2.
Qed.

(** The expressions whose written-out form can be measured *)
Fixpoint levels_g (g : node) : Prop := match g with Logarithm _ a => levels_g a | _ => plain g end.
Definition form (g : node) : Prop := match g with Shift a (Number _ _) => levels_g a | _ => levels_g g end.

Lemma levels_tidy rho g : levels_g g -> tidy rho g.
Proof. induction g; intros H; try (apply plain_tidy; exact H); auto. Qed.

Lemma levels_acceptable refs g : levels_g g -> acceptable refs g.
Proof. induction g; intros H; try (apply plain_acceptable; exact H); auto. constructor. auto. Qed.

Lemma levels_occurs g : levels_g g -> forall k, occurs k g -> In k (identifiers g).
Proof. induction g; intros H k O; try (apply occurs_identifiers; [exact H | exact O]). cbn [identifiers]. auto. Qed.

Lemma rated_levels e : rated e -> levels e.
Proof. destruct e; cbn; tauto. Qed.
Lemma levels_measurable e : levels e -> measurable e.
Proof. destruct e; cbn; tauto. Qed.
Lemma levels_timeless dl tm e : levels e -> timeless dl tm e.
Proof. destruct e; cbn; tauto. Qed.

Section Base.
Variable ord : list str -> list str.
Variable s : system.
Variable dl tm : str -> bool.
Hypothesis Po : rearranges ord.
Hypothesis Or : orderly dl tm s.

Definition fine (k : str) (y : unit) (e : node) : Prop :=
  means ord s k y /\ expanded y = Ok e /\ sound_unit y /\ bases_agree dl y /\ times_agree tm y.

Lemma fine_unique k y e y' e' : fine k y e -> fine k y' e' -> y' = y /\ e' = e.
Proof.
  intros (M & X & _) (M' & X' & _). pose proof (means_unique ord s k y y' M M') as <-. rewrite X in X'.
  injection X' as <-. auto.
Qed.

Lemma collect ids : (forall k, In k ids -> exists y e, fine k y e) ->
  exists refs m, refs_mean ord s ids refs /\ expand_refs refs = Ok m /\
    (forall k v, find_ref k refs = Some v -> exists y e, v = RUnit y /\ fine k y e) /\
    (forall k, In k ids -> find_ref k refs <> None).
Proof.
  induction ids as [| k ids IH]; intros H.
  - exists [], []. repeat split; try constructor; [discriminate | contradiction].
  - destruct IH as (refs & m & R & X & F & C); [intros k' I; apply H; now right |].
    destruct (H k (or_introl eq_refl)) as (y & e & Fy). exists ((k, RUnit y) :: refs), ((k, e) :: m).
    split; [constructor; [apply Fy | exact R] |]. split.
    { cbn [expand_refs expand_ref]. destruct Fy as (_ & E & _). rewrite E. cbn [bind]. rewrite X. reflexivity. }
    split.
    + intros k' v. cbn [find_ref]. destruct (str_eqb k' k) eqn:E; [| apply F]. apply str_eqb_eq in E. subst k'.
      intros Q. injection Q as <-. eauto.
    + intros k' I. cbn [find_ref]. destruct (str_eqb k' k) eqn:E; [discriminate |].
      destruct I as [-> | I]; [rewrite str_eqb_refl in E; discriminate | now apply C].
Qed.

Definition pictured (m : dict node) (g : node) : Prop :=
  forall k y e, In k (identifiers g) -> fine k y e -> dget k m = Some e.

Definition good_expr (g e : node) : Prop :=
  form g /\ (levels e -> levels_g g) /\ (rated e -> plain g) /\
  (forall k, In k (identifiers g) -> exists y e, fine k y e) /\
  (forall m, pictured m g -> subst m g = e).

Lemma assemble g e : good_expr g e -> timeless dl tm e ->
  exists refs, refs_mean ord s (ord (identifiers g)) refs /\ acceptable refs g /\
    expanded (UExpr g refs) = Ok e /\ sound_unit (UExpr g refs) /\ bases_agree dl (UExpr g refs) /\
    times_agree tm (UExpr g refs).
Proof.
  intros (Fo & _ & _ & Fi & Su) T.
  assert (Io : forall k, In k (ord (identifiers g)) <-> In k (identifiers g)).
  { intros k. split; apply Permutation_in; [apply Po | apply Permutation_sym, Po]. }
  destruct (collect (ord (identifiers g))) as (refs & m & R & X & F & C).
  { intros k I. apply Fi. now apply Io. }
  exists refs. split; [exact R |].
  assert (Pi : pictured m g).
  { intros k y e' I Fk. apply Io in I. pose proof (expand_refs_get refs m k X) as G.
    destruct (find_ref k refs) as [v |] eqn:E; [| now destruct (C k I)].
    destruct (F k v E) as (y' & e2 & -> & Fk'). destruct (fine_unique k y e' y' e2 Fk Fk') as [-> ->].
    destruct G as (e3 & G1 & ->). cbn [expand_ref] in G1. destruct Fk as (_ & Ey & _). rewrite Ey in G1. now injection G1 as ->. }
  assert (B : forall n, bases_agree dl (UExpr n refs)).
  { intros n. constructor. intros k y E _. destruct (F k _ E) as (y' & e' & Q & Fy). injection Q as ->. apply Fy. }
  assert (Ti : forall n, times_agree tm (UExpr n refs)).
  { intros n. constructor. intros k y E. destruct (F k _ E) as (y' & e' & Q & Fy). injection Q as ->. apply Fy. }
  assert (So : forall n, tidy (ref_exps refs) n -> (forall k, occurs k n -> In k (identifiers g)) -> sound_unit (UExpr n refs)).
  { intros n Tn On. constructor; [exact Tn | |].
    - intros k O. apply C, Io, On, O.
    - intros k y E _. destruct (F k _ E) as (y' & e' & Q & Fy). injection Q as ->. apply Fy. }
  assert (Ex : expanded (UExpr g refs) = Ok e).
  { rewrite expanded_expr, X. cbn [bind]. now rewrite (Su m Pi). }
  assert (L : levels_g g -> acceptable refs g /\ sound_unit (UExpr g refs)).
  { intros Lg. split; [now apply levels_acceptable |]. apply So; [now apply levels_tidy | now apply levels_occurs]. }
  destruct g as [| | | | | | a b | ]; try (destruct (L Fo); auto 6).
  destruct b as [| v r | | | | | |]; try contradiction. cbn [form] in Fo.
  assert (Sa : sound_unit (UExpr a refs)).
  { apply So; [now apply levels_tidy |]. intros k O. cbn [identifiers]. apply set_union_In. left. now apply levels_occurs. }
  assert (Ea : e = Shift (subst m a) (Number v r)) by (rewrite <- (Su m Pi); reflexivity). subst e.
  split; [| split; [exact Ex | split; [| auto]]].
  - constructor; [now apply levels_acceptable |].
    apply (time_spec dl tm a refs (subst m a)); auto. rewrite expanded_expr, X. reflexivity.
  - apply So; [cbn [tidy]; now apply levels_tidy |]. intros k O. cbn [identifiers]. apply set_union_In. left.
    now apply levels_occurs.
Qed.

Scheme base_form_mut := Induction for base_form Sort Prop
with base_expr_mut := Induction for base_expr Sort Prop.

Lemma base_good :
  (forall q e, base_form s q e -> measurable e -> timeless dl tm e -> exists y, fine q y e) /\
  (forall g e, base_expr s g e -> measurable e -> timeless dl tm e -> good_expr g e).
Proof.
  destruct Or as [Ob Ol].
  assert (X : (forall q e (H : base_form s q e), measurable e -> timeless dl tm e -> exists y, fine q y e) /\
              (forall g e (H : base_expr s g e), measurable e -> timeless dl tm e -> good_expr g e)).
  2: { destruct X. split; auto. }
  assert (Sub : forall a b a' b', (measurable a' -> timeless dl tm a' -> good_expr a a') ->
            (measurable b' -> timeless dl tm b' -> good_expr b b') -> rated a' -> rated b' ->
            plain a /\ plain b /\
            (forall k, In k (set_union (identifiers a) (identifiers b)) -> exists y e, fine k y e) /\
            (forall m, (forall k y e, In k (set_union (identifiers a) (identifiers b)) -> fine k y e -> dget k m = Some e) ->
               subst m a = a' /\ subst m b = b')).
  { intros a b a' b' Ha Hb Ra Rb.
    destruct Ha as (_ & _ & Pa & Ia & Sa); [now apply levels_measurable, rated_levels | now apply levels_timeless, rated_levels |].
    destruct Hb as (_ & _ & Pb & Ib & Sb); [now apply levels_measurable, rated_levels | now apply levels_timeless, rated_levels |].
    split; [auto |]. split; [auto |]. split.
    - intros k I. apply set_union_In in I as [I | I]; auto.
    - intros m Pm. split; [apply Sa | apply Sb]; intros k y e I; apply Pm; apply set_union_In; auto. }
  pose (P0 := fun q e (_ : base_form s q e) => measurable e -> timeless dl tm e -> exists y, fine q y e).
  pose (P1 := fun g e (_ : base_expr s g e) => measurable e -> timeless dl tm e -> good_expr g e).
  assert (C1 : forall q r d it names (K : known s q (EUnit (UBasis r d it) names)), P0 _ _ (Bf_basis s q r d it names K)).
  { intros q r d it names K _ _. destruct (Ob q _ _ K) as (b & Eb & Nb). injection Eb as -> -> ->.
    exists (UBasis b (dl b) (tm b)). split; [| split; [reflexivity | split; [constructor | split; [now constructor | constructor]]]].
    apply (Me_word ord s q (EUnit (UBasis b (dl b) (tm b)) names)); [now constructor | constructor]. }
  assert (C2 : forall q i l g e (K : known s q (ELazy i)) (N : nth_error (s_lazies s) i = Some l)
                 (Pa : parse (lz_def l) = Ok g) (B : base_expr s g e), P1 g e B -> P0 _ _ (Bf_defined s q i l g e K N Pa B)).
  { intros q i l g e K N Pa B IH Me Ti. destruct (assemble g e (IH Me Ti) Ti) as (refs & R & Ac & X & So & Ba & Ta).
    exists (UExpr g refs). split; [| auto]. apply (Me_word ord s q (ELazy i)); [now constructor |].
    apply (Me_defined ord s i l g refs); [exact N | exact (Ol i l N) | exact Pa | exact R |]. apply mk_unit_iff. auto. }
  assert (C3 : forall q key p k ent d e (Rd : reading s q (Some (key, p, k)) ent) (Ne : key <> k)
                 (Pd : py_decimal (pf_value p) = Ok d) (B : base_form s k e), P0 k e B ->
                 P0 _ _ (Bf_prefixed s q key p k ent d e Rd Ne Pd B)).
  { intros q key p k ent d e Rd Ne Pd B IH Me _. cbn [measurable levels rated] in Me. destruct Me as [_ Re].
    destruct IH as (y & My & X & So & Ba & Ta); [now apply levels_measurable, rated_levels | now apply levels_timeless, rated_levels |].
    assert (En : entry_means ord s ent y).
    { pose proof (prefixed_known s q key p k ent Rd) as K. inversion My as [? e0 ? R0 E0 | ? ? ? ? e0 ? ? R0 ? ?]; subst;
        destruct (reading_unique s k _ _ _ _ R0 (Rd_word s k ent K)) as [Q1 Q2]; [now subst e0 | discriminate Q1]. }
    assert (Px : prefixed_unit key p k y = Ok (UExpr (Multiply (Identifier key) (Identifier k)) (dset k (RUnit y) [(key, RPrefix (pf_value p))]))).
    { unfold prefixed_unit. apply mk_unit_iff. split; [reflexivity |]. repeat constructor. }
    exists (UExpr (Multiply (Identifier key) (Identifier k)) (dset k (RUnit y) [(key, RPrefix (pf_value p))])).
    assert (Kk : str_eqb k key = false) by (apply str_eqb_neq; auto).
    split; [exact (Me_prefixed ord s q key p k ent y _ Rd En Px) |].
    split; [exact (prefixed_expanded key p k y _ d e Ne Px Pd X) |].
    split; [apply (prefixed_exps key k (pf_value p) y Ne So) |].
    split.
    - constructor. intros z w F _. cbn [dset] in F. rewrite Kk in F. cbn [find_ref] in F.
      destruct (str_eqb z key); [discriminate F |]. destruct (str_eqb z k); [| discriminate F]. injection F as <-. exact Ba.
    - constructor. intros z w F. cbn [dset] in F. rewrite Kk in F. cbn [find_ref] in F.
      destruct (str_eqb z key); [discriminate F |]. destruct (str_eqb z k); [| discriminate F]. injection F as <-. exact Ta. }
  assert (D1 : forall v r, P1 _ _ (Be_number s v r)).
  { intros v r Me Ti. split; [exact Logic.I |]. split; [auto |]. split; [exact (fun _ => Logic.I) |].
    split; [intros k [] | reflexivity]. }
  assert (D2 : forall k e (B : base_form s k e), P0 k e B -> P1 _ _ (Be_name s k e B)).
  { intros k e B IH Me Ti. destruct (IH Me Ti) as (y & Fy). split; [exact Logic.I |]. split; [exact (fun _ => Logic.I) |].
    split; [exact (fun _ => Logic.I) |]. split.
    - intros k' [<- | []]. eauto.
    - intros m Pm. cbn [subst]. now rewrite (Pm k y e (or_introl eq_refl) Fy). }
  assert (D3 : forall a b a' b' (A : base_expr s a a') (B : base_expr s b b'), P1 _ _ A -> P1 _ _ B ->
                 P1 _ _ (Be_multiply s a b a' b' A B)).
  { intros a b a' b' A B Ha Hb Me _. cbn [measurable levels rated] in Me. destruct Me as [Ra Rb].
    destruct (Sub a b a' b' Ha Hb Ra Rb) as (Pa & Pb & Fi & Su).
    split; [cbn; auto |]. split; [cbn; auto |]. split; [cbn; auto |]. split; [exact Fi |].
    intros m Pm. cbn [subst]. destruct (Su m Pm) as [-> ->]. reflexivity. }
  assert (D4 : forall a b a' b' (A : base_expr s a a') (B : base_expr s b b'), P1 _ _ A -> P1 _ _ B ->
                 P1 _ _ (Be_divide s a b a' b' A B)).
  { intros a b a' b' A B Ha Hb Me _. cbn [measurable levels rated] in Me. destruct Me as [Ra Rb].
    destruct (Sub a b a' b' Ha Hb Ra Rb) as (Pa & Pb & Fi & Su).
    split; [cbn; auto |]. split; [cbn; auto |]. split; [cbn; auto |]. split; [exact Fi |].
    intros m Pm. cbn [subst]. destruct (Su m Pm) as [-> ->]. reflexivity. }
  assert (D5 : forall a a' v r (A : base_expr s a a'), P1 _ _ A -> P1 _ _ (Be_raise s a a' v r A)).
  { intros a a' v r A Ha Me _. cbn [measurable levels rated] in Me. destruct v as [z | |]; try contradiction.
    destruct Ha as (_ & _ & Pa & Ia & Sa); [now apply levels_measurable, rated_levels | now apply levels_timeless, rated_levels |].
    assert (Pl : plain (Raise a (Number (NInt z) r))) by (cbn; eauto).
    split; [exact Pl |]. split; [auto |]. split; [auto |]. split.
    - intros k I. cbn [identifiers] in I. apply set_union_In in I as [I | []]. auto.
    - intros m Pm. cbn [subst]. rewrite Sa; [reflexivity |]. intros k y e I. apply Pm. cbn [identifiers]. apply set_union_In. auto. }
  assert (D6 : forall a a' v r (A : base_expr s a a'), P1 _ _ A -> P1 _ _ (Be_shift s a a' v r A)).
  { intros a a' v r A Ha Me _. cbn [measurable] in Me. destruct Me as [_ La].
    destruct Ha as (_ & Lg & _ & Ia & Sa); [now apply levels_measurable | now apply levels_timeless |].
    split; [cbn; auto |]. split; [cbn; tauto |]. split; [cbn; tauto |]. split.
    - intros k I. cbn [identifiers] in I. apply set_union_In in I as [I | []]. auto.
    - intros m Pm. cbn [subst]. rewrite Sa; [reflexivity |]. intros k y e I. apply Pm. cbn [identifiers]. apply set_union_In. auto. }
  assert (D7 : forall f a a' (A : base_expr s a a'), P1 _ _ A -> P1 _ _ (Be_log s f a a' A)).
  { intros f a a' A Ha Me _. cbn [measurable levels] in Me. destruct Me as [_ La].
    destruct Ha as (_ & Lg & _ & Ia & Sa); [now apply levels_measurable | now apply levels_timeless |].
    split; [cbn; auto |]. split; [cbn; auto |]. split; [cbn; tauto |]. split; [exact Ia |].
    intros m Pm. cbn [subst]. rewrite Sa; [reflexivity |]. exact Pm. }
  split.
  - intros q e H. exact (base_form_mut s P0 P1 C1 C2 C3 D1 D2 (fun a b a1 b1 A HA B HB => D3 a b a1 b1 A B HA HB) (fun a b a1 b1 A HA B HB => D4 a b a1 b1 A B HA HB) D5 D6 D7 q e H).
  - intros g e H. exact (base_expr_mut s P0 P1 C1 C2 C3 D1 D2 (fun a b a1 b1 A HA B HB => D3 a b a1 b1 A B HA HB) (fun a b a1 b1 A HA B HB => D4 a b a1 b1 A B HA HB) D5 D6 D7 g e H).
Qed.

(** The text as a whole: what unit(text) means. *)
Lemma base_text_means t e : base_text s t e -> measurable e -> timeless dl tm e ->
  exists x, text_means ord s t (AUnit x) /\ describable dl x e.
Proof.
  intros (g & Pg & B) Me Ti. destruct base_good as [_ G].
  destruct (assemble g e (G g e B Me Ti) Ti) as (refs & R & Ac & X & So & Ba & Ta).
  exists (UExpr g refs). split.
  - exists g, refs. split; [exact Pg |]. split; [exact R |]. apply unit_iff. auto.
  - split; [exact Logic.I | auto].
Qed.
End Base.
