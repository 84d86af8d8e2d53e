(** * Facts about the XML reader: names and prefix symbols. *)
From Verif Require Import PyBase PyNum Graph Visitor Expr Units UnitSystem SystemSpec SystemFacts SystemMore SystemKeep Xml XmlSpec.
From Coq Require Import Permutation.

Lemma is_named_iff n t : is_named n t = true <-> t_name t = u n.
Proof. apply eqb_spec. Qed.
Lemma is_named_false n t : is_named n t = false <-> t_name t <> u n.
Proof. rewrite <- is_named_iff. destruct (is_named n t); split; congruence. Qed.

Lemma pop_first_some n cs c r : pop_first (u n) cs = (Some c, r) -> first_child n cs c /\
  exists before after, cs = before ++ c :: after /\ r = before ++ after.
Proof.
  revert c r. induction cs as [|x cs IH]; cbn [pop_first]; intros c r; [discriminate|].
  destruct (str_eqb (t_name x) (u n)) eqn:E.
  - injection 1 as <- <-. apply eqb_spec in E. split.
    + exists [], cs. repeat split; auto.
    + exists [], cs. auto.
  - destruct (pop_first (u n) cs) as [o r'] eqn:P. injection 1 as -> <-.
    destruct (IH _ _ eq_refl) as [(b & a & E1 & E2 & E3) (b' & a' & E4 & E5)].
    apply (is_named_false n x) in E. split.
    + exists (x :: b), a. rewrite E1. repeat split; auto.
    + exists (x :: b'), a'. rewrite E4, E5. auto.
Qed.

Lemma pop_first_none n cs r : pop_first (u n) cs = (None, r) -> no_child n cs /\ r = cs.
Proof.
  revert r. induction cs as [|x cs IH]; cbn [pop_first]; intros r.
  - injection 1 as <-. split; constructor.
  - destruct (str_eqb (t_name x) (u n)) eqn:E; [discriminate|].
    destruct (pop_first (u n) cs) as [o r'] eqn:P. injection 1 as -> <-.
    destruct (IH _ eq_refl) as [E1 ->]. apply (is_named_false n x) in E. split; [constructor; auto|auto].
Qed.

Lemma first_child_pop n cs c : first_child n cs c -> fst (pop_first (u n) cs) = Some c.
Proof.
  intros (b & a & -> & E & F). induction F as [|x b Nx F IH]; cbn [app pop_first].
  - rewrite (proj2 (eqb_spec _ _) E). reflexivity.
  - rewrite (proj2 (is_named_false n x) Nx : str_eqb _ _ = false). destruct (pop_first (u n) (b ++ c :: a)). exact IH.
Qed.
Lemma no_child_pop n cs : no_child n cs -> pop_first (u n) cs = (None, cs).
Proof.
  induction 1 as [|x cs Nx F IH]; cbn [pop_first]; [reflexivity|].
  rewrite (proj2 (is_named_false n x) Nx : str_eqb _ _ = false), IH. reflexivity.
Qed.

(** popping one name does not disturb another *)
Lemma pop_first_other n m cs : u n <> u m -> fst (pop_first (u m) (snd (pop_first (u n) cs))) = fst (pop_first (u m) cs).
Proof.
  intro D. induction cs as [|x cs IH]; cbn [pop_first]; [reflexivity|].
  destruct (str_eqb (t_name x) (u n)) eqn:E1.
  - cbn [snd]. apply eqb_spec in E1. rewrite E1, (eqb_neq _ _ D). now destruct (pop_first (u m) cs).
  - destruct (pop_first (u n) cs) as [o r]. cbn [snd] in *. cbn [pop_first].
    destruct (str_eqb (t_name x) (u m)) eqn:E2; [reflexivity|].
    destruct (pop_first (u m) r), (pop_first (u m) cs). exact IH.
Qed.

(** ** The plural rule *)
Lemma endswith_iff p s : endswith p s = true <-> exists w, s = w ++ p.
Proof.
  unfold endswith, startswith. destruct (strip_prefix (rev p) (rev s)) as [k|] eqn:E.
  - split; [intros _|reflexivity]. apply strip_prefix_iff in E. exists (rev k).
    rewrite <- (rev_involutive s), E, rev_app_distr, rev_involutive. reflexivity.
  - split; [discriminate|]. intros [w ->]. rewrite rev_app_distr in E.
    rewrite (proj2 (strip_prefix_iff (rev p) (rev p ++ rev w) (rev w)) eq_refl) in E. discriminate.
Qed.

Lemma takes_es_iff s : takes_es s = true <-> sibilant s.
Proof.
  unfold takes_es. rewrite existsb_exists. split.
  - intros (p & I & E). apply endswith_iff in E as [w ->].
    destruct I as [<-|[<-|[<-|[<-|[<-|[<-|[]]]]]]]; try constructor.
    change (u "ss") with (u "s" ++ u "s"). rewrite app_assoc. constructor.
  - intros []; eexists; (split; [|apply endswith_iff; eexists; reflexivity]); cbn; auto 10.
Qed.

Lemma handle_name_says strict t n : handle_name strict t = Ok n -> says t n.
Proof.
  unfold handle_name. destruct (pop_first (u "singular") (t_children t)) as [sing cs1] eqn:P1.
  destruct sing as [st|]; [|discriminate].
  assert (E1 := pop_first_other "singular" "plural" (t_children t) ltac:(discriminate)). rewrite P1 in E1. cbn [snd] in E1.
  assert (E2 := pop_first_other "singular" "noplural" (t_children t) ltac:(discriminate)). rewrite P1 in E2. cbn [snd] in E2.
  apply pop_first_some in P1 as [F1 _].
  destruct (assert _); cbn [bind]; [|discriminate].
  assert (E3 := pop_first_other "plural" "noplural" cs1 ltac:(discriminate)).
  destruct (pop_first (u "plural") cs1) as [pl cs2] eqn:P2. cbn [fst snd] in *. subst pl. rewrite E2 in E3.
  destruct (pop_first (u "noplural") cs2) as [np cs3] eqn:P3. cbn [fst] in E3. subst np.
  destruct (pop_first (u "plural") (t_children t)) as [pl r1] eqn:Q1.
  destruct (pop_first (u "noplural") (t_children t)) as [np r2] eqn:Q2. cbn [fst].
  intro H. exists st. split; auto. destruct np as [nt|].
  - apply pop_first_some in Q2 as [F2 _]. destruct (assert _); cbn [bind] in H; [|discriminate].
    destruct (assert _); cbn [bind] in H; [|discriminate]. destruct (unhandled _ _); cbn [bind] in H; [|discriminate].
    injection H as <-. split; auto. econstructor; eauto.
  - apply pop_first_none in Q2 as [F2 _]. destruct pl as [pt|]; cbn [option_map bind] in H.
    + apply pop_first_some in Q1 as [F3 _]. destruct (unhandled _ _); cbn [bind] in H; [|discriminate].
      injection H as <-. split; auto. now constructor.
    + apply pop_first_none in Q1 as [F3 _]. destruct (unhandled _ _); cbn [bind] in H; [|discriminate].
      injection H as <-. split; auto. cbn [n_plural]. destruct (takes_es (t_text st)) eqn:T.
      * apply takes_es_iff in T. now constructor.
      * apply Pl_s; auto. rewrite <- takes_es_iff. congruence.
Qed.

Lemma says_unique t n n' : says t n -> says t n' -> n = n'.
Proof.
  assert (FC : forall m cs c c', first_child m cs c -> first_child m cs c' -> c = c').
  { intros m cs c c' A B. apply first_child_pop in A, B. congruence. }
  assert (FN : forall m cs c, first_child m cs c -> no_child m cs -> False).
  { intros m cs c A B. apply first_child_pop in A. apply no_child_pop in B. rewrite B in A. discriminate. }
  intros (c & F & E & P) (c' & F' & E' & P'). rewrite (FC _ _ _ _ F' F) in *. destruct n, n'. cbn in *. subst. f_equal.
  destruct P, P'; try reflexivity; try (exfalso; eauto; fail); try contradiction; try (now rewrite (FC _ _ _ _ H0 H2));
    try (exfalso; eapply FN; eassumption).
Qed.

(** ** Units *)
Lemma pop_first_ext n m cs o r : pop_first (u n) cs = (o, r) -> u n <> u m ->
  filter (is_named m) r = filter (is_named m) cs.
Proof.
  intros P D. revert o r P. induction cs as [|x cs IH]; cbn [pop_first]; intros o r.
  - injection 1 as <- <-. reflexivity.
  - destruct (str_eqb (t_name x) (u n)) eqn:E.
    + injection 1 as <- <-. apply eqb_spec in E. cbn [filter]. unfold is_named at 2. rewrite E, (eqb_neq _ _ D). reflexivity.
    + destruct (pop_first (u n) cs) as [o' r'] eqn:P. injection 1 as <- <-. cbn [filter].
      rewrite (IH _ _ eq_refl). reflexivity.
Qed.

Lemma aliases_says strict cs : forall ns ss, handle_aliases strict cs = Ok (ns, ss) ->
  Forall2 says (filter (is_named "name") cs) ns /\ ss = symbol_texts cs.
Proof.
  induction cs as [|c cs IH]; intros ns ss; cbn [handle_aliases].
  - injection 1 as <- <-. split; [constructor|reflexivity].
  - unfold symbol_texts. cbn [filter]. change (is_named "name" c) with (str_eqb (t_name c) (u "name")).
    change (is_named "symbol" c) with (str_eqb (t_name c) (u "symbol")).
    destruct (str_eqb (t_name c) (u "name")) eqn:E1.
    + destruct (handle_name strict c) as [n|] eqn:E; cbn [bind]; [|discriminate].
      destruct (handle_aliases strict cs) as [[ns' ss']|]; cbn [bind fst snd]; [|discriminate].
      injection 1 as <- <-. destruct (IH _ _ eq_refl) as [H1 H2].
      apply eqb_spec in E1. rewrite E1, (eqb_neq (u "name") (u "symbol")) by discriminate. split; [constructor; auto; eapply handle_name_says; eauto|exact H2].
    + destruct (str_eqb (t_name c) (u "symbol")) eqn:E2.
      * destruct (assert _); cbn [bind]; [|discriminate].
        destruct (handle_aliases strict cs) as [[ns' ss']|]; cbn [bind fst snd]; [|discriminate].
        injection 1 as <- <-. destruct (IH _ _ eq_refl) as [H1 H2]. split; auto. cbn [map]. now rewrite H2.
      * destruct (str_eqb (t_name c) (u "noplural")) eqn:E3; [apply IH|].
        destruct (unhandled _ _); cbn [bind]; [apply IH|discriminate].
Qed.

Lemma pop_all_other n m cs : u n <> u m -> fst (pop_first (u m) (snd (pop_all (u n) cs))) = fst (pop_first (u m) cs).
Proof.
  intro D. unfold pop_all. cbn [snd]. induction cs as [|x cs IH]; cbn [filter pop_first]; [reflexivity|].
  destruct (str_eqb (t_name x) (u n)) eqn:E; cbn [negb].
  - apply eqb_spec in E. rewrite E, (eqb_neq _ _ D). rewrite IH. now destruct (pop_first (u m) cs).
  - cbn [pop_first]. destruct (str_eqb (t_name x) (u m)); [reflexivity|].
    destruct (pop_first (u m) (filter _ cs)), (pop_first (u m) cs). exact IH.
Qed.

Lemma add_unit_fresh e r s s' : add_unit e r false s = Ok s' ->
  s' = register e r s /\ (forall k, In k (ref_names r) -> dmem k (s_names s) = false) /\
  (forall k, In k (r_symbols r) -> dmem k (s_symbols s) = false).
Proof.
  unfold add_unit. cbn [negb andb]. destruct (existsb _ (ref_names r)) eqn:A; [discriminate|].
  destruct (existsb _ (r_symbols r)) eqn:B; [discriminate|]. injection 1 as <-. split; auto.
  split; intros k I; apply not_true_is_false; intro C.
  - apply not_true_iff_false in A. apply A. apply existsb_exists. eauto.
  - apply not_true_iff_false in B. apply B. apply existsb_exists. eauto.
Qed.

Lemma pop_kind n cs : (exists c, fst (pop_first (u n) cs) = Some c /\ first_child n cs c) \/
  (fst (pop_first (u n) cs) = None /\ no_child n cs).
Proof.
  destruct (pop_first (u n) cs) as [[c|] r] eqn:P; cbn [fst].
  - left. exists c. split; auto. now apply pop_first_some in P as [F _].
  - right. split; auto. now apply pop_first_none in P as [F _].
Qed.

(** the system before the assignments: the same, or with one more definition *)
Definition more_lazies (s s0 : system) (ls : list lazy) : Prop :=
  s0 = mkSys (s_symbols s) (s_names s) (s_alias_names s) (s_alias_symbols s)
             (s_prefix_names s) (s_prefix_symbols s) (s_lazies s ++ ls).

Lemma handle_unit_ok strict t s s' : handle_unit strict t s = Ok s' ->
  exists r e s0 ls, describes t r /\ more_lazies s s0 ls /\ s' = register e r s0 /\ stands_for s' t r e /\
    (forall k, In k (ref_names r) -> dmem k (s_names s) = false) /\
    (forall k, In k (r_symbols r) -> dmem k (s_symbols s) = false).
Proof.
  unfold handle_unit.
  destruct (pop_first (u "name") (t_children t)) as [nt c1] eqn:P1.
  assert (S1 := pop_first_ext "name" "symbol" _ _ _ P1 ltac:(discriminate)).
  assert (O1 : forall m, u "name" <> u m -> fst (pop_first (u m) c1) = fst (pop_first (u m) (t_children t))).
  { intros m D. rewrite <- (pop_first_other "name" m (t_children t) D), P1. reflexivity. }
  assert (N : nt = fst (pop_first (u "name") (t_children t))) by (now rewrite P1). clear P1.
  destruct (match nt with None => Ok None | Some n => do x <- handle_name strict n;; Ok (Some x) end) as [nm|] eqn:En; cbn [bind]; [|discriminate].
  destruct (pop_all (u "symbol") c1) as [sts c2] eqn:P2.
  assert (O2 : forall m, u "name" <> u m -> u "symbol" <> u m -> fst (pop_first (u m) c2) = fst (pop_first (u m) (t_children t))).
  { intros m D D'. rewrite <- (O1 m D), <- (pop_all_other "symbol" m c1 D'), P2. reflexivity. }
  assert (S2 : map t_text sts = symbol_texts (t_children t)).
  { unfold pop_all in P2. injection P2 as <- _. unfold symbol_texts. rewrite <- S1. reflexivity. }
  clear P2 O1 S1.
  destruct (pop_first (u "aliases") c2) as [al c3] eqn:P3.
  assert (A : al = fst (pop_first (u "aliases") (t_children t))) by (rewrite <- O2; [now rewrite P3|discriminate|discriminate]).
  assert (O3 : forall m, u "name" <> u m -> u "symbol" <> u m -> u "aliases" <> u m -> fst (pop_first (u m) c3) = fst (pop_first (u m) (t_children t))).
  { intros m D D' D2. rewrite <- (O2 m D D'), <- (pop_first_other "aliases" m c2 D2), P3. reflexivity. }
  clear P3 O2.
  destruct (match al with None => Ok ([], []) | Some a => do _ <- assert (negb (nonempty (t_text a)));; handle_aliases strict (t_children a) end)
    as [[ans ass]|] eqn:Ea; cbn [bind]; [|discriminate].
  destruct (pop_first (u "comment") c3) as [cm c4] eqn:P4.
  assert (O4 : forall m, u "name" <> u m -> u "symbol" <> u m -> u "aliases" <> u m -> u "comment" <> u m ->
    fst (pop_first (u m) c4) = fst (pop_first (u m) (t_children t))).
  { intros m D D' D2 D3. rewrite <- (O3 m D D' D2), <- (pop_first_other "comment" m c3 D3), P4. reflexivity. }
  clear P4 O3 cm.
  destruct (pop_first (u "definition") c4) as [df c5] eqn:P5.
  assert (O5 : forall m, u "name" <> u m -> u "symbol" <> u m -> u "aliases" <> u m -> u "comment" <> u m -> u "definition" <> u m ->
    fst (pop_first (u m) c5) = fst (pop_first (u m) (t_children t))).
  { intros m D D' D2 D3 D4. rewrite <- (O4 m D D' D2 D3), <- (pop_first_other "definition" m c4 D4), P5. reflexivity. }
  clear P5 O4 df.
  destruct (pop_first (u "def") c5) as [bd c6] eqn:P6.
  assert (B : bd = fst (pop_first (u "def") (t_children t))) by (rewrite <- O5; [now rewrite P6|discriminate..]).
  assert (O6 : fst (pop_first (u "dimensionless") c6) = fst (pop_first (u "dimensionless") (t_children t))).
  { rewrite <- (O5 "dimensionless"%string); [|discriminate..]. rewrite <- (pop_first_other "def" "dimensionless" c5) by discriminate. now rewrite P6. }
  clear P6 O5. cbn [fst snd].
  set (r := mkRef nm (map t_text sts) ans ass).
  assert (D : describes t r).
  { constructor; cbn [r r_name r_symbols r_alias_names r_alias_symbols].
    - destruct (pop_kind "name" (t_children t)) as [(c & E1 & F)|[E1 F]]; rewrite E1 in N; subst nt; cbn [bind] in En.
      + destruct (handle_name strict c) as [n|] eqn:H; cbn [bind] in En; [|discriminate]. injection En as <-.
        exists c. split; auto. eapply handle_name_says; eauto.
      + injection En as <-. exact F.
    - exact S2.
    - destruct (pop_kind "aliases" (t_children t)) as [(c & E1 & F)|[E1 F]]; rewrite E1 in A; subst al.
      + right. exists c. split; auto. destruct (assert _); cbn [bind] in Ea; [|discriminate]. now apply aliases_says in Ea.
      + left. injection Ea as <- <-. auto. }
  destruct (pop_kind "def" (t_children t)) as [(c & E1 & F)|[E1 F]]; rewrite E1 in B; subst bd.
  - destruct (assert _); cbn [bind]; [|discriminate]. destruct (unhandled _ _); cbn [bind]; [|discriminate].
    unfold add_lazy. intro H. apply add_unit_fresh in H as (-> & H1 & H2).
    eexists r, _, _, [mkLazy (t_text c) r None]. split; [exact D|]. split; [reflexivity|]. split; [reflexivity|].
    split; [|split; [exact H1|exact H2]]. econstructor; eauto. cbn [register s_lazies].
    rewrite nth_error_app2 by lia. now rewrite Nat.sub_diag.
  - destruct (pop_first (u "dimensionless") c6) as [dl c7] eqn:P7. cbn [fst] in O6.
    assert (K : exists d c8, (match dl with
      | Some _ => Ok (true, c7)
      | None => let (bt, c8) := pop_first (u "base") c7 in
        match bt with
        | None => Err EAssertion
        | Some b => do _ <- assert (negb (nonempty (t_text b)) && negb (nonempty (t_children b))) ;; Ok (false, c8)
        end end = Ok (d, c8)) /\ (d = true <-> exists c, first_child "dimensionless" (t_children t) c) \/
      (exists e, match dl with
      | Some _ => Ok (true, c7)
      | None => let (bt, c8) := pop_first (u "base") c7 in
        match bt with
        | None => Err EAssertion
        | Some b => do _ <- assert (negb (nonempty (t_text b)) && negb (nonempty (t_children b))) ;; Ok (false, c8)
        end end = Err e)).
    { destruct (pop_kind "dimensionless" (t_children t)) as [(c & E2 & F2)|[E2 F2]]; rewrite E2 in O6; subst dl.
      - exists true, c7. left. split; auto. split; [intros _; eauto|reflexivity].
      - destruct (pop_first (u "base") c7) as [[b|] c8].
        + destruct (assert _) as [[]|] eqn:Z; cbn [bind].
          * exists false, c8. left. split; auto. split; [discriminate|]. intros [c F3].
            apply first_child_pop in F3. apply no_child_pop in F2. rewrite F2 in F3. discriminate.
          * exists false, c7. right. eauto.
        + exists false, c7. right. eauto. }
    destruct K as (d & c8 & [[-> K]|[e ->]]); cbn [bind]; [|discriminate]. cbn [fst snd].
    destruct nm as [n|]; cbn [bind]; [|discriminate].
    unfold mk_basis. cbn [r r_name]. intro H.
    assert (G : exists key, (n_singular n <> [] -> key = n_singular n) /\
      (do _ <- unhandled strict (nonempty c8);; add_unit (EUnit (UBasis key d (str_eqb (n_singular n) (u "second"))) r) r false s) = Ok s').
    { destruct (n_singular n) as [|ch w] eqn:En'.
      - cbn [r_symbols r] in H. destruct (map t_text sts) as [|sy ?] eqn:Es; cbn [bind] in H; [discriminate|]. exists sy. split; [congruence|]. exact H.
      - exists (ch :: w). split; auto. }
    destruct G as (key & Gk & G). destruct (unhandled _ _); cbn [bind] in G; [|discriminate].
    apply add_unit_fresh in G as (-> & H1 & H2).
    eexists r, _, s, []. split; [exact D|]. split; [|split; [reflexivity|]].
    { unfold more_lazies. rewrite app_nil_r. now destruct s. }
    split; [|split; [exact H1|exact H2]]. apply (St_basis _ _ _ n); auto. apply eqb_spec.
Qed.

(** ** Documents *)
Definition uninterrupted (s : system) (us : list tag) : Prop :=
  (forall ut, In ut us -> exists r e, describes ut r /\ stands_for s ut r e /\
     (forall k, In k (ref_names r) -> dget k (s_names s) = Some e) /\
     (forall k, In k (r_symbols r) -> dget k (s_symbols s) = Some e) /\
     (forall k, In k (ref_alias_names r) -> dmem k (s_alias_names s) = true) /\
     (forall k, In k (r_alias_symbols r) -> dmem k (s_alias_symbols s) = true)) /\
  (forall k e, dget k (s_names s) = Some e -> exists ut r, In ut us /\ describes ut r /\ stands_for s ut r e /\ In k (ref_names r)) /\
  (forall k e, dget k (s_symbols s) = Some e -> exists ut r, In ut us /\ describes ut r /\ stands_for s ut r e /\ In k (r_symbols r)) /\
  (forall k e, dget k (s_alias_names s) = Some e -> exists ut r, In ut us /\ describes ut r /\ stands_for s ut r e /\ In k (ref_alias_names r)) /\
  (forall k e, dget k (s_alias_symbols s) = Some e -> exists ut r, In ut us /\ describes ut r /\ stands_for s ut r e /\ In k (r_alias_symbols r)).

Lemma stands_more s s' ls ut r e : s_lazies s' = s_lazies s ++ ls -> stands_for s ut r e -> stands_for s' ut r e.
Proof.
  intros E [c i F N|]; [|econstructor; eauto]. econstructor; eauto. rewrite E.
  rewrite nth_error_app1; [exact N|]. apply nth_error_Some. congruence.
Qed.

Lemma fold_units strict us : forall done s s', uninterrupted s done -> fold_res (handle_unit strict) us s = Ok s' ->
  uninterrupted s' (done ++ us) /\ s_prefix_names s' = s_prefix_names s /\ s_prefix_symbols s' = s_prefix_symbols s.
Proof.
  induction us as [|t us IH]; intros done s s' U; cbn [fold_res].
  - injection 1 as <-. rewrite app_nil_r. auto.
  - destruct (handle_unit strict t s) as [s1|] eqn:H; cbn [bind]; [|discriminate]. intro E.
    apply handle_unit_ok in H as (r & e & s0 & ls & D & M & R & St & F1 & F2).
    replace (done ++ t :: us) with ((done ++ [t]) ++ us) by (now rewrite <- app_assoc).
    assert (P : s_prefix_names s1 = s_prefix_names s /\ s_prefix_symbols s1 = s_prefix_symbols s).
    { rewrite R, M. split; reflexivity. }
    destruct P as [P1 P2]. rewrite <- P1, <- P2. apply IH; auto.
    assert (L : s_lazies s1 = s_lazies s ++ ls) by (rewrite R, M; reflexivity).
    assert (G1 : forall k, dget k (s_names s1) = if str_mem k (ref_names r) then Some e else dget k (s_names s)).
    { intro k. rewrite R. cbn [register s_names]. rewrite dget_dset_all, M. reflexivity. }
    assert (G2 : forall k, dget k (s_symbols s1) = if str_mem k (r_symbols r) then Some e else dget k (s_symbols s)).
    { intro k. rewrite R. cbn [register s_symbols]. rewrite dget_dset_all, M. reflexivity. }
    assert (G3 : forall k, dget k (s_alias_names s1) = if str_mem k (ref_alias_names r) then Some e else dget k (s_alias_names s)).
    { intro k. rewrite R. cbn [register s_alias_names]. rewrite dget_dset_all, M. reflexivity. }
    assert (G4 : forall k, dget k (s_alias_symbols s1) = if str_mem k (r_alias_symbols r) then Some e else dget k (s_alias_symbols s)).
    { intro k. rewrite R. cbn [register s_alias_symbols]. rewrite dget_dset_all, M. reflexivity. }
    clear R M P1 P2 IH. destruct U as (U0 & U1 & U2 & U3 & U4).
    assert (X : forall (d d1 : dict entry) (ks : reference -> list str),
      (forall k, dget k d1 = if str_mem k (ks r) then Some e else dget k d) ->
      (forall k e, dget k d = Some e -> exists ut r, In ut done /\ describes ut r /\ stands_for s ut r e /\ In k (ks r)) ->
      forall k e, dget k d1 = Some e -> exists ut r, In ut (done ++ [t]) /\ describes ut r /\ stands_for s1 ut r e /\ In k (ks r)).
    { intros d d1 ks G V k e' Q. rewrite G in Q. destruct (str_mem k (ks r)) eqn:K.
      - injection Q as <-. exists t, r. apply str_mem_In in K. split; [apply in_or_app; right; now left|auto].
      - destruct (V k e' Q) as (ut & r' & I & D' & S' & K'). exists ut, r'. split; [apply in_or_app; now left|].
        split; [exact D'|]. split; [|exact K']. eapply stands_more; eauto. }
    split; [|split; [|split; [|split]]]; [|eapply X; eauto|eapply X; eauto|eapply X; eauto|eapply X; eauto].
    intros ut I. apply in_app_or in I as [I|[<-|[]]].
    + destruct (U0 ut I) as (r' & e' & D' & S' & V1 & V2 & V3 & V4). exists r', e'. split; auto. split; [eapply stands_more; eauto|].
      split; [|split; [|split]].
      * intros k K. rewrite G1. destruct (str_mem k (ref_names r)) eqn:Z; auto.
        apply str_mem_In in Z. specialize (F1 k Z). unfold dmem in F1. rewrite (V1 k K) in F1. discriminate.
      * intros k K. rewrite G2. destruct (str_mem k (r_symbols r)) eqn:Z; auto.
        apply str_mem_In in Z. specialize (F2 k Z). unfold dmem in F2. rewrite (V2 k K) in F2. discriminate.
      * intros k K. unfold dmem. rewrite G3. destruct (str_mem k (ref_alias_names r)); auto. exact (V3 k K).
      * intros k K. unfold dmem. rewrite G4. destruct (str_mem k (r_alias_symbols r)); auto. exact (V4 k K).
    + exists r, e. split; auto. split; auto.
      assert (Y : forall k ks, In k ks -> str_mem k ks = true) by (intros; now apply str_mem_In).
      split; [|split; [|split]]; intros k K; unfold dmem; rewrite ?G1, ?G2, ?G3, ?G4, Y; auto.
Qed.

Lemma fold_prefixes_words strict o ps : forall s s',
  fold_res (fun pt s => do p <- handle_prefix strict o pt;; Ok (add_prefix p s)) ps s = Ok s' ->
  s_names s' = s_names s /\ s_symbols s' = s_symbols s /\ s_alias_names s' = s_alias_names s /\ s_alias_symbols s' = s_alias_symbols s.
Proof.
  induction ps as [|p ps IH]; intros s s'; cbn [fold_res]; [injection 1 as <-; auto|].
  destruct (handle_prefix strict o p); cbn [bind]; [|discriminate]. intro H. apply IH in H. exact H.
Qed.

Lemma word_of_iff n w : In w (name_keys n) <-> word_of n w.
Proof.
  unfold name_keys, word_of. cbn [In]. destruct (n_plural n) as [[|c p]|]; cbn [In]; intuition (try congruence).
Qed.
Lemma a_name_iff r w : In w (ref_names r) <-> a_name r w.
Proof.
  unfold ref_names, a_name. destruct (r_name r) as [n|].
  - rewrite word_of_iff. split; [eauto|]. intros (n' & E & W). now injection E as <-.
  - cbn. split; [tauto|]. intros (n' & E & W). discriminate.
Qed.
Lemma an_alias_name_iff r w : In w (ref_alias_names r) <-> an_alias_name r w.
Proof.
  unfold ref_alias_names, an_alias_name. rewrite in_flat_map. split; intros (n & I & W); exists n; split; auto; now apply word_of_iff.
Qed.

Lemma read_faithful strict o doc s : read_system strict o doc = Ok s ->
  uninterrupted s (filter (is_named "unit") (t_children doc)).
Proof.
  unfold read_system. destruct (pop_all (u "prefix") (t_children doc)) as [ps c1] eqn:P1.
  destruct (fold_res _ ps empty_system) as [s1|] eqn:F1; cbn [bind]; [|discriminate].
  destruct (pop_all (u "unit") c1) as [us c2] eqn:P2.
  destruct (fold_res _ us s1) as [s2|] eqn:F2; cbn [bind]; [|discriminate].
  destruct (unhandled _ _); cbn [bind]; [|discriminate]. injection 1 as <-.
  apply fold_prefixes_words in F1 as (E1 & E2 & E3 & E4).
  assert (Us : us = filter (is_named "unit") (t_children doc)).
  { unfold pop_all in P1, P2. injection P1 as _ <-. injection P2 as <- _. clear.
    induction (t_children doc) as [|x cs IH]; cbn [filter]; [reflexivity|].
    change (is_named "unit" x) with (str_eqb (t_name x) (u "unit")).
    destruct (str_eqb (t_name x) (u "prefix")) eqn:Z; cbn [negb filter].
    - apply eqb_spec in Z. rewrite Z, (eqb_neq (u "prefix") (u "unit")) by discriminate. exact IH.
    - destruct (str_eqb (t_name x) (u "unit")); rewrite IH; reflexivity. }
  rewrite <- Us. change us with ([] ++ us). apply fold_units with strict s1; auto.
  unfold uninterrupted. rewrite E1, E2, E3, E4. cbn. repeat split; try discriminate. intros ? [].
Qed.
