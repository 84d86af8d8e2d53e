(** * Two unit systems that agree on ASCII words. *)
From Verif Require Import PyBase PyNum Graph Visitor Expr Units UnitSpec UnitFacts UnitProofs Sympy Convert UnitSystem SystemSpec
  SystemFacts SystemProofs SystemMore SystemOrd Xml XmlSpec XmlPrefix Database Ascii.
Open Scope list_scope.

(** ** what can be asked of a unit, its text apart *)
Definition obs (x : unit) : res dimval * res bool * res node := (dimensionality (AUnit x), is_time_unit x, expanded x).

Lemma obs_udims x y : obs x = obs y -> udims x = udims y.
Proof.
  intro H. unfold obs in H.
  assert (D : dimensionality (AUnit x) = dimensionality (AUnit y)) by congruence. clear H. revert D.
  assert (G : forall (m m' : res dims) (f g : dims -> dimval), (f = DObj \/ f = DDict) -> (g = DObj \/ g = DDict) ->
    (do d <- m ;; Ok (f d)) = (do d <- m' ;; Ok (g d)) -> m = m').
  { intros m m' f g [-> | ->] [-> | ->]; destruct m, m'; cbn [bind]; intro E; try discriminate E; injection E as ->; reflexivity. }
  destruct x as [r dl it|d refs], y as [r' dl' it'|d' refs']; cbn [dimensionality]; apply G; auto.
Qed.

Definition twin_ref (a b : str * uref) : Prop :=
  fst a = fst b /\
  match snd a, snd b with
  | RPrefix v, RPrefix w => v = w
  | RUnit x, RUnit y => obs x = obs y
  | _, _ => False
  end.
Definition twins := Forall2 twin_ref.

Lemma twins_find r1 r2 : twins r1 r2 -> forall k, alike (fun x y => udims x = udims y) (find_ref k r1) (find_ref k r2).
Proof.
  intros T k. induction T as [|[k1 v1] [k2 v2] r1 r2 [E V] _ IH]; cbn [find_ref]; [exact Logic.I|]. cbn [fst snd] in *. subst k2.
  destruct (str_eqb k k1); [|exact IH]. destruct v1, v2; cbn [alike]; auto; try contradiction. now apply obs_udims.
Qed.

Lemma twins_expand r1 r2 : twins r1 r2 -> expand_refs r1 = expand_refs r2.
Proof.
  intro T. induction T as [|[k1 v1] [k2 v2] r1 r2 [E V] _ IH]; cbn [expand_refs]; [reflexivity|]. cbn [fst snd] in *. subst k2.
  assert (X : expand_ref v1 = expand_ref v2).
  { destruct v1, v2; try contradiction; cbn [expand_ref]; [now subst|]. now injection V. }
  rewrite X, IH. reflexivity.
Qed.

Lemma twins_udims r1 r2 d : twins r1 r2 -> udims (UExpr d r1) = udims (UExpr d r2).
Proof. intro T. apply udims_alike. now apply twins_find. Qed.

Lemma twins_time r1 r2 d : twins r1 r2 -> is_time_unit (UExpr d r1) = is_time_unit (UExpr d r2).
Proof. intro T. rewrite !is_time_expr. now rewrite (twins_udims r1 r2 d T). Qed.

Lemma twins_obs r1 r2 d : twins r1 r2 -> obs (UExpr d r1) = obs (UExpr d r2).
Proof.
  intro T. unfold obs. cbn [dimensionality]. rewrite (twins_udims r1 r2 d T), (twins_time r1 r2 d T), !expanded_expr, (twins_expand r1 r2 T).
  reflexivity.
Qed.

Lemma twins_norm r1 r2 : twins r1 r2 -> forall n, norm r1 n = norm r2 n.
Proof.
  intros T. induction n; cbn [norm]; auto; try (now rewrite IHn1, IHn2); try now rewrite IHn.
  rewrite IHn1. destruct (norm r2 n1) as [na|]; cbn [bind]; auto. now rewrite (twins_time _ _ _ T).
Qed.

(** equal outcomes *)
Definition both {A} (R : A -> A -> Prop) (a b : res A) : Prop :=
  match a, b with Ok x, Ok y => R x y | Err e, Err e' => e = e' | _, _ => False end.
Definition twin (x y : unit) : Prop := obs x = obs y.
Definition any_twin (a b : anyunit) : Prop :=
  match a, b with
  | AUnit x, AUnit y => obs x = obs y /\ unit_str x = unit_str y
  | ADate x r, ADate y r' => obs x = obs y /\ unit_str x = unit_str y /\ r = r'
  | _, _ => False
  end.

Lemma both_sym {A} (R : A -> A -> Prop) a b : (forall x y, R x y -> R y x) -> both R a b -> both R b a.
Proof. intro S. destruct a, b; cbn [both]; auto. Qed.
Lemma both_trans {A} (R : A -> A -> Prop) a b c : (forall x y z, R x y -> R y z -> R x z) -> both R a b -> both R b c -> both R a c.
Proof. intro S. destruct a, b, c; cbn [both]; eauto; try contradiction; congruence. Qed.
Lemma any_twin_sym a b : any_twin a b -> any_twin b a.
Proof. destruct a, b; cbn [any_twin]; intuition congruence. Qed.
Lemma any_twin_trans a b c : any_twin a b -> any_twin b c -> any_twin a c.
Proof. destruct a, b, c; cbn [any_twin]; intuition congruence. Qed.

Lemma twins_unit d r1 r2 : twins r1 r2 -> both (fun x y => x = UExpr d r1 /\ y = UExpr d r2 /\ obs x = obs y) (mk_unit d r1) (mk_unit d r2).
Proof.
  intro T. unfold mk_unit, normalised. rewrite (twins_norm r1 r2 T). destruct (norm r2 d); cbn [bind both]; auto.
  split; [reflexivity|]. split; [reflexivity|]. now apply twins_obs.
Qed.

Lemma twins_from g r1 r2 : twins r1 r2 -> both any_twin (unit_from_expression g r1) (unit_from_expression g r2).
Proof.
  intro T.
  assert (G : both any_twin (do y <- mk_unit g r1 ;; Ok (AUnit y)) (do y <- mk_unit g r2 ;; Ok (AUnit y))).
  { pose proof (twins_unit g r1 r2 T) as M. destruct (mk_unit g r1), (mk_unit g r2); cbn [bind both any_twin] in *; try contradiction; auto.
    destruct M as (-> & -> & M). auto. }
  destruct g; try exact G. cbn [unit_from_expression].
  pose proof (twins_unit g1 r1 r2 T) as M. destruct (mk_unit g1 r1) as [x|], (mk_unit g1 r2) as [y|]; cbn [bind both] in *; try contradiction; auto.
  destruct M as (X & Y & M). assert (Ti : is_time_unit x = is_time_unit y) by now injection M.
  rewrite Ti. destruct (is_time_unit y) as [[|]|] eqn:E; cbn [bind]; try reflexivity.
  - assert (D : forall raw, both any_twin (mk_date x raw) (mk_date y raw)).
    { intro raw. unfold mk_date. rewrite Ti, E. cbn [bind both any_twin]. subst x y. auto. }
    destruct g2; try reflexivity; [apply D|]. destruct raw; [apply D|reflexivity].
  - exact G.
Qed.

Lemma refs_agree rec rec' ids : Forall (fun k => both twin (rec k) (rec' k)) ids ->
  both twins (p_refs in_order rec ids) (p_refs in_order rec' ids).
Proof.
  intro F. unfold p_refs. change (in_order ids) with ids. induction F as [|k ks H _ IH]; cbn [mapM]; [constructor|].
  destruct (rec k) as [x|], (rec' k) as [y|]; cbn [bind both] in *; try contradiction; auto.
  destruct (mapM _ ks) as [r|]; destruct (mapM (fun k => do x <- rec' k ;; Ok (k, RUnit x)) ks) as [r'|]; cbn [bind both] in *; try contradiction; auto.
  apply Forall2_cons; [split; [reflexivity|exact H]|exact IH].
Qed.

(** ** agreement on ASCII words *)
Definition same_entry (e e' : entry) : Prop :=
  match e, e' with ELazy i, ELazy j => i = j | EUnit x _, EUnit y _ => x = y | _, _ => False end.
Definition same_opt (a b : option entry) : Prop :=
  match a, b with Some e, Some e' => same_entry e e' | None, None => True | _, _ => False end.

Definition is_ascii (s : str) : bool := forallb (fun c => N.ltb c 128) s.
Lemma is_ascii_iff s : is_ascii s = true <-> ascii s.
Proof. unfold is_ascii, ascii. rewrite forallb_forall, Forall_forall. split; intros H c I; apply N.ltb_lt; auto. Qed.
Definition ascii_prefixes (d : dict prefix) : list (str * str) :=
  map (fun e => (fst e, pf_value (snd e))) (filter (fun e => is_ascii (fst e)) d).

Section Two.
Variables a b : system.
Variable depth : nat.
Hypothesis Hk : forall k, ascii k -> same_opt (known_opt a k) (known_opt b k).
Hypothesis Hn : ascii_prefixes (s_prefix_names a) = ascii_prefixes (s_prefix_names b).
Hypothesis Hs : ascii_prefixes (s_prefix_symbols a) = ascii_prefixes (s_prefix_symbols b).
(** a lazily defined unit has the same ASCII definition in both, or comes out the same *)
Hypothesis Hl : forall i,
  match nth_error (s_lazies a) i, nth_error (s_lazies b) i with
  | Some l, Some l' => lz_resolved l = None /\ lz_resolved l' = None /\
      ((ascii (lz_def l) /\ lz_def l = lz_def l') \/
       forall f, (f < depth)%nat -> both twin (p_resolve in_order a (p_lookup in_order a f) i) (p_resolve in_order b (p_lookup in_order b f) i))
  | None, None => True
  | _, _ => False
  end.

Definition same_fit (x y : option (str * prefix * str * entry)) : Prop :=
  match x, y with
  | Some (key, p, k, e), Some (key', p', k', e') => key = key' /\ pf_value p = pf_value p' /\ k = k' /\ same_entry e e'
  | None, None => True
  | _, _ => False
  end.

Lemma fit_ascii s q ps : ascii q -> fit_opt s q ps = fit_opt s q (filter (fun e => is_ascii (fst e)) ps).
Proof.
  intro Q. induction ps as [|[key p] ps IH]; cbn [fit_opt filter fst]; [reflexivity|].
  destruct (is_ascii key) eqn:A; cbn [fit_opt].
  - now rewrite IH.
  - destruct (strip_prefix key q) as [k|] eqn:S; [|exact IH]. apply strip_prefix_iff in S. subst q.
    apply ascii_app in Q as [Q _]. apply is_ascii_iff in Q. congruence.
Qed.

Lemma fits_agree ps ps' q : ascii q -> ascii_prefixes ps = ascii_prefixes ps' -> same_fit (fit_opt a q ps) (fit_opt b q ps').
Proof.
  intros Q. rewrite (fit_ascii a q ps Q), (fit_ascii b q ps' Q). unfold ascii_prefixes.
  generalize (filter (fun e : str * prefix => is_ascii (fst e)) ps'). generalize (filter (fun e : str * prefix => is_ascii (fst e)) ps).
  intro l. induction l as [|[key p] l IH]; intros [|[key' p'] l']; cbn [map fit_opt fst snd]; try discriminate; [intros _; exact Logic.I|].
  intro E. injection E as <- V E. destruct (strip_prefix key q) as [k|] eqn:S; [|now apply IH].
  apply strip_prefix_iff in S. assert (Ka : ascii k) by (subst q; now apply ascii_app in Q).
  specialize (Hk k Ka). destruct (known_opt a k) as [e|], (known_opt b k) as [e'|]; cbn [same_opt same_fit] in *; try contradiction; auto.
Qed.

Lemma resolve_agree f i : (f < depth)%nat ->
  (forall q, ascii q -> both twin (p_lookup in_order a f q) (p_lookup in_order b f q)) ->
  both twin (p_resolve in_order a (p_lookup in_order a f) i) (p_resolve in_order b (p_lookup in_order b f) i).
Proof.
  intros F H. pose proof (Hl i) as L. destruct (nth_error (s_lazies a) i) as [l|] eqn:E, (nth_error (s_lazies b) i) as [l'|] eqn:E'; try contradiction.
  2:{ unfold p_resolve. rewrite E, E'. reflexivity. }
  destruct L as (R & R' & [[A D]|S]); [|now apply S].
  unfold p_resolve. rewrite E, E', R, R', <- D. destruct (parse (lz_def l)) as [g|e] eqn:P; cbn [bind]; [|reflexivity].
  pose proof (ascii_identifiers _ _ A P) as I.
  assert (Rf : both twins (p_refs in_order (p_lookup in_order a f) (identifiers g)) (p_refs in_order (p_lookup in_order b f) (identifiers g))).
  { apply refs_agree. eapply Forall_impl; [|exact I]. exact H. }
  destruct (p_refs in_order (p_lookup in_order a f) (identifiers g)) as [r|], (p_refs in_order (p_lookup in_order b f) (identifiers g)) as [r'|];
    cbn [bind both] in *; try contradiction; auto.
  pose proof (twins_unit g r r' Rf) as M. destruct (mk_unit g r), (mk_unit g r'); cbn [both] in *; try contradiction; auto. exact (proj2 (proj2 M)).
Qed.

Lemma entry_agree f e e' : (f < depth)%nat ->
  (forall q, ascii q -> both twin (p_lookup in_order a f q) (p_lookup in_order b f q)) -> same_entry e e' ->
  both twin (p_entry in_order a (p_lookup in_order a f) e) (p_entry in_order b (p_lookup in_order b f) e').
Proof.
  intros F H S. destruct e as [i|x r], e' as [j|y r']; cbn [same_entry] in S; try contradiction; subst; cbn [p_entry].
  - now apply resolve_agree.
  - reflexivity.
Qed.

Lemma prefixed_agree key p p' k x y : pf_value p = pf_value p' -> twin x y ->
  both twin (prefixed_unit key p k x) (prefixed_unit key p' k y).
Proof.
  intros V T. unfold prefixed_unit. rewrite V.
  assert (W : twins (dset k (RUnit x) [(key, RPrefix (pf_value p'))]) (dset k (RUnit y) [(key, RPrefix (pf_value p'))])).
  { cbn [dset]. destruct (str_eqb k key); repeat constructor; auto. }
  pose proof (twins_unit (Multiply (Identifier key) (Identifier k)) _ _ W) as M.
  destruct (mk_unit _ (dset k (RUnit x) _)), (mk_unit _ (dset k (RUnit y) _)); cbn [both] in *; try contradiction; auto. exact (proj2 (proj2 M)).
Qed.

Lemma lookups_agree f : (f <= depth)%nat -> forall q, ascii q -> both twin (p_lookup in_order a f q) (p_lookup in_order b f q).
Proof.
  induction f as [|f IH]; intros F q Q; cbn [p_lookup]; [reflexivity|]. specialize (IH ltac:(lia)).
  rewrite !p_body_reading. unfold reading_opt. pose proof (Hk q Q) as K.
  destruct (known_opt a q) as [e|], (known_opt b q) as [e'|]; cbn [same_opt of_reading] in *; try contradiction; [apply entry_agree; auto|].
  pose proof (fits_agree _ _ q Q Hn) as Fn. pose proof (fits_agree _ _ q Q Hs) as Fs.
  assert (G : forall key p k e key' p' k' e', same_fit (Some (key, p, k, e)) (Some (key', p', k', e')) ->
    both twin (do x <- p_entry in_order a (p_lookup in_order a f) e ;; prefixed_unit key p k x)
              (do x <- p_entry in_order b (p_lookup in_order b f) e' ;; prefixed_unit key' p' k' x)).
  { intros key p k e key' p' k' e' (-> & V & -> & S). pose proof (entry_agree f e e' F IH S) as X.
    destruct (p_entry in_order a _ e), (p_entry in_order b _ e'); cbn [bind both] in *; try contradiction; auto. now apply prefixed_agree. }
  destruct (fit_opt a q (s_prefix_names a)) as [[[[k1 p1] w1] e1]|], (fit_opt b q (s_prefix_names b)) as [[[[k2 p2] w2] e2]|];
    try contradiction; cbn [of_reading]; [now apply G|].
  destruct (fit_opt a q (s_prefix_symbols a)) as [[[[k1 p1] w1] e1]|], (fit_opt b q (s_prefix_symbols b)) as [[[[k2 p2] w2] e2]|];
    try contradiction; cbn [of_reading]; [now apply G|reflexivity].
Qed.

Lemma texts_agree f t : (f <= depth)%nat -> ascii t -> both any_twin (p_unit in_order a f t) (p_unit in_order b f t).
Proof.
  intros F A. unfold p_unit. destruct (parse t) as [g|e] eqn:P; cbn [bind]; [|reflexivity].
  pose proof (ascii_identifiers _ _ A P) as I. pose proof (lookups_agree f F) as H.
  assert (Rf : both twins (p_refs in_order (p_lookup in_order a f) (identifiers g)) (p_refs in_order (p_lookup in_order b f) (identifiers g))).
  { apply refs_agree. eapply Forall_impl; [|exact I]. exact H. }
  destruct (p_refs in_order (p_lookup in_order a f) (identifiers g)) as [r|], (p_refs in_order (p_lookup in_order b f) (identifiers g)) as [r'|];
    cbn [bind both] in *; try contradiction; auto.
  now apply twins_from.
Qed.
End Two.

(** ** deciding the agreement *)
Definition unit_eqb (x y : unit) : bool :=
  match x, y with UBasis r d t, UBasis r' d' t' => str_eqb r r' && Bool.eqb d d' && Bool.eqb t t' | _, _ => false end.
Definition entry_eqb (e e' : entry) : bool :=
  match e, e' with ELazy i, ELazy j => Nat.eqb i j | EUnit x _, EUnit y _ => unit_eqb x y | _, _ => false end.
Definition opt_eqb (a b : option entry) : bool :=
  match a, b with Some e, Some e' => entry_eqb e e' | None, None => true | _, _ => false end.
Definition words_agree (a b : system) : bool :=
  forallb (fun k => if is_ascii k then opt_eqb (known_opt a k) (known_opt b k) else true) (all_words a ++ all_words b).

Lemma opt_eqb_same x y : opt_eqb x y = true -> same_opt x y.
Proof.
  destruct x as [[i|[r d t|] n]|], y as [[j|[r' d' t'|] n']|]; cbn [opt_eqb entry_eqb unit_eqb same_opt same_entry]; try discriminate; auto.
  - apply Nat.eqb_eq.
  - intro H. apply andb_prop in H as [H H3]. apply andb_prop in H as [H1 H2]. apply eqb_spec in H1.
    apply Bool.eqb_prop in H2, H3. congruence.
Qed.
Lemma known_in s k e : known_opt s k = Some e -> In k (all_words s).
Proof.
  unfold known_opt, get_or, all_words. rewrite !in_app_iff, <- !dmem_In. unfold dmem.
  destruct (dget k (s_names s)); auto. destruct (dget k (s_alias_names s)); auto.
  destruct (dget k (s_symbols s)); auto. destruct (dget k (s_alias_symbols s)); auto. discriminate.
Qed.
Lemma words_agree_ok a b : words_agree a b = true -> forall k, ascii k -> same_opt (known_opt a k) (known_opt b k).
Proof.
  intros W k A. apply is_ascii_iff in A. unfold words_agree in W. rewrite forallb_forall in W.
  assert (G : In k (all_words a ++ all_words b) -> same_opt (known_opt a k) (known_opt b k)).
  { intro I. specialize (W k I). rewrite A in W. now apply opt_eqb_same. }
  destruct (known_opt a k) as [e|] eqn:E.
  - apply G. apply in_or_app. left. now apply known_in with e.
  - destruct (known_opt b k) as [e'|] eqn:E'; [|exact Logic.I]. apply G. apply in_or_app. right. now apply known_in with e'.
Qed.

Fixpoint pairs_eqb (x y : list (str * str)) : bool :=
  match x, y with
  | [], [] => true
  | (k, v) :: x', (k', v') :: y' => str_eqb k k' && str_eqb v v' && pairs_eqb x' y'
  | _, _ => false
  end.
Lemma pairs_eqb_eq x : forall y, pairs_eqb x y = true -> x = y.
Proof.
  induction x as [|[k v] x IH]; intros [|[k' v'] y]; cbn [pairs_eqb]; try discriminate; auto. intro H.
  apply andb_prop in H as [H H3]. apply andb_prop in H as [H1 H2]. apply eqb_spec in H1, H2. apply IH in H3. congruence.
Qed.

Definition lazy_agree (l l' : lazy) : bool :=
  match lz_resolved l, lz_resolved l' with None, None => is_ascii (lz_def l) && str_eqb (lz_def l) (lz_def l') | _, _ => false end.
(** the indices of those that do not *)
Fixpoint odd_lazies (i : nat) (x y : list lazy) : option (list nat) :=
  match x, y with
  | [], [] => Some []
  | l :: x', l' :: y' =>
    match lz_resolved l, lz_resolved l', odd_lazies (S i) x' y' with
    | None, None, Some r => Some (if lazy_agree l l' then r else i :: r)
    | _, _, _ => None
    end
  | _, _ => None
  end.
Lemma odd_lazies_ok x : forall i y r, odd_lazies i x y = Some r -> forall j,
  match nth_error x j, nth_error y j with
  | Some l, Some l' => lz_resolved l = None /\ lz_resolved l' = None /\ ((ascii (lz_def l) /\ lz_def l = lz_def l') \/ In (i + j)%nat r)
  | None, None => True
  | _, _ => False
  end.
Proof.
  induction x as [|l x IH]; intros i [|l' y] r; cbn [odd_lazies]; try discriminate; [intros _ [|j]; exact Logic.I|].
  destruct (lz_resolved l) eqn:E; [discriminate|]. destruct (lz_resolved l') eqn:E'; [discriminate|].
  destruct (odd_lazies (S i) x y) as [r0|] eqn:O; [|discriminate]. intro R. injection R as <-. intros [|j]; cbn [nth_error].
  - split; [exact E|]. split; [exact E'|]. destruct (lazy_agree l l') eqn:L.
    + left. unfold lazy_agree in L. rewrite E, E' in L. apply andb_prop in L as [L1 L2]. apply is_ascii_iff in L1. apply eqb_spec in L2. auto.
    + right. left. lia.
  - specialize (IH (S i) y r0 O j). destruct (nth_error x j), (nth_error y j); try contradiction; auto.
    destruct IH as (I1 & I2 & [I3|I3]); split; auto; split; auto. right. replace (i + S j)%nat with (S i + j)%nat by lia.
    destruct (lazy_agree l l'); [exact I3|now right].
Qed.

(** what a lazily defined unit comes out as, with each stack below [depth] *)
Definition outcomes (s : system) (depth i : nat) : list (res (res dimval * res bool * res node)) :=
  map (fun f => do x <- p_resolve in_order s (p_lookup in_order s f) i ;; Ok (obs x)) (seq 0 depth).
Lemma outcomes_ok a b depth i : outcomes a depth i = outcomes b depth i -> forall f, (f < depth)%nat ->
  both twin (p_resolve in_order a (p_lookup in_order a f) i) (p_resolve in_order b (p_lookup in_order b f) i).
Proof.
  intros E f F. unfold outcomes in E.
  assert (G : forall l, In f l ->
    map (fun f => do x <- p_resolve in_order a (p_lookup in_order a f) i ;; Ok (obs x)) l =
    map (fun f => do x <- p_resolve in_order b (p_lookup in_order b f) i ;; Ok (obs x)) l ->
    both twin (p_resolve in_order a (p_lookup in_order a f) i) (p_resolve in_order b (p_lookup in_order b f) i)).
  { clear. intro l. induction l as [|g l IH]; [intros []|]. cbn [map]. intros I E. injection E as E1 E2. destruct I as [->|I]; [|auto].
    destruct (p_resolve in_order a _ i), (p_resolve in_order b _ i); cbn [bind both] in *; try discriminate; unfold twin; congruence. }
  apply (G (seq 0 depth)); [apply in_seq; lia|exact E].
Qed.

Lemma systems_agree a b depth odd :
  words_agree a b = true ->
  pairs_eqb (ascii_prefixes (s_prefix_names a)) (ascii_prefixes (s_prefix_names b)) = true ->
  pairs_eqb (ascii_prefixes (s_prefix_symbols a)) (ascii_prefixes (s_prefix_symbols b)) = true ->
  odd_lazies 0 (s_lazies a) (s_lazies b) = Some odd ->
  (forall i, In i odd -> outcomes a depth i = outcomes b depth i) ->
  forall f t, (f <= depth)%nat -> ascii t -> both any_twin (p_unit in_order a f t) (p_unit in_order b f t).
Proof.
  intros W Pn Ps O H f t F A. apply pairs_eqb_eq in Pn, Ps. apply (texts_agree a b depth); auto.
  - now apply words_agree_ok.
  - intro i. pose proof (odd_lazies_ok _ 0 _ _ O i) as L. cbn [Nat.add] in L.
    destruct (nth_error (s_lazies a) i), (nth_error (s_lazies b) i); try contradiction; auto.
    destruct L as (L1 & L2 & [L3|L3]); split; auto; split; auto. right. apply outcomes_ok. auto.
Qed.
