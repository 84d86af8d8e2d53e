(** * Units registered while others look units up: facts *)
From Verif Require Import PyBase PyNum Graph LexSpec Visitor Expr Units UnitSpec UnitFacts UnitProofs UnitSystem SystemSpec SystemFacts
  SystemProofs SystemMore SystemKeep SystemGrow Process ProcessFacts SysShared SysSharedFacts SysGrow SysPrefix.
From Verif Require Atn AtnShared AtnSharedFacts PShared PSharedFacts.
From Coq Require Import Permutation.

(** ** add_unit alone *)
Lemma alone_checks t v ks : forall s, alone (t_checks t v ks) s =
  (if existsb (fun k => dmem k (content t s)) ks then Err (EValue v) else Ok tt, s).
Proof.
  induction ks as [|k ks IH]; intro s; cbn [t_checks alone does existsb]; [reflexivity|].
  unfold dmem at 1. destruct (dget k (content t s)); cbn [orb alone]; [reflexivity|apply IH].
Qed.
Lemma alone_add e r s : alone (t_add e r) s =
  match add_unit e r false s with Ok s' => (Ok tt, s') | Err x => (Err x, s) end.
Proof.
  unfold t_add, add_unit. rewrite alone_bind. unfold mbind at 1. rewrite alone_checks. cbn [content negb andb].
  destruct (existsb _ (ref_names r)); [reflexivity|]. rewrite alone_bind. unfold mbind. rewrite alone_checks. cbn [content].
  destruct (existsb _ (r_symbols r)); [reflexivity|]. apply alone_register.
Qed.

(** ** small facts *)
Lemma get_content s k : known_opt s k =
  match get_or k (content Names s) (content AliasNames s) with Some e => Some e | None => get_or k (content Symbols s) (content AliasSymbols s) end.
Proof. reflexivity. Qed.

Lemma known_in_table s k e : known_opt s k = Some e -> exists t, dget k (content t s) = Some e.
Proof.
  rewrite get_content. unfold get_or. destruct (dget k (content Names s)) as [a|] eqn:E1; [intro H; exists Names; congruence|].
  destruct (dget k (content AliasNames s)) as [a|] eqn:E2; [intro H; exists AliasNames; congruence|].
  destruct (dget k (content Symbols s)) as [a|] eqn:E3; [intro H; exists Symbols; congruence|]. intro H. exists AliasSymbols. exact H.
Qed.
Lemma table_known s k t : dget k (content t s) <> None -> known_opt s k <> None.
Proof.
  rewrite get_content. unfold get_or. intro H. destruct (dget k (content Names s)) eqn:E1; [discriminate|].
  destruct (dget k (content AliasNames s)) eqn:E2; [discriminate|]. destruct (dget k (content Symbols s)) eqn:E3; [discriminate|].
  destruct t; congruence.
Qed.
Lemma unknown_tables s k : known_opt s k = None <-> forall t, dget k (content t s) = None.
Proof.
  split.
  - intros H t. destruct (dget k (content t s)) eqn:E; [|reflexivity]. exfalso. apply (table_known s k t); [congruence|exact H].
  - intro H. rewrite get_content. unfold get_or. now rewrite !H.
Qed.

Lemma fit_none_rests s q ps : fit_opt s q ps = None <-> forall k, In k (rests q ps) -> known_opt s k = None.
Proof.
  induction ps as [|[key p] ps IH]; cbn [fit_opt rests flat_map fst]; [split; [intros _ k []|reflexivity]|].
  destruct (strip_prefix key q) as [k|].
  - destruct (known_opt s k) as [e|] eqn:K.
    + split; [discriminate|]. intro H. rewrite (H k) in K; [discriminate|]. now left.
    + rewrite IH. split.
      * intros H k' [<-|I]; [exact K|]. now apply H.
      * intros H k' I. apply H. now right.
  - exact IH.
Qed.
Lemma unreadable_ways s q : unreadable s q <-> forall k, In k (ways s q) -> known_opt s k = None.
Proof.
  rewrite unreadable_iff. unfold reading_opt, ways. split.
  - destruct (known_opt s q) eqn:K; [discriminate|]. destruct (fit_opt s q (s_prefix_names s)) as [[[[? ?] ?] ?]|] eqn:F1; [discriminate|].
    destruct (fit_opt s q (s_prefix_symbols s)) as [[[[? ?] ?] ?]|] eqn:F2; [discriminate|]. intros _ k [<-|I]; [exact K|].
    apply in_app_or in I. destruct I as [I|I]; [exact (proj1 (fit_none_rests _ _ _) F1 k I)|exact (proj1 (fit_none_rests _ _ _) F2 k I)].
  - intro H. rewrite (H q) by now left.
    assert (F1 : fit_opt s q (s_prefix_names s) = None) by (apply fit_none_rests; intros k I; apply H; right; apply in_or_app; auto).
    assert (F2 : fit_opt s q (s_prefix_symbols s) = None) by (apply fit_none_rests; intros k I; apply H; right; apply in_or_app; auto).
    now rewrite F1, F2.
Qed.

Section Growing.
Variable ord : list str -> list str.
Hypothesis perm : rearranges ord.
Variables s0 full : system.
Variable more : ptable -> dict prefix.
Hypothesis PR : forall t, prefixes t full = prefixes t s0 ++ more t.
Hypothesis PK : forall t, NoDup (map fst (more t)).
Hypothesis PF : forall t key, In key (map fst (more t)) -> dget key (prefixes t s0) = None.
Hypothesis LZ : s_lazies full = s_lazies s0.
Hypothesis OLD : forall k, known_opt s0 k <> None -> forall t, dget k (content t full) = dget k (content t s0).
Hypothesis NEW : forall k, known_opt s0 k = None -> forall t t' e e',
  dget k (content t full) = Some e -> dget k (content t' full) = Some e' -> e = e'.
Definition knownb (k : str) : bool := match known_opt full k with Some _ => true | None => false end.
Hypothesis ONE : forall k q, known_opt s0 k = None -> known_opt full k <> None -> In k (ways full q) ->
  List.length (filter knownb (ways full q)) = 1%nat.
Hypothesis ONEP : forall t key k q, In key (map fst (more t)) -> strip_prefix key q = Some k -> known_opt full k <> None ->
  List.length (filter knownb (ways full q)) = 1%nat.
Hypothesis clean : clash_free full.
Hypothesis texts : forall i l, nth_error (s_lazies full) i = Some l -> is_text (lz_def l).

(** a word: as in the end, perhaps resolved; or not there yet *)
Definition mrel (t : table) (k : str) (o : option entry) : Prop :=
  erel ord full (dget k (content t full)) o \/ (o = None /\ known_opt s0 k = None).

(** what holds of the shared system at every moment *)
Definition now (s : system) : Prop :=
  (forall t, exists extra, prefixes t s = prefixes t s0 ++ extra /\ NoDup (map fst extra) /\ incl extra (more t)) /\
  (forall t k, mrel t k (dget k (content t s))) /\
  List.length (s_lazies s) = List.length (s_lazies full) /\
  (forall i l0 l, nth_error (s_lazies full) i = Some l0 -> nth_error (s_lazies s) i = Some l -> lrel ord full i l0 l).

Lemma now_refl : now s0.
Proof.
  split. { intro t. exists []. rewrite app_nil_r. split; [reflexivity|]. split; [constructor|intros x []]. }
  split; [|split; [now rewrite LZ|]].
  - intros t k. unfold mrel. destruct (known_opt s0 k) as [e|] eqn:K.
    + left. rewrite (OLD k); [apply Er_same|congruence].
    + right. split; [|reflexivity]. now apply unknown_tables.
  - rewrite LZ. intros i l0 l H1 H2. assert (l = l0) as -> by congruence. split; [reflexivity|]. split; [reflexivity|now left].
Qed.

Lemma now_object s i l : now s -> nth_error (s_lazies s) i = Some l ->
  exists l0, nth_error (s_lazies full) i = Some l0 /\ lrel ord full i l0 l.
Proof.
  intros (_ & _ & LL & LR) N. destruct (nth_error (s_lazies full) i) as [l0|] eqn:N0.
  - eauto.
  - apply nth_error_None in N0. assert (X : nth_error (s_lazies s) i <> None) by congruence. apply nth_error_Some in X. lia.
Qed.
Lemma now_no_object s i : now s -> nth_error (s_lazies s) i = None -> nth_error (s_lazies full) i = None.
Proof. intros (_ & _ & LL & _) N. apply nth_error_None. rewrite <- LL. now apply nth_error_None. Qed.

(** what is known at a moment is known in the end *)
Lemma now_known s k : now s -> known_opt s k <> None -> known_opt full k <> None.
Proof.
  intros (_ & T & _) H. destruct (known_opt s k) as [e|] eqn:E; [|contradiction]. apply known_in_table in E as (t & E).
  apply (table_known full k t). destruct (T t k) as [R|[R _]]; rewrite E in R; [|discriminate]. inversion R; congruence.
Qed.
(** what is known before is known at every moment *)
Lemma now_old s k : now s -> known_opt s0 k <> None -> known_opt s k <> None.
Proof.
  intros (_ & T & _) H. destruct (known_opt s0 k) as [e|] eqn:E; [|contradiction]. pose proof E as E'. apply known_in_table in E as (t & E).
  apply (table_known s k t). destruct (T t k) as [R|[_ R]]; [|congruence]. rewrite (OLD k), E in R by congruence. inversion R; congruence.
Qed.

(** an access that keeps it *)
Definition keeps_now {B} (a : access B) : Prop := forall s, now s -> now (snd (does a s)).

Lemma put_now t k e : erel ord full (dget k (content t full)) (Some e) -> keeps_now (Put t k e).
Proof.
  intros E s (P1 & T & LL & LR). cbn [does snd]. split; [destruct t; exact P1|]. split; [|split; [exact LL|exact LR]].
  intros t' k'. rewrite content_put. destruct t, t'; try apply T; rewrite dget_dset; (destruct (str_eqb k' k) eqn:K; [|apply T]);
    apply eqb_spec in K; subst k'; left; exact E.
Qed.

Lemma set_now i x : val ord full i x -> keeps_now (SetResolved i x).
Proof.
  intros V s L. pose proof L as (P1 & T & LL & LR). cbn [does snd]. unfold set_resolved.
  destruct (nth_error (s_lazies s) i) as [l|] eqn:N; [|exact L]. destruct (now_object s i l L N) as (l0 & N0 & D & M & RS).
  split; [exact P1|]. split; [exact T|]. split.
  - cbn [set_lazy s_lazies]. assert (i < List.length (s_lazies s))%nat by (apply nth_error_Some; congruence).
    rewrite app_length, firstn_length. cbn [List.length]. rewrite skipn_length. lia.
  - intros j j0 lj Nj0 Nj. rewrite (nth_set i _ l s j N) in Nj. destruct (Nat.eqb_spec j i) as [->|NE]; [|eauto].
    injection Nj as <-. assert (j0 = l0) as -> by congruence. split; [exact D|]. split; [exact M|]. cbn [lz_resolved].
    destruct (lz_resolved l0) as [y|] eqn:R.
    + left. destruct V as [f V]. unfold p_resolve in V. rewrite N0, R in V. congruence.
    + right. eauto.
Qed.

Lemma get_now t k : keeps_now (Get t k). Proof. intros s L. exact L. Qed.
Lemma object_now i : keeps_now (Object i). Proof. intros s L. exact L. Qed.
Lemma items_now t : keeps_now (Items t). Proof. intros s L. exact L. Qed.
Lemma item_now t i : keeps_now (Item t i). Proof. intros s L. exact L. Qed.

(** prefixes that are not there yet *)
Lemma sub_perm {A} (l m : list A) : NoDup l -> incl l m -> exists o, Permutation m (l ++ o).
Proof.
  revert m. induction l as [|x l IH]; intros m D I; [exists m; apply Permutation_refl|]. inversion D as [|? ? D1 D2]; subst.
  destruct (in_split x m (I x (or_introl eq_refl))) as (m1 & m2 & ->).
  destruct (IH (m1 ++ m2) D2) as (o & Po).
  { intros y J. assert (Y : In y (m1 ++ x :: m2)) by (apply I; now right). rewrite in_app_iff in *. destruct Y as [Y|[->|Y]]; auto. contradiction. }
  exists o. cbn [app]. eapply Permutation_trans; [apply Permutation_sym, Permutation_middle|]. now apply perm_skip.
Qed.
Lemma now_missing s t : now s -> exists missing, Permutation (prefixes t full) (prefixes t s ++ missing).
Proof.
  intros (P1 & _). destruct (P1 t) as (ex & -> & D & I). rewrite PR. apply NoDup_map_inv in D. destruct (sub_perm ex (more t) D I) as (o & Po).
  exists o. rewrite <- app_assoc. now apply Permutation_app_head.
Qed.
Lemma rests_app q a b : rests q (a ++ b) = rests q a ++ rests q b.
Proof. apply flat_map_app. Qed.
Lemma rests_perm q a b : Permutation a b -> Permutation (rests q a) (rests q b).
Proof. apply Permutation_flat_map. Qed.
Lemma ways_missing s q : forall a b, Permutation (prefixes PNames full) (prefixes PNames s ++ a) -> Permutation (prefixes PSymbols full) (prefixes PSymbols s ++ b) ->
  Permutation (ways full q) (ways s q ++ rests q a ++ rests q b).
Proof.
  intros a b Pa Pb. apply (rests_perm q) in Pa, Pb. rewrite rests_app in Pa, Pb. unfold ways. cbn [prefixes app] in *. apply perm_skip.
  eapply Permutation_trans; [apply Permutation_app; [exact Pa|exact Pb]|]. rewrite <- !app_assoc. apply Permutation_app_head.
  rewrite !app_assoc. apply Permutation_app_tail. apply Permutation_app_comm.
Qed.
Lemma ways_table t q : exists o, Permutation (ways full q) (rests q (prefixes t full) ++ o).
Proof.
  unfold ways. destruct t; cbn [prefixes].
  - exists (q :: rests q (s_prefix_symbols full)). apply Permutation_middle.
  - exists (q :: rests q (s_prefix_names full)). apply (Permutation_app_comm (q :: rests q (s_prefix_names full))).
Qed.
Lemma now_table s t q : now s -> exists o, Permutation (ways full q) (rests q (prefixes t s) ++ o).
Proof.
  intro N. destruct (ways_table t q) as (o & W), (now_missing s t N) as (a & Pa). exists (rests q a ++ o). eapply Permutation_trans; [exact W|].
  apply (rests_perm q) in Pa. rewrite rests_app in Pa. rewrite app_assoc. now apply Permutation_app_tail.
Qed.
Lemma now_incl s q : now s -> incl (ways s q) (ways full q).
Proof.
  intro N. destruct (now_missing s PNames N) as (a & Pa), (now_missing s PSymbols N) as (b & Pb).
  intros k I. eapply Permutation_in; [apply Permutation_sym, (ways_missing s q); eauto|]. apply in_or_app. now left.
Qed.
Lemma two_ways q A B k k' : Permutation (ways full q) (A ++ B) -> List.length (filter knownb (ways full q)) = 1%nat ->
  In k A -> In k' B -> known_opt full k <> None -> known_opt full k' <> None -> False.
Proof.
  intros W L I I' N N'. 
  assert (FP : forall l l', Permutation l l' -> List.length (filter knownb l) = List.length (filter knownb l')).
  { intros l l' Q. induction Q as [|x l l' _ IH|x y l|? ? ? _ IH1 _ IH2]; cbn [filter]; [reflexivity| | |congruence].
    - destruct (knownb x); cbn [List.length]; congruence.
    - destruct (knownb x), (knownb y); reflexivity. }
  rewrite (FP _ _ W), filter_app, app_length in L.
  assert (A1 : In k (filter knownb A)) by (apply filter_In; split; [exact I|]; unfold knownb; now destruct (known_opt full k)).
  assert (A2 : In k' (filter knownb B)) by (apply filter_In; split; [exact I'|]; unfold knownb; now destruct (known_opt full k')).
  destruct (filter knownb A); [destruct A1|]. destruct (filter knownb B); [destruct A2|]. cbn [List.length] in L. lia.
Qed.
Lemma fit_in q ps key p k e : fit_opt full q ps = Some (key, p, k, e) -> In (key, p) ps /\ strip_prefix key q = Some k /\ known_opt full k = Some e.
Proof.
  induction ps as [|[key1 p1] ps IH]; cbn [fit_opt]; intro H; [discriminate|]. destruct (strip_prefix key1 q) as [k1|] eqn:E.
  - destruct (known_opt full k1) as [e1|] eqn:K; [|destruct (IH H) as (I & X); split; [now right|exact X]].
    injection H as -> -> -> ->. split; [now left|]. now split.
  - destruct (IH H) as (I & X). split; [now right|exact X].
Qed.
Lemma rest_in q (ps : dict prefix) key p k : In (key, p) ps -> strip_prefix key q = Some k -> In k (rests q ps).
Proof. intros I E. unfold rests. apply in_flat_map. exists (key, p). split; [exact I|]. cbn [fst]. rewrite E. now left. Qed.
Lemma dget_none_in {V} key (v : V) d : dget key d = None -> ~ In (key, v) d.
Proof.
  induction d as [|[k' v'] d IH]; cbn [dget]; [intros _ []|]. destruct (str_eqb key k') eqn:E; [discriminate|].
  intros H [X|X]; [injection X as -> ->; rewrite (proj2 (eqb_spec key key) eq_refl) in E; discriminate|exact (IH H X)].
Qed.

(** words stay *)
Definition stays (s s' : system) : Prop := forall t k, dget k (content t s) <> None -> dget k (content t s') <> None.
Lemma stays_refl s : stays s s. Proof. intros t k H. exact H. Qed.
Lemma stays_trans a b c : stays a b -> stays b c -> stays a c. Proof. intros H1 H2 t k H. auto. Qed.
Lemma stays_does {B} (a : access B) s : stays s (snd (does a s)).
Proof.
  destruct a as [t k|t k e|j|j y|t|t j]; cbn [does snd]; try apply stays_refl.
  - intros t' k' H. rewrite content_put. destruct t, t'; try exact H; rewrite dget_dset; (destruct (str_eqb k' k); [discriminate|exact H]).
  - unfold set_resolved. destruct (nth_error (s_lazies s) j); [|apply stays_refl]. intros t k H. destruct t; exact H.
Qed.

(** what the others leave of a system *)
Definition follows (s s' : system) : Prop :=
  stays s s' /\ (forall i, resolved i s -> resolved i s') /\ forall t, exists e, prefixes t s' = prefixes t s ++ e.
Lemma follows_refl s : follows s s.
Proof. split; [apply stays_refl|]. split; [auto|]. intro t. exists []. now rewrite app_nil_r. Qed.
Lemma follows_trans a b c : follows a b -> follows b c -> follows a c.
Proof.
  intros (S1 & R1 & P1) (S2 & R2 & P2). split; [eapply stays_trans; eauto|]. split; [auto|]. intro t.
  destruct (P1 t) as (e1 & E1), (P2 t) as (e2 & E2). exists (e1 ++ e2). now rewrite E2, E1, app_assoc.
Qed.
Lemma follows_does {B} (a : access B) s : follows s (snd (does a s)).
Proof.
  split; [apply stays_does|]. split; [intro i; apply resolved_does|]. intro t. exists []. now rewrite app_nil_r, same_prefixes.
Qed.

(** ** A look-up that began in [s1] *)
Section Since.
Variable s1 : system.
Hypothesis N1 : now s1.

(** [safe P K p]: when the thread last saw the system [K], then whatever other threads do
    between its accesses, [p] keeps [now] and ends with a result in [P] *)
Fixpoint safe {A} (P : res A -> Prop) (K : system) (p : prog A) : Prop :=
  match p with
  | Done r => P r
  | Act a k => keeps_now a /\
      forall s, now s -> follows s1 s -> follows K s -> safe P (snd (does a s)) (k (fst (does a s)))
  | Read t k => is_text t /\ safe P K (k (parse t))
  end.

Lemma Sf_done {A} (P : res A -> Prop) K r : P r -> safe P K (Done r). Proof. auto. Qed.
Lemma Sf_act {A B} (P : res A -> Prop) K (a : access B) k : keeps_now a ->
    (forall s, now s -> follows s1 s -> follows K s -> safe P (snd (does a s)) (k (fst (does a s)))) -> safe P K (Act a k).
Proof. now split. Qed.
Lemma Sf_read {A} (P : res A -> Prop) K t k : is_text t -> safe P K (k (parse t)) -> safe P K (Read t k).
Proof. now split. Qed.

Lemma safe_weaken {A} (P Q : res A -> Prop) K p : (forall r, P r -> Q r) -> safe P K p -> safe Q K p.
Proof.
  intro H. revert K. induction p as [r|B a k IH|t k IH]; intros K S; cbn [safe] in *; [auto| |]; destruct S as [H1 H2]; split; auto.
Qed.

Lemma safe_bind {A B} (P : res A -> Prop) (Q : res B -> Prop) p f : forall K, safe P K p ->
  (forall (K' : system) a, follows K K' -> P (Ok a) -> safe Q K' (f a)) -> (forall e, P (Err e) -> Q (Err e)) -> safe Q K (pbind p f).
Proof.
  induction p as [r|C a k IH|t k IH]; intros K S H1 H2; cbn [pbind safe] in *.
  - destruct r as [a|e]; [apply H1; [apply follows_refl|exact S]|now apply H2].
  - destruct S as [X S]. split; [exact X|]. intros s N St Kn. apply IH; auto. intros K' a' L. apply H1. eapply follows_trans; [exact Kn|]. exact (follows_trans _ _ _ (follows_does a s) L).
  - destruct S as [T S]. split; [exact T|]. now apply IH.
Qed.

Lemma safe_learn {A} (P : res A -> Prop) p : forall K, safe P K p -> forall K', follows K K' -> safe P K' p.
Proof.
  induction p as [r|B a k IH|t k IH]; intros K S K' L; cbn [safe] in *.
  - exact S.
  - destruct S as [H1 H2]. split; [exact H1|]. intros s N St Kn. apply H2; [exact N|exact St|]. eapply follows_trans; [exact L|exact Kn].
  - destruct S as [H1 H2]. split; [exact H1|]. now apply (IH _ K).
Qed.
Lemma safe_swap {A B} (P : res B -> Prop) (p : prog A) f g : forall K, safe P K (pbind p f) ->
  (forall (K' : system) a, follows K K' -> safe P K' (f a) -> safe P K' (g a)) -> safe P K (pbind p g).
Proof.
  induction p as [[a|e]|C a k IH|t k IH]; intros K S H; cbn [pbind safe] in *; [apply H; [apply follows_refl|exact S]|exact S| |].
  - destruct S as [X S]. split; [exact X|]. intros s N St Kn. apply IH; auto. intros K' a' L. apply H. eapply follows_trans; [exact Kn|]. exact (follows_trans _ _ _ (follows_does a s) L).
  - destruct S as [T S]. split; [exact T|]. now apply IH.
Qed.

Ltac sf := first [apply Sf_done | apply Sf_act | apply Sf_read].

(** a prefix that was not there yet *)
Definition late_prefix : Prop := exists t key p, In (key, p) (prefixes t full) /\ ~ In (key, p) (prefixes t s1).
Lemma appears_late s t ex x e : now s -> prefixes t s = prefixes t s1 ++ ex ++ x :: e -> late_prefix.
Proof.
  intros (PX & _) E. destruct (PX t) as (e2 & E2 & D2 & I2). pose proof N1 as (PY & _). destruct (PY t) as (e1 & E1 & _ & _).
  rewrite E1, <- app_assoc, E2 in E. apply app_inv_head in E. subst e2. destruct x as [key p].
  assert (J : In (key, p) (more t)) by (apply I2; apply in_or_app; right; apply in_or_app; right; now left).
  exists t, key, p. rewrite PR. split; [apply in_or_app; now right|]. rewrite E1. intro H. apply in_app_or in H. destruct H as [H|H].
  - apply (dget_none_in key p (prefixes t s0)); [|exact H]. apply PF. apply in_map_iff. exists (key, p). now split.
  - rewrite !map_app in D2. apply NoDup_remove_2 with (l := map fst e1 ++ map fst ex) (l' := map fst e) (a := key).
    + rewrite <- app_assoc. exact D2.
    + apply in_or_app. left. apply in_or_app. left. apply in_map_iff. exists (key, p). now split.
Qed.
(** as in the end, or complaining about a word in [X] or about a prefix that has just appeared *)
Definition bad (X : str -> Prop) (e : exn) : Prop :=
  (exists k, X k /\ e = EUnresolvable k) \/ (e = ERuntime /\ late_prefix).
Definition weak {A} (n : nat) (F : nat -> res A) (X : str -> Prop) (r : res A) : Prop :=
  agree n r F \/ exists e, bad X e /\ r = Err e.
Lemma bad_more (X Y : str -> Prop) e : (forall k, X k -> Y k) -> bad X e -> bad Y e.
Proof. intros H [(k & Xk & E)|B]; [left|now right]. eauto. Qed.

Lemma weak_const {A} n (r : res A) X : weak n (fun _ => r) X r. Proof. left. apply agree_const. Qed.
Lemma weak_more {A} n F (X Y : str -> Prop) (r : res A) : (forall k, X k -> Y k) -> weak n F X r -> weak n F Y r.
Proof. intros H [A0|(e & Xe & E)]; [now left|]. right. exists e. split; [|exact E]. now apply (bad_more X). Qed.

Lemma weak_bind {A B} n K (p : prog A) F X (f : A -> prog B) G : mono F -> (forall a, mono (G a)) ->
  safe (weak n F X) K p ->
  (forall (K' : system) a, follows K K' -> agree n (Ok a) F -> safe (weak n (G a) X) K' (f a)) ->
  safe (weak n (fun n => bind (F n) (fun a => G a n)) X) K (pbind p f).
Proof.
  intros MF MG S H. eapply safe_bind; [exact S| |].
  - intros K' a L [A0|(k & _ & E)]; [|discriminate]. eapply safe_weaken; [|exact (H K' a L A0)]. intros r [Ar|Xr]; [left|now right].
    apply (agree_bind n (Ok a) F (fun _ => r) G); auto. intros a' E. injection E as <-. exact Ar.
  - intros e [A0|(k & Xk & E)]; [left|right].
    + apply (agree_bind n (Err e) F (fun _ => Err e) G); auto. discriminate.
    + exists k. split; [exact Xk|]. injection E as <-. reflexivity.
Qed.

(** what a definition may lack *)
Definition lacking (q k : str) : Prop := needed full q k /\ unreadable s1 k /\ ~ unreadable full k.
Definition lacks (i : nat) (k : str) : Prop :=
  exists l g id, nth_error (s_lazies full) i = Some l /\ lz_resolved l = None /\ parse (lz_def l) = Ok g /\
    In id (identifiers g) /\ lacking id k.

Lemma lacks_reading q pre i k : reading full q pre (ELazy i) -> lacks i k -> lacking q k.
Proof.
  intros R (l & g & id & N & U & P & I & D & Nr). split; [|exact Nr]. right.
  assert (M : mentions full q id). { exists l, g. split; [|split; [exact P|exact I]]. eapply Db; eauto. }
  destruct D as [<-|D]; [now apply Dep_one|]. now apply Dep_more with id.
Qed.

(** the claims of a definition *)
Lemma owned_put t k i l0 x : nth_error (s_lazies full) i = Some l0 -> val ord full i x ->
  In k (words_in t (lz_names l0)) -> keeps_now (Put t k (EUnit x (lz_names l0))).
Proof.
  intros N V I. apply put_now. destruct (clean i l0 N) as (O1 & O2 & O3 & O4).
  assert (O : dget k (content t full) = Some (ELazy i) \/
    exists y, lz_resolved l0 = Some y /\ dget k (content t full) = Some (EUnit y (lz_names l0))).
  { destruct t; [exact (O1 k I)|exact (O2 k I)|exact (O3 k I)|exact (O4 k I)]. }
  destruct O as [->|(y & R & ->)].
  - now apply Er_resolved.
  - assert (y = x) as ->; [|apply Er_same]. destruct V as [f V]. unfold p_resolve in V. rewrite N, R in V. congruence.
Qed.

Lemma puts_safe t e : forall ks K, (forall k, In k ks -> keeps_now (Put t k e)) -> safe (fun r => r = Ok tt) K (t_puts t ks e).
Proof.
  induction ks as [|k ks IH]; intros K H; cbn [t_puts]; [now sf|]. sf; [apply H; now left|].
  intros s _ _ _. apply IH. intros k' I. apply H. now right.
Qed.

Lemma register_safe i l0 x K : nth_error (s_lazies full) i = Some l0 -> val ord full i x ->
  safe (fun r => r = Ok tt) K (t_register (EUnit x (lz_names l0)) (lz_names l0)).
Proof.
  intros N V. unfold t_register.
  assert (P : forall K t, safe (fun r => r = Ok tt) K (t_puts t (words_in t (lz_names l0)) (EUnit x (lz_names l0)))).
  { intros K' t. apply puts_safe. intros k I. now apply (owned_put t k i). }
  eapply safe_bind; [exact (P K Names)| |discriminate]. intros K1 _ _ _.
  eapply safe_bind; [exact (P K1 Symbols)| |discriminate]. intros K2 _ _ _.
  eapply safe_bind; [exact (P K2 AliasNames)| |discriminate]. intros K3 _ _ _. exact (P K3 AliasSymbols).
Qed.

Section Rec.
Variable n : nat.
Variable rec : str -> prog unit.
Hypothesis R : forall k K, safe (weak n (fun n => p_lookup ord full n k) (lacking k)) K (rec k).

Lemma refs_safe ids K : safe (weak n (fun n => p_refs ord (p_lookup ord full n) ids) (fun k => exists id, In id ids /\ lacking id k)) K (t_refs ord rec ids).
Proof.
  unfold t_refs, p_refs. assert (I : forall id, In id (ord ids) -> In id ids) by (intros id H; eapply Permutation_in; [apply perm|exact H]).
  revert I. generalize (ord ids). intro l. revert K. induction l as [|a l IH]; intros K I; cbn [pmap mapM]; [sf; apply weak_const|].
  apply (weak_bind n K _ (fun n => do x <- p_lookup ord full n a ;; Ok (a, RUnit x)) _ _
    (fun y n => do ys <- mapM (fun k => do x <- p_lookup ord full n k ;; Ok (k, RUnit x)) l ;; Ok (y :: ys))).
  - apply (mono_bind _ (fun x _ => Ok (a, RUnit x))); [apply mono_lookup|]. intro. apply mono_const.
  - intro y. apply (mono_bind _ (fun ys _ => Ok (y :: ys))); [|intro; apply mono_const].
    intros f f' L. apply le_mapM. intro b. apply le_bind; [now apply p_lookup_mono|]. intro. apply le_refl'.
  - apply (weak_bind n K _ (fun n => p_lookup ord full n a) _ _ (fun x _ => Ok (a, RUnit x))).
    + apply mono_lookup.
    + intro. apply mono_const.
    + eapply safe_weaken; [|apply R]. intros r. apply weak_more. intros k D. exists a. split; [|exact D]. apply I. now left.
    + intros K' x _ _. sf. apply weak_const.
  - intros K' y _ _. apply (weak_bind n K' _ (fun n => mapM (fun k => do x <- p_lookup ord full n k ;; Ok (k, RUnit x)) l) _ _ (fun ys _ => Ok (y :: ys))).
    + intros f f' L. apply le_mapM. intro b. apply le_bind; [now apply p_lookup_mono|]. intro. apply le_refl'.
    + intro. apply mono_const.
    + apply IH. intros id J. apply I. now right.
    + intros K2 ys _ _. sf. apply weak_const.
Qed.

(** after the object has been resolved, by anyone *)
Lemma resolved_safe i (K : system) : resolved i K -> safe (fun r => exists x, r = Ok x /\ val ord full i x) K (t_resolved i).
Proof.
  intro Ki. unfold t_resolved. sf; [apply object_now|]. intros s N _ Kn. cbn [does fst snd].
  destruct (proj1 (proj2 Kn) i Ki) as (l & x & Nl & E). rewrite Nl, E. sf. exists x. split; [reflexivity|].
  destruct (now_object s i l N Nl) as (l0 & N0 & L). exact (lrel_val ord full i l0 l x N0 L E).
Qed.

Lemma resolve_safe i K : safe (weak n (fun n => p_resolve ord full (p_lookup ord full n) i) (lacks i)) K (t_resolve ord rec i).
Proof.
  unfold t_resolve. sf; [apply object_now|]. intros s N _ Kn. cbn [does fst snd].
  destruct (nth_error (s_lazies s) i) as [l|] eqn:Nl.
  2: { sf. left. unfold agree, p_resolve. rewrite (now_no_object s i N Nl). exact (agree_const n (Err EOutOfModel)). }
  destruct (now_object s i l N Nl) as (l0 & N0 & L). destruct (lz_resolved l) as [x|] eqn:E.
  { eapply safe_weaken; [|apply resolved_safe; exists l, x; now split]. intros r (y & -> & V). left. now apply val_agree. }
  pose proof L as (D & _ & RS). assert (R0 : lz_resolved l0 = None) by (destruct RS as [RS|(RS & _)]; congruence).
  sf. { rewrite D. exact (texts i l0 N0). }
  destruct (parse (lz_def l)) as [g|e] eqn:Pr; cbn [pbind bind].
  2: { sf. left. unfold agree, p_resolve. rewrite N0, R0, <- D, Pr. exact (agree_const n (Err e)). }
  eapply safe_weaken with (P := weak n (fun n => do refs <- p_refs ord (p_lookup ord full n) (identifiers g) ;; mk_unit g refs)
    (fun k => exists id, In id (identifiers g) /\ lacking id k)).
  { intros r [A0|(e & B & ->)]; [left|right].
    - unfold agree, p_resolve. rewrite N0, R0, <- D, Pr. exact A0.
    - exists e. split; [|reflexivity]. revert B. apply bad_more. intros k (id & I & Dp). exists l0, g, id. rewrite <- D. split; [exact N0|]. split; [exact R0|]. split; [exact Pr|]. now split. }
  apply (weak_bind n s _ (fun n => p_refs ord (p_lookup ord full n) (identifiers g)) _ _ (fun refs _ => mk_unit g refs)).
  - apply mono_refs.
  - intro refs. apply mono_const.
  - apply refs_safe.
  - intros K2 refs _ Ar. destruct (mk_unit g refs) as [x|e] eqn:MK; cbn [pbind]; [|sf; apply weak_const].
    assert (V : val ord full i x).
    { destruct Ar as [[Ar|[F Ar]] _]; [discriminate|]. exists F. unfold p_resolve. rewrite N0, R0, <- D, Pr. cbn [bind]. rewrite Ar. exact MK. }
    sf; [now apply set_now|]. intros s2 N2 _ _. cbn [does fst snd].
    eapply safe_weaken; [|apply resolved_safe].
    + intros r (y & -> & Vy). rewrite (val_unique ord full i y x Vy V). apply weak_const.
    + unfold set_resolved. destruct (nth_error (s_lazies s2) i) as [l2|] eqn:Nl2.
      * eexists _, x. rewrite (nth_set i _ l2 s2 i Nl2), Nat.eqb_refl. split; reflexivity.
      * apply (now_no_object s2 i N2) in Nl2. congruence.
Qed.

Lemma force_safe o0 o K : erel ord full o0 o ->
  safe (weak n (fun n => p_opt ord full (p_lookup ord full n) o0) (fun k => exists i, o0 = Some (ELazy i) /\ lacks i k)) K (t_force ord rec o).
Proof.
  intro E. destruct E as [o|i x r V].
  - destruct o as [[i|x r]|]; cbn [t_force p_opt p_entry bind]; [|sf; apply weak_const|sf; apply weak_const].
    sf; [apply object_now|]. intros s N _ Kn. cbn [does fst snd]. destruct (nth_error (s_lazies s) i) as [l|] eqn:Nl.
    2: { sf. left. unfold agree, p_resolve. rewrite (now_no_object s i N Nl). exact (agree_const n (Err EOutOfModel)). }
    destruct (now_object s i l N Nl) as (l0 & N0 & L).
    apply (weak_bind n _ _ (fun n => p_resolve ord full (p_lookup ord full n) i) _ _ (fun x _ => Ok (Some x))).
    + apply mono_resolve.
    + intro x. apply mono_const.
    + eapply safe_weaken; [|apply resolve_safe]. intro r. apply weak_more. intros k D. exists i. now split.
    + intros K2 x _ Ax. destruct L as (_ & -> & _). eapply safe_bind with (P := fun r => r = Ok tt).
      * apply register_safe with i; [exact N0|]. destruct Ax as [[Ax|[F Ax]] _]; [discriminate|]. now exists F.
      * intros K3 _ _ _. sf. apply weak_const.
      * discriminate.
  - cbn [t_force p_opt p_entry]. sf. left.
    apply (agree_bind n (Ok x) _ (fun x => Ok (Some x)) (fun x _ => Ok (Some x))).
    + apply mono_resolve.
    + intro y. apply mono_const.
    + now apply val_agree.
    + intros y _. apply agree_const.
Qed.

(** two reads: what is found is right; if nothing is found the word is unknown in the end,
    or it was not there when the call was made *)
Lemma get_safe t1 t2 k K :
  safe (fun r => exists o, r = Ok o /\
    match o with
    | Some e => known_opt s0 k = None /\ (exists t, erel ord full (dget k (content t full)) (Some e)) \/
                erel ord full (get_or k (content t1 full) (content t2 full)) (Some e)
    | None => dget k (content t1 s1) = None /\ dget k (content t2 s1) = None /\
              (known_opt s0 k = None \/ get_or k (content t1 full) (content t2 full) = None)
    end) K (t_get_or t1 t2 k).
Proof.
  unfold t_get_or, get_or. sf; [apply get_now|]. intros s (_ & T & _) St _. cbn [does fst snd].
  pose proof (T t1 k) as E1. destruct (dget k (content t1 s)) as [e|] eqn:G1.
  - sf. exists (Some e). split; [reflexivity|]. destruct E1 as [E1|[E1 _]]; [|discriminate]. right.
    destruct (dget k (content t1 full)) as [e0|]; [exact E1|]. inversion E1.
  - sf; [apply get_now|]. intros s2 (_ & T2 & _) St2 _. cbn [does fst snd]. sf. eexists. split; [reflexivity|].
    pose proof (T2 t2 k) as E2. destruct (dget k (content t2 s2)) as [e|] eqn:G2.
    + destruct E2 as [E2|[E2 _]]; [|discriminate]. destruct E1 as [E1|[_ E1]].
      * right. destruct (dget k (content t1 full)) as [e0|]; [inversion E1|exact E2].
      * left. split; [exact E1|]. now exists t2.
    + split. { destruct (dget k (content t1 s1)) eqn:X; [|reflexivity]. exfalso. apply (proj1 St t1 k); congruence. }
      split. { destruct (dget k (content t2 s1)) eqn:X; [|reflexivity]. exfalso. apply (proj1 St2 t2 k); congruence. }
      destruct E1 as [E1|[_ E1]]; [|now left]. destruct E2 as [E2|[_ E2]]; [|now left]. right.
      destruct (dget k (content t1 full)); [inversion E1|]. destruct (dget k (content t2 full)); [inversion E2|]. reflexivity.
Qed.

(** a new word has one entry *)
Lemma new_entry k t e : known_opt s0 k = None -> erel ord full (dget k (content t full)) (Some e) -> erel ord full (known_opt full k) (Some e).
Proof.
  intros U E. destruct (dget k (content t full)) as [e0|] eqn:G; [|inversion E].
  assert (X : known_opt full k = Some e0); [|now rewrite X]. destruct (known_opt full k) as [e1|] eqn:K.
  - apply known_in_table in K as (t' & K). f_equal. eapply NEW; eauto.
  - exfalso. apply (table_known full k t); congruence.
Qed.

Definition E_res (k : str) (r : res (option unit)) : Prop :=
  weak n (fun n => p_either ord full (p_lookup ord full n) k) (fun k' => exists i, known_opt full k = Some (ELazy i) /\ lacks i k') r \/
  (r = Ok None /\ known_opt s1 k = None /\ known_opt full k <> None).

Lemma found_safe k e K : erel ord full (known_opt full k) (Some e) ->
  safe (fun r => r <> Ok None /\ E_res k r) K (t_force ord rec (Some e)).
Proof.
  intro E. eapply safe_weaken; [|apply (force_safe _ _ K E)]. intros r W. split.
  - intros ->. destruct W as [[[A0|[F A0]] _]|(k' & _ & A0)]; try discriminate.
    destruct (known_opt full k) as [e0|]; [|inversion E]. cbn [p_opt] in A0. destruct (p_entry ord full (p_lookup ord full F) e0); discriminate.
  - left. destruct W as [A0|W]; [left|now right]. destruct A0 as [A1 A2]. split.
    + destruct A1 as [A1|[F A1]]; [now left|]. right. exists F. now rewrite p_either_known.
    + rewrite p_either_known. exact A2.
Qed.

Lemma either_safe k K : safe (E_res k) K (t_either ord rec k).
Proof.
  unfold t_either. eapply safe_bind; [exact (get_safe Names AliasNames k K)| |].
  2: { intros e (o & E & _). discriminate. }
  intros K1 o _ (o' & E & H). injection E as <-. destruct o as [e|].
  - assert (X : erel ord full (known_opt full k) (Some e)).
    { destruct H as [[U [t H]]|H]; [now apply (new_entry k t e U)|]. rewrite get_content.
      destruct (get_or k (content Names full) (content AliasNames full)); [exact H|inversion H]. }
    eapply safe_bind; [exact (found_safe k e K1 X)| |].
    + intros K2 [x|] _ (Y & Z); [sf; exact Z|contradiction].
    + intros e0 (_ & Z). exact Z.
  - destruct H as (S1 & S2 & H). cbn [t_force pbind].
    eapply safe_bind; [exact (get_safe Symbols AliasSymbols k K1)| |].
    2: { intros e (o2 & E & _). discriminate. }
    intros K3 o2 _ (o3 & E & H3). injection E as <-. destruct o2 as [e|].
    + eapply safe_weaken; [|apply (found_safe k e K3)]. { intros r (_ & Z). exact Z. }
      destruct H3 as [[U [t H3]]|H3]; [now apply (new_entry k t e U)|]. destruct H as [U|H].
      * destruct (get_or k (content Symbols full) (content AliasSymbols full)) as [e0|] eqn:G; [|inversion H3].
        unfold get_or in G. destruct (dget k (content Symbols full)) as [e1|] eqn:G1.
        -- apply (new_entry k Symbols e U). rewrite G1. now replace e1 with e0 by congruence.
        -- apply (new_entry k AliasSymbols e U). now rewrite G.
      * rewrite get_content, H. exact H3.
    + destruct H3 as (S3 & S4 & H3). cbn [t_force]. sf. destruct (known_opt full k) as [e0|] eqn:KF.
      * right. split; [reflexivity|]. split; [|congruence]. apply (proj2 (unknown_tables _ _)). intros []; assumption.
      * left. left. split; [right; exists O; rewrite p_either_known, KF; reflexivity|]. intros _. rewrite p_either_known, KF. reflexivity.
Qed.

(** [q] is read with a word that was not there when the call was made, and only with that *)
Definition hidden (q : str) : Prop := unreadable s1 q /\ List.length (filter knownb (ways full q)) = 1%nat.

Lemma hidden_way q k : In k (ways full q) -> known_opt s1 k = None -> known_opt full k <> None -> hidden q.
Proof.
  intros I U F. assert (U0 : known_opt s0 k = None).
  { destruct (known_opt s0 k) as [e|] eqn:X; [|reflexivity]. exfalso. assert (X' : known_opt s0 k <> None) by congruence.
    exact (now_old s1 k N1 X' U). }
  pose proof (ONE k q U0 F I) as L. split; [|exact L]. apply unreadable_ways.
  intros k' I'. destruct (known_opt s1 k') as [e|] eqn:K'; [|reflexivity]. exfalso.
  assert (F' : known_opt full k' <> None) by (apply (now_known s1); [exact N1|congruence]).
  assert (A1 : In k (filter knownb (ways full q))) by (apply filter_In; split; [exact I|]; unfold knownb; now destruct (known_opt full k)).
  assert (A2 : In k' (filter knownb (ways full q))) by (apply filter_In; split; [now apply (now_incl s1)|]; unfold knownb; now destruct (known_opt full k')).
  destruct (filter knownb (ways full q)) as [|a [|b m]]; try discriminate. destruct A1 as [<-|[]], A2 as [<-|[]]. congruence.
Qed.

(** ... or with a prefix that was not there *)
Lemma fit_now t s q : now s -> follows s1 s ->
  fit_opt full q (prefixes t s) = fit_opt full q (prefixes t full) \/ (fit_opt full q (prefixes t s) = None /\ hidden q).
Proof.
  intros N F. pose proof N as (PX & _). destruct (PX t) as (ex & E & D & I). rewrite E, PR, !fit_app.
  destruct (fit_opt full q (prefixes t s0)) as [x|]; [now left|].
  destruct (fit_opt full q (more t)) as [[[[key p] k] e]|] eqn:Fm.
  - destruct (fit_in q _ _ _ _ _ Fm) as (J & Sk & Kk).
    assert (JK : In key (map fst (more t))) by (apply in_map_iff; exists (key, p); now split).
    pose proof (ONEP t key k q JK Sk ltac:(congruence)) as L.
    destruct (fit_opt full q ex) as [[[[key' p'] k'] e']|] eqn:Fe.
    + left. destruct (fit_in q _ _ _ _ _ Fe) as (J' & Sk' & Kk'). apply I in J'.
      assert (X : (key', p') = (key, p)).
      { destruct (in_split _ _ J) as (l1 & l2 & S). rewrite S in J'. apply in_app_or in J'.
        assert (Y : In (key', p') (l1 ++ l2) -> False).
        { intro Y. destruct (ways_table t q) as (o & W).
          assert (Pf : Permutation (prefixes t full) ((key, p) :: prefixes t s0 ++ l1 ++ l2)).
          { rewrite PR, S, !app_assoc. apply Permutation_sym, Permutation_middle. }
          apply (rests_perm q) in Pf. cbn [rests flat_map fst] in Pf. rewrite Sk in Pf. fold (rests q (prefixes t s0 ++ l1 ++ l2)) in Pf. cbn [app] in Pf.
          apply (two_ways q [k] (rests q (prefixes t s0 ++ l1 ++ l2) ++ o) k k'); [|exact L|now left| |congruence|congruence].
          - eapply Permutation_trans; [exact W|]. cbn [app]. exact (Permutation_app_tail o Pf).
          - apply in_or_app. left. apply (rest_in q _ key' p'); [|exact Sk']. apply in_or_app. now right. }
        destruct J' as [J'|[J'|J']]; [|now symmetry|]; exfalso; apply Y; apply in_or_app; auto. }
      injection X as -> ->. assert (k' = k) by congruence. subst k'. congruence.
    + right. split; [reflexivity|]. split; [|exact L].
      assert (NI : ~ In (key, p) (prefixes t s1)).
      { intro Y. destruct F as (_ & _ & FP). destruct (FP t) as (e2 & E2). assert (Z : In (key, p) (prefixes t s)) by (rewrite E2; apply in_or_app; now left).
        rewrite E in Z. apply in_app_or in Z. destruct Z as [Z|Z]; [exact (dget_none_in _ _ _ (PF t key JK) Z)|].
        pose proof (proj1 (fit_none_rests _ _ _) Fe k (rest_in q ex key p k Z Sk)). congruence. }
      apply unreadable_ways. intros k' I'. destruct (known_opt s1 k') as [e1|] eqn:K1; [|reflexivity]. exfalso.
      assert (K2 : known_opt full k' <> None) by (apply (now_known s1); [exact N1|congruence]).
      destruct (now_missing s1 PNames N1) as (a & Pa), (now_missing s1 PSymbols N1) as (b & Pb).
      apply (two_ways q (ways s1 q) (rests q a ++ rests q b) k' k); [apply ways_missing; eauto|exact L|exact I'| |exact K2|congruence].
      assert (JF : In (key, p) (prefixes t full)) by (rewrite PR; apply in_or_app; now right).
      apply in_or_app. destruct t; [left|right]; (apply (rest_in q _ key p); [|exact Sk]).
      * apply (Permutation_in _ Pa) in JF. apply in_app_or in JF. destruct JF; [contradiction|assumption].
      * apply (Permutation_in _ Pb) in JF. apply in_app_or in JF. destruct JF; [contradiction|assumption].
  - left. apply fit_none_rests. intros k J. apply (proj1 (fit_none_rests _ _ _) Fm). unfold rests in *. apply in_flat_map in J as (x & J1 & J2).
    apply in_flat_map. exists x. split; [now apply I|exact J2].
Qed.

Lemma steps_safe (P : res (option unit) -> Prop) t q ps : (late_prefix -> P (Err ERuntime)) -> (exists ex, ps = prefixes t s1 ++ ex) ->
  forall left i K, (exists e, prefixes t K = ps ++ e) -> left = (List.length ps - i)%nat ->
  safe P K (t_scan ord rec (skipn i ps) q) -> safe P K (t_try ord rec left t (List.length ps) i q).
Proof.
  intros HE (ex & EX). induction left as [|left IH]; intros i K (e & PE) L S; cbn [t_try]; (sf; [apply item_now|]); intros s N _ Kn; cbn [does fst snd];
    destruct Kn as (Kn1 & Kn2 & Kn3); pose proof (Kn3 t) as (e1 & Ee1); rewrite PE, <- app_assoc in Ee1; rewrite Ee1; destruct (e ++ e1) as [|x e2] eqn:Ex;
    [rewrite app_nil_r, Nat.eqb_refl; destruct (nth_error ps i) as [[key p]|] eqn:E| |rewrite app_nil_r, Nat.eqb_refl; destruct (nth_error ps i) as [[key p]|] eqn:E|].
  1: { assert (X : nth_error ps i <> None) by congruence. apply nth_error_Some in X. lia. }
  1, 4: apply nth_error_None in E; rewrite skipn_all2 in S by exact E; exact S.
  1, 3: rewrite app_length; cbn [List.length]; replace (Nat.eqb _ _) with false by (symmetry; apply Nat.eqb_neq; lia); sf; apply HE; apply (appears_late s t ex x e2); [exact N|]; now rewrite Ee1, EX, app_assoc.
  rewrite (nth_skipn ps i _ E) in S. cbn [t_scan] in S. rewrite app_nil_r in Ee1.
  assert (KL : follows K s) by (split; [exact Kn1|split; [exact Kn2|exact Kn3]]).
  destruct (strip_prefix key q) as [k|]; [|apply IH; [exists []; now rewrite app_nil_r|lia|now apply (safe_learn P _ K)]].
  apply (safe_learn P _ K) with (K' := s) in S; [|exact KL]. eapply safe_swap; [exact S|]. intros K' [y|] L' Sf; [exact Sf|].
  apply IH; [|lia|exact Sf]. destruct L' as (_ & _ & L'). destruct (L' t) as (e4 & E4). exists e4. now rewrite E4, Ee1.
Qed.
Lemma loop_safe (P : res (option unit) -> Prop) t q K : (late_prefix -> P (Err ERuntime)) ->
  (forall s, now s -> follows s1 s -> safe P s (t_scan ord rec (prefixes t s) q)) -> safe P K (t_loop ord rec t q).
Proof.
  intros HE S. unfold t_loop. sf; [apply items_now|]. intros s N F _. cbn [does fst snd]. apply steps_safe; [exact HE| | |lia|].
  - destruct F as (_ & _ & F). exact (F t).
  - exists []. now rewrite app_nil_r.
  - now apply S.
Qed.

Definition T_res (ps : dict prefix) (q : str) (r : res (option unit)) : Prop :=
  weak n (fun n => p_try ord full (p_lookup ord full n) ps q) (lacking q) r \/ (r = Ok None /\ hidden q).

(** a prefix list read while its first fit would be the reading of [q] *)
Lemma try_safe q : forall ps K, (exists o, Permutation (ways full q) (rests q ps ++ o)) ->
  (forall key p k e, fit_opt full q ps = Some (key, p, k, e) -> reading full q (Some (key, p, k)) e) ->
  safe (T_res ps q) K (t_scan ord rec ps q).
Proof.
  induction ps as [|[key p] ps IH]; intros K (o & W) H; cbn [t_scan]; [sf; left; exact (weak_const n (Ok None) _)|].
  cbn [rests flat_map fst fit_opt] in W, H. fold (rests q ps) in W.
  destruct (strip_prefix key q) as [k|] eqn:E; cbn [app] in W.
  2: { eapply safe_weaken; [|apply (IH K (ex_intro _ o W) H)]. intros r [T|T]; [left|now right].
       unfold weak, agree in *. cbn [p_try]. rewrite E. exact T. }
  assert (I : In k (ways full q)) by (apply (Permutation_in _ (Permutation_sym W)); now left).
  assert (W' : exists o, Permutation (ways full q) (rests q ps ++ o)) by (exists (k :: o); eapply Permutation_trans; [exact W|apply Permutation_middle]).
  assert (H' : forall key0 p0 k0 e0, fit_opt full q ps = Some (key0, p0, k0, e0) ->
    (known_opt full k = None \/ hidden q) -> reading full q (Some (key0, p0, k0)) e0).
  { intros key0 p0 k0 e0 F [U|[_ L]]; [apply H; rewrite U; exact F|]. destruct (known_opt full k) as [e|] eqn:KF; [|now apply H].
    exfalso. destruct (fit_in q _ _ _ _ _ F) as (J1 & J2 & J3).
    apply (two_ways q [k] (rests q ps ++ o) k k0); [exact W|exact L|now left| |congruence|congruence]. apply in_or_app. left. now apply (rest_in q ps key0 p0). }
  eapply safe_bind; [exact (either_safe k K)| |].
  - intros K1 o1 _ [[A0|(? & _ & A0)]|(Eo & U & F)]; [|discriminate|].
    + (* as in the end *)
      eapply safe_weaken with (P := fun r => weak n (fun n => match o1 with Some x => do y <- prefixed_unit key p k x ;; Ok (Some y)
        | None => p_try ord full (p_lookup ord full n) ps q end) (lacking q) r \/ (r = Ok None /\ hidden q)).
      { intros r [[Ar|Ar]|Ar]; [left; left|left; right; exact Ar|right; exact Ar].
        unfold agree. cbn [p_try]. rewrite E.
        apply (agree_bind n (Ok o1) (fun n => p_either ord full (p_lookup ord full n) k) (fun _ => r) (fun o n => match o with Some x => do y <- prefixed_unit key p k x ;; Ok (Some y)
        | None => p_try ord full (p_lookup ord full n) ps q end)).
        - apply mono_either.
        - intros [x|]; [apply mono_const|apply mono_try].
        - exact A0.
        - intros a Ea. injection Ea as <-. exact Ar. }
      destruct o1 as [x|].
      * destruct (prefixed_unit key p k x) as [y|e]; cbn [pbind bind]; sf; left; apply weak_const.
      * assert (U : known_opt full k = None).
        { destruct A0 as [[A0|[F A0]] _]; [discriminate|]. rewrite p_either_known in A0. destruct (known_opt full k) as [e|]; [|reflexivity].
          cbn [p_opt] in A0. destruct (p_entry ord full (p_lookup ord full F) e); discriminate. }
        apply (IH K1 W'). intros key0 p0 k0 e0 F. apply (H' key0 p0 k0 e0 F). now left.
    + (* not there yet *)
      injection Eo as ->. pose proof (hidden_way q k I U F) as Hd.
      eapply safe_weaken; [|apply (IH K1 W'); intros key0 p0 k0 e0 F0; apply (H' key0 p0 k0 e0 F0); now right].
      intros r [[Ar|Ar]|Ar]; [|left; right; exact Ar|right; exact Ar]. right. split; [|exact Hd].
      destruct (fit_opt full q ps) as [[[[key0 p0] k0] e0]|] eqn:Ft.
      * exfalso. pose proof (H' key0 p0 k0 e0 eq_refl (or_intror Hd)) as Rd0.
        destruct (known_opt full k) as [e|] eqn:KF; [|contradiction].
        pose proof (H key p k e eq_refl) as Rd1. apply reading_iff in Rd0, Rd1. rewrite Rd0 in Rd1. injection Rd1 as -> -> -> ->.
        destruct Hd as [_ L]. destruct (fit_in q _ _ _ _ _ Ft) as (J1 & J2 & J3).
        apply (two_ways q [k] (rests q ps ++ o) k k); [exact W|exact L|now left| |congruence|congruence]. apply in_or_app. left. now apply (rest_in q ps key p).
      * destruct Ar as [_ A2]. rewrite p_try_fit, Ft in A2. symmetry. apply A2. discriminate.
  - intros e [[A0|(e' & Be & A0)]|(Eo & _)]; [left; left|left; right|discriminate].
    + unfold agree. cbn [p_try]. rewrite E.
      apply (agree_bind n (Err e) (fun n => p_either ord full (p_lookup ord full n) k) (fun _ => Err e) (fun o n => match o with Some x => do y <- prefixed_unit key p k x ;; Ok (Some y)
        | None => p_try ord full (p_lookup ord full n) ps q end)); [apply mono_either| |exact A0|discriminate].
      intros [x|]; [apply mono_const|apply mono_try].
    + injection A0 as ->. exists e'. split; [|reflexivity]. revert Be. apply bad_more. intros k' (i & Ki & Lk). eapply lacks_reading; [|exact Lk]. apply (H key p k (ELazy i)). now rewrite Ki.
Qed.

Lemma agree_eq {A} (r : res A) F G : (forall m, F m = G m) -> agree n r F -> agree n r G.
Proof. intros E [H1 H2]. split; [destruct H1 as [H1|[m H1]]; [now left|right; exists m; now rewrite <- E]|]. rewrite <- E. exact H2. Qed.

Lemma table_safe t q K : (forall key p k e, fit_opt full q (prefixes t full) = Some (key, p, k, e) -> reading full q (Some (key, p, k)) e) ->
  safe (T_res (prefixes t full) q) K (t_loop ord rec t q).
Proof.
  intro H. apply loop_safe.
  - intro RT. left. right. exists ERuntime. split; [|reflexivity]. right. now split.
  - intros s N F. destruct (fit_now t s q N F) as [E|[E Hd]].
    + eapply safe_weaken; [|apply (try_safe q (prefixes t s) s); [now apply now_table|intros key p k e; rewrite E; apply H]].
      intros r [[Ar|Ar]|Ar]; [left; left|left; right; exact Ar|right; exact Ar]. eapply agree_eq; [|exact Ar]. intro m. cbn beta. now rewrite !p_try_fit, E.
    + eapply safe_weaken; [|apply (try_safe q (prefixes t s) s); [now apply now_table|intros key p k e; rewrite E; discriminate]].
      intros r [[Ar|Ar]|Ar]; [|left; right; exact Ar|right; exact Ar]. right. split; [|exact Hd]. destruct Ar as [_ A2]. rewrite p_try_fit, E in A2. symmetry. apply A2. discriminate.
Qed.

Lemma fit_some_rest q ps : fit_opt full q ps <> None -> exists k, In k (rests q ps) /\ known_opt full k <> None.
Proof.
  induction ps as [|[key p] ps IH]; cbn [fit_opt rests flat_map fst]; intro H; [contradiction|].
  destruct (strip_prefix key q) as [k|]; [|auto]. destruct (known_opt full k) as [e|] eqn:K.
  - exists k. split; [now left|congruence].
  - destruct (IH H) as (k2 & I2 & N2). exists k2. split; [now right|exact N2].
Qed.
Lemma one_way q A B k k' : ways full q = A ++ B -> List.length (filter knownb (ways full q)) = 1%nat ->
  In k A -> In k' B -> known_opt full k <> None -> known_opt full k' <> None -> False.
Proof.
  intros W L I I' N N'. rewrite W, filter_app, app_length in L.
  assert (A1 : In k (filter knownb A)) by (apply filter_In; split; [exact I|]; unfold knownb; now destruct (known_opt full k)).
  assert (A2 : In k' (filter knownb B)) by (apply filter_In; split; [exact I'|]; unfold knownb; now destruct (known_opt full k')).
  destruct (filter knownb A); [destruct A1|]. destruct (filter knownb B); [destruct A2|]. cbn [List.length] in L. lia.
Qed.
Lemma hidden_names q : hidden q -> fit_opt full q (s_prefix_names full) <> None -> known_opt full q = None.
Proof.
  intros [_ L] F. apply fit_some_rest in F as (k & I & N). destruct (known_opt full q) as [e|] eqn:K; [|reflexivity]. exfalso.
  apply (one_way q [q] (rests q (s_prefix_names full) ++ rests q (s_prefix_symbols full)) q k); auto.
  - now left.
  - apply in_or_app. now left.
  - congruence.
Qed.
Lemma hidden_symbols q : hidden q -> fit_opt full q (s_prefix_symbols full) <> None ->
  known_opt full q = None /\ fit_opt full q (s_prefix_names full) = None.
Proof.
  intros [_ L] F. apply fit_some_rest in F as (k & I & N). split.
  - destruct (known_opt full q) as [e|] eqn:K; [|reflexivity]. exfalso.
    apply (one_way q [q] (rests q (s_prefix_names full) ++ rests q (s_prefix_symbols full)) q k); auto.
    + now left.
    + apply in_or_app. now right.
    + congruence.
  - apply fit_none_rests. intros k' I'. destruct (known_opt full k') as [e|] eqn:K; [|reflexivity]. exfalso.
    apply (one_way q (q :: rests q (s_prefix_names full)) (rests q (s_prefix_symbols full)) k' k); auto.
    + now right.
    + congruence.
Qed.

Definition out (q : str) (o : option unit) : res unit := match o with Some x => Ok x | None => Err (EUnresolvable q) end.
Lemma body_names rc q : known_opt full q = None -> p_body ord full rc q =
  do o1 <- p_try ord full rc (s_prefix_names full) q ;;
  match o1 with Some x => Ok x | None => do o2 <- p_try ord full rc (s_prefix_symbols full) q ;; out q o2 end.
Proof. intro U. unfold p_body. rewrite p_either_known, U. reflexivity. Qed.
Lemma body_symbols rc q : known_opt full q = None -> fit_opt full q (s_prefix_names full) = None -> p_body ord full rc q =
  do o2 <- p_try ord full rc (s_prefix_symbols full) q ;; out q o2.
Proof. intros U F. rewrite (body_names rc q U), p_try_fit, F. reflexivity. Qed.

(** what a look-up for [q] may answer *)
Definition L_res (q : str) : res unit -> Prop := weak n (fun n => p_body ord full (p_lookup ord full n) q) (lacking q).

Lemma L_hidden q : hidden q -> L_res q (Err (EUnresolvable q)).
Proof.
  intros [U L]. right. exists (EUnresolvable q). split; [|reflexivity]. left. exists q. split; [|reflexivity]. split; [now left|]. split; [exact U|]. intro UF. rewrite unreadable_ways in UF.
  destruct (filter knownb (ways full q)) as [|k m] eqn:E; [discriminate|]. assert (I : In k (filter knownb (ways full q))) by (rewrite E; now left).
  apply filter_In in I as [I1 I2]. unfold knownb in I2. now rewrite (UF k I1) in I2.
Qed.

Lemma symbols_safe q K : known_opt full q = None /\ fit_opt full q (s_prefix_names full) = None \/ hidden q ->
  safe (L_res q) K (run o2 <- t_loop ord rec PSymbols q ; match o2 with Some x => Done (Ok x) | None => Done (Err (EUnresolvable q)) end).
Proof.
  intro H.
  assert (Rd : forall key p k e, fit_opt full q (s_prefix_symbols full) = Some (key, p, k, e) -> reading full q (Some (key, p, k)) e).
  { intros key p k e F. apply reading_iff. unfold reading_opt. destruct H as [[-> ->]|H]; [now rewrite F|].
    destruct (hidden_symbols q H) as [-> ->]; [congruence|now rewrite F]. }
  assert (Ag : forall r, agree n r (fun n => p_try ord full (p_lookup ord full n) (s_prefix_symbols full) q) -> L_res q (bind r (out q))).
  { intros r A0. destruct H as [[U1 U2]|H].
    - left. eapply agree_eq; [intro m; symmetry; apply (body_symbols _ q U1 U2)|].
      apply (agree_bind n r _ (out q) (fun o _ => out q o)); [apply mono_try|intro; apply mono_const|exact A0|intros; apply agree_const].
    - destruct (fit_opt full q (s_prefix_symbols full)) as [x|] eqn:F.
      + destruct (hidden_symbols q H) as [U1 U2]; [congruence|].
        left. eapply agree_eq; [intro m; symmetry; apply (body_symbols _ q U1 U2)|].
        apply (agree_bind n r _ (out q) (fun o _ => out q o)); [apply mono_try|intro; apply mono_const|exact A0|intros; apply agree_const].
      + destruct A0 as [_ A2]. rewrite p_try_fit, F in A2. rewrite <- A2 by discriminate. now apply L_hidden. }
  eapply safe_bind; [exact (table_safe PSymbols q K Rd)| |].
  - intros K2 o _ [[A0|(? & _ & E)]|[E Hd]]; [|discriminate|].
    + destruct o; sf; exact (Ag _ A0).
    + injection E as ->. sf. now apply L_hidden.
  - intros e [[A0|(k & Lk & E)]|[E _]]; [exact (Ag _ A0)| |discriminate]. right. exists k. split; [exact Lk|]. injection E as ->. reflexivity.
Qed.

Lemma prefixes_safe q K : known_opt full q = None \/ hidden q ->
  safe (L_res q) K (run o1 <- t_loop ord rec PNames q ;
    match o1 with Some x => Done (Ok x) | None =>
      run o2 <- t_loop ord rec PSymbols q ; match o2 with Some x => Done (Ok x) | None => Done (Err (EUnresolvable q)) end end).
Proof.
  intro H.
  assert (Rd : forall key p k e, fit_opt full q (s_prefix_names full) = Some (key, p, k, e) -> reading full q (Some (key, p, k)) e).
  { intros key p k e F. apply reading_iff. unfold reading_opt. destruct H as [->|H]; [now rewrite F|]. rewrite (hidden_names q H) by congruence. now rewrite F. }
  assert (Ag : forall r, r <> Ok None -> agree n r (fun n => p_try ord full (p_lookup ord full n) (s_prefix_names full) q) -> L_res q (bind r (out q))).
  { intros r NN A0. assert (U : known_opt full q = None).
    { destruct H as [H|H]; [exact H|]. apply (hidden_names q H). intro F. destruct A0 as [_ A2]. rewrite p_try_fit, F in A2. apply NN. symmetry. now apply A2. }
    left. eapply agree_eq; [intro m; symmetry; apply (body_names _ q U)|].
    apply (agree_bind n r _ (out q) (fun o1 n => match o1 with Some x => Ok x | None => do o2 <- p_try ord full (p_lookup ord full n) (s_prefix_symbols full) q ;; out q o2 end)).
    - apply mono_try.
    - intros [x|]; [apply mono_const|]. apply (mono_bind _ (fun o2 _ => out q o2)); [apply mono_try|intro; apply mono_const].
    - exact A0.
    - intros [x|] E; [apply agree_const|contradiction]. }
  eapply safe_bind; [exact (table_safe PNames q K Rd)| |].
  - intros K2 o _ [[A0|(? & _ & E)]|[E Hd]]; [|discriminate|].
    + destruct o as [x|]; [sf; apply (Ag (Ok (Some x))); [discriminate|exact A0]|]. apply symbols_safe.
      destruct H as [H|H]; [left|now right]. split; [exact H|].
      destruct (fit_opt full q (s_prefix_names full)) as [[[[key p] k] e]|] eqn:F; [|reflexivity]. exfalso.
      destruct A0 as [[A0|[m A0]] _]; [discriminate|]. cbn [prefixes] in A0. rewrite p_try_fit, F in A0.
      destruct (p_entry ord full (p_lookup ord full m) e) as [x|]; cbn [bind] in A0; [|discriminate]. destruct (prefixed_unit key p k x); discriminate.
    + injection E as ->. apply symbols_safe. now right.
  - intros e [[A0|(k & Lk & E)]|[E _]]; [apply (Ag (Err e)); [discriminate|exact A0]| |discriminate]. right. exists k. split; [exact Lk|]. injection E as ->. reflexivity.
Qed.

Lemma body_safe q K : safe (L_res q) K (t_body ord rec q).
Proof.
  unfold t_body. eapply safe_bind; [exact (either_safe q K)| |].
  - intros K1 o _ [[A0|(? & _ & E)]|(E & U & F)]; [|discriminate|].
    + destruct o as [x|].
      * sf. left. unfold p_body. apply (agree_bind n (Ok (Some x)) (fun n => p_either ord full (p_lookup ord full n) q) (fun _ => Ok x)
          (fun o n => match o with Some x => Ok x | None =>
             do o1 <- p_try ord full (p_lookup ord full n) (s_prefix_names full) q ;;
             match o1 with Some x => Ok x | None =>
               do o2 <- p_try ord full (p_lookup ord full n) (s_prefix_symbols full) q ;;
               match o2 with Some x => Ok x | None => Err (EUnresolvable q) end end end)).
        -- apply mono_either.
        -- intros [y|]; [apply mono_const|]. apply (mono_bind _ (fun o1 n => match o1 with Some x => Ok x | None =>
             do o2 <- p_try ord full (p_lookup ord full n) (s_prefix_symbols full) q ;;
             match o2 with Some x => Ok x | None => Err (EUnresolvable q) end end)); [apply mono_try|].
           intros [y|]; [apply mono_const|]. apply (mono_bind _ (fun o2 _ => out q o2)); [apply mono_try|intro; apply mono_const].
        -- exact A0.
        -- intros [y|] E; [|discriminate]. injection E as ->. apply agree_const.
      * apply prefixes_safe. left. destruct A0 as [[A0|[m A0]] _]; [discriminate|]. rewrite p_either_known in A0.
        destruct (known_opt full q) as [e|]; [|reflexivity]. cbn [p_opt] in A0. destruct (p_entry ord full (p_lookup ord full m) e); discriminate.
    + injection E as ->. apply prefixes_safe. right. apply (hidden_way q q); auto. now left.
  - intros e [[A0|(e' & Be & E)]|(E & _)]; [left|right|discriminate].
    + unfold p_body. apply (agree_bind n (Err e) (fun n => p_either ord full (p_lookup ord full n) q) (fun _ => Err e)
          (fun o n => match o with Some x => Ok x | None =>
             do o1 <- p_try ord full (p_lookup ord full n) (s_prefix_names full) q ;;
             match o1 with Some x => Ok x | None =>
               do o2 <- p_try ord full (p_lookup ord full n) (s_prefix_symbols full) q ;;
               match o2 with Some x => Ok x | None => Err (EUnresolvable q) end end end)).
        -- apply mono_either.
        -- intros [y|]; [apply mono_const|]. apply (mono_bind _ (fun o1 n => match o1 with Some x => Ok x | None =>
             do o2 <- p_try ord full (p_lookup ord full n) (s_prefix_symbols full) q ;;
             match o2 with Some x => Ok x | None => Err (EUnresolvable q) end end)); [apply mono_try|].
           intros [y|]; [apply mono_const|]. apply (mono_bind _ (fun o2 _ => out q o2)); [apply mono_try|intro; apply mono_const].
        -- exact A0.
        -- discriminate.
    + injection E as ->. exists e'. split; [|reflexivity]. revert Be. apply bad_more. intros k (i & Ki & Lk). eapply lacks_reading; [|exact Lk]. apply reading_iff. unfold reading_opt. now rewrite Ki.
Qed.
End Rec.

Lemma lookup_safe f : forall q K, safe (weak f (fun n => p_lookup ord full n q) (lacking q)) K (t_lookup ord f q).
Proof.
  induction f as [|f IH]; intros q K; cbn [t_lookup].
  - sf. left. split; [now left|]. intro N. exfalso. now apply N.
  - eapply safe_weaken; [|exact (body_safe f (t_lookup ord f) IH q K)]. intros r [[A1 A2]|W]; [left|now right]. split.
    + destruct A1 as [A1|[F A1]]; [now left|]. right. now exists (S F).
    + exact A2.
Qed.

Lemma unit_safe f t K : is_text t ->
  safe (weak f (fun n => SystemProofs.p_unit ord full n t) (fun k => exists g id, parse t = Ok g /\ In id (identifiers g) /\ lacking id k)) K (t_unit ord f t).
Proof.
  intro T. unfold t_unit, SystemProofs.p_unit. sf; [exact T|].
  destruct (parse t) as [g|e] eqn:P; cbn [pbind bind]; [|sf; exact (weak_const f (Err e) _)].
  apply (weak_bind f K _ (fun n => p_refs ord (p_lookup ord full n) (identifiers g)) _ _ (fun refs _ => unit_from_expression g refs)).
  - apply mono_refs.
  - intro refs. apply mono_const.
  - eapply safe_weaken; [|apply refs_safe; apply lookup_safe]. intro r. apply weak_more. intros k (id & I & Lk). exists g, id. now split.
  - intros K2 refs _ _. sf. apply weak_const.
Qed.

(** what a request may answer *)
Definition late (r : request) (k : str) : Prop := needed_for full r k /\ unreadable s1 k /\ ~ unreadable full k.
Definition fair_answer (r : request) (x : res anyunit) : Prop :=
  match r with
  | Lookup f q => exists y, x = (do u <- y ;; Ok (AUnit u)) /\ weak f (fun n => p_lookup ord full n q) (late r) y
  | UnitOf f t => weak f (fun n => SystemProofs.p_unit ord full n t) (late r) x
  end.

Lemma code_safe r K : is_str r -> safe (fair_answer r) K (code_of ord r).
Proof.
  destruct r as [f q|f t]; cbn [is_str code_of fair_answer]; intro T.
  - eapply safe_bind; [exact (lookup_safe f q K)| |].
    + intros K1 x _ A0. sf. exists (Ok x). split; [reflexivity|exact A0].
    + intros e A0. exists (Err e). split; [reflexivity|exact A0].
  - eapply safe_weaken; [|now apply unit_safe]. intro x. apply weak_more. intros k (g & id & P & I & D & U). split; [|exact U].
    exists g, id. now split.
Qed.
End Since.

(** ** add_unit while look-ups run *)
Variable units : list (entry * reference).
Hypothesis REG : forall e r t k, In (e, r) units -> In k (words_in t r) -> dget k (content t full) = Some e.

Definition here (t : table) (k : str) (s : system) : Prop := dget k (content t s) <> None.
Definition has (V : table -> str -> Prop) (s : system) : Prop := forall t k, V t k -> here t k s.

(** [writes G V p]: when the words in [V] are there, then whatever other threads do between
    its accesses, [p] keeps [now] and ends with a result and words that satisfy [G] *)
Fixpoint writes {A} (G : res A -> (table -> str -> Prop) -> Prop) (V : table -> str -> Prop) (p : prog A) : Prop :=
  match p with
  | Done r => G r V
  | Act a k => keeps_now a /\ forall s, now s -> has V s -> writes G (fun t k => here t k (snd (does a s))) (k (fst (does a s)))
  | Read t k => False
  end.

Lemma writes_bind {A B} (G : res A -> _ -> Prop) (G' : res B -> _ -> Prop) p f : forall (V : table -> str -> Prop), writes G V p ->
  (forall (V' : table -> str -> Prop) a, (forall t k, V t k -> V' t k) -> G (Ok a) V' -> writes G' V' (f a)) ->
  (forall e V', G (Err e) V' -> G' (Err e) V') -> writes G' V (pbind p f).
Proof.
  induction p as [r|C a k IH|t k IH]; intros V W H1 H2; cbn [pbind writes] in *.
  - destruct r as [a|e]; [apply H1; auto|now apply H2].
  - destruct W as [Ka W]. split; [exact Ka|]. intros s N Hs. apply IH; auto. intros V' a' L. apply H1. intros t k0 Vk. apply L.
    unfold here. apply (stays_does a s t k0). now apply Hs.
  - destruct W.
Qed.

Lemma writes_checks v t r : forall ks (V : table -> str -> Prop), (forall k, In k ks -> In k (words_in t r)) ->
  writes (fun x V' => x = Ok tt \/ exists v k, x = Err (EValue v) /\ In k (words_in t r) /\ V' t k) V (t_checks t v ks).
Proof.
  induction ks as [|k ks IH]; intros V I; cbn [t_checks writes]; [now left|]. split; [apply get_now|]. intros s _ _. cbn [does fst snd].
  destruct (dget k (content t s)) eqn:E; cbn [writes].
  - right. exists v, k. split; [reflexivity|]. split; [apply I; now left|]. unfold here. congruence.
  - apply IH. intros k' J. apply I. now right.
Qed.

Lemma writes_puts t e : forall ks (V : table -> str -> Prop), (forall k, In k ks -> keeps_now (Put t k e)) ->
  writes (fun x V' => x = Ok tt /\ (forall t k, V t k -> V' t k) /\ forall k, In k ks -> V' t k) V (t_puts t ks e).
Proof.
  assert (G : forall ks' ks (V V0 : table -> str -> Prop), (forall t k, V0 t k -> V t k) -> (forall k, In k ks -> In k ks' \/ V t k) ->
    (forall k, In k ks' -> keeps_now (Put t k e)) ->
    writes (fun x V' => x = Ok tt /\ (forall t k, V0 t k -> V' t k) /\ forall k, In k ks -> V' t k) V (t_puts t ks' e)).
  { induction ks' as [|k ks' IH]; intros ks V V0 L I H; cbn [t_puts writes].
    - split; [reflexivity|]. split; [exact L|]. intros k J. destruct (I k J) as [[]|J']; exact J'.
    - split; [apply H; now left|]. intros s N Hs. cbn [fst]. apply IH.
      + intros t' k' J. apply (stays_does (Put t k e) s). apply Hs. now apply L.
      + intros k' J. destruct (I k' J) as [[->|J']|J']; [|now left|].
        * right. unfold here. cbn [does snd]. rewrite content_put. destruct t; rewrite dget_dset, (proj2 (eqb_spec k' k') eq_refl); discriminate.
        * right. apply (stays_does (Put t k e) s). now apply Hs.
      + intros k' J. apply H. now right. }
  intros ks V H. apply G; auto.
Qed.

(** what add_unit gives: its words are there, or one of them was already *)
Definition added (r : reference) (x : res Datatypes.unit) (V : table -> str -> Prop) : Prop :=
  x = Ok tt /\ (forall t k, In k (words_in t r) -> V t k) \/
  exists v t k, x = Err (EValue v) /\ In k (words_in t r) /\ V t k.

Lemma writes_add e r V : In (e, r) units -> writes (added r) V (t_add e r).
Proof.
  intro I. assert (P : forall t k, In k (words_in t r) -> keeps_now (Put t k e)).
  { intros t k J. apply put_now. rewrite (REG e r t k I J). apply Er_same. }
  unfold t_add. eapply writes_bind; [apply (writes_checks _ Names r (ref_names r)); auto| |].
  2: { intros x V' [H|(v & k & -> & J & Vk)]; [discriminate|]. right. eauto 8. }
  intros V1 _ _ _. eapply writes_bind; [apply (writes_checks _ Symbols r (r_symbols r)); auto| |].
  2: { intros x V' [H|(v & k & -> & J & Vk)]; [discriminate|]. right. eauto 8. }
  intros V2 _ _ _. unfold t_register.
  eapply writes_bind; [apply (writes_puts Names e (ref_names r)); exact (P Names)| |intros x V' [H _]; discriminate].
  intros V3 _ _ (_ & _ & W1).
  eapply writes_bind; [apply (writes_puts Symbols e (r_symbols r)); exact (P Symbols)| |intros x V' [H _]; discriminate].
  intros V4 _ _ (_ & L2 & W2).
  eapply writes_bind; [apply (writes_puts AliasNames e (ref_alias_names r)); exact (P AliasNames)| |intros x V' [H _]; discriminate].
  intros V5 _ _ (_ & L3 & W3).
  pose proof (writes_puts AliasSymbols e (r_alias_symbols r) V5 (P AliasSymbols)) as W. revert W.
  assert (WM : forall A (G G' : res A -> _ -> Prop) p (V : table -> str -> Prop), (forall x V, G x V -> G' x V) -> writes G V p -> writes G' V p).
  { intros A G G' p. induction p as [x|C a k IH|t k IH]; intros V' H W; cbn [writes] in *; [auto| |exact W]. destruct W as [Ka W]. split; [exact Ka|]. auto. }
  apply WM. intros x V6 (-> & L4 & W4). left. split; [reflexivity|]. intros [| | |] k J; cbn [words_in] in J; auto.
Qed.

(** ** The program *)
Definition thread_ok (m : memory) (bt : system * thread) : Prop :=
  now (fst bt) /\ follows (fst bt) (fst m) /\
  exists K, follows K (fst m) /\
  match t_state (snd bt) with
  | Running p => safe (fst bt) (fair_answer (fst bt) (t_asked (snd bt))) K p
  | Parsing j k => is_text (c_arg j) /\ call_ok (snd m) j /\ safe (fst bt) (fair_answer (fst bt) (t_asked (snd bt))) K (k (parse (c_arg j)))
  end.

Definition registrar_ok (m : memory) (g : registrar) : Prop :=
  In (rg_entry g, rg_names g) units /\ exists V, has V (fst m) /\ writes (added (rg_names g)) V (rg_rest g).

(** a step of the others *)
Definition goes_on (m m' : memory) : Prop :=
  follows (fst m) (fst m') /\
  AtnSharedFacts.extends (fst (snd m)) (fst (snd m')) /\ PSharedFacts.grows (snd (snd m)) (snd (snd m')).

Lemma thread_ok_goes_on m m' t : goes_on m m' -> thread_ok m t -> thread_ok m' t.
Proof.
  intros (G0 & G2 & G3) (Nb & Sb & K & Kn & H). split; [exact Nb|]. split; [eapply follows_trans; eauto|]. exists K. split; [eapply follows_trans; eauto|].
  destruct (t_state (snd t)) as [p|j k]; [exact H|]. destruct H as (T & C & S). split; [exact T|]. split; [|exact S].
  now apply (call_ok_grows (snd m)).
Qed.
Lemma registrar_ok_goes_on m m' g : goes_on m m' -> registrar_ok m g -> registrar_ok m' g.
Proof. intros (G0 & _) (I & V & HV & W). split; [exact I|]. exists V. split; [|exact W]. intros t k Vk. apply (proj1 G0). now apply HV. Qed.

Definition memory_ok (m : memory) : Prop :=
  now (fst m) /\ AtnSharedFacts.cache_ok Atn.the_atn (fst (snd m)) /\ PSharedFacts.right (snd (snd m)).

Lemma thread_step_ok m b t m' t' : thread_step m t m' t' -> memory_ok m -> thread_ok m (b, t) ->
  memory_ok m' /\ goes_on m m' /\ thread_ok m' (b, t').
Proof.
  intros S (N & HC & HR) (Nb & Sb & K & Kn & H). destruct S as [s c r p p' s' D|m r t k|s c r j k c' j' J|m r t x k]; cbn [fst snd t_state t_asked] in *.
  - destruct p as [x|B a k|t k]; cbn [next] in D; [discriminate| |discriminate]. cbn [safe] in H. destruct H as [Ka Hk].
    specialize (Hk s N Sb Kn). pose proof (Ka s N) as N'. pose proof (follows_does a s) as SD.
    destruct (does a s) as [v s1]. cbn [fst snd] in *. injection D as D1 D2. subst p' s1.
    split; [|split].
    + split; [exact N'|]. now split.
    + split; [exact SD|]. split; [apply AtnSharedFacts.extends_refl|apply PSharedFacts.grows_refl].
    + split; [exact Nb|]. split; [eapply follows_trans; eauto|]. exists s'. split; [apply follows_refl|]. exact Hk.
  - cbn [safe] in H. destruct H as [T Hk]. split; [|split].
    + split; [exact N|]. now split.
    + split; [apply follows_refl|]. split; [apply AtnSharedFacts.extends_refl|apply PSharedFacts.grows_refl].
    + split; [exact Nb|]. split; [exact Sb|]. exists K. split; [exact Kn|]. cbn [t_state snd]. split; [exact T|]. split; [apply new_call_ok|exact Hk].
  - destruct H as (T & C & Sf). destruct (call_step_ok c j c' j' HC HR J C) as (G1 & G2 & G3 & G4 & G5).
    assert (E : c_arg j' = c_arg j) by (inversion J; reflexivity). split; [|split].
    + split; [exact N|]. now split.
    + split; [apply follows_refl|]. now split.
    + split; [exact Nb|]. split; [exact Sb|]. exists K. split; [exact Kn|]. cbn [t_state t_asked snd]. rewrite E. split; [exact T|]. now split.
  - destruct H as (T & C & Sf). cbn [c_arg] in *. unfold call_ok in C. cbn [c_stage c_arg] in C. rewrite <- (C T) in Sf. split; [|split].
    + split; [exact N|]. now split.
    + split; [apply follows_refl|]. split; [apply AtnSharedFacts.extends_refl|apply PSharedFacts.grows_refl].
    + split; [exact Nb|]. split; [exact Sb|]. exists K. now split.
Qed.

Lemma registrar_step_ok s c e r p p' s' : next p s = Some (p', s') -> memory_ok (s, c) -> registrar_ok (s, c) (mkReg e r p) ->
  memory_ok (s', c) /\ goes_on (s, c) (s', c) /\ registrar_ok (s', c) (mkReg e r p').
Proof.
  intros D (N & HC & HR) (I & V & HV & W). cbn [fst snd rg_entry rg_names rg_rest] in *.
  destruct p as [x|B a k|t k]; cbn [next] in D; [discriminate| |discriminate]. cbn [writes] in W. destruct W as [Ka Hk].
  specialize (Hk s N HV). pose proof (Ka s N) as N'. pose proof (follows_does a s) as SD.
  destruct (does a s) as [v s1]. cbn [fst snd] in *. injection D as D1 D2. subst p' s1. split; [|split].
  - split; [exact N'|]. now split.
  - split; [exact SD|]. split; [apply AtnSharedFacts.extends_refl|apply PSharedFacts.grows_refl].
  - split; [exact I|]. eexists. split; [|exact Hk]. intros t k' H. exact H.
Qed.

Definition gworld_ok (w : gworld) : Prop :=
  memory_ok (g_memory w) /\ (forall t, In t (g_threads w) -> thread_ok (g_memory w) t) /\
  (forall g, In g (g_adds w) -> registrar_ok (g_memory w) g) /\
  (forall j, In j (g_parses w) -> call_ok (snd (g_memory w)) j).

Lemma g_step_ok w w' : g_step ord units w w' -> gworld_ok w -> gworld_ok w' /\ goes_on (g_memory w) (g_memory w').
Proof.
  assert (GR : forall m, goes_on m m).
  { intro m. split; [apply follows_refl|]. split; [apply AtnSharedFacts.extends_refl|apply PSharedFacts.grows_refl]. }
  intros S (HM & HT & HG & HJ). destruct S as [m ts rs js i b t m' t' Ni S|m ts rs js r T|s c ts rs js i e r p p' s' Ni S|m ts rs js e r I|s c ts rs js c' js' S];
    unfold gworld_ok; cbn [g_memory g_threads g_adds g_parses] in *.
  - destruct (thread_step_ok m b t m' t' S HM (HT _ (nth_error_In _ _ Ni))) as (M' & G & T'). split; [|exact G]. split; [exact M'|]. split; [|split].
    + intros t0 I. apply in_set_nth in I. destruct I as [->|I]; [exact T'|]. apply (thread_ok_goes_on m); auto.
    + intros g I. apply (registrar_ok_goes_on m); auto.
    + intros j I. destruct G as (_ & G2 & G3). apply (call_ok_grows (snd m)); auto.
  - split; [|apply GR]. split; [exact HM|]. split; [|now split]. intros t0 I. apply in_app_or in I. destruct I as [I|[<-|[]]]; [auto|].
    split; [apply HM|]. split; [apply follows_refl|]. exists (fst m). split; [apply follows_refl|]. cbn [new_thread t_state t_asked fst snd].
    apply code_safe; [apply HM|exact T].
  - destruct (registrar_step_ok s c e r p p' s' S HM (HG _ (nth_error_In _ _ Ni))) as (M' & G & T'). split; [|exact G]. split; [exact M'|]. split; [|split].
    + intros t0 I. apply (thread_ok_goes_on (s, c)); auto.
    + intros g I. apply in_set_nth in I. destruct I as [->|I]; [exact T'|]. apply (registrar_ok_goes_on (s, c)); auto.
    + exact HJ.
  - split; [|apply GR]. split; [exact HM|]. split; [exact HT|]. split; [|exact HJ]. intros g J. apply in_app_or in J. destruct J as [J|[<-|[]]]; [auto|].
    split; [exact I|]. exists (fun _ _ => False). split; [intros t k []|]. now apply writes_add.
  - destruct HM as (N & HC & HR). cbn [fst snd] in *.
    assert (P0 : process_ok (c, js)) by (split; [exact HC|split; [exact HR|exact HJ]]).
    destruct (process_step_ok _ _ S P0) as (HC' & HR' & HJ'). cbn [fst snd] in *.
    assert (G : goes_on (s, c) (s, c')).
    { split; [apply follows_refl|]. cbn [fst snd]. inversion S as [c0 cs i k c1 k' Ni J|]; subst.
      - destruct (call_step_ok c k c' k' HC HR J (HJ k (nth_error_In _ _ Ni))) as (_ & _ & G3 & G4 & _). now split.
      - split; [apply AtnSharedFacts.extends_refl|apply PSharedFacts.grows_refl]. }
    split; [|exact G]. split; [split; [exact N|now split]|]. split; [|split; [|exact HJ']].
    + intros t I. apply (thread_ok_goes_on (s, c)); auto.
    + intros g I. apply (registrar_ok_goes_on (s, c)); auto.
Qed.

(** ** add_prefix while look-ups run *)
Variable new : list prefix.
Hypothesis REGP : forall p t k p', In p new -> In (t, k, p') (puts_of p) -> In (k, p') (more t).

Lemma dset_there {V} k (v : V) d : NoDup (map fst d) -> In (k, v) d -> dset k v d = d.
Proof.
  induction d as [|[k' v'] d IH]; cbn [map fst dset]; intros D I; [destruct I|]. inversion D as [|? ? D1 D2]; subst. destruct (str_eqb k k') eqn:E.
  - apply eqb_spec in E. subst k'. destruct I as [I|I]; [injection I as ->; reflexivity|]. exfalso. apply D1. apply in_map_iff. exists (k, v). now split.
  - f_equal. apply IH; [exact D2|]. destruct I as [I|I]; [|exact I]. injection I as -> ->. rewrite (proj2 (eqb_spec k k) eq_refl) in E. discriminate.
Qed.
Lemma dset_app {V} k (v : V) d0 d : dget k d0 = None -> dset k v (d0 ++ d) = d0 ++ dset k v d.
Proof. induction d0 as [|[k' v'] d0 IH]; cbn [dget app dset]; intro H; [reflexivity|]. destruct (str_eqb k k'); [discriminate|]. f_equal. now apply IH. Qed.
Lemma dget_none_key {V} k (d : dict V) : dget k d = None -> ~ In k (map fst d).
Proof. intros H I. apply in_map_iff in I as ([k' v] & E & I). cbn [fst] in E. subst k'. exact (dget_none_in k v d H I). Qed.

Lemma put_extra t k p s : now s -> In (k, p) (more t) ->
  exists e, dset k p (prefixes t s) = prefixes t s ++ e /\ In (k, p) (prefixes t s ++ e) /\
    exists extra, prefixes t s ++ e = prefixes t s0 ++ extra /\ NoDup (map fst extra) /\ incl extra (more t).
Proof.
  intros (PX & _) I. destruct (PX t) as (ex & E & D & J). rewrite E.
  assert (F : dget k (prefixes t s0) = None) by (apply PF; apply in_map_iff; exists (k, p); now split). rewrite (dset_app k p _ _ F).
  destruct (dget k ex) as [p'|] eqn:G.
  - assert (X : In (k, p) ex).
    { assert (Y : In (k, p') ex) by (clear -G; induction ex as [|[k1 v1] ex IH]; cbn [dget] in G; [discriminate|]; destruct (str_eqb k k1) eqn:Q;
        [apply eqb_spec in Q; injection G as ->; subst; now left|right; auto]).
      assert (p' = p) as <-; [|exact Y]. apply J in Y. pose proof (PK t) as K. clear -K I Y.
      induction (more t) as [|[k1 v1] l IH]; [destruct I|]. cbn [map fst] in K. inversion K as [|? ? K1 K2]; subst.
      destruct I as [I|I], Y as [Y|Y]; [congruence| | |auto]; exfalso; apply K1; apply in_map_iff; [exists (k, p')|exists (k, p)]; (split; [cbn [fst]; congruence|assumption]). }
    exists []. rewrite (dset_there k p ex D X), !app_nil_r. split; [reflexivity|]. split; [apply in_or_app; now right|]. exists ex. now split.
  - exists [(k, p)]. rewrite SystemGrow.dset_new by (unfold dmem; now rewrite G). rewrite app_assoc. split; [reflexivity|]. split; [apply in_or_app; right; now left|].
    exists (ex ++ [(k, p)]). rewrite app_assoc. split; [reflexivity|]. rewrite map_app. cbn [map fst]. split.
    + apply (Permutation_NoDup (Permutation_cons_append (map fst ex) k)). constructor; [now apply dget_none_key|exact D].
    + intros x H. apply in_app_or in H. destruct H as [H|[<-|[]]]; [now apply J|exact I].
Qed.
Lemma put_prefix_now t k p s : now s -> In (k, p) (more t) ->
  now (put_prefix (t, k, p) s) /\ follows s (put_prefix (t, k, p) s) /\ In (k, p) (prefixes t (put_prefix (t, k, p) s)).
Proof.
  intros N I. destruct (put_extra t k p s N I) as (e & E & J & X). pose proof N as (PX & T & LL & LR).
  assert (PP : forall t', prefixes t' (put_prefix (t, k, p) s) = match t, t' with PNames, PNames | PSymbols, PSymbols => prefixes t s ++ e | _, _ => prefixes t' s end).
  { intro t'. rewrite <- E. destruct t, t'; reflexivity. }
  assert (CC : forall t', content t' (put_prefix (t, k, p) s) = content t' s) by (intro t'; destruct t, t'; reflexivity).
  assert (LZ' : s_lazies (put_prefix (t, k, p) s) = s_lazies s) by (destruct t; reflexivity).
  split; [|split].
  - split; [|split; [|split]].
    + intro t'. rewrite PP. destruct t, t'; try exact X; apply PX.
    + intros t' k'. rewrite CC. apply T.
    + now rewrite LZ'.
    + rewrite LZ'. exact LR.
  - split; [|split].
    + intros t' k' H. now rewrite CC.
    + intros i (l & x & N1 & N2). exists l, x. now rewrite LZ'.
    + intro t'. rewrite PP. destruct t, t'; try (exists e; reflexivity); exists []; now rewrite app_nil_r.
  - rewrite PP. destruct t; exact J.
Qed.

(** a thread inside add_prefix: what it has done is there *)
Definition prefixer_ok (s : system) (x : prefix * list (ptable * str * prefix)) : Prop :=
  In (fst x) new /\ exists did, puts_of (fst x) = did ++ snd x /\ forall t k p, In (t, k, p) did -> In (k, p) (prefixes t s).
Lemma prefixer_ok_goes_on s s' x : follows s s' -> prefixer_ok s x -> prefixer_ok s' x.
Proof.
  intros (_ & _ & F) (I & did & E & H). split; [exact I|]. exists did. split; [exact E|]. intros t k p J. destruct (F t) as (e & ->). apply in_or_app. left. eauto.
Qed.

Definition q_ok (w : qworld) : Prop := gworld_ok (fst w) /\ forall x, In x (snd w) -> prefixer_ok (fst (g_memory (fst w))) x.

Lemma q_step_ok w w' : q_step ord units new w w' -> q_ok w -> q_ok w' /\ follows (fst (g_memory (fst w))) (fst (g_memory (fst w'))).
Proof.
  intros S (HG & HP). destruct S as [w ps w' S|w ps p I|s c ts rs js ps i p x rest Ni]; cbn [fst snd] in *.
  - destruct (g_step_ok w w' S HG) as (HG' & F & _). split; [|exact F]. split; [exact HG'|]. cbn [fst snd]. intros x I. eapply prefixer_ok_goes_on; eauto.
  - split; [|apply follows_refl]. split; [exact HG|]. cbn [fst snd]. intros x J. apply in_app_or in J. destruct J as [J|[<-|[]]]; [auto|].
    split; [exact I|]. exists []. split; [reflexivity|intros t k p' []].
  - destruct (HP _ (nth_error_In _ _ Ni)) as (In_p & did & Ed & Hd). cbn [fst snd] in *. destruct x as [[t k] p'].
    assert (X : In (k, p') (more t)) by (apply (REGP p); [exact In_p|]; rewrite Ed; apply in_or_app; right; now left).
    destruct HG as ((N & HC & HR) & HT & HA & HJ). cbn [g_memory g_threads g_adds g_parses fst snd] in *.
    destruct (put_prefix_now t k p' s N X) as (N' & F & J). split; [|exact F].
    assert (G : goes_on (s, c) (put_prefix (t, k, p') s, c)).
    { split; [exact F|]. split; [apply AtnSharedFacts.extends_refl|apply PSharedFacts.grows_refl]. }
    split; cbn [fst snd]; [|intros y Iy; apply in_set_nth in Iy; destruct Iy as [->|Iy]].
    + split; [split; [exact N'|now split]|]. cbn [g_memory g_threads g_adds g_parses]. split; [|split; [|exact HJ]].
      * intros t0 I0. apply (thread_ok_goes_on (s, c)); auto.
      * intros g I0. apply (registrar_ok_goes_on (s, c)); auto.
    + split; [exact In_p|]. cbn [fst snd]. exists (did ++ [(t, k, p')]). split; [now rewrite <- app_assoc|].
      cbn [g_memory fst snd]. intros t1 k1 p1 I1. apply in_app_or in I1. destruct I1 as [I1|[I1|[]]].
      * destruct F as (_ & _ & F). destruct (F t1) as (e & ->). apply in_or_app. left. eauto.
      * injection I1 as <- <- <-. exact J.
    + eapply prefixer_ok_goes_on; [exact F|]. now apply HP.
Qed.

Lemma begin_ok : q_ok (q_begin s0).
Proof.
  split; [|intros x []]. split; [|split; [|split]; intros x []]. destruct empty_process_ok as (HC & HR & _). split; [exact now_refl|]. now split.
Qed.
Lemma q_reached_ok w w' : q_steps ord units new w w' -> q_ok w -> q_ok w' /\ follows (fst (g_memory (fst w))) (fst (g_memory (fst w'))).
Proof.
  intro S. induction S as [w|w1 w2 w3 S1 _ IH]; intro H; [split; [exact H|apply follows_refl]|].
  destruct (q_step_ok w1 w2 S1 H) as (H2 & G). destruct (IH H2) as (H3 & G'). split; [exact H3|]. eapply follows_trans; eauto.
Qed.

Theorem q_answers w b r x : q_steps ord units new (q_begin s0) w -> In (b, mkThread r (Running (Done x))) (g_threads (fst w)) -> now b /\ fair_answer b r x.
Proof.
  intros S I. destruct (proj1 (q_reached_ok _ _ S begin_ok)) as ((_ & HT & _) & _). destruct (HT _ I) as (Nb & _ & K & _ & H). cbn [t_state t_asked fst snd] in H.
  split; [exact Nb|exact H].
Qed.
Theorem q_added w e r x : q_steps ord units new (q_begin s0) w -> In (mkReg e r (Done x)) (g_adds (fst w)) ->
  added r x (fun t k => here t k (fst (g_memory (fst w)))).
Proof.
  intros S I. destruct (proj1 (q_reached_ok _ _ S begin_ok)) as ((_ & _ & HG & _) & _). destruct (HG _ I) as (_ & V & HV & H). cbn [rg_rest rg_names writes] in H.
  destruct H as [(-> & H)|(v & t & k & -> & J & Vk)]; [left|right].
  - split; [reflexivity|]. intros t k J. apply HV, H, J.
  - exists v, t, k. split; [reflexivity|]. split; [exact J|]. now apply HV.
Qed.
Theorem q_prefixed w p t k p' : q_steps ord units new (q_begin s0) w -> In (p, []) (snd w) -> In (t, k, p') (puts_of p) ->
  In (k, p') (prefixes t (fst (g_memory (fst w)))).
Proof.
  intros S I J. destruct (proj1 (q_reached_ok _ _ S begin_ok)) as (_ & HP). destruct (HP _ I) as (_ & did & E & H). cbn [fst snd] in *.
  rewrite app_nil_r in E. apply H. now rewrite <- E.
Qed.
Theorem q_follows w w' : q_steps ord units new (q_begin s0) w -> q_steps ord units new w w' -> follows (fst (g_memory (fst w))) (fst (g_memory (fst w'))).
Proof. intros S S'. apply (q_reached_ok w w' S'). apply (q_reached_ok _ _ S begin_ok). Qed.
Theorem q_now w : q_steps ord units new (q_begin s0) w -> now (fst (g_memory (fst w))).
Proof. intro S. destruct (proj1 (q_reached_ok _ _ S begin_ok)) as (((N & _) & _) & _). exact N. Qed.

(** ** Progress and termination *)
Theorem q_progress w b t : q_steps ord units new (q_begin s0) w -> In (b, t) (g_threads (fst w)) ->
  (exists x, t_state t = Running (Done x)) \/ exists m' t', thread_step (g_memory (fst w)) t m' t'.
Proof.
  intros S I. destruct (proj1 (q_reached_ok _ _ S begin_ok)) as ((_ & HT & _) & _). destruct (HT _ I) as (_ & _ & K & _ & H).
  destruct t as [r [[x|B a k|t k]|j k]]; cbn [t_state snd] in *.
  - left. eauto.
  - right. destruct (g_memory (fst w)) as [s c]. destruct (does a s) as [v s'] eqn:D. exists (s', c), (mkThread r (Running (k v))). apply T_access. cbn [next]. rewrite D. reflexivity.
  - right. eexists _, _. constructor.
  - right. destruct H as (T & C & _). destruct j as [u g]. destruct (g_memory (fst w)) as [s c]. cbn [snd c_arg] in *.
    destruct (ok_progress c u g C T) as [[x ->]|(c' & k' & J)].
    + eexists _, _. apply T_return.
    + eexists _, _. now apply T_parse with (c' := c') (j' := k').
Qed.
Theorem q_add_progress w e r p : q_steps ord units new (q_begin s0) w -> In (mkReg e r p) (g_adds (fst w)) ->
  (exists x, p = Done x) \/ exists p' s', next p (fst (g_memory (fst w))) = Some (p', s').
Proof.
  intros S I. destruct (proj1 (q_reached_ok _ _ S begin_ok)) as ((_ & _ & HG & _) & _). destruct (HG _ I) as (_ & V & _ & H). cbn [rg_rest] in H.
  destruct p as [x|B a k|t k]; [left; eauto| |destruct H]. right. cbn [next]. destruct (does a (fst (g_memory (fst w)))) as [v s']. eauto.
Qed.

Definition q_own (t' t : thread) : Prop :=
  exists w b m', q_steps ord units new (q_begin s0) w /\ In (b, t) (g_threads (fst w)) /\ thread_step (g_memory (fst w)) t m' t'.
Theorem q_ends : forall t, Acc q_own t.
Proof.
  assert (P : forall r (p : prog anyunit), Acc q_own (mkThread r (Running p))).
  { intros r p. induction p as [x|B a k IH|t k IH].
    - constructor. intros t' (w & b & m' & _ & _ & S). inversion S; subst. discriminate.
    - constructor. intros t' (w & b & m' & _ & _ & S). inversion S as [s c r0 p p' s' D| | |]; subst. cbn [next] in D.
      destruct (does a s) as [v s1]. injection D as D1 D2. subst p'. apply IH.
    - constructor. intros t' (w & b & m' & _ & _ & S). inversion S; subst; [discriminate|]. clear S. generalize (new_call t) as j. intro j.
      induction (ok_ends j) as [j _ IHj]. constructor. intros t' (w2 & b2 & m2 & W & I & S). inversion S; subst.
      + apply IHj. destruct (proj1 (q_reached_ok _ _ W begin_ok)) as ((_ & HT & _) & _). destruct (HT _ I) as (_ & _ & K & _ & HH). cbn [t_state snd] in HH.
        exists c, c'. split; [|assumption]. replace c with (snd (g_memory (fst w2))); [apply HH|]. match goal with X : _ = g_memory (fst w2) |- _ => rewrite <- X end. reflexivity.
      + apply IH. }
  intros [r [p|j k]]; [apply P|]. induction (ok_ends j) as [j _ IHj]. constructor. intros t' (w2 & b2 & m2 & W & I & S). inversion S; subst.
  - apply IHj. destruct (proj1 (q_reached_ok _ _ W begin_ok)) as ((_ & HT & _) & _). destruct (HT _ I) as (_ & _ & K & _ & HH). cbn [t_state snd] in HH.
    exists c, c'. split; [|assumption]. replace c with (snd (g_memory (fst w2))); [apply HH|]. match goal with X : _ = g_memory (fst w2) |- _ => rewrite <- X end. reflexivity.
  - apply P.
Qed.

(** a look-up that begins later sees what was there *)
Lemma begun_later w w' : q_steps ord units new w w' -> q_ok w -> forall i b t, nth_error (g_threads (fst w')) i = Some (b, t) ->
  (exists t0, nth_error (g_threads (fst w)) i = Some (b, t0)) \/ follows (fst (g_memory (fst w))) b.
Proof.
  intros S. induction S as [w|w1 w2 w3 S1 _ IH]; intros H i b t N; [left; eauto|].
  destruct (q_step_ok w1 w2 S1 H) as (H2 & G). destruct (IH H2 i b t N) as [(t0 & N0)|St]; [|right; eapply follows_trans; eauto].
  destruct S1 as [w ps w' S1|w ps p I|s c ts rs js ps j p x rest Nj]; cbn [fst snd g_threads g_memory] in *; try (left; eauto; fail).
  destruct S1 as [m ts rs js j b' t' m' t'' Nj S|m ts rs js r T|s c ts rs js j e r p p' s' Nj S|m ts rs js e r I|s c ts rs js c' js' S]; cbn [g_threads g_memory] in *; try (left; eauto; fail).
  - rewrite PSharedFacts.nth_set_nth in N0. destruct (Nat.eqb_spec j i) as [->|NE]; [|left; eauto].
    rewrite Nj in N0. injection N0 as <- <-. left. eauto.
  - destruct (nth_error ts i) as [x|] eqn:Ni.
    + left. rewrite nth_error_app1 in N0 by (apply nth_error_Some; congruence). exists t0. congruence.
    + apply nth_error_None in Ni. rewrite nth_error_app2 in N0 by exact Ni. destruct (i - List.length ts)%nat as [|d]; cbn [nth_error] in N0.
      * injection N0 as <- _. right. apply follows_refl.
      * destruct d; discriminate.
Qed.

(** ** What could be read before *)
Lemma fit_ext s s' q ps : (forall k, In k (rests q ps) -> known_opt s' k = known_opt s k) -> fit_opt s' q ps = fit_opt s q ps.
Proof.
  induction ps as [|[key p] ps IH]; cbn [fit_opt rests flat_map fst]; intro H; [reflexivity|].
  destruct (strip_prefix key q) as [k|]; [|auto]. rewrite (H k) by now left. destruct (known_opt s k); [reflexivity|]. apply IH. intros k' I. apply H. now right.
Qed.

Lemma full_known k : known_opt s0 k <> None -> known_opt full k = known_opt s0 k.
Proof. intro H. rewrite !get_content. unfold get_or. now rewrite !(OLD k H). Qed.

Lemma full_keeps : keeps_readings s0 full.
Proof.
  intros q pre e Rd. assert (A : forall k, In k (ways s0 q) -> known_opt full k = known_opt s0 k).
  { intros k I. destruct (known_opt s0 k) as [e0|] eqn:K0; [rewrite <- K0; apply full_known; congruence|].
    destruct (known_opt full k) as [e1|] eqn:K1; [|reflexivity]. exfalso. pose proof I as I0. apply (now_incl s0 q now_refl) in I.
    pose proof (ONE k q K0 ltac:(congruence) I) as L. apply (readable_not_unreadable _ _ _ _ Rd). apply unreadable_ways.
    intros k' I'. destruct (known_opt s0 k') as [e'|] eqn:K'; [|reflexivity]. exfalso.
    assert (F' : known_opt full k' <> None) by (rewrite full_known; congruence).
    assert (A1 : In k (filter knownb (ways full q))) by (apply filter_In; split; [exact I|]; unfold knownb; now rewrite K1).
    assert (A2 : In k' (filter knownb (ways full q))) by (apply filter_In; split; [now apply (now_incl s0 q now_refl)|]; unfold knownb; now destruct (known_opt full k')).
    destruct (filter knownb (ways full q)) as [|a [|c m]]; try discriminate. destruct A1 as [<-|[]], A2 as [<-|[]]. congruence. }
  assert (M : forall t, fit_opt full q (more t) = None).
  { intro t. destruct (fit_opt full q (more t)) as [[[[key p] k] e1]|] eqn:F; [|reflexivity]. exfalso. destruct (fit_in q _ _ _ _ _ F) as (J & Sk & Kk).
    assert (JK : In key (map fst (more t))) by (apply in_map_iff; exists (key, p); now split).
    pose proof (ONEP t key k q JK Sk ltac:(congruence)) as L. apply (readable_not_unreadable _ _ _ _ Rd). apply unreadable_ways.
    intros k' I'. destruct (known_opt s0 k') as [e'|] eqn:K'; [|reflexivity]. exfalso.
    apply (two_ways q (ways s0 q) (rests q (more PNames) ++ rests q (more PSymbols)) k' k).
    - apply ways_missing; rewrite PR; apply Permutation_refl.
    - exact L.
    - exact I'.
    - apply in_or_app. destruct t; [left|right]; now apply (rest_in q _ key p).
    - rewrite full_known; congruence.
    - congruence. }
  apply reading_iff in Rd. apply reading_iff. rewrite <- Rd. unfold reading_opt. rewrite (A q) by now left.
  pose proof (PR PNames) as P1. pose proof (PR PSymbols) as P2. cbn [prefixes] in P1, P2. rewrite P1, P2, !fit_app, !M.
  rewrite (fit_ext s0 full q (s_prefix_names s0)) by (intros k I; apply A; right; apply in_or_app; auto).
  rewrite (fit_ext s0 full q (s_prefix_symbols s0)) by (intros k I; apply A; right; apply in_or_app; auto).
  destruct (known_opt s0 q); [reflexivity|]. destruct (fit_opt s0 q (s_prefix_names s0)); [reflexivity|]. destruct (fit_opt s0 q (s_prefix_symbols s0)); reflexivity.
Qed.
Lemma full_grows : SystemGrow.grows s0 full.
Proof. split; [exact full_keeps|]. intros i l N. now rewrite LZ. Qed.

Lemma lookup_readable F q x : p_lookup ord s0 F q = Ok x -> ~ unreadable s0 q.
Proof.
  destruct F as [|F]; [discriminate|]. cbn [p_lookup]. rewrite p_body_reading, unreadable_iff. destruct (reading_opt s0 q); [discriminate|]. cbn [of_reading]. discriminate.
Qed.
Lemma refs_each (rc : str -> res unit) ids refs : p_refs ord rc ids = Ok refs -> forall id, In id ids -> exists x, rc id = Ok x.
Proof.
  intros H id I. apply (Permutation_in _ (Permutation_sym (perm ids))) in I. unfold p_refs in H. revert refs H. induction (ord ids) as [|a l IH]; intros refs H; [destruct I|].
  cbn [mapM] in H. destruct (rc a) as [x|] eqn:E; cbn [bind] in H; [|discriminate]. destruct I as [->|I]; [eauto|].
  destruct (mapM _ l) as [ys|]; cbn [bind] in H; [|discriminate]. exact (IH I ys eq_refl).
Qed.
Lemma mentioned_ok F q x id : p_lookup ord s0 F q = Ok x -> mentions full q id -> exists F' y, p_lookup ord s0 F' id = Ok y.
Proof.
  intros H (l & g & D & Pr & I). destruct F as [|F]; [discriminate|]. cbn [p_lookup] in H. rewrite p_body_reading in H.
  destruct (reading_opt s0 q) as [[pre e]|] eqn:E; [|discriminate]. apply reading_iff in E. apply full_keeps in E.
  destruct D as [pre' i Rd N U]. destruct (reading_unique _ _ _ _ _ _ E Rd) as [_ ->]. rewrite LZ in N.
  cbn [of_reading p_entry] in H. destruct (p_resolve ord s0 (p_lookup ord s0 F) i) as [y|] eqn:P; [|destruct pre as [[[? ?] ?]|]; discriminate].
  unfold p_resolve in P. rewrite N, U, Pr in P. cbn [bind] in P. destruct (p_refs ord (p_lookup ord s0 F) (identifiers g)) as [refs|] eqn:Rf; [|discriminate].
  exists F. exact (refs_each _ _ _ Rf id I).
Qed.
Lemma needed_ok q k : needed full q k -> forall F x, p_lookup ord s0 F q = Ok x -> ~ unreadable s0 k.
Proof.
  intros [<-|D]; [intros F x H; eapply lookup_readable; eauto|]. induction D as [q k M|q k k' M _ IH]; intros F x H; destruct (mentioned_ok F q x _ H M) as (F' & y & H').
  - eapply lookup_readable; eauto.
  - eapply IH; eauto.
Qed.
Lemma readable_now b k : now b -> ~ unreadable s0 k -> ~ unreadable b k.
Proof.
  intros Nb R U. apply R. rewrite unreadable_ways in *. intros k' I. destruct (known_opt s0 k') as [e|] eqn:K; [|reflexivity]. exfalso.
  assert (X : known_opt s0 k' <> None) by congruence. apply (now_old b k' Nb X). apply U.
  pose proof Nb as (PX & _). destruct (PX PNames) as (e1 & E1 & _), (PX PSymbols) as (e2 & E2 & _). cbn [prefixes] in E1, E2.
  unfold ways in *. rewrite E1, E2, !rests_app. destruct I as [I|I]; [now left|]. right. rewrite !in_app_iff in *. tauto.
Qed.

(** no word is late for a request that had an answer *)
Lemma never_late b r : now b ->
  match r with
  | Lookup _ q => exists F x, p_lookup ord s0 F q = Ok x
  | UnitOf _ t => exists F x, SystemProofs.p_unit ord s0 F t = Ok x
  end -> forall k, ~ late b r k.
Proof.
  intros Nb H k (D & U & _). apply (readable_now b k Nb); [|exact U]. destruct r as [f q|f t]; cbn [needed_for] in D.
  - destruct H as (F & x & H). eapply needed_ok; eauto.
  - destruct H as (F & x & H). destruct D as (g & id & P & I & D). unfold SystemProofs.p_unit in H. rewrite P in H. cbn [bind] in H.
    destruct (p_refs ord (p_lookup ord s0 F) (identifiers g)) as [refs|] eqn:Rf; [|discriminate]. destruct (refs_each _ _ _ Rf id I) as (y & Hy). eapply needed_ok; eauto.
Qed.
End Growing.

(** ** The system in the end *)
Lemma content_register t e r s : content t (register e r s) = dset_all (words_in t r) e (content t s).
Proof. destruct t; reflexivity. Qed.
Lemma everything_old units t k : forall s, (forall e r, In (e, r) units -> ~ In k (words_in t r)) ->
  dget k (content t (everything units s)) = dget k (content t s).
Proof.
  unfold everything. induction units as [|[e r] units IH]; intros s H; cbn [fold_left fst snd]; [reflexivity|]. rewrite IH by (intros e' r' I; apply (H e' r'); now right).
  rewrite content_register, dget_dset_all. destruct (str_mem k (words_in t r)) eqn:M; [|reflexivity]. exfalso. apply (H e r); [now left|]. now apply str_mem_In.
Qed.
Lemma everything_from units t k : forall s e, dget k (content t (everything units s)) = Some e ->
  (exists r, In (e, r) units /\ In k (words_in t r)) \/ dget k (content t s) = Some e.
Proof.
  unfold everything. induction units as [|[e r] units IH]; intros s e' H; cbn [fold_left fst snd] in H; [now right|].
  destruct (IH _ _ H) as [(r' & I & J)|G]; [left; exists r'; split; [now right|exact J]|]. rewrite content_register, dget_dset_all in G.
  destruct (str_mem k (words_in t r)) eqn:M; [|now right]. injection G as <-. left. exists r. split; [now left|]. now apply str_mem_In.
Qed.
Lemma everything_new units t k : forall s e r, In (e, r) units -> In k (words_in t r) -> dget k (content t (everything units s)) <> None.
Proof.
  assert (St : forall units s, dget k (content t s) <> None -> dget k (content t (everything units s)) <> None).
  { unfold everything. induction units0 as [|[e r] us IH]; intros s H; cbn [fold_left fst snd]; [exact H|]. apply IH. rewrite content_register, dget_dset_all. now destruct (str_mem k (words_in t r)). }
  unfold everything in *. induction units as [|[e r] units IH]; intros s e' r' I J; [destruct I|]. cbn [fold_left fst snd]. destruct I as [E|I]; [|eapply IH; eauto].
  injection E as -> ->. apply St. rewrite content_register, dget_dset_all. apply str_mem_In in J. now rewrite J.
Qed.
Lemma everything_prefixes units : forall s, s_prefix_names (everything units s) = s_prefix_names s /\
  s_prefix_symbols (everything units s) = s_prefix_symbols s /\ s_lazies (everything units s) = s_lazies s.
Proof.
  unfold everything. induction units as [|[e r] units IH]; intro s; cbn [fold_left fst snd]; [auto|]. destruct (IH (register e r s)) as (-> & -> & ->). auto.
Qed.

(** the prefixes in the end *)
Definition put_in (t : ptable) (d : dict prefix) (x : ptable * str * prefix) : dict prefix :=
  let '(t', k, p) := x in match t, t' with PNames, PNames | PSymbols, PSymbols => dset k p d | _, _ => d end.
Definition puts_in (t : ptable) (xs : list (ptable * str * prefix)) (d : dict prefix) : dict prefix := fold_left (put_in t) xs d.
Lemma add_puts p s : fold_left (fun s x => put_prefix x s) (puts_of p) s = add_prefix p s.
Proof.
  unfold puts_of, add_prefix. cbn [fold_left put_prefix].
  assert (G : forall l s, fold_left (fun s x => put_prefix x s) (map (fun sym => (PSymbols, sym, p)) l) s =
    mkSys (s_symbols s) (s_names s) (s_alias_names s) (s_alias_symbols s) (s_prefix_names s)
      (fold_left (fun d sym => dset sym p d) l (s_prefix_symbols s)) (s_lazies s)).
  { induction l as [|a l IH]; intros [? ? ? ? ? ? ?]; cbn [map fold_left put_prefix]; [reflexivity|]. rewrite IH. reflexivity. }
  rewrite G. reflexivity.
Qed.
Lemma with_puts new : forall s, with_prefixes new s = fold_left (fun s x => put_prefix x s) (flat_map puts_of new) s.
Proof.
  unfold with_prefixes. induction new as [|p new IH]; intro s; [reflexivity|]. cbn [fold_left flat_map]. now rewrite IH, <- add_puts, fold_left_app.
Qed.
Lemma puts_tables xs : forall s, (forall t, prefixes t (fold_left (fun s x => put_prefix x s) xs s) = puts_in t xs (prefixes t s)) /\
  (forall t, content t (fold_left (fun s x => put_prefix x s) xs s) = content t s) /\ s_lazies (fold_left (fun s x => put_prefix x s) xs s) = s_lazies s.
Proof.
  unfold puts_in. induction xs as [|[[t k] p] xs IH]; intro s; cbn [fold_left]; [auto|]. destruct (IH (put_prefix (t, k, p) s)) as (A & B & C).
  split; [|split].
  - intro t'. rewrite A. f_equal. destruct t, t'; reflexivity.
  - intro t'. rewrite B. destruct t, t'; reflexivity.
  - rewrite C. destruct t; reflexivity.
Qed.
Lemma key_put t k p p' : In (t, k, p') (puts_of p) <-> a_key t k p /\ p' = p.
Proof.
  unfold puts_of. cbn [In]. rewrite in_map_iff. split.
  - intros [H|(x & H & I)]; [injection H as <- <- <-; now split|]. injection H as <- <- <-. now split.
  - intros [A ->]. destruct t; cbn [a_key] in A; [left; now subst|right; eauto].
Qed.
Lemma puts_in_app t xs d0 : (forall k p, In (t, k, p) xs -> dget k d0 = None) -> forall d, puts_in t xs (d0 ++ d) = d0 ++ puts_in t xs d.
Proof.
  unfold puts_in. induction xs as [|[[t' k] p] xs IH]; intros H d; cbn [fold_left]; [reflexivity|].
  assert (E : put_in t (d0 ++ d) (t', k, p) = d0 ++ put_in t d (t', k, p)).
  { destruct t, t'; cbn [put_in]; try reflexivity; apply dset_app; apply (H k p); now left. }
  rewrite E. apply IH. intros k' p' I. apply (H k' p'). now right.
Qed.
Lemma dset_keys {V} k (v : V) d : NoDup (map fst d) -> NoDup (map fst (dset k v d)) /\ forall x, In x (dset k v d) -> x = (k, v) \/ In x d.
Proof.
  induction d as [|[k' v'] d IH]; cbn [dset map fst]; intro D.
  - split; [repeat constructor; intros []|intros x [<-|[]]; now left].
  - inversion D as [|? ? D1 D2]; subst. destruct (str_eqb k k') eqn:E.
    + cbn [map fst]. apply eqb_spec in E. subst k'. split; [exact D|]. intros x [<-|I]; [now left|right; now right].
    + destruct (IH D2) as [A B]. cbn [map fst]. split.
      * constructor; [|exact A]. intro I. apply in_map_iff in I as (x & Ex & I). destruct (B x I) as [->|J].
        -- cbn [fst] in Ex. subst k'. rewrite (proj2 (eqb_spec k k) eq_refl) in E. discriminate.
        -- apply D1. rewrite <- Ex. now apply in_map.
      * intros x [<-|I]; [right; now left|]. destruct (B x I); [now left|right; now right].
Qed.
Lemma puts_in_keys t xs : forall d, NoDup (map fst d) -> NoDup (map fst (puts_in t xs d)) /\
  forall k p, In (k, p) (puts_in t xs d) -> In (t, k, p) xs \/ In (k, p) d.
Proof.
  unfold puts_in. induction xs as [|[[t' k] p] xs IH]; intros d D; cbn [fold_left]; [split; auto|].
  assert (D' : NoDup (map fst (put_in t d (t', k, p))) /\ forall x, In x (put_in t d (t', k, p)) -> (t, fst x, snd x) = (t', k, p) \/ In x d).
  { destruct t, t'; cbn [put_in]; try (split; [exact D|auto]; fail); destruct (dset_keys k p d D) as [A B]; (split; [exact A|]); intros x I;
      destruct (B x I) as [->|J]; auto. }
  destruct D' as [D1 D2]. destruct (IH _ D1) as [A B]. split; [exact A|]. intros k' p' I. destruct (B k' p' I) as [J|J]; [left; now right|].
  destruct (D2 _ J) as [E|K]; [left; left; symmetry; exact E|now right].
Qed.
Lemma dget_dset_keys {V} k k' (v : V) d : In k (map fst (dset k' v d)) <-> k = k' \/ In k (map fst d).
Proof.
  induction d as [|[k1 v1] d IH]; cbn [dset map fst]; [cbn [In]; intuition|]. destruct (str_eqb k' k1) eqn:E.
  - apply eqb_spec in E. subst k1. cbn [map fst In]. intuition.
  - cbn [map fst In]. rewrite IH. intuition.
Qed.
Lemma puts_in_has t xs : forall d k p, In (t, k, p) xs \/ In k (map fst d) -> In k (map fst (puts_in t xs d)).
Proof.
  unfold puts_in. induction xs as [|[[t' k'] p'] xs IH]; intros d k p H; cbn [fold_left]; [destruct H as [[]|H]; exact H|].
  apply (IH _ k p). destruct H as [[H|H]|H]; [|now left|].
  - injection H as -> -> ->. right. destruct t; cbn [put_in]; apply dget_dset_keys; now left.
  - right. destruct t, t'; cbn [put_in]; try exact H; apply dget_dset_keys; now right.
Qed.

Section End.
Variables (units : list (entry * reference)) (new : list prefix) (s : system).
Hypothesis NW : new_words_and_prefixes units new s.
Let full := everything_and_prefixes units new s.
Definition added_prefixes (new : list prefix) (t : ptable) : dict prefix := puts_in t (flat_map puts_of new) [].

Lemma end_tables : (forall t, content t full = content t (everything units s)) /\ s_lazies full = s_lazies s.
Proof.
  unfold full, everything_and_prefixes. rewrite with_puts. destruct (puts_tables (flat_map puts_of new) (everything units s)) as (_ & B & C).
  split; [exact B|]. rewrite C. apply everything_prefixes.
Qed.
Lemma new_put t k p : In (t, k, p) (flat_map puts_of new) <-> In p new /\ a_key t k p.
Proof.
  rewrite in_flat_map. split.
  - intros (p' & I & J). apply key_put in J as [A ->]. now split.
  - intros [I A]. exists p. split; [exact I|]. now apply key_put.
Qed.
Lemma absent_key {V} k (d : dict V) : ~ In k (map fst d) -> dget k d = None.
Proof.
  intro H. destruct (dget k d) as [v|] eqn:G; [|reflexivity]. exfalso. apply H. clear H.
  induction d as [|[k1 v1] d IH]; cbn [dget] in G; [discriminate|]. cbn [map fst In]. destruct (str_eqb k k1) eqn:E; [left; symmetry; now apply eqb_spec|right; auto].
Qed.
Lemma end_prefixes t : prefixes t full = prefixes t s ++ added_prefixes new t.
Proof.
  unfold full, everything_and_prefixes. rewrite with_puts. destruct (puts_tables (flat_map puts_of new) (everything units s)) as (A & _).
  rewrite A. assert (E : prefixes t (everything units s) = prefixes t s) by (destruct t; apply everything_prefixes). rewrite E.
  rewrite <- (app_nil_r (prefixes t s)) at 1. apply puts_in_app. intros k p I. apply new_put in I as [I K]. apply absent_key.
  destruct NW as (_ & _ & H & _). exact (H p t k I K).
Qed.
Lemma end_prefix_keys t : NoDup (map fst (added_prefixes new t)).
Proof. apply puts_in_keys. constructor. Qed.
Lemma end_prefix_from t k p : In (k, p) (added_prefixes new t) -> In p new /\ a_key t k p.
Proof. intro I. apply puts_in_keys in I; [|constructor]. destruct I as [I|[]]. now apply new_put. Qed.
Lemma end_prefix_new t key : In key (map fst (added_prefixes new t)) -> dget key (prefixes t s) = None.
Proof.
  intro I. apply in_map_iff in I as ([k p] & E & I). cbn [fst] in E. subst k. apply end_prefix_from in I as [I K]. apply absent_key.
  destruct NW as (_ & _ & H & _). exact (H p t key I K).
Qed.
Lemma end_prefix_reg p t k p' : In p new -> In (t, k, p') (puts_of p) -> In (k, p') (added_prefixes new t).
Proof.
  intros I J. apply key_put in J as [K ->]. assert (J : In (t, k, p) (flat_map puts_of new)) by (apply new_put; now split).
  pose proof (puts_in_has t _ [] k p (or_introl J)) as X. apply in_map_iff in X as ([k' p'] & E & X). cbn [fst] in E. subst k'.
  pose proof (end_prefix_from t k p' X) as [I' K']. destruct NW as (_ & _ & _ & H & _). now rewrite (H p p' t k I I' K K').
Qed.

Lemma end_lazies : s_lazies full = s_lazies s. Proof. apply end_tables. Qed.
Lemma end_old k : known_opt s k <> None -> forall t, dget k (content t full) = dget k (content t s).
Proof.
  intros K t. rewrite (proj1 end_tables). apply everything_old. intros e r I J. apply K. apply unknown_iff. destruct NW as [H _]. apply (H e r k I). now exists t.
Qed.
Lemma end_entry k t e : known_opt s k = None -> dget k (content t full) = Some e -> exists r, In (e, r) units /\ In k (words_in t r).
Proof. rewrite (proj1 end_tables). intros U G. destruct (everything_from units t k s e G) as [H|H]; [exact H|]. rewrite unknown_tables in U. rewrite U in H. discriminate. Qed.
Lemma end_one k : known_opt s k = None -> forall t t' e e', dget k (content t full) = Some e -> dget k (content t' full) = Some e' -> e = e'.
Proof.
  intros U t t' e e' G G'. destruct (end_entry k t e U G) as (r & I & J), (end_entry k t' e' U G') as (r' & I' & J').
  destruct NW as (_ & H & _). apply (H e r e' r' k I I'); [now exists t|now exists t'].
Qed.
Lemma only_one k l : only (fun k' => ~ unknown full k') k l -> known_opt full k <> None -> List.length (filter (knownb full) l) = 1%nat.
Proof.
  intros (be & af & -> & N) K.
  assert (Z : forall l, (forall k', In k' l -> ~ ~ unknown full k') -> filter (knownb full) l = []).
  { induction l as [|a l IH]; intro Q; cbn [filter]; [reflexivity|]. replace (knownb full a) with false.
    - apply IH. intros k' I'. apply Q. now right.
    - symmetry. unfold knownb. destruct (known_opt full a) as [e0|] eqn:Ka; [|reflexivity]. exfalso. apply (Q a); [now left|]. rewrite unknown_iff. congruence. }
  rewrite filter_app. cbn [filter]. replace (knownb full k) with true by (unfold knownb; now destruct (known_opt full k)).
  rewrite (Z be), (Z af); [reflexivity| |]; intros k' I'; apply N; apply in_or_app; auto.
Qed.
Lemma end_way k q : known_opt s k = None -> known_opt full k <> None -> In k (ways full q) -> List.length (filter (knownb full) (ways full q)) = 1%nat.
Proof.
  intros U K I. apply (only_one k); [|exact K]. destruct (known_opt full k) as [e|] eqn:E; [|contradiction].
  apply known_in_table in E as (t & G). destruct (end_entry k t e U G) as (r & J & Jw).
  destruct NW as (_ & _ & _ & _ & H & _). exact (H e r k q J (ex_intro _ t Jw) I).
Qed.
Lemma end_prefix_way t key k q : In key (map fst (added_prefixes new t)) -> strip_prefix key q = Some k -> known_opt full k <> None ->
  List.length (filter (knownb full) (ways full q)) = 1%nat.
Proof.
  intros I E K. apply (only_one k); [|exact K]. apply in_map_iff in I as ([key' p] & E' & I). cbn [fst] in E'. subst key'.
  apply end_prefix_from in I as [I A]. destruct NW as (_ & _ & _ & _ & _ & H). apply (H p t key k q I A); [now apply strip_prefix_iff|]. now rewrite unknown_iff.
Qed.
Lemma end_reg e r t k : In (e, r) units -> In k (words_in t r) -> dget k (content t full) = Some e.
Proof.
  intros I J. destruct (dget k (content t full)) as [e'|] eqn:G; [|exfalso; rewrite (proj1 end_tables) in G; exact (everything_new units t k s e r I J G)].
  assert (U : known_opt s k = None) by (apply unknown_iff; destruct NW as [H _]; apply (H e r k I); now exists t).
  destruct (end_entry k t e' U G) as (r' & I' & J'). f_equal. destruct NW as (_ & H & _). apply (H e' r' e r k I' I); now exists t.
Qed.
End End.
