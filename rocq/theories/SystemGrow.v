(** * Registering units and prefixes between look-ups.

    [play] runs a history in which look-ups alternate with add_unit and add_prefix
    (_unit_system.py:117-155).  [only_additions] is the same history without the look-ups.
    The question is whether the two systems answer alike. *)
From Verif Require Import PyBase PyNum Graph Visitor Expr Units UnitSpec UnitFacts UnitProofs UnitSystem
  SystemSpec SystemFacts SystemProofs SystemMore SystemKeep.
From Coq Require Import Permutation.

(** ** Specification *)
Inductive addition :=
| Add_prefix (p : prefix)                        (* add_prefix(p) *)
| Add_unit (x : unit) (r : reference)            (* add_unit(x) *)
| Add_definition (text : str) (r : reference).   (* add_unit(LazilyDefinedUnit(system, text, r)) *)

Definition add (a : addition) (s : system) : res system :=
  match a with
  | Add_prefix p => Ok (add_prefix p s)
  | Add_unit x r => add_unit (EUnit x r) r false s
  | Add_definition t r => add_lazy t r s
  end.

Inductive event := Do (c : call) | Add (a : addition).

(** a refused addition raises ValueError and changes nothing (C31) *)
Definition happen (ord : list str -> list str) (s : system) (e : event) : system :=
  match e with
  | Do c => run ord s c
  | Add a => match add a s with Ok s' => s' | Err _ => s end
  end.
Definition play (ord : list str -> list str) (s : system) (es : list event) : system := fold_left (happen ord) es s.
Definition only_additions (es : list event) : list event :=
  filter (fun e => match e with Add _ => true | Do _ => false end) es.

(** Every text that could be read is still read in the same way. *)
Definition keeps_readings (s s' : system) : Prop :=
  forall q pre e, reading s q pre e -> reading s' q pre e.

Definition unclaimed (a : addition) (s : system) : Prop :=
  match a with Add_prefix _ => True | Add_unit _ r | Add_definition _ r => fresh_words r s end.

(** Each addition of the history is accepted, claims no word twice and leaves all readings. *)
Fixpoint harmless (s : system) (es : list event) : Prop :=
  match es with
  | [] => True
  | Do _ :: es' => harmless s es'
  | Add a :: es' => exists s', add a s = Ok s' /\ unclaimed a s /\ keeps_readings s s' /\ harmless s' es'
  end.

(** ** Facts *)
Definition grows (s s' : system) : Prop :=
  keeps_readings s s' /\ forall i l, nth_error (s_lazies s) i = Some l -> nth_error (s_lazies s') i = Some l.

Lemma nth_app_left {A} (l l' : list A) i a : nth_error l i = Some a -> nth_error (l ++ l') i = Some a.
Proof. intro H. rewrite nth_error_app1; [exact H|]. apply nth_error_Some. congruence. Qed.

Lemma add_grows a s s' : add a s = Ok s' -> keeps_readings s s' -> grows s s'.
Proof.
  intros E K. split; [exact K|]. destruct a as [p|x r|t r]; cbn [add] in E.
  - injection E as <-. auto.
  - apply add_unit_ok in E as ->. auto.
  - unfold add_lazy in E. apply add_unit_ok in E as ->. intros i l N. cbn [register s_lazies]. now apply nth_app_left.
Qed.

Section Grow.
Variable ord : list str -> list str.
Variables s s' : system.
Hypothesis G : grows s s'.

Lemma grow_refs (rec rec' : str -> res unit) ids refs : (forall k x, rec k = Ok x -> rec' k = Ok x) ->
  p_refs ord rec ids = Ok refs -> p_refs ord rec' ids = Ok refs.
Proof.
  intro R. unfold p_refs. generalize (ord ids). intro l. revert refs. induction l as [|k l IH]; intros refs H; cbn [mapM] in *; [exact H|].
  destruct (rec k) as [x|] eqn:E; cbn [bind] in *; [|discriminate]. rewrite (R k x E). cbn [bind].
  destruct (mapM _ l) as [ys|] eqn:E2; cbn [bind] in *; [|discriminate]. now rewrite (IH ys eq_refl).
Qed.

Lemma grow_resolve (rec rec' : str -> res unit) i x : (forall k x, rec k = Ok x -> rec' k = Ok x) ->
  p_resolve ord s rec i = Ok x -> p_resolve ord s' rec' i = Ok x.
Proof.
  intros R. unfold p_resolve. destruct (nth_error (s_lazies s) i) as [l|] eqn:N; [|discriminate]. rewrite (proj2 G i l N).
  destruct (lz_resolved l); [auto|]. destruct (parse (lz_def l)) as [g|]; [|discriminate]. cbn [bind].
  destruct (p_refs ord rec (identifiers g)) as [refs|] eqn:E; [|discriminate]. rewrite (grow_refs rec rec' _ refs R E). auto.
Qed.

Lemma grow_lookup f : forall q x, p_lookup ord s f q = Ok x -> p_lookup ord s' f q = Ok x.
Proof.
  induction f as [|f IH]; intros q x H; [discriminate|]. cbn [p_lookup] in *. rewrite p_body_reading in *.
  destruct (reading_opt s q) as [[pre e]|] eqn:E; [|discriminate]. apply reading_iff in E. apply (proj1 G) in E. apply reading_iff in E.
  rewrite E. destruct e as [i|y r].
  - cbn [of_reading p_entry] in *. destruct (p_resolve ord s (p_lookup ord s f) i) as [y|] eqn:P; [|destruct pre as [[[? ?] ?]|]; discriminate].
    rewrite (grow_resolve _ (p_lookup ord s' f) i y IH P). exact H.
  - exact H.
Qed.

Lemma grow_val i x : val ord s i x -> val ord s' i x.
Proof. intros [f V]. exists f. eapply grow_resolve; [|exact V]. intros k y. apply grow_lookup. Qed.

Lemma grow_erel a b : erel ord s a b -> erel ord s' a b.
Proof. intros [o|i x r V]; [apply Er_same|]. apply Er_resolved. now apply grow_val. Qed.

Lemma grow_unit f t a : p_unit ord s f t = Ok a -> p_unit ord s' f t = Ok a.
Proof.
  unfold p_unit. destruct (parse t) as [g|]; [|discriminate]. cbn [bind].
  destruct (p_refs ord (p_lookup ord s f) (identifiers g)) as [refs|] eqn:E; [|discriminate].
  rewrite (grow_refs _ (p_lookup ord s' f) _ refs (grow_lookup f) E). auto.
Qed.
End Grow.

Lemma erel_dmem ord s0 k d0 d : erel ord s0 (dget k d0) (dget k d) -> dmem k d = dmem k d0.
Proof. unfold dmem. intro H. inversion H; reflexivity. Qed.

Lemma erel_dset_all ord s0 k ks e d0 d : erel ord s0 (dget k d0) (dget k d) ->
  erel ord s0 (dget k (dset_all ks e d0)) (dget k (dset_all ks e d)).
Proof. intro H. rewrite !dget_dset_all. destruct (str_mem k ks); [apply Er_same|exact H]. Qed.

Lemma existsb_ext {A} (f g : A -> bool) l : (forall a, f a = g a) -> existsb f l = existsb g l.
Proof. intro H. induction l; cbn; [reflexivity|]. now rewrite H, IHl. Qed.

Lemma fresh_later ord s0 s r : later ord s0 s -> fresh_words r s0 -> fresh_words r s.
Proof.
  intros (_ & _ & _ & S1 & S2 & S3 & S4 & _) (F1 & F2 & F3 & F4).
  repeat split; intros k I; erewrite erel_dmem; eauto.
Qed.

Definition with_lazies (ls : list lazy) (s : system) : system :=
  mkSys (s_symbols s) (s_names s) (s_alias_names s) (s_alias_symbols s) (s_prefix_names s) (s_prefix_symbols s) ls.

Lemma clash_free_lazy t r s : clash_free s -> fresh_words r s ->
  clash_free (register (ELazy (List.length (s_lazies s))) r (with_lazies (s_lazies s ++ [mkLazy t r None]) s)).
Proof.
  intros C F i l N. cbn [register with_lazies s_lazies] in N.
  apply nth_snoc in N as [N|[-> ->]].
  - destruct (C i l N) as (C1 & C2 & C3 & C4). destruct F as (F1 & F2 & F3 & F4).
    cbn [register with_lazies s_symbols s_names s_alias_names s_alias_symbols]. repeat split; now apply owns_fresh.
  - cbn [register with_lazies s_symbols s_names s_alias_names s_alias_symbols lz_names].
    assert (X : forall d0 ks, owns (dset_all ks (ELazy (List.length (s_lazies s))) d0) (List.length (s_lazies s)) (mkLazy t r None) ks).
    { intros d0 ks k I. rewrite dget_dset_all. apply str_mem_In in I. rewrite I. now left. }
    repeat split; apply X.
Qed.

Lemma add_unit_same e r s0 s s0' ord : later ord s0 s -> add_unit e r false s0 = Ok s0' -> add_unit e r false s = Ok (register e r s).
Proof.
  intros (_ & _ & _ & S1 & S2 & _) E. unfold add_unit in *.
  rewrite (existsb_ext (fun k => dmem k (s_names s)) (fun k => dmem k (s_names s0))) by (intro k; eapply erel_dmem; eauto).
  rewrite (existsb_ext (fun k => dmem k (s_symbols s)) (fun k => dmem k (s_symbols s0))) by (intro k; eapply erel_dmem; eauto).
  destruct (negb false && _); [discriminate|]. destruct (negb false && _); [discriminate|]. reflexivity.
Qed.

(** the main step: an addition keeps the relation between the system with look-ups and the one without *)
Lemma later_add ord s0 s a s0' : later ord s0 s -> add a s0 = Ok s0' -> unclaimed a s0 -> keeps_readings s0 s0' ->
  exists s', add a s = Ok s' /\ later ord s0' s'.
Proof.
  intros L E U K. pose proof (add_grows a s0 s0' E K) as G.
  destruct a as [p|x r|t r]; cbn [add unclaimed] in *.
  - eexists; split; [reflexivity|]. injection E as <-. destruct L as (C & P1 & P2 & S1 & S2 & S3 & S4 & LL & LR).
    unfold later. cbn [add_prefix s_symbols s_names s_alias_names s_alias_symbols s_prefix_names s_prefix_symbols s_lazies].
    rewrite P1, P2. split; [exact C|]. split; [reflexivity|]. split; [reflexivity|].
    split; [intro k; eapply grow_erel; [exact G|apply S1]|]. split; [intro k; eapply grow_erel; [exact G|apply S2]|].
    split; [intro k; eapply grow_erel; [exact G|apply S3]|]. split; [intro k; eapply grow_erel; [exact G|apply S4]|].
    split; [exact LL|]. intros i l0 l N0 N. destruct (LR i l0 l N0 N) as (D & M & R). split; [exact D|]. split; [exact M|].
    destruct R as [R|(R & y & R' & V)]; [now left|]. right. split; [exact R|]. exists y. split; [exact R'|]. eapply grow_val; eauto.
  - exists (register (EUnit x r) r s). split; [eapply add_unit_same; eauto|]. pose proof (fresh_later ord s0 s r L U) as F.
    apply add_unit_ok in E as ->. destruct L as (C & P1 & P2 & S1 & S2 & S3 & S4 & LL & LR).
    split; [now apply clash_free_fresh|].
    cbn [register s_symbols s_names s_alias_names s_alias_symbols s_prefix_names s_prefix_symbols s_lazies].
    split; [exact P1|]. split; [exact P2|].
    split; [intro k; apply erel_dset_all; eapply grow_erel; [exact G|apply S1]|]. split; [intro k; apply erel_dset_all; eapply grow_erel; [exact G|apply S2]|].
    split; [intro k; apply erel_dset_all; eapply grow_erel; [exact G|apply S3]|]. split; [intro k; apply erel_dset_all; eapply grow_erel; [exact G|apply S4]|].
    split; [exact LL|]. intros i l0 l N0 N. destruct (LR i l0 l N0 N) as (D & M & R). split; [exact D|]. split; [exact M|].
    destruct R as [R|(R & y & R' & V)]; [now left|]. right. split; [exact R|]. exists y. split; [exact R'|]. eapply grow_val; eauto.
  - pose proof (fresh_later ord s0 s r L U) as F.
    assert (E' : add_lazy t r s = Ok (register (ELazy (List.length (s_lazies s))) r (with_lazies (s_lazies s ++ [mkLazy t r None]) s))).
    { unfold add_lazy in *. destruct L as (_ & _ & _ & S1 & S2 & _). unfold add_unit in *. cbn [s_names s_symbols] in *.
      rewrite (existsb_ext (fun k => dmem k (s_names s)) (fun k => dmem k (s_names s0))) by (intro k; eapply erel_dmem; eauto).
      rewrite (existsb_ext (fun k => dmem k (s_symbols s)) (fun k => dmem k (s_symbols s0))) by (intro k; eapply erel_dmem; eauto).
      destruct (negb false && _); [discriminate|]. destruct (negb false && _); [discriminate|]. reflexivity. }
    eexists; split; [exact E'|]. unfold add_lazy in E. apply add_unit_ok in E as ->. destruct L as (C & P1 & P2 & S1 & S2 & S3 & S4 & LL & LR).
    split; [now apply clash_free_lazy|].
    cbn [register with_lazies s_symbols s_names s_alias_names s_alias_symbols s_prefix_names s_prefix_symbols s_lazies].
    rewrite LL. split; [exact P1|]. split; [exact P2|].
    split; [intro k; apply erel_dset_all; eapply grow_erel; [exact G|apply S1]|]. split; [intro k; apply erel_dset_all; eapply grow_erel; [exact G|apply S2]|].
    split; [intro k; apply erel_dset_all; eapply grow_erel; [exact G|apply S3]|]. split; [intro k; apply erel_dset_all; eapply grow_erel; [exact G|apply S4]|].
    split; [rewrite !app_length; cbn [List.length]; lia|]. intros i l0 l N0 N.
    apply nth_snoc in N0 as [N0|[-> ->]].
    + assert (Li : (i < List.length (s_lazies s0))%nat) by (apply nth_error_Some; congruence).
      rewrite nth_error_app1 in N by lia. destruct (LR i l0 l N0 N) as (D & M & R). split; [exact D|]. split; [exact M|].
      destruct R as [R|(R & y & R' & V)]; [now left|]. right. split; [exact R|]. exists y. split; [exact R'|]. eapply grow_val; eauto.
    + rewrite nth_error_app2 in N by lia. rewrite LL, Nat.sub_diag in N. injection N as <-. cbn. split; [reflexivity|]. split; [reflexivity|]. now left.
Qed.

Lemma clash_free_add a s s' : clash_free s -> add a s = Ok s' -> unclaimed a s -> clash_free s'.
Proof.
  intros C E U. destruct a as [p|x r|t r]; cbn [add unclaimed] in *.
  - injection E as <-. exact C.
  - apply add_unit_ok in E as ->. now apply clash_free_fresh.
  - unfold add_lazy in E. apply add_unit_ok in E as ->. now apply clash_free_lazy.
Qed.

Lemma later_play ord es : forall s0 s, clash_free s0 -> later ord s0 s -> harmless s0 es ->
  clash_free (play ord s0 (only_additions es)) /\ later ord (play ord s0 (only_additions es)) (play ord s es).
Proof.
  induction es as [|[c|a] es IH]; intros s0 s C L H; [auto| |].
  - cbn [harmless] in H. unfold play, only_additions in *. cbn [filter fold_left happen].
    apply IH; [exact C| |exact H]. now apply later_run.
  - destruct H as (s0' & E & U & K & H). destruct (later_add ord s0 s a s0' L E U K) as (s' & E' & L').
    unfold play, only_additions in *. cbn [filter fold_left happen]. rewrite E, E'.
    apply IH; [|exact L'|exact H]. eapply clash_free_add; eauto.
Qed.

Lemma grows_refl s : grows s s. Proof. split; [intros q pre e H; exact H|auto]. Qed.
Lemma grows_trans a b c : grows a b -> grows b c -> grows a c.
Proof. intros [K1 L1] [K2 L2]. split; [intros q pre e H; auto|auto]. Qed.

Lemma grows_play ord es : forall s, harmless s es -> grows s (play ord s (only_additions es)).
Proof.
  induction es as [|[c|a] es IH]; intros s H; [apply grows_refl| |].
  - cbn [harmless] in H. now apply IH.
  - destruct H as (s' & E & U & K & H). unfold play, only_additions in *. cbn [filter fold_left happen]. rewrite E.
    eapply grows_trans; [eapply add_grows; eauto|]. now apply IH.
Qed.

(** ** When is an addition harmless? *)
(** all words of a reference *)
Definition words (r : reference) : list str := ref_names r ++ ref_alias_names r ++ r_symbols r ++ r_alias_symbols r.
(** no new word could be read before, neither alone nor behind a prefix *)
Definition unheard (r : reference) (s : system) : Prop :=
  forall k, In k (words r) -> unreadable s k /\
    (forall key p, In (key, p) (s_prefix_names s) \/ In (key, p) (s_prefix_symbols s) -> unreadable s (key ++ k)).

Lemma known_opt_register e r s ls k :
  known_opt (register e r (with_lazies ls s)) k = known_opt s k \/ In k (words r).
Proof.
  unfold known_opt, get_or, words. cbn [register with_lazies s_symbols s_names s_alias_names s_alias_symbols].
  rewrite !dget_dset_all.
  destruct (str_mem k (ref_names r)) eqn:M1; [right; apply in_or_app; left; now apply str_mem_In|].
  destruct (str_mem k (ref_alias_names r)) eqn:M2; [right; apply in_or_app; right; apply in_or_app; left; now apply str_mem_In|].
  destruct (str_mem k (r_symbols r)) eqn:M3; [right; do 2 (apply in_or_app; right); apply in_or_app; left; now apply str_mem_In|].
  destruct (str_mem k (r_alias_symbols r)) eqn:M4; [right; do 3 (apply in_or_app; right); now apply str_mem_In|].
  now left.
Qed.

Lemma keeps_register e r ls s : unheard r s -> keeps_readings s (register e r (with_lazies ls s)).
Proof.
  intros U q pre e0 R. set (s' := register e r (with_lazies ls s)).
  assert (RW : ~ unreadable s q) by (eapply readable_not_unreadable; eauto).
  assert (KQ : known_opt s' q = known_opt s q).
  { destruct (known_opt_register e r s ls q) as [H|H]; [exact H|]. destruct (RW (proj1 (U q H))). }
  assert (KK : forall key p k, In (key, p) (s_prefix_names s) \/ In (key, p) (s_prefix_symbols s) -> q = key ++ k -> known_opt s' k = known_opt s k).
  { intros key p k I ->. destruct (known_opt_register e r s ls k) as [H|H]; [exact H|]. destruct (RW (proj2 (U k H) key p I)). }
  assert (FF : forall ps, (forall key p, In (key, p) ps -> In (key, p) (s_prefix_names s) \/ In (key, p) (s_prefix_symbols s)) ->
    fit_opt s' q ps = fit_opt s q ps).
  { induction ps as [|[key p] ps IH]; intro I; cbn [fit_opt]; [reflexivity|]. rewrite IH by (intros; apply I; now right).
    destruct (strip_prefix key q) as [k|] eqn:E; [|reflexivity]. apply strip_prefix_iff in E.
    now rewrite (KK key p k (I key p (or_introl eq_refl)) E). }
  apply reading_iff in R. apply reading_iff. rewrite <- R. unfold reading_opt. rewrite KQ.
  change (s_prefix_names s') with (s_prefix_names s). change (s_prefix_symbols s') with (s_prefix_symbols s).
  rewrite !FF by auto. reflexivity.
Qed.

(** a prefix with new spellings, whose name in front of a word could not be read before *)
Definition unheard_prefix (p : prefix) (s : system) : Prop :=
  dmem (pf_name p) (s_prefix_names s) = false /\
  (forall sym, In sym (pf_symbols p) -> dmem sym (s_prefix_symbols s) = false) /\
  forall k e, known s k e -> unreadable s (pf_name p ++ k).

Lemma dset_new {V} k (v : V) d : dmem k d = false -> dset k v d = d ++ [(k, v)].
Proof.
  unfold dmem. induction d as [|[k' v'] d IH]; cbn [dset dget]; [reflexivity|].
  destruct (str_eqb k k'); [discriminate|]. intro H. cbn [app]. now rewrite IH.
Qed.

Lemma dset_tail {V} k (v : V) d0 t : dmem k d0 = false -> exists t', dset k v (d0 ++ t) = d0 ++ t'.
Proof.
  unfold dmem. induction d0 as [|[k' v'] d IH]; cbn [dset dget app]; [eauto|].
  destruct (str_eqb k k'); [discriminate|]. intro H. destruct (IH H) as (t' & E). exists t'. now rewrite E.
Qed.

Lemma dset_tails {V} (v : V) ks d0 : (forall k, In k ks -> dmem k d0 = false) -> forall t,
  exists t', fold_left (fun d k => dset k v d) ks (d0 ++ t) = d0 ++ t'.
Proof.
  induction ks as [|k ks IH]; intros F t; cbn [fold_left]; [eauto|].
  destruct (dset_tail k v d0 t (F k (or_introl eq_refl))) as (t' & ->). apply IH. intros; apply F. now right.
Qed.

Lemma fit_app s q a b : fit_opt s q (a ++ b) = match fit_opt s q a with Some x => Some x | None => fit_opt s q b end.
Proof.
  induction a as [|[key p] a IH]; cbn [fit_opt app]; [reflexivity|]. rewrite IH.
  destruct (strip_prefix key q) as [k|]; [|reflexivity]. destruct (known_opt s k); reflexivity.
Qed.

Lemma keeps_add_prefix p s : unheard_prefix p s -> keeps_readings s (add_prefix p s).
Proof.
  intros (F1 & F2 & F3) q pre e R. assert (RW : ~ unreadable s q) by (eapply readable_not_unreadable; eauto).
  set (s' := add_prefix p s).
  assert (FF : forall ps, fit_opt s' q ps = fit_opt s q ps) by (induction ps as [|[? ?] ps IH]; cbn [fit_opt]; [reflexivity|rewrite IH; reflexivity]).
  apply reading_iff in R. apply reading_iff. unfold reading_opt in *. change (known_opt s' q) with (known_opt s q).
  destruct (known_opt s q) as [e0|]; [exact R|]. rewrite !FF. cbn [s' add_prefix s_prefix_names s_prefix_symbols].
  rewrite (dset_new _ _ _ F1), fit_app. destruct (fit_opt s q (s_prefix_names s)) as [x|]; [exact R|].
  cbn [fit_opt]. destruct (strip_prefix (pf_name p) q) as [k|] eqn:E.
  - destruct (known_opt s k) as [e1|] eqn:Ek.
    + exfalso. apply RW. apply strip_prefix_iff in E as ->. apply known_iff in Ek. now apply (F3 k e1).
    + destruct (dset_tails p (pf_symbols p) (s_prefix_symbols s) F2 []) as (t & T). rewrite app_nil_r in T.
      rewrite T, fit_app. destruct (fit_opt s q (s_prefix_symbols s)); [exact R|discriminate].
  - destruct (dset_tails p (pf_symbols p) (s_prefix_symbols s) F2 []) as (t & T). rewrite app_nil_r in T.
    rewrite T, fit_app. destruct (fit_opt s q (s_prefix_symbols s)); [exact R|discriminate].
Qed.
