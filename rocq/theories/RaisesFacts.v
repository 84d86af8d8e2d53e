(** * The exceptions a look-up raises are exactly the faults. *)
From Verif Require Import PyBase PyNum Graph Visitor Expr Units UnitSpec UnitFacts UnitProofs UnitSystem SystemSpec SystemFacts
  SystemProofs SystemMore SystemKeep SystemOrd RaisesSpec.
From Coq Require Import Permutation.

Lemma fault_routine s q e : fault s q e -> e <> ERecursion.
Proof.
  induction 1 as [q U|q l e D P|q k e M _ IH|q l g o refs e D P R X U|q key p k en o x e Rd R X U]; [discriminate| |exact IH| | ].
  - pose proof (ro_parse (lz_def l)) as Y. rewrite P in Y. intros ->. exact Y.
  - pose proof (ro_mk_unit g refs) as Y. rewrite U in Y. intros ->. exact Y.
  - pose proof (ro_prefixed key p k x) as Y. rewrite U in Y. intros ->. exact Y.
Qed.

Lemma text_fault_routine s t e : text_fault s t e -> e <> ERecursion.
Proof.
  intros [e' P|g k e' P I F|g o refs e' P R X U].
  - pose proof (ro_parse t) as Y. rewrite P in Y. intros ->. exact Y.
  - eapply fault_routine; eauto.
  - pose proof (ro_unit_from g refs) as Y. rewrite U in Y. intros ->. exact Y.
Qed.

(** ** every exception is a fault *)
Section Sound.
Variable ord : list str -> list str.
Variable s : system.
Hypothesis perm : rearranges ord.
Hypothesis wh : whole s.

Lemma p_refs_fault (rec : str -> res unit) ids e : p_refs ord rec ids = Err e -> exists k, In k ids /\ rec k = Err e.
Proof.
  intro E. apply mapM_err in E as (k & I & Ek). exists k. split; [apply (Permutation_in _ (perm _)); exact I|].
  destruct (rec k); cbn [bind] in Ek; congruence.
Qed.

Lemma p_lookup_fault f : forall q e, p_lookup ord s f q = Err e -> e = ERecursion \/ fault s q e.
Proof.
  induction f as [|f IH]; intros q e; cbn [p_lookup]; [injection 1 as <-; auto|].
  rewrite p_body_reading. destruct (reading_opt s q) as [[pre en]|] eqn:Rd; cbn [of_reading].
  2: { injection 1 as <-. right. apply Fa_no_reading. now apply unreadable_iff. }
  apply reading_iff in Rd. intro E.
  assert (EN : forall e', p_entry ord s (p_lookup ord s f) en = Err e' -> e' = ERecursion \/ fault s q e').
  { intros e' E'. destruct en as [i|y r]; cbn [p_entry] in E'; [|discriminate]. unfold p_resolve in E'.
    destruct (reading_known s q pre (ELazy i) Rd) as [k0 K0]. destruct (wh k0 i K0) as [l N]. rewrite N in E'.
    destruct (lz_resolved l) eqn:R; [discriminate|].
    assert (D : defined_by s q l) by (eapply Db; eauto).
    destruct (parse (lz_def l)) as [g|e1] eqn:P; cbn [bind] in E'.
    2: { injection E' as ->. right. eapply Fa_syntax; eauto. }
    destruct (p_refs ord (p_lookup ord s f) (identifiers g)) as [refs|e1] eqn:E2; cbn [bind] in E'.
    - right. eapply Fa_unit; eauto. apply p_refs_means with (p_lookup ord s f); auto. apply p_lookup_means.
    - injection E' as ->. apply p_refs_fault in E2 as (k & I & Ek). destruct (IH _ _ Ek) as [->|F]; auto.
      right. apply Fa_mentioned with k; auto. now exists l, g. }
  destruct pre as [[[key p] k]|]; [|now apply EN].
  destruct (p_entry ord s (p_lookup ord s f) en) as [x|e'] eqn:Ee; cbn [bind] in E.
  - right. eapply Fa_prefix; eauto. eapply p_entry_means; eauto. apply p_lookup_means.
  - injection E as ->. now apply EN.
Qed.

Lemma p_unit_fault f t e : p_unit ord s f t = Err e -> e = ERecursion \/ text_fault s t e.
Proof.
  unfold p_unit. destruct (parse t) as [g|e1] eqn:P; cbn [bind]; [|injection 1 as ->; right; now apply Tf_syntax].
  destruct (p_refs ord (p_lookup ord s f) (identifiers g)) as [refs|e1] eqn:E2; cbn [bind]; intro E.
  - right. eapply Tf_unit; eauto. apply p_refs_means with (p_lookup ord s f); auto. apply p_lookup_means.
  - injection E as ->. apply p_refs_fault in E2 as (k & I & Ek). destruct (p_lookup_fault _ _ _ Ek) as [->|F]; auto.
    right. eapply Tf_mentioned; eauto.
Qed.

(** resolved units are found with enough stack *)
Lemma refs_mean_found ks refs : refs_mean ord s ks refs ->
  exists f, mapM (fun k => do x <- p_lookup ord s f k ;; Ok (k, RUnit x)) ks = Ok refs.
Proof.
  induction 1 as [|k ks y refs My _ [f' E']]; [now exists O|].
  apply means_iff in My as [f E]. exists (Nat.max f f'). cbn [mapM].
  rewrite (p_lookup_mono ord s f (Nat.max f f') k) by (lia || (rewrite E; discriminate)). rewrite E. cbn [bind].
  rewrite (le_mapM (fun k => do x <- p_lookup ord s f' k ;; Ok (k, RUnit x)) _ ks).
  - rewrite E'. reflexivity.
  - intro a0. apply le_bind; [apply p_lookup_mono; lia|]. intro. apply le_refl'.
  - rewrite E'. discriminate.
Qed.
Lemma entry_means_found en x : entry_means ord s en x -> exists f, p_entry ord s (p_lookup ord s f) en = Ok x.
Proof.
  intros [y r|i l y N R|i l g refs y N R P M U]; cbn [p_entry].
  - now exists O.
  - exists O. unfold p_resolve. now rewrite N, R.
  - destruct (refs_mean_found _ _ M) as [f E]. exists f. unfold p_resolve, p_refs. rewrite N, R, P. cbn [bind]. now rewrite E.
Qed.
End Sound.

(** ** the order matters only where it is used *)
Section Local.
Variable s : system.
Variables ord ord' : list str -> list str.

Lemma p_refs_local (rec rec' : str -> res unit) ids : Permutation (ord ids) ids -> ord ids = ord' ids ->
  (forall k, In k ids -> rec k = rec' k) -> p_refs ord rec ids = p_refs ord' rec' ids.
Proof.
  intros P E H. unfold p_refs. rewrite <- E. assert (H' : forall k, In k (ord ids) -> rec k = rec' k).
  { intros k I. apply H. exact (Permutation_in _ P I). }
  clear -H'. induction (ord ids) as [|k l IH]; cbn [mapM]; auto.
  rewrite H' by now left. rewrite IH; auto. intros k' I. apply H'. now right.
Qed.

Hypothesis perm : rearranges ord.

Lemma p_lookup_local f : forall q,
  (forall q' l g, q' = q \/ depends s q q' -> defined_by s q' l -> parse (lz_def l) = Ok g -> ord (identifiers g) = ord' (identifiers g)) ->
  p_lookup ord s f q = p_lookup ord' s f q.
Proof.
  induction f as [|f IH]; intros q H; cbn [p_lookup]; auto. rewrite !p_body_reading.
  destruct (reading_opt s q) as [[pre en]|] eqn:Rd; cbn [of_reading]; auto. apply reading_iff in Rd.
  assert (E : p_entry ord s (p_lookup ord s f) en = p_entry ord' s (p_lookup ord' s f) en).
  { destruct en as [i|y r]; cbn [p_entry]; auto. unfold p_resolve. destruct (nth_error (s_lazies s) i) as [l|] eqn:N; auto.
    destruct (lz_resolved l) eqn:R; auto. destruct (parse (lz_def l)) as [g|] eqn:P; cbn [bind]; auto.
    assert (D : defined_by s q l) by (eapply Db; eauto).
    rewrite (p_refs_local (p_lookup ord s f) (p_lookup ord' s f)); auto; [eapply H; eauto|].
    intros k I. apply IH. assert (M : mentions s q k) by (now exists l, g).
    intros q' l' g' Rq D' P'. apply (H q' l' g'); auto. right. destruct Rq as [->|Dp]; [now apply Dep_one|now apply Dep_more with k]. }
  now rewrite E.
Qed.
End Local.

(** ** every fault is raised, in some order *)
Definition first_in (ids : list str) (ids' : list str) (ord : list str -> list str) (l : list str) : list str :=
  if list_eq_dec str_eq_dec l ids then ids' else ord l.

Lemma first_in_perm ids ids' ord : rearranges ord -> Permutation ids' ids -> rearranges (first_in ids ids' ord).
Proof. intros P Q l. unfold first_in. destruct (list_eq_dec str_eq_dec l ids) as [->|_]; auto. Qed.

Lemma depends_rank s rank n q k : depth_at_most s rank n -> depends s q k -> (rank k < rank q)%nat.
Proof. intros [_ D]. induction 1 as [q k M|q k k' M _ IH]; [now apply D|]. specialize (D _ _ M). lia. Qed.

Section Complete.
Variable s : system.
Variable rank : str -> nat.
Variable n : nat.
Hypothesis deep : depth_at_most s rank n.

(** visit [k] first in the list it came from: nothing below [k] notices *)
Lemma visit_first g ord k : rearranges ord -> In k (identifiers g) ->
  exists ord' rest, rearranges ord' /\ ord' (identifiers g) = k :: rest /\
    forall f, p_lookup ord' s f k = p_lookup ord s f k.
Proof.
  intros P I. destruct (in_split _ _ I) as (a & b & E).
  exists (first_in (identifiers g) (k :: a ++ b) ord), (a ++ b).
  assert (P' : rearranges (first_in (identifiers g) (k :: a ++ b) ord)).
  { apply first_in_perm; auto. rewrite E. apply Permutation_middle. }
  split; auto. split. { unfold first_in. destruct (list_eq_dec str_eq_dec _ _); congruence. }
  intro f. apply p_lookup_local; auto. intros q' l g' Rq D Pg. unfold first_in.
  destruct (list_eq_dec str_eq_dec (identifiers g') (identifiers g)) as [Eg|_]; auto. exfalso.
  assert (M : mentions s q' k). { exists l, g'. split; [|split]; auto. now rewrite Eg. }
  pose proof (proj2 deep _ _ M) as L. destruct Rq as [->|Dp]; [lia|]. pose proof (depends_rank s rank n _ _ deep Dp). lia.
Qed.

Lemma p_refs_first ord rest k ids (rec : str -> res unit) e : ord ids = k :: rest -> rec k = Err e -> p_refs ord rec ids = Err e.
Proof. intros E R. unfold p_refs. rewrite E. cbn [mapM]. now rewrite R. Qed.

Lemma fault_raised q e : fault s q e -> exists ord, rearranges ord /\ exists f, p_lookup ord s f q = Err e.
Proof.
  induction 1 as [q U|q l e D P|q k e M _ IH|q l g o refs e D P R X U|q key p k en o x e Rd R X U].
  - exists (fun l => l). split; [intro; apply Permutation_refl|]. exists 1%nat. cbn [p_lookup]. rewrite p_body_reading.
    apply unreadable_iff in U. now rewrite U.
  - exists (fun l => l). split; [intro; apply Permutation_refl|]. exists 1%nat. cbn [p_lookup]. rewrite p_body_reading.
    destruct D as [pre i Rd N R]. apply reading_iff in Rd. rewrite Rd. cbn [of_reading p_entry]. unfold p_resolve.
    rewrite N, R, P. cbn [bind]. destruct pre as [[[key p] k]|]; reflexivity.
  - destruct IH as (o & R & f & E). destruct M as (l & g & D & P & I).
    destruct (visit_first g o k R I) as (o' & rest & R' & Eo & L). exists o'. split; auto. exists (S f).
    cbn [p_lookup]. rewrite p_body_reading. destruct D as [pre i Rd N Z]. apply reading_iff in Rd. rewrite Rd.
    cbn [of_reading p_entry]. unfold p_resolve. rewrite N, Z, P. cbn [bind].
    rewrite (p_refs_first o' rest k _ _ e Eo) by (rewrite L; exact E). cbn [bind]. destruct pre as [[[key p] k']|]; reflexivity.
  - exists o. split; auto. destruct (refs_mean_found _ _ _ _ X) as [f E]. exists (S f). cbn [p_lookup]. rewrite p_body_reading.
    destruct D as [pre i Rd N Z]. apply reading_iff in Rd. rewrite Rd. cbn [of_reading p_entry]. unfold p_resolve.
    rewrite N, Z, P. cbn [bind]. unfold p_refs. rewrite E. cbn [bind]. rewrite U. destruct pre as [[[key p] k']|]; reflexivity.
  - exists o. split; auto. destruct (entry_means_found _ _ _ _ X) as [f E]. exists (S f). cbn [p_lookup]. rewrite p_body_reading.
    apply reading_iff in Rd. rewrite Rd. cbn [of_reading]. rewrite E. cbn [bind]. exact U.
Qed.

Lemma text_fault_raised t e : text_fault s t e -> exists ord, rearranges ord /\ exists f, p_unit ord s f t = Err e.
Proof.
  intros [e' P|g k e' P I F|g o refs e' P R X U].
  - exists (fun l => l). split; [intro; apply Permutation_refl|]. exists O. unfold p_unit. now rewrite P.
  - destruct (fault_raised k e' F) as (o & R & f & E). destruct (visit_first g o k R I) as (o' & rest & R' & Eo & L).
    exists o'. split; auto. exists f. unfold p_unit. rewrite P. cbn [bind].
    rewrite (p_refs_first o' rest k _ _ e' Eo) by (rewrite L; exact E). reflexivity.
  - exists o. split; auto. destruct (refs_mean_found _ _ _ _ X) as [f E]. exists f. unfold p_unit, p_refs. rewrite P. cbn [bind].
    rewrite E. cbn [bind]. exact U.
Qed.
End Complete.

Lemma mono_agree {A} (P : nat -> res A) f n e : mono P -> P f = Err e -> e <> ERecursion -> P n <> Err ERecursion -> P n = Err e.
Proof.
  intros M E N R. pose proof (M f (Nat.max f n) ltac:(lia) ltac:(rewrite E; congruence)) as H1.
  pose proof (M n (Nat.max f n) ltac:(lia) R) as H2. congruence.
Qed.
