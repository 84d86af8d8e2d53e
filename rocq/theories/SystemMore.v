(** * Look-ups: readings, meanings, vocabulary, termination, visiting order. *)
From Verif Require Import PyBase PyNum Graph Visitor Expr Units UnitSpec UnitFacts UnitProofs UnitSystem SystemSpec SystemFacts SystemProofs.
From Coq Require Import Permutation.

(** ** readings, computed *)
Definition known_opt (s : system) (k : str) : option entry :=
  match get_or k (s_names s) (s_alias_names s) with
  | Some e => Some e
  | None => get_or k (s_symbols s) (s_alias_symbols s)
  end.

Lemma known_iff s k e : known s k e <-> known_opt s k = Some e.
Proof.
  unfold known_opt, get_or. split.
  - intros [H|H1 H2|H1 H2 H3|H1 H2 H3 H4]; now rewrite ?H, ?H1, ?H2, ?H3, ?H4.
  - destruct (dget k (s_names s)) eqn:E1; [injection 1 as ->; now apply Kn_name|].
    destruct (dget k (s_alias_names s)) eqn:E2; [injection 1 as ->; now apply Kn_alias_name|].
    destruct (dget k (s_symbols s)) eqn:E3; [injection 1 as ->; now apply Kn_symbol|].
    intro H. now apply Kn_alias_symbol.
Qed.

Lemma unknown_iff s k : unknown s k <-> known_opt s k = None.
Proof.
  split.
  - intro U. destruct (known_opt s k) as [e|] eqn:E; auto. exfalso. apply (U e). now apply known_iff.
  - intros E e K. apply known_iff in K. congruence.
Qed.

Lemma strip_prefix_iff key q k : strip_prefix key q = Some k <-> q = key ++ k.
Proof.
  revert q. induction key as [|c key IH]; intro q; cbn [strip_prefix app].
  - split; congruence.
  - destruct q as [|c' q]; [split; discriminate|]. destruct (N.eqb_spec c c') as [->|D].
    + rewrite IH. split; congruence.
    + split; [discriminate|]. injection 1 as -> _. contradiction.
Qed.

Fixpoint fit_opt (s : system) (q : str) (ps : dict prefix) : option (str * prefix * str * entry) :=
  match ps with
  | [] => None
  | (key, p) :: ps' =>
    match strip_prefix key q with
    | Some k => match known_opt s k with
                | Some e => Some (key, p, k, e)
                | None => fit_opt s q ps'
                end
    | None => fit_opt s q ps'
    end
  end.

Lemma misfits_cons s q key : misfits s q key <->
  match strip_prefix key q with Some k => known_opt s k = None | None => True end.
Proof.
  unfold misfits, fits. destruct (strip_prefix key q) as [k|] eqn:E.
  - split.
    + intro M. apply unknown_iff. intros e K. apply (M k e). split; auto. now apply strip_prefix_iff.
    + intros U k' e [Q K]. apply strip_prefix_iff in Q. assert (k' = k) as -> by congruence.
      apply known_iff in K. congruence.
  - split; auto. intros _ k e [Q _]. apply strip_prefix_iff in Q. congruence.
Qed.

Lemma fit_opt_none s q ps : fit_opt s q ps = None <-> Forall (fun kp => misfits s q (fst kp)) ps.
Proof.
  induction ps as [|[key p] ps IH]; cbn [fit_opt]; [split; auto|].
  rewrite Forall_cons_iff, misfits_cons, <- IH. cbn [fst].
  destruct (strip_prefix key q) as [k|]; [|tauto].
  destruct (known_opt s k); split; try tauto; try discriminate. intros [X _]; discriminate.
Qed.

Lemma fit_opt_some s q ps key p k e : fit_opt s q ps = Some (key, p, k, e) <-> first_fit s q ps key p k e.
Proof.
  unfold first_fit. split.
  - induction ps as [|[key' p'] ps IH]; cbn [fit_opt]; [discriminate|].
    intro H. pose proof (misfits_cons s q key') as MC. destruct (strip_prefix key' q) as [k'|] eqn:E.
    + destruct (known_opt s k') as [e'|] eqn:K.
      * injection H as -> -> -> ->. exists [], ps. repeat split; auto.
        -- now apply strip_prefix_iff.
        -- now apply known_iff.
      * destruct (IH H) as (b & a & -> & F & M). exists ((key', p') :: b), a. split; auto. split; auto.
        constructor; auto. now apply MC.
    + destruct (IH H) as (b & a & -> & F & M). exists ((key', p') :: b), a. split; auto. split; auto.
      constructor; auto. now apply MC.
  - intros (b & a & -> & [Q K] & M). induction b as [|[key' p'] b IH]; cbn [app fit_opt].
    + apply strip_prefix_iff in Q. rewrite Q. apply known_iff in K. now rewrite K.
    + apply Forall_cons_iff in M as [M1 M2]. cbn [fst] in M1. apply misfits_cons in M1.
      destruct (strip_prefix key' q); [rewrite M1|]; auto.
Qed.

Definition reading_opt (s : system) (q : str) : option (option (str * prefix * str) * entry) :=
  match known_opt s q with
  | Some e => Some (None, e)
  | None =>
    match fit_opt s q (s_prefix_names s) with
    | Some (key, p, k, e) => Some (Some (key, p, k), e)
    | None =>
      match fit_opt s q (s_prefix_symbols s) with
      | Some (key, p, k, e) => Some (Some (key, p, k), e)
      | None => None
      end
    end
  end.

Lemma reading_iff s q pre e : reading s q pre e <-> reading_opt s q = Some (pre, e).
Proof.
  unfold reading_opt. split.
  - intros [e' K|key p k e' U F|key p k e' U N F].
    + apply known_iff in K. now rewrite K.
    + apply unknown_iff in U. rewrite U. apply fit_opt_some in F. now rewrite F.
    + apply unknown_iff in U. rewrite U. apply fit_opt_none in N. rewrite N. apply fit_opt_some in F. now rewrite F.
  - destruct (known_opt s q) as [e'|] eqn:K.
    + injection 1 as <- ->. apply Rd_word. now apply known_iff.
    + apply unknown_iff in K. destruct (fit_opt s q (s_prefix_names s)) as [[[[key p] k] e']|] eqn:F1.
      * injection 1 as <- ->. apply Rd_prefix_name; auto. now apply fit_opt_some.
      * destruct (fit_opt s q (s_prefix_symbols s)) as [[[[key p] k] e']|] eqn:F2; [|discriminate].
        injection 1 as <- ->. apply Rd_prefix_symbol; auto; [now apply fit_opt_none|now apply fit_opt_some].
Qed.

Lemma unreadable_iff s q : unreadable s q <-> reading_opt s q = None.
Proof.
  unfold unreadable, reading_opt. rewrite unknown_iff, <- !fit_opt_none.
  destruct (known_opt s q); [split; [intros [X _]; discriminate|discriminate]|].
  destruct (fit_opt s q (s_prefix_names s)) as [[[[? ?] ?] ?]|]; [split; [intros (_ & X & _); discriminate|discriminate]|].
  destruct (fit_opt s q (s_prefix_symbols s)) as [[[[? ?] ?] ?]|]; [split; [intros (_ & _ & X); discriminate|discriminate]|].
  tauto.
Qed.

Lemma readable_or_not s q : unreadable s q \/ exists pre e, reading s q pre e.
Proof.
  destruct (reading_opt s q) as [[pre e]|] eqn:E; [right|left; now apply unreadable_iff].
  exists pre, e. now apply reading_iff.
Qed.

Lemma reading_unique s q pre e pre' e' : reading s q pre e -> reading s q pre' e' -> pre = pre' /\ e = e'.
Proof. rewrite !reading_iff. intros H H'. rewrite H in H'. injection H' as -> ->. auto. Qed.

Lemma readable_not_unreadable s q pre e : reading s q pre e -> ~ unreadable s q.
Proof. rewrite reading_iff, unreadable_iff. congruence. Qed.

(** the evaluator follows the readings *)
Section Follow.
Variable ord : list str -> list str.
Variable s : system.

Lemma p_either_known rec k : p_either ord s rec k = p_opt ord s rec (known_opt s k).
Proof.
  unfold p_either, known_opt. destruct (get_or k (s_names s) (s_alias_names s)) as [e|]; cbn [p_opt bind]; auto.
  destruct (p_entry ord s rec e); reflexivity.
Qed.

Lemma p_try_fit rec q ps : p_try ord s rec ps q =
  match fit_opt s q ps with
  | Some (key, p, k, e) => do x <- p_entry ord s rec e ;; do y <- prefixed_unit key p k x ;; Ok (Some y)
  | None => Ok None
  end.
Proof.
  induction ps as [|[key p] ps IH]; cbn [p_try fit_opt]; auto.
  destruct (strip_prefix key q) as [k|]; auto. rewrite p_either_known.
  destruct (known_opt s k) as [e|]; cbn [p_opt bind]; auto.
  destruct (p_entry ord s rec e); reflexivity.
Qed.

Definition of_reading (rec : str -> res unit) (q : str) (o : option (option (str * prefix * str) * entry)) : res unit :=
  match o with
  | Some (None, e) => p_entry ord s rec e
  | Some (Some (key, p, k), e) => do x <- p_entry ord s rec e ;; prefixed_unit key p k x
  | None => Err (EUnresolvable q)
  end.

Lemma p_body_reading rec q : p_body ord s rec q = of_reading rec q (reading_opt s q).
Proof.
  unfold p_body, reading_opt. rewrite p_either_known, !p_try_fit.
  destruct (known_opt s q) as [e|]; cbn [p_opt bind].
  - cbn [of_reading]. destruct (p_entry ord s rec e); reflexivity.
  - destruct (fit_opt s q (s_prefix_names s)) as [[[[key p] k] e]|]; cbn [bind of_reading].
    + destruct (p_entry ord s rec e) as [x|]; cbn [bind]; [destruct (prefixed_unit key p k x)|]; reflexivity.
    + destruct (fit_opt s q (s_prefix_symbols s)) as [[[[key p] k] e]|]; cbn [bind of_reading]; auto.
      destruct (p_entry ord s rec e) as [x|]; cbn [bind]; [destruct (prefixed_unit key p k x)|]; reflexivity.
Qed.

(** ** meanings *)
Lemma p_refs_means rec ids refs : (forall k x, rec k = Ok x -> means ord s k x) ->
  p_refs ord rec ids = Ok refs -> refs_mean ord s (ord ids) refs.
Proof.
  intro H. unfold p_refs. generalize (ord ids) as l. intro l. revert refs.
  induction l as [|k l IH]; intros refs; cbn [mapM].
  - injection 1 as <-. constructor.
  - destruct (rec k) as [x|] eqn:E; [|discriminate]. cbn [bind].
    destruct (mapM _ l) as [rs|]; [|discriminate]. cbn [bind]. injection 1 as <-. constructor; auto.
Qed.

Lemma p_entry_means rec e x : (forall k x, rec k = Ok x -> means ord s k x) ->
  p_entry ord s rec e = Ok x -> entry_means ord s e x.
Proof.
  intros H. destruct e as [i|y r]; cbn [p_entry].
  - unfold p_resolve. destruct (nth_error (s_lazies s) i) as [l|] eqn:N; [|discriminate].
    destruct (lz_resolved l) as [y|] eqn:R.
    + injection 1 as ->. eapply Me_resolved; eauto.
    + destruct (parse (lz_def l)) as [g|] eqn:P; [|discriminate]. cbn [bind].
      destruct (p_refs ord rec (identifiers g)) as [refs|] eqn:E; [|discriminate]. cbn [bind]. intro K.
      eapply Me_defined; eauto. now apply p_refs_means with rec.
  - injection 1 as ->. constructor.
Qed.

Lemma p_lookup_means f : forall q x, p_lookup ord s f q = Ok x -> means ord s q x.
Proof.
  induction f as [|f IH]; intros q x; cbn [p_lookup]; [discriminate|].
  rewrite p_body_reading. destruct (reading_opt s q) as [[pre e]|] eqn:E; cbn [of_reading]; [|discriminate].
  apply reading_iff in E. destruct pre as [[[key p] k]|].
  - destruct (p_entry ord s (p_lookup ord s f) e) as [y|] eqn:Ey; [|discriminate]. cbn [bind]. intro K.
    eapply Me_prefixed; eauto. eapply p_entry_means; eauto.
  - intro K. eapply Me_word; eauto. eapply p_entry_means; eauto.
Qed.

Scheme means_mind := Induction for means Sort Prop
  with entry_means_mind := Induction for entry_means Sort Prop
  with refs_mean_mind := Induction for refs_mean Sort Prop.

Lemma mono_entry e : mono (fun n => p_entry ord s (p_lookup ord s n) e).
Proof. destruct e; cbn [p_entry]; [apply mono_resolve|apply mono_const]. Qed.

Lemma means_p_lookup q x : means ord s q x -> exists f, p_lookup ord s f q = Ok x.
Proof.
  intro H. induction H using means_mind with
    (P0 := fun e x _ => exists f, p_entry ord s (p_lookup ord s f) e = Ok x)
    (P1 := fun ks refs _ => exists f, mapM (fun k => do x <- p_lookup ord s f k ;; Ok (k, RUnit x)) ks = Ok refs).
  - destruct IHmeans as [f E]. exists (S f). cbn [p_lookup]. rewrite p_body_reading. apply reading_iff in r. now rewrite r.
  - destruct IHmeans as [f E]. exists (S f). cbn [p_lookup]. rewrite p_body_reading. apply reading_iff in r. rewrite r.
    cbn [of_reading]. rewrite E. exact e1.
  - exists O. reflexivity.
  - exists O. cbn [p_entry]. unfold p_resolve. now rewrite e, e0.
  - destruct IHmeans as [f E]. exists f. cbn [p_entry]. unfold p_resolve, p_refs. rewrite e, e0, e1. cbn [bind]. rewrite E. exact e2.
  - exists O. reflexivity.
  - destruct IHmeans as [f E], IHmeans0 as [f' E']. exists (Nat.max f f'). cbn [mapM].
    rewrite (p_lookup_mono ord s f (Nat.max f f') k) by (lia || (rewrite E; discriminate)). rewrite E. cbn [bind].
    rewrite (le_mapM (fun k => do x <- p_lookup ord s f' k ;; Ok (k, RUnit x)) _ ks).
    + rewrite E'. reflexivity.
    + intro a. apply le_bind; [apply p_lookup_mono; lia|]. intro. apply le_refl'.
    + rewrite E'. discriminate.
Qed.

Lemma means_iff q x : means ord s q x <-> exists f, p_lookup ord s f q = Ok x.
Proof. split; [apply means_p_lookup|]. intros [f E]. now apply p_lookup_means with f. Qed.

Lemma means_unique q x y : means ord s q x -> means ord s q y -> x = y.
Proof.
  rewrite !means_iff. intros [f E] [f' E'].
  pose proof (p_lookup_mono ord s f (Nat.max f f') q ltac:(lia) ltac:(rewrite E; discriminate)).
  pose proof (p_lookup_mono ord s f' (Nat.max f f') q ltac:(lia) ltac:(rewrite E'; discriminate)). congruence.
Qed.

Lemma text_means_iff t a : text_means ord s t a <-> exists f, p_unit ord s f t = Ok a.
Proof.
  unfold text_means, p_unit. split.
  - intros (g & refs & -> & R & U). cbn [bind].
    assert (X : exists f, p_refs ord (p_lookup ord s f) (identifiers g) = Ok refs).
    { clear U. unfold p_refs. induction R as [|k ks y refs My _ [f' E']]; [now exists O|].
      apply means_iff in My as [f E]. exists (Nat.max f f'). cbn [mapM].
      rewrite (p_lookup_mono ord s f (Nat.max f f') k) by (lia || (rewrite E; discriminate)). rewrite E. cbn [bind].
      rewrite (le_mapM (fun k => do x <- p_lookup ord s f' k ;; Ok (k, RUnit x)) _ ks).
      + rewrite E'. reflexivity.
      + intro a0. apply le_bind; [apply p_lookup_mono; lia|]. intro. apply le_refl'.
      + rewrite E'. discriminate. }
    destruct X as [f X]. exists f. rewrite X. exact U.
  - intros [f E]. destruct (parse t) as [g|]; [|discriminate]. cbn [bind] in E.
    destruct (p_refs ord (p_lookup ord s f) (identifiers g)) as [refs|] eqn:R; [|discriminate].
    exists g, refs. split; auto. split; auto. apply p_refs_means with (p_lookup ord s f); auto. apply p_lookup_means.
Qed.

(** ** stack: acyclic definitions always resolve, circular ones never *)
Hypothesis perm : rearranges ord.

Lemma mapM_rec {A B} (f : A -> res B) l : mapM f l = Err ERecursion -> exists a, In a l /\ f a = Err ERecursion.
Proof.
  induction l as [|a l IH]; cbn [mapM]; [discriminate|].
  destruct (f a) as [b|e] eqn:E; cbn [bind].
  - destruct (mapM f l) as [bs|e] eqn:E2; cbn [bind]; [discriminate|]. intro X. destruct (IH X) as (a' & I & Ea). exists a'. split; auto. now right.
  - injection 1 as ->. exists a. split; auto. now left.
Qed.

Lemma routine_not_rec {A} (r : res A) : routine r -> r <> Err ERecursion.
Proof. intros H ->. exact H. Qed.

Lemma p_lookup_rec f q : p_lookup ord s (S f) q = Err ERecursion -> exists k, mentions s q k /\ p_lookup ord s f k = Err ERecursion.
Proof.
  cbn [p_lookup]. rewrite p_body_reading. destruct (reading_opt s q) as [[pre e]|] eqn:Rd; cbn [of_reading]; [|discriminate].
  apply reading_iff in Rd. intro E.
  assert (E' : p_entry ord s (p_lookup ord s f) e = Err ERecursion).
  { destruct pre as [[[key p] k]|]; auto. destruct (p_entry ord s (p_lookup ord s f) e) as [x|e']; cbn [bind] in E; [|congruence].
    exfalso. eapply routine_not_rec; [apply ro_prefixed|exact E]. }
  destruct e as [i|y r]; cbn [p_entry] in E'; [|discriminate]. unfold p_resolve in E'.
  destruct (nth_error (s_lazies s) i) as [l|] eqn:N; [|discriminate].
  destruct (lz_resolved l) eqn:R; [discriminate|].
  destruct (parse (lz_def l)) as [g|e'] eqn:P; cbn [bind] in E'.
  2: { exfalso. eapply routine_not_rec; [apply (ro_parse (lz_def l))|]. rewrite P. congruence. }
  destruct (p_refs ord (p_lookup ord s f) (identifiers g)) as [refs|e'] eqn:E2; cbn [bind] in E'.
  { exfalso. eapply routine_not_rec; [apply ro_mk_unit|exact E']. }
  injection E' as ->. apply mapM_rec in E2 as (k & I & Ek). exists k. split.
  - exists l, g. split; [|split; auto]. + eapply Db; eauto. + apply (Permutation_in _ (perm _)). exact I.
  - destruct (p_lookup ord s f k) as [x|e']; cbn [bind] in Ek; congruence.
Qed.

Lemma depth_enough rank n : depth_at_most s rank n -> forall f q, (rank q < f)%nat -> p_lookup ord s f q <> Err ERecursion.
Proof.
  intros [_ D]. induction f as [|f IH]; intros q L; [lia|].
  intro E. apply p_lookup_rec in E as (k & Mk & E). apply (IH k); auto. specialize (D q k Mk). lia.
Qed.

Lemma mapM_In {A B} (f : A -> res B) l bs a : mapM f l = Ok bs -> In a l -> exists b, f a = Ok b.
Proof.
  revert bs. induction l as [|a' l IH]; intros bs; cbn [mapM]; [contradiction|].
  destruct (f a') as [b|] eqn:E; [|discriminate]. cbn [bind]. destruct (mapM f l) as [bs'|] eqn:E2; [|discriminate].
  intros _ [->|I]; eauto.
Qed.

Lemma mentions_resolved f q x k : p_lookup ord s (S f) q = Ok x -> mentions s q k -> exists y, p_lookup ord s f k = Ok y.
Proof.
  intros E (l & g & [pre i Rd N R] & P & I). cbn [p_lookup] in E. rewrite p_body_reading in E.
  apply reading_iff in Rd. rewrite Rd in E. cbn [of_reading] in E.
  assert (E' : exists y, p_entry ord s (p_lookup ord s f) (ELazy i) = Ok y).
  { destruct pre as [[[key p] k']|]; eauto. destruct (p_entry ord s (p_lookup ord s f) (ELazy i)) as [y|]; [eauto|discriminate]. }
  destruct E' as [y E']. cbn [p_entry] in E'. unfold p_resolve in E'. rewrite N, R, P in E'. cbn [bind] in E'.
  destruct (p_refs ord (p_lookup ord s f) (identifiers g)) as [refs|] eqn:E2; [|discriminate].
  destruct (mapM_In _ _ _ k E2) as [b Eb]. { apply (Permutation_in _ (Permutation_sym (perm _))). exact I. }
  destruct (p_lookup ord s f k) as [z|]; [eauto|discriminate].
Qed.

Lemma depends_resolved q k : depends s q k -> forall f x, p_lookup ord s f q = Ok x ->
  exists f' y, (f' < f)%nat /\ p_lookup ord s f' k = Ok y.
Proof.
  induction 1 as [q k Mk|q k k' Mk _ IH]; intros f x E.
  - destruct f as [|f]; [discriminate|]. destruct (mentions_resolved f q x k E Mk) as [y Ey]. exists f, y. split; auto.
  - destruct f as [|f]; [discriminate|]. destruct (mentions_resolved f q x k E Mk) as [y Ey].
    destruct (IH f y Ey) as (f' & y' & L & E'). exists f', y'. split; auto.
Qed.

Lemma circular_never q x : depends s q q -> ~ means ord s q x.
Proof.
  intros D Hm. apply means_iff in Hm as [f E]. revert x E.
  induction f as [f IH] using lt_wf_ind. intros x E.
  destruct (depends_resolved q q D f x E) as (f' & y & L & E'). exact (IH f' L y E').
Qed.
End Follow.
