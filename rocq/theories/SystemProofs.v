(** * Look-ups against the specification: a state-free evaluator, and how the mutable
    system follows it. *)
From Verif Require Import PyBase PyNum Graph Visitor Expr Units UnitSpec UnitFacts UnitProofs UnitSystem SystemSpec SystemFacts.
From Coq Require Import Permutation.

(** ** The state-free evaluator on a fixed system *)
Section Pure.
Variable ord : list str -> list str.
Variable s0 : system.

Section Rec.
Variable rec : str -> res unit.

Definition p_refs (ids : list str) : res (list (str * uref)) :=
  mapM (fun k => do x <- rec k ;; Ok (k, RUnit x)) (ord ids).

Definition p_resolve (i : nat) : res unit :=
  match nth_error (s_lazies s0) i with
  | None => Err EOutOfModel
  | Some l =>
    match lz_resolved l with
    | Some x => Ok x
    | None => do g <- parse (lz_def l) ;; do refs <- p_refs (identifiers g) ;; mk_unit g refs
    end
  end.

Definition p_entry (e : entry) : res unit :=
  match e with EUnit x _ => Ok x | ELazy i => p_resolve i end.

Definition p_opt (o : option entry) : res (option unit) :=
  match o with None => Ok None | Some e => do x <- p_entry e ;; Ok (Some x) end.

Definition p_either (k : str) : res (option unit) :=
  do o <- p_opt (get_or k (s_names s0) (s_alias_names s0)) ;;
  match o with Some x => Ok (Some x) | None => p_opt (get_or k (s_symbols s0) (s_alias_symbols s0)) end.

Fixpoint p_try (ps : dict prefix) (q : str) : res (option unit) :=
  match ps with
  | [] => Ok None
  | (key, p) :: ps' =>
    match strip_prefix key q with
    | None => p_try ps' q
    | Some k =>
      do o <- p_either k ;;
      match o with
      | Some x => do y <- prefixed_unit key p k x ;; Ok (Some y)
      | None => p_try ps' q
      end
    end
  end.

Definition p_body (q : str) : res unit :=
  do o <- p_either q ;;
  match o with
  | Some x => Ok x
  | None =>
    do o1 <- p_try (s_prefix_names s0) q ;;
    match o1 with
    | Some x => Ok x
    | None =>
      do o2 <- p_try (s_prefix_symbols s0) q ;;
      match o2 with Some x => Ok x | None => Err (EUnresolvable q) end
    end
  end.
End Rec.

Fixpoint p_lookup (f : nat) (q : str) : res unit :=
  match f with O => Err ERecursion | S f' => p_body (p_lookup f') q end.

Definition p_unit (f : nat) (text : str) : res anyunit :=
  do g <- parse text ;; do refs <- p_refs (p_lookup f) (identifiers g) ;; unit_from_expression g refs.

(** ** monotonicity in the fuel *)
Definition le_res {A} (a b : res A) : Prop := a <> Err ERecursion -> b = a.

Lemma le_bind {A B} (a a' : res A) (f f' : A -> res B) : le_res a a' -> (forall x, le_res (f x) (f' x)) ->
  le_res (bind a f) (bind a' f').
Proof.
  intros H1 H2 N. destruct a as [x|e].
  - rewrite H1 by discriminate. apply H2. exact N.
  - rewrite H1; [reflexivity|]. cbn [bind] in N. congruence.
Qed.
Lemma le_refl' {A} (a : res A) : le_res a a. Proof. intro; reflexivity. Qed.
Lemma le_mapM {A B} (f f' : A -> res B) l : (forall x, le_res (f x) (f' x)) -> le_res (mapM f l) (mapM f' l).
Proof.
  intro H. induction l; cbn [mapM]; [apply le_refl'|]. apply le_bind; auto. intro. apply le_bind; auto. intro. apply le_refl'.
Qed.

Section Le.
Variables rec rec' : str -> res unit.
Hypothesis R : forall k, le_res (rec k) (rec' k).
Lemma le_refs ids : le_res (p_refs rec ids) (p_refs rec' ids).
Proof. apply le_mapM. intro. apply le_bind; auto. intro. apply le_refl'. Qed.
Lemma le_resolve i : le_res (p_resolve rec i) (p_resolve rec' i).
Proof.
  unfold p_resolve. destruct (nth_error _ i) as [l|]; [|apply le_refl']. destruct (lz_resolved l); [apply le_refl'|].
  apply le_bind; [apply le_refl'|]. intro. apply le_bind; [apply le_refs|]. intro. apply le_refl'.
Qed.
Lemma le_opt o : le_res (p_opt rec o) (p_opt rec' o).
Proof.
  destruct o as [[i|x r]|]; cbn [p_opt p_entry]; try apply le_refl'. apply le_bind; [apply le_resolve|]. intro; apply le_refl'.
Qed.
Lemma le_either k : le_res (p_either rec k) (p_either rec' k).
Proof. unfold p_either. apply le_bind; [apply le_opt|]. intros [x|]; [apply le_refl'|apply le_opt]. Qed.
Lemma le_try ps q : le_res (p_try rec ps q) (p_try rec' ps q).
Proof.
  induction ps as [|[key p] ps IH]; cbn [p_try]; [apply le_refl'|]. destruct (strip_prefix key q); [|exact IH].
  apply le_bind; [apply le_either|]. intros [x|]; [apply le_refl'|exact IH].
Qed.
Lemma le_body q : le_res (p_body rec q) (p_body rec' q).
Proof.
  unfold p_body. apply le_bind; [apply le_either|]. intros [x|]; [apply le_refl'|].
  apply le_bind; [apply le_try|]. intros [x|]; [apply le_refl'|].
  apply le_bind; [apply le_try|]. intros [x|]; apply le_refl'.
Qed.
End Le.

Lemma p_lookup_mono f : forall f' q, (f <= f')%nat -> le_res (p_lookup f q) (p_lookup f' q).
Proof.
  induction f as [|f IH]; intros f' q L.
  - intro N. exfalso. apply N. reflexivity.
  - destruct f' as [|f']; [lia|]. apply le_body. intro. apply IH. lia.
Qed.

Definition mono {A} (P : nat -> res A) : Prop := forall n m, (n <= m)%nat -> le_res (P n) (P m).

Lemma mono_const {A} (a : res A) : mono (fun _ => a). Proof. intros n m _. apply le_refl'. Qed.
Lemma mono_bind {A B} (P : nat -> res A) (Q : A -> nat -> res B) : mono P -> (forall a, mono (Q a)) ->
  mono (fun n => bind (P n) (fun a => Q a n)).
Proof. intros H1 H2 n m L. apply le_bind; [now apply H1|]. intro a. now apply H2. Qed.
Lemma mono_lookup q : mono (fun n => p_lookup n q).
Proof. intros n m L. now apply p_lookup_mono. Qed.
Lemma mono_resolve i : mono (fun n => p_resolve (p_lookup n) i).
Proof. intros n m L. apply le_resolve. intro. now apply p_lookup_mono. Qed.
Lemma mono_opt o : mono (fun n => p_opt (p_lookup n) o).
Proof. intros n m L. apply le_opt. intro. now apply p_lookup_mono. Qed.
Lemma mono_either k : mono (fun n => p_either (p_lookup n) k).
Proof. intros n m L. apply le_either. intro. now apply p_lookup_mono. Qed.
Lemma mono_try ps k : mono (fun n => p_try (p_lookup n) ps k).
Proof. intros n m L. apply le_try. intro. now apply p_lookup_mono. Qed.
Lemma mono_refs ids : mono (fun n => p_refs (p_lookup n) ids).
Proof. intros n m L. apply le_refs. intro. now apply p_lookup_mono. Qed.

(** ** a stateful outcome [r] obtained with stack [n] agrees with [P] *)
Definition agree {A} (n : nat) (r : res A) (P : nat -> res A) : Prop :=
  (r = Err ERecursion \/ exists F, P F = r) /\ (P n <> Err ERecursion -> P n = r).

Lemma agree_const {A} n (r : res A) : agree n r (fun _ => r).
Proof. split; auto. right. now exists O. Qed.

Lemma agree_bind {A B} n (r : res A) P (g : A -> res B) (Q : A -> nat -> res B) :
  mono P -> (forall a, mono (Q a)) -> agree n r P -> (forall a, r = Ok a -> agree n (g a) (Q a)) ->
  agree n (bind r g) (fun n => bind (P n) (fun a => Q a n)).
Proof.
  intros MP MQ [E1 E2] H. destruct r as [a|e].
  - destruct (H a eq_refl) as [G1 G2]. cbn [bind]. split.
    + destruct G1 as [G1|[F' G1]]; [now left|]. destruct E1 as [E1|[F E1]]; [discriminate|].
      destruct (g a) as [b|e] eqn:Eg.
      * right. exists (Nat.max F F'). rewrite (MP F) by (lia || (rewrite E1; discriminate)). rewrite E1. cbn [bind].
        rewrite (MQ a F') by (lia || (rewrite G1; discriminate)). exact G1.
      * destruct e; try (right; exists (Nat.max F F'); rewrite (MP F) by (lia || (rewrite E1; discriminate)); rewrite E1; cbn [bind];
          rewrite (MQ a F') by (lia || (rewrite G1; discriminate)); exact G1). now left.
    + intro N. assert (N' : P n <> Err ERecursion) by (intro X; rewrite X in N; now apply N).
      rewrite (E2 N') in *. cbn [bind] in *. auto.
  - cbn [bind]. split.
    + destruct E1 as [E1|[F E1]]; [left; congruence|]. right. exists F. now rewrite E1.
    + intro N. assert (N' : P n <> Err ERecursion) by (intro X; rewrite X in N; now apply N).
      now rewrite (E2 N').
Qed.

(** ** later states of [s0] *)
Definition val (i : nat) (x : unit) : Prop := exists f, p_resolve (p_lookup f) i = Ok x.

Inductive erel : option entry -> option entry -> Prop :=
| Er_same o : erel o o
| Er_resolved i x r : val i x -> erel (Some (ELazy i)) (Some (EUnit x r)).

Definition lrel (i : nat) (l0 l : lazy) : Prop :=
  lz_def l = lz_def l0 /\ lz_names l = lz_names l0 /\
  (lz_resolved l = lz_resolved l0 \/
   (lz_resolved l0 = None /\ exists x, lz_resolved l = Some x /\ val i x)).

Definition later (s : system) : Prop :=
  clash_free s /\
  s_prefix_names s = s_prefix_names s0 /\ s_prefix_symbols s = s_prefix_symbols s0 /\
  (forall k, erel (dget k (s_symbols s0)) (dget k (s_symbols s))) /\
  (forall k, erel (dget k (s_names s0)) (dget k (s_names s))) /\
  (forall k, erel (dget k (s_alias_names s0)) (dget k (s_alias_names s))) /\
  (forall k, erel (dget k (s_alias_symbols s0)) (dget k (s_alias_symbols s))) /\
  List.length (s_lazies s) = List.length (s_lazies s0) /\
  (forall i l0 l, nth_error (s_lazies s0) i = Some l0 -> nth_error (s_lazies s) i = Some l -> lrel i l0 l).

Hypothesis clean : clash_free s0.

Lemma later_refl : later s0.
Proof.
  split; [exact clean|].
  repeat split; auto; try (intro; apply Er_same); congruence || (left; congruence).
Qed.

Definition sim {A} (n : nat) (m : M A) (P : nat -> res A) : Prop :=
  mono P /\ forall s, later s -> later (snd (m s)) /\ agree n (fst (m s)) P.

Lemma sim_lift {A} n (r : res A) : sim n (lift r) (fun _ => r).
Proof. split; [apply mono_const|]. intros s L. split; auto. apply agree_const. Qed.

Lemma sim_bind {A B} n (m : M A) P (f : A -> M B) Q : sim n m P -> (forall a, sim n (f a) (Q a)) ->
  sim n (mbind m f) (fun n => bind (P n) (fun a => Q a n)).
Proof.
  intros [MP H1] H2. split.
  - apply mono_bind; auto. intro a. apply H2.
  - intros s L. destruct (H1 s L) as [L1 A1]. unfold mbind. destruct (m s) as [r s1] eqn:E. cbn [fst snd] in *.
    assert (X : agree n (bind r (fun a => fst (f a s1))) (fun n => bind (P n) (fun a => Q a n))).
    { apply agree_bind; auto. - intro a; apply H2. - intros a ->. now apply (proj2 (H2 a)). }
    destruct r as [a|e]; cbn [bind] in X.
    + split; auto. now apply (proj2 (H2 a)).
    + split; auto.
Qed.

Lemma sim_mmapM {A B} n (f : A -> M B) P l : (forall a, sim n (f a) (P a)) ->
  sim n (mmapM f l) (fun n => mapM (fun a => P a n) l).
Proof.
  intro H. induction l as [|a l IH]; cbn [mmapM mapM]; [apply (sim_lift n (Ok []))|].
  apply sim_bind; auto. intro b. apply (sim_bind n _ _ _ (fun bs _ => Ok (b :: bs))); auto. intro bs. apply (sim_lift n (Ok (b :: bs))).
Qed.

Lemma sim_ext {A} n (m : M A) P P' : (forall k, P k = P' k) -> sim n m P -> sim n m P'.
Proof.
  intros E [MP H]. split.
  - intros a b L. rewrite <- !E. now apply MP.
  - intros s L. destruct (H s L) as [L1 [A1 A2]]. split; auto. split.
    + destruct A1 as [A1|[F A1]]; auto. right. exists F. now rewrite <- E.
    + rewrite <- !E. exact A2.
Qed.

(** registering a resolved lazy unit *)
Lemma nth_set_lazy i l s j : nth_error (s_lazies (set_lazy i l s)) j =
  if Nat.eqb j i then (if Nat.ltb i (List.length (s_lazies s)) then Some l else nth_error (s_lazies (set_lazy i l s)) j)
  else if Nat.ltb i (List.length (s_lazies s)) then nth_error (s_lazies s) j else nth_error (s_lazies (set_lazy i l s)) j.
Proof.
  cbn [set_lazy s_lazies]. destruct (Nat.ltb i (List.length (s_lazies s))) eqn:L.
  2: { destruct (Nat.eqb j i); reflexivity. }
  apply Nat.ltb_lt in L. generalize dependent i. revert j.
  induction (s_lazies s) as [|x ls IH]; intros j i L; [simpl in L; lia|].
  destruct i as [|i]; destruct j as [|j]; cbn [firstn skipn app nth_error Nat.eqb]; auto.
  - cbn [List.length] in L. apply IH. lia.
Qed.

Lemma erel_set k ks (i : nat) x r l0 d0 d :
  owns d0 i l0 ks -> nth_error (s_lazies s0) i = Some l0 -> val i x -> r = lz_names l0 ->
  erel (dget k d0) (dget k d) -> erel (dget k d0) (dget k (dset_all ks (EUnit x r) d)).
Proof.
  intros O N V -> H. rewrite dget_dset_all. destruct (str_mem k ks) eqn:E; auto.
  apply str_mem_In in E. destruct (O k E) as [->|(y & R & ->)].
  - now apply Er_resolved.
  - assert (y = x) as ->; [|apply Er_same]. destruct V as [f V]. unfold p_resolve in V. rewrite N, R in V. congruence.
Qed.

(* one value a lazy can have *)
Lemma val_agree m i x : val i x -> agree m (Ok x) (fun n => p_resolve (p_lookup n) i).
Proof.
  intros [f V]. split; [right; eauto|]. intro N.
  pose proof (mono_resolve i f (Nat.max f m) ltac:(lia) ltac:(cbn beta; rewrite V; discriminate)) as E1.
  pose proof (mono_resolve i m (Nat.max f m) ltac:(lia) N) as E2. cbn beta in *. congruence.
Qed.

Lemma val_unique i x y : val i x -> val i y -> x = y.
Proof.
  intros V [f W]. destruct (val_agree f i x V) as [_ E]. cbn beta in E. rewrite W in E. symmetry.
  specialize (E ltac:(discriminate)). congruence.
Qed.

Lemma owns_set d j l k0 i l1 x ks :
  owns d j l ks -> owns d i l1 k0 -> lz_resolved l1 = Some x -> (j = i -> l = l1) ->
  owns (dset_all k0 (EUnit x (lz_names l1)) d) j l ks.
Proof.
  intros O O1 R E k I. rewrite dget_dset_all. destruct (str_mem k k0) eqn:M; [|now apply O].
  apply str_mem_In in M. right. destruct (Nat.eq_dec j i) as [->|D].
  - rewrite (E eq_refl). eauto.
  - destruct (O k I) as [O'|(y & R' & O')]; destruct (O1 k M) as [O1'|(y1 & R1' & O1')]; try congruence.
    exists x. split; congruence.
Qed.

Lemma clash_free_register i l s x : nth_error (s_lazies s) i = Some l -> lz_resolved l = Some x ->
  clash_free s -> clash_free (register (EUnit x (lz_names l)) (lz_names l) s).
Proof.
  intros N R C j lj Nj. cbn [register s_lazies] in Nj. destruct (C i l N) as (C1 & C2 & C3 & C4).
  destruct (C j lj Nj) as (D1 & D2 & D3 & D4).
  assert (E : j = i -> lj = l) by (intros ->; congruence).
  cbn [register s_symbols s_names s_alias_names s_alias_symbols].
  repeat split; eapply owns_set; eauto.
Qed.

Lemma later_register i l0 l x s : nth_error (s_lazies s0) i = Some l0 -> nth_error (s_lazies s) i = Some l ->
  lz_names l = lz_names l0 -> lz_resolved l = Some x -> val i x -> later s ->
  later (register (EUnit x (lz_names l0)) (lz_names l0) s).
Proof.
  intros N N1 E1 R1 V (C & P1 & P2 & S1 & S2 & S3 & S4 & LL & LR).
  destruct (clean i l0 N) as (O1 & O2 & O3 & O4).
  split. { rewrite <- E1. eapply clash_free_register; eauto. }
  unfold later, register; cbn [s_prefix_names s_prefix_symbols s_symbols s_names s_alias_names s_alias_symbols s_lazies].
  repeat split; auto; try (intro k; eapply erel_set; eauto); eapply LR; eauto.
Qed.

Lemma clash_free_set i l x s : nth_error (s_lazies s) i = Some l ->
  (lz_resolved l = None \/ lz_resolved l = Some x) -> clash_free s ->
  clash_free (set_lazy i (mkLazy (lz_def l) (lz_names l) (Some x)) s).
Proof.
  intros N R C j lj Nj. rewrite nth_set_lazy in Nj.
  assert (Li : (i < List.length (s_lazies s))%nat) by (apply nth_error_Some; congruence).
  apply Nat.ltb_lt in Li. rewrite Li in Nj. cbn [set_lazy s_symbols s_names s_alias_names s_alias_symbols].
  destruct (Nat.eqb j i) eqn:E; [|now apply C].
  apply Nat.eqb_eq in E; subst j. injection Nj as <-. cbn [lz_names]. destruct (C i l N) as (C1 & C2 & C3 & C4).
  assert (G : forall d ks, owns d i l ks -> owns d i (mkLazy (lz_def l) (lz_names l) (Some x)) ks).
  { intros d ks O k I. destruct (O k I) as [O'|(y & R' & O')]; [now left|]. right. exists x. cbn [lz_resolved lz_names].
    split; auto. destruct R as [R|R]; congruence. }
  repeat split; now apply G.
Qed.

Lemma later_set i l0 l x s : nth_error (s_lazies s0) i = Some l0 -> lrel i l0 l -> lz_resolved l = None -> val i x -> later s ->
  later (set_lazy i (mkLazy (lz_def l) (lz_names l) (Some x)) s).
Proof.
  intros N (D & NM & _) LN V (C & P1 & P2 & S1 & S2 & S3 & S4 & LL & LR).
  assert (Li : (i < List.length (s_lazies s))%nat) by (rewrite LL; apply nth_error_Some; congruence).
  split.
  { destruct (nth_error (s_lazies s) i) as [l'|] eqn:N'; [|apply nth_error_None in N'; lia].
    pose proof (LR i l0 l' N N') as (D' & NM' & R'). rewrite D, NM, <- D', <- NM'.
    apply clash_free_set; auto. destruct R' as [R'|(_ & y & R' & V')].
    - destruct (lz_resolved l') as [y|] eqn:Ry; [right|now left]. f_equal.
      apply val_unique with i; auto. exists O. unfold p_resolve. rewrite N, <- R'. reflexivity.
    - right. rewrite R'. f_equal. eapply val_unique; eauto. }
  unfold later. repeat split; auto.
  - cbn [set_lazy s_lazies]. rewrite app_length, firstn_length. cbn [List.length]. rewrite skipn_length. lia.
  - rewrite nth_set_lazy in H0. apply Nat.ltb_lt in Li. rewrite Li in H0. destruct (Nat.eqb i0 i) eqn:E.
    + apply Nat.eqb_eq in E; subst i0. injection H0 as <-. cbn [lz_def]. congruence.
    + now apply (LR i0 l1 l2).
  - rewrite nth_set_lazy in H0. apply Nat.ltb_lt in Li. rewrite Li in H0. destruct (Nat.eqb i0 i) eqn:E.
    + apply Nat.eqb_eq in E; subst i0. injection H0 as <-. cbn [lz_names]. congruence.
    + now apply (LR i0 l1 l2).
  - rewrite nth_set_lazy in H0. apply Nat.ltb_lt in Li. rewrite Li in H0. destruct (Nat.eqb i0 i) eqn:E.
    + apply Nat.eqb_eq in E; subst i0. injection H0 as <-. cbn [lz_resolved].
      assert (l1 = l0) as -> by congruence. destruct (lz_resolved l0) as [y|] eqn:R.
      * left. destruct V as [f V]. unfold p_resolve in V. rewrite N, R in V. congruence.
      * right. eauto.
    + now apply (LR i0 l1 l2).
Qed.

Section SimRec.
Variable n : nat.
Variable rec : str -> M unit.
Hypothesis R : forall k, sim n (rec k) (fun n => p_lookup n k).

Lemma sim_refs ids : sim n (resolve_refs ord rec ids) (fun n => p_refs (p_lookup n) ids).
Proof.
  apply (sim_mmapM n _ (fun k n => do x <- p_lookup n k ;; Ok (k, RUnit x))). intro k.
  apply (sim_bind n _ _ _ (fun x _ => Ok (k, RUnit x))); [apply R|]. intro x. apply (sim_lift n (Ok (k, RUnit x))).
Qed.

Lemma resolve_resolved i s x s' l : later s -> resolve ord rec i s = (Ok x, s') ->
  nth_error (s_lazies s) i = Some l ->
  exists l', nth_error (s_lazies s') i = Some l' /\ lz_names l' = lz_names l /\ lz_resolved l' = Some x.
Proof.
  intros L E N. unfold resolve in E. rewrite N in E. destruct (lz_resolved l) as [y|] eqn:Rl.
  - injection E as <- <-. eauto.
  - unfold mbind, lift in E. destruct (parse (lz_def l)) as [g|]; [|discriminate].
    pose proof (proj2 (sim_refs (identifiers g)) s L) as [(_ & _ & _ & _ & _ & _ & _ & LL & _) _].
    destruct (resolve_refs ord rec (identifiers g) s) as [[refs|] s1]; [|discriminate]. cbn [snd] in LL.
    destruct (mk_unit g refs); [|discriminate]. injection E as <- <-.
    rewrite nth_set_lazy, Nat.eqb_refl.
    assert (Li : (i < List.length (s_lazies s1))%nat).
    { rewrite LL. destruct L as (_ & _ & _ & _ & _ & _ & _ & LL' & _). rewrite <- LL'. apply nth_error_Some. congruence. }
    apply Nat.ltb_lt in Li. rewrite Li. eauto.
Qed.

Lemma sim_resolve i : sim n (resolve ord rec i) (fun n => p_resolve (p_lookup n) i).
Proof.
  split; [apply mono_resolve|]. intros s L. pose proof L as (_ & _ & _ & _ & _ & _ & _ & LL & LR). unfold resolve.
  destruct (nth_error (s_lazies s) i) as [l|] eqn:N.
  - destruct (nth_error (s_lazies s0) i) as [l0|] eqn:N0.
    2: { apply nth_error_None in N0. assert (nth_error (s_lazies s) i <> None) by congruence. apply nth_error_Some in H. lia. }
    pose proof (LR i l0 l N0 N) as (D & NM & RS).
    destruct (lz_resolved l) as [x|] eqn:RL.
    + cbn [fst snd]. split; auto. apply val_agree. destruct RS as [RS|(_ & x' & RS & V)].
      * exists O. unfold p_resolve. rewrite N0, <- RS. reflexivity.
      * congruence.
    + assert (R0 : lz_resolved l0 = None) by (destruct RS as [RS|(RS & _)]; congruence).
      assert (X : sim n (dom e <- lift (parse (lz_def l)) ;;
         dom refs <- resolve_refs ord rec (identifiers e) ;; lift (mk_unit e refs))
         (fun n => p_resolve (p_lookup n) i)).
      { eapply sim_ext.
        2: { apply (sim_bind n _ (fun _ => parse (lz_def l)) _ (fun g n => do refs <- p_refs (p_lookup n) (identifiers g) ;; mk_unit g refs));
               [apply sim_lift|]. intro g.
             apply (sim_bind n _ _ _ (fun refs _ => mk_unit g refs)); [apply sim_refs|]. intro refs. apply sim_lift. }
        intro k. cbn beta. unfold p_resolve. rewrite N0, R0, D. reflexivity. }
      destruct X as [_ X]. specialize (X s L).
      unfold mbind, lift in X |- *. destruct (parse (lz_def l)) as [g|e]; [|exact X].
      destruct (resolve_refs ord rec (identifiers g) s) as [[refs|e] s1]; [|exact X].
      destruct (mk_unit g refs) as [x|e] eqn:MK; [|exact X]. cbn [fst snd] in *. destruct X as [L1 A]. split; [|exact A].
      rewrite <- MK in A. destruct A as [[A|[F A]] _]; [rewrite MK in A; discriminate|].
      assert (V : val i x) by (exists F; now rewrite A). apply (later_set i l0 l x s1 N0); auto.
  - cbn [fst snd]. split; auto. unfold agree, p_resolve.
    assert (nth_error (s_lazies s0) i = None) as -> by (apply nth_error_None; rewrite <- LL; now apply nth_error_None).
    exact (agree_const n (Err EOutOfModel)).
Qed.

Lemma sim_force s o0 o : later s -> erel o0 o ->
  later (snd (force_entry ord rec o s)) /\ agree n (fst (force_entry ord rec o s)) (fun n => p_opt (p_lookup n) o0).
Proof.
  intros L E. inversion E; subst.
  - destruct o as [[i|x r]|]; cbn [force_entry p_opt p_entry].
    + destruct (nth_error (s_lazies s) i) as [l|] eqn:N.
      * pose proof L as (_ & _ & _ & _ & _ & _ & _ & LL & LR).
        destruct (nth_error (s_lazies s0) i) as [l0|] eqn:N0.
        2: { apply nth_error_None in N0. assert (nth_error (s_lazies s) i <> None) by congruence. apply nth_error_Some in H. lia. }
        pose proof (LR i l0 l N0 N) as (D & NM & _).
        pose proof (sim_resolve i) as [MR S]. specialize (S s L).
        pose proof (resolve_resolved i s) as RR.
        unfold mbind. destruct (resolve ord rec i s) as [[x|e] s1]; cbn [fst snd] in *; destruct S as [L1 A].
        -- split. { rewrite NM. destruct (RR x s1 l L eq_refl N) as (l' & N' & NM' & R').
             apply later_register with i l'; auto; [congruence|]. destruct A as [[A|[F A]] _]; [discriminate|]. now exists F. }
           apply (agree_bind n (Ok x) _ (fun x => Ok (Some x)) (fun x _ => Ok (Some x))); auto.
           ++ intro; apply mono_const.
           ++ intros a _. apply agree_const.
        -- split; auto. apply (agree_bind n (Err e) _ (fun x => Ok (Some x)) (fun x _ => Ok (Some x))); auto.
           ++ intro; apply mono_const.
           ++ discriminate.
      * split; auto. cbn [fst].
        assert (N0 : nth_error (s_lazies s0) i = None).
        { pose proof L as (_ & _ & _ & _ & _ & _ & _ & LL & LR). apply nth_error_None; rewrite <- LL; now apply nth_error_None. }
        unfold p_resolve. rewrite N0. exact (agree_const n (Err EOutOfModel)).
    + split; auto. apply agree_const.
    + split; auto. apply agree_const.
  - cbn [force_entry p_opt p_entry]. split; auto.
    apply (agree_bind n (Ok x) _ (fun x => Ok (Some x)) (fun x _ => Ok (Some x))).
    + apply mono_resolve.
    + intro; apply mono_const.
    + now apply val_agree.
    + intros; apply agree_const.
Qed.

Lemma erel_get_or k d1 d2 d1' d2' : erel (dget k d1) (dget k d1') -> erel (dget k d2) (dget k d2') ->
  erel (get_or k d1 d2) (get_or k d1' d2').
Proof.
  intros H1 H2. unfold get_or. destruct H1 as [o|i x r V].
  - destruct o; [apply Er_same|exact H2].
  - now apply Er_resolved.
Qed.

Lemma sim_either k : sim n (unit_by_either ord rec k) (fun n => p_either (p_lookup n) k).
Proof.
  apply (sim_bind n _ (fun n => p_opt (p_lookup n) (get_or k (s_names s0) (s_alias_names s0))) _
     (fun o n => match o with Some x => Ok (Some x) | None => p_opt (p_lookup n) (get_or k (s_symbols s0) (s_alias_symbols s0)) end)).
  - split; [apply mono_opt|]. intros s L. apply sim_force; auto. destruct L as (_ & _ & _ & _ & L2 & L3 & _). now apply erel_get_or.
  - intros [x|]; [apply (sim_lift n (Ok (Some x)))|]. split; [apply mono_opt|]. intros s L.
    apply sim_force; auto. destruct L as (_ & _ & _ & L2 & _ & _ & L3 & _). now apply erel_get_or.
Qed.

Lemma sim_try ps q : sim n (try_prefixes ord rec ps q) (fun n => p_try (p_lookup n) ps q).
Proof.
  induction ps as [|[key p] ps IH]; cbn [try_prefixes p_try]; [apply (sim_lift n (Ok None))|].
  destruct (strip_prefix key q) as [k|]; [|exact IH].
  apply (sim_bind n _ _ _ (fun o n => match o with Some x => do y <- prefixed_unit key p k x ;; Ok (Some y) | None => p_try (p_lookup n) ps q end));
    [apply sim_either|]. intros [x|]; [|exact IH].
  apply (sim_bind n _ (fun _ => prefixed_unit key p k x) _ (fun y _ => Ok (Some y))); [apply sim_lift|]. intro y. apply (sim_lift n (Ok (Some y))).
Qed.

Lemma sim_body q : sim n (lookup_body ord rec q) (fun n => p_body (p_lookup n) q).
Proof.
  apply (sim_bind n _ _ _ (fun o n => match o with
  | Some x => Ok x
  | None =>
    do o1 <- p_try (p_lookup n) (s_prefix_names s0) q ;;
    match o1 with
    | Some x => Ok x
    | None =>
      do o2 <- p_try (p_lookup n) (s_prefix_symbols s0) q ;;
      match o2 with Some x => Ok x | None => Err (EUnresolvable q) end
    end end)); [apply sim_either|]. intros [x|]; [apply (sim_lift n (Ok x))|].
  apply (sim_bind n _ (fun n => p_try (p_lookup n) (s_prefix_names s0) q) _ (fun o1 n => match o1 with
    | Some x => Ok x
    | None =>
      do o2 <- p_try (p_lookup n) (s_prefix_symbols s0) q ;;
      match o2 with Some x => Ok x | None => Err (EUnresolvable q) end
    end)).
  { split; [apply mono_try|]. intros s L. pose proof L as (_ & P1 & _). rewrite P1. now apply sim_try. }
  intros [x|]; [apply (sim_lift n (Ok x))|].
  apply (sim_bind n _ (fun n => p_try (p_lookup n) (s_prefix_symbols s0) q) _ (fun o2 n => match o2 with
    | Some x => Ok x
    | None => Err (EUnresolvable q) end)).
  { split; [apply mono_try|]. intros s L. pose proof L as (_ & _ & P1 & _). rewrite P1. now apply sim_try. }
  intros [x|]; [apply (sim_lift n (Ok x))|apply (sim_lift n (Err (EUnresolvable q)))].
Qed.
End SimRec.

Lemma sim_lookup n : forall q, sim n (lookup ord n q) (fun n => p_lookup n q).
Proof.
  induction n as [|n IH]; intro q.
  - split; [apply mono_lookup|]. intros s L. split; auto. split; [now left|]. intro N. exfalso. now apply N.
  - split; [apply mono_lookup|]. intros s L. cbn [lookup]. destruct (sim_body n _ IH q) as [_ H]. destruct (H s L) as [L1 [A1 A2]].
    split; auto. split; [|exact A2]. destruct A1 as [A1|[F A1]]; auto. right. now exists (S F).
Qed.

Lemma sim_unit n t : sim n (sys_unit ord n t) (fun n => p_unit n t).
Proof.
  apply (sim_bind n _ (fun _ => parse t) _ (fun g n => do refs <- p_refs (p_lookup n) (identifiers g) ;; unit_from_expression g refs));
    [apply sim_lift|]. intro g.
  apply (sim_bind n _ _ _ (fun refs _ => unit_from_expression g refs)); [apply sim_refs; apply sim_lookup|]. intro; apply sim_lift.
Qed.

Lemma later_run s c : later s -> later (run ord s c).
Proof. intro L. destruct c; cbn [run]; [now apply (proj2 (sim_lookup stack q))|now apply (proj2 (sim_unit stack text))]. Qed.

Lemma later_after cs : forall s, later s -> later (after ord s cs).
Proof. unfold after. induction cs as [|c cs IH]; intros s L; cbn [fold_left]; auto. apply IH. now apply later_run. Qed.
End Pure.
