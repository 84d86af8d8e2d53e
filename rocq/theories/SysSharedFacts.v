(** * One UnitSystem used from many threads: facts *)
From Verif Require Import PyBase PyNum Graph LexSpec Visitor Expr Units UnitSpec UnitFacts UnitProofs UnitSystem SystemSpec SystemFacts
  SystemProofs SystemMore SystemKeep Process ProcessFacts SysShared.
From Verif Require Atn AtnShared AtnSharedFacts PShared PSharedFacts.

(** ** A program alone is the look-up of UnitSystem.v *)
Definition frame (s s' : system) : Prop :=
  forall i l, nth_error (s_lazies s) i = Some l ->
  exists l', nth_error (s_lazies s') i = Some l' /\ lz_def l' = lz_def l /\ lz_names l' = lz_names l.

Lemma same_prefixes {B} (a : access B) s t : prefixes t (snd (does a s)) = prefixes t s.
Proof.
  destruct a as [x k|x k e|i|i x|x|x i]; cbn [does snd]; try reflexivity.
  unfold set_resolved. destruct (nth_error (s_lazies s) i); [|reflexivity]. destruct t; reflexivity.
Qed.
Lemma same_prefixes_alone {A} (p : prog A) t : forall s, prefixes t (snd (alone p s)) = prefixes t s.
Proof.
  induction p as [r|B a k IH|x k IH]; intro s; cbn [alone]; [reflexivity| |apply IH].
  pose proof (same_prefixes a s t) as F. destruct (does a s) as [b s']. cbn [snd] in F. rewrite <- F. apply IH.
Qed.

Lemma frame_refl s : frame s s. Proof. intros i l H. eauto. Qed.
Lemma frame_trans a b c : frame a b -> frame b c -> frame a c.
Proof. intros H1 H2 i l H. destruct (H1 i l H) as (l1 & N1 & D1 & M1). destruct (H2 i l1 N1) as (l2 & N2 & D2 & M2).
  exists l2. split; [exact N2|]. split; congruence. Qed.

Lemma nth_set i l l0 s j : nth_error (s_lazies s) i = Some l0 ->
  nth_error (s_lazies (set_lazy i l s)) j = if Nat.eqb j i then Some l else nth_error (s_lazies s) j.
Proof.
  intro N. rewrite nth_set_lazy. assert (L : (i < List.length (s_lazies s))%nat) by (apply nth_error_Some; congruence).
  apply Nat.ltb_lt in L. now rewrite L.
Qed.

Lemma frame_does {B} (a : access B) s : frame s (snd (does a s)).
Proof.
  destruct a as [t k|t k e|i|i x|t|t i]; cbn [does snd]; try apply frame_refl.
  { intros j l H. exists l. split; [exact H|]. split; reflexivity. }
  unfold set_resolved. destruct (nth_error (s_lazies s) i) as [l0|] eqn:N; [|apply frame_refl].
  intros j l H. rewrite (nth_set i _ l0 s j N). destruct (Nat.eqb_spec j i) as [->|D].
  - eexists. split; [reflexivity|]. cbn [lz_def lz_names]. split; congruence.
  - eauto.
Qed.
Lemma frame_alone {A} (p : prog A) : forall s, frame s (snd (alone p s)).
Proof.
  induction p as [r|B a k IH|t k IH]; intro s; cbn [alone].
  - apply frame_refl.
  - pose proof (frame_does a s) as F. destruct (does a s) as [b s']. cbn [snd] in F. eapply frame_trans; [exact F|apply IH].
  - apply IH.
Qed.

Lemma alone_bind {A B} (p : prog A) (f : A -> prog B) : forall s,
  alone (pbind p f) s = mbind (alone p) (fun a => alone (f a)) s.
Proof.
  unfold mbind. induction p as [[a|e]|C a k IH|t k IH]; intro s; cbn [pbind alone]; try reflexivity.
  - destruct (does a s) as [b s']. apply IH.
  - apply IH.
Qed.

Lemma alone_map {A B} (f : A -> prog B) (g : A -> M B) l : (forall a s, alone (f a) s = g a s) ->
  forall s, alone (pmap f l) s = mmapM g l s.
Proof.
  intro H. induction l as [|a l IH]; intro s; cbn [pmap mmapM]; [reflexivity|].
  rewrite alone_bind. unfold mbind at 1 2. rewrite H. destruct (g a s) as [[b|e] s1]; [|reflexivity].
  rewrite alone_bind. unfold mbind. rewrite IH. destruct (mmapM g l s1) as [[bs|e] s2]; reflexivity.
Qed.

Lemma alone_puts t ks e : forall s, alone (t_puts t ks e) s = (Ok tt, fold_left (fun s k => put t k e s) ks s).
Proof. induction ks as [|k ks IH]; intro s; cbn [t_puts alone does fold_left]; [reflexivity|]. apply IH. Qed.

Lemma puts_table t ks e : forall s, fold_left (fun s k => put t k e s) ks s =
  match t with
  | Symbols => mkSys (dset_all ks e (s_symbols s)) (s_names s) (s_alias_names s) (s_alias_symbols s) (s_prefix_names s) (s_prefix_symbols s) (s_lazies s)
  | Names => mkSys (s_symbols s) (dset_all ks e (s_names s)) (s_alias_names s) (s_alias_symbols s) (s_prefix_names s) (s_prefix_symbols s) (s_lazies s)
  | AliasNames => mkSys (s_symbols s) (s_names s) (dset_all ks e (s_alias_names s)) (s_alias_symbols s) (s_prefix_names s) (s_prefix_symbols s) (s_lazies s)
  | AliasSymbols => mkSys (s_symbols s) (s_names s) (s_alias_names s) (dset_all ks e (s_alias_symbols s)) (s_prefix_names s) (s_prefix_symbols s) (s_lazies s)
  end.
Proof.
  unfold dset_all. induction ks as [|k ks IH]; intro s.
  - destruct t, s; reflexivity.
  - cbn [fold_left]. rewrite IH. destruct t; reflexivity.
Qed.

Lemma alone_register e r s : alone (t_register e r) s = (Ok tt, register e r s).
Proof.
  unfold t_register. rewrite alone_bind. unfold mbind at 1. rewrite alone_puts. rewrite alone_bind. unfold mbind at 1. rewrite alone_puts.
  rewrite alone_bind. unfold mbind. rewrite alone_puts, alone_puts. rewrite !puts_table. reflexivity.
Qed.

Section Alone.
Variable ord : list str -> list str.
Variable rec : str -> prog unit.
Variable mrec : str -> M unit.
Hypothesis R : forall q s, alone (rec q) s = mrec q s.

Lemma alone_refs ids s : alone (t_refs ord rec ids) s = resolve_refs ord mrec ids s.
Proof.
  unfold t_refs, resolve_refs. apply alone_map. intros k s'. rewrite alone_bind. unfold mbind. rewrite R.
  destruct (mrec k s') as [[x|e] s2]; reflexivity.
Qed.

Lemma alone_resolve i s : alone (t_resolve ord rec i) s = resolve ord mrec i s.
Proof.
  unfold t_resolve, resolve. cbn [alone does]. destruct (nth_error (s_lazies s) i) as [l|] eqn:N; [|reflexivity].
  destruct (lz_resolved l) as [x|] eqn:E.
  - unfold t_resolved. cbn [alone does]. rewrite N, E. reflexivity.
  - cbn [alone]. unfold mbind, lift. destruct (parse (lz_def l)) as [g|e]; [|reflexivity]. cbn [pbind].
    rewrite alone_bind. unfold mbind. pose proof (frame_alone (t_refs ord rec (identifiers g)) s i l N) as F.
    rewrite alone_refs in *. destruct (resolve_refs ord mrec (identifiers g) s) as [[refs|e] s1]; [|reflexivity]. cbn [snd] in F.
    destruct (mk_unit g refs) as [x|e]; [|reflexivity]. cbn [pbind alone does]. destruct F as (l' & N' & D' & M').
    unfold set_resolved. rewrite N'. unfold t_resolved. cbn [alone does]. rewrite (nth_set i _ l' s1 i N'), Nat.eqb_refl.
    cbn [lz_resolved alone]. rewrite D', M'. reflexivity.
Qed.

Lemma alone_force o s : alone (t_force ord rec o) s = force_entry ord mrec o s.
Proof.
  destruct o as [[i|x r]|]; cbn [t_force force_entry]; [|reflexivity|reflexivity]. cbn [alone does].
  destruct (nth_error (s_lazies s) i) as [l|]; [|reflexivity]. rewrite alone_bind. unfold mbind. rewrite alone_resolve.
  destruct (resolve ord mrec i s) as [[x|e] s1]; [|reflexivity]. rewrite alone_bind. unfold mbind. rewrite alone_register. reflexivity.
Qed.

Lemma alone_get t1 t2 k s : alone (t_get_or t1 t2 k) s = (Ok (get_or k (content t1 s) (content t2 s)), s).
Proof. unfold t_get_or, get_or. cbn [alone does]. destruct (dget k (content t1 s)); reflexivity. Qed.

Lemma alone_either k s : alone (t_either ord rec k) s = unit_by_either ord mrec k s.
Proof.
  unfold t_either, unit_by_either, unit_by_name, unit_by_symbol. rewrite alone_bind. unfold mbind at 1. rewrite alone_get. cbn [content].
  rewrite alone_bind. unfold mbind. rewrite alone_force.
  destruct (force_entry ord mrec (get_or k (s_names s) (s_alias_names s)) s) as [[[x|]|e] s1]; try reflexivity.
  rewrite alone_bind. unfold mbind. rewrite alone_get. cbn [content]. apply alone_force.
Qed.

Lemma nth_skipn {A} (l : list A) : forall i a, nth_error l i = Some a -> skipn i l = a :: skipn (S i) l.
Proof. induction l as [|b l IH]; intros [|i] a N; cbn [nth_error] in N; try discriminate; [injection N as ->; reflexivity|]. apply (IH i a N). Qed.

Lemma alone_try t q ps : forall left i s, prefixes t s = ps -> left = (List.length ps - i)%nat ->
  alone (t_try ord rec left t (List.length ps) i q) s = try_prefixes ord mrec (skipn i ps) q s.
Proof.
  induction left as [|left IH]; intros i s P L; cbn [t_try alone does]; rewrite P, Nat.eqb_refl; destruct (nth_error ps i) as [[key p]|] eqn:N.
  - assert (X : nth_error ps i <> None) by congruence. apply nth_error_Some in X. lia.
  - apply nth_error_None in N. rewrite skipn_all2 by exact N. reflexivity.
  - rewrite (nth_skipn ps i _ N). cbn [try_prefixes]. destruct (strip_prefix key q) as [k|]; [|apply IH; [exact P|lia]]. rewrite alone_bind. unfold mbind.
    pose proof (same_prefixes_alone (t_either ord rec k) t s) as SP. rewrite alone_either in *.
    destruct (unit_by_either ord mrec k s) as [[[x|]|e] s1]; [|apply IH; [cbn [snd] in SP; congruence|lia]|reflexivity].
    unfold lift. destruct (prefixed_unit key p k x); reflexivity.
  - apply nth_error_None in N. rewrite skipn_all2 by exact N. reflexivity.
Qed.
Lemma alone_loop t q s : alone (t_loop ord rec t q) s = try_prefixes ord mrec (prefixes t s) q s.
Proof. unfold t_loop. cbn [alone does]. rewrite (alone_try t q (prefixes t s)); auto. lia. Qed.

Lemma alone_body q s : alone (t_body ord rec q) s = lookup_body ord mrec q s.
Proof.
  unfold t_body, lookup_body. rewrite alone_bind. unfold mbind. rewrite alone_either.
  destruct (unit_by_either ord mrec q s) as [[[x|]|e] s1]; try reflexivity.
  rewrite alone_bind. unfold mbind. rewrite alone_loop. cbn [prefixes].
  destruct (try_prefixes ord mrec (s_prefix_names s1) q s1) as [[[x|]|e] s2]; try reflexivity.
  rewrite alone_bind. unfold mbind. rewrite alone_loop. cbn [prefixes].
  destruct (try_prefixes ord mrec (s_prefix_symbols s2) q s2) as [[[x|]|e] s3]; reflexivity.
Qed.
End Alone.

Lemma alone_lookup ord f : forall q s, alone (t_lookup ord f q) s = lookup ord f q s.
Proof. induction f as [|f IH]; intros q s; cbn [t_lookup lookup]; [reflexivity|]. now apply alone_body. Qed.

Lemma alone_unit ord f t s : alone (t_unit ord f t) s = sys_unit ord f t s.
Proof.
  unfold t_unit, sys_unit. cbn [alone]. unfold mbind, lift. destruct (parse t) as [g|e]; [|reflexivity]. cbn [pbind].
  rewrite alone_bind. unfold mbind. rewrite (alone_refs ord _ (lookup ord f)) by apply alone_lookup.
  destruct (resolve_refs ord (lookup ord f) (identifiers g) s) as [[refs|e] s1]; reflexivity.
Qed.

(** ** Any interleaving *)
Section Safe.
Variable ord : list str -> list str.
Variable s0 : system.
Hypothesis clean : clash_free s0.
Hypothesis texts : forall i l, nth_error (s_lazies s0) i = Some l -> is_text (lz_def l).

(** what holds of the shared system at every moment *)
Definition now (s : system) : Prop :=
  s_prefix_names s = s_prefix_names s0 /\ s_prefix_symbols s = s_prefix_symbols s0 /\
  (forall t k, erel ord s0 (dget k (content t s0)) (dget k (content t s))) /\
  List.length (s_lazies s) = List.length (s_lazies s0) /\
  (forall i l0 l, nth_error (s_lazies s0) i = Some l0 -> nth_error (s_lazies s) i = Some l -> lrel ord s0 i l0 l).

Lemma now_refl : now s0.
Proof.
  split; [reflexivity|]. split; [reflexivity|]. split; [intros; apply Er_same|]. split; [reflexivity|].
  intros i l0 l H1 H2. assert (l = l0) as -> by congruence. split; [reflexivity|]. split; [reflexivity|now left].
Qed.

Lemma now_object s i l : now s -> nth_error (s_lazies s) i = Some l ->
  exists l0, nth_error (s_lazies s0) i = Some l0 /\ lrel ord s0 i l0 l.
Proof.
  intros (_ & _ & _ & LL & LR) N. destruct (nth_error (s_lazies s0) i) as [l0|] eqn:N0.
  - eauto.
  - apply nth_error_None in N0. assert (X : nth_error (s_lazies s) i <> None) by congruence. apply nth_error_Some in X. lia.
Qed.
Lemma now_no_object s i : now s -> nth_error (s_lazies s) i = None -> nth_error (s_lazies s0) i = None.
Proof. intros (_ & _ & _ & LL & _) N. apply nth_error_None. rewrite <- LL. now apply nth_error_None. Qed.

Lemma lrel_val i l0 l x : nth_error (s_lazies s0) i = Some l0 -> lrel ord s0 i l0 l -> lz_resolved l = Some x -> val ord s0 i x.
Proof.
  intros N (_ & _ & [E|(_ & y & E & V)]) H.
  - exists O. unfold p_resolve. rewrite N, <- E, H. reflexivity.
  - congruence.
Qed.

Lemma content_put t t' k e s : content t' (put t k e s) =
  if match t, t' with Symbols, Symbols | Names, Names | AliasNames, AliasNames | AliasSymbols, AliasSymbols => true | _, _ => false end
  then dset k e (content t' s) else content t' s.
Proof. destruct t, t'; reflexivity. Qed.

(** an access that keeps it *)
Definition keeps_now {B} (a : access B) : Prop := forall s, now s -> now (snd (does a s)).

Lemma put_now t k x r : erel ord s0 (dget k (content t s0)) (Some (EUnit x r)) -> keeps_now (Put t k (EUnit x r)).
Proof.
  intros E s (P1 & P2 & T & LL & LR). cbn [does snd]. split; [exact P1|]. split; [exact P2|]. split; [|split; [exact LL|exact LR]].
  intros t' k'. rewrite content_put. destruct t, t'; try apply T; rewrite dget_dset; (destruct (str_eqb k' k) eqn:K; [|apply T]);
    apply eqb_spec in K; subst k'; exact E.
Qed.

Lemma set_now i x : val ord s0 i x -> keeps_now (SetResolved i x).
Proof.
  intros V s L. pose proof L as (P1 & P2 & T & LL & LR). cbn [does snd]. unfold set_resolved.
  destruct (nth_error (s_lazies s) i) as [l|] eqn:N; [|exact L]. destruct (now_object s i l L N) as (l0 & N0 & D & M & RS).
  split; [exact P1|]. split; [exact P2|]. split; [exact T|]. split.
  - cbn [set_lazy s_lazies]. assert (i < List.length (s_lazies s))%nat by (apply nth_error_Some; congruence).
    rewrite app_length, firstn_length. cbn [List.length]. rewrite skipn_length. lia.
  - intros j j0 lj Nj0 Nj. rewrite (nth_set i _ l s j N) in Nj. destruct (Nat.eqb_spec j i) as [->|NE]; [|eauto].
    injection Nj as <-. assert (j0 = l0) as -> by congruence. split; [exact D|]. split; [exact M|]. cbn [lz_resolved].
    destruct (lz_resolved l0) as [y|] eqn:R.
    + left. destruct V as [f V]. unfold p_resolve in V. rewrite N0, R in V. congruence.
    + right. eauto.
Qed.

Lemma get_now t k : keeps_now (Get t k). Proof. intros s L. exact L. Qed.
Lemma object_now i : keeps_now (Object i). Proof. intros s L. exact L. Qed.
Lemma items_now t : keeps_now (Items t). Proof. intros s L. exact L. Qed.
Lemma item_now t i : keeps_now (Item t i). Proof. intros s L. exact L. Qed.
Lemma now_prefixes t s : now s -> prefixes t s = prefixes t s0. Proof. intros (P1 & P2 & _). now destruct t. Qed.

(** A LazilyDefinedUnit once resolved stays resolved *)
Definition resolved (i : nat) (s : system) : Prop :=
  exists l x, nth_error (s_lazies s) i = Some l /\ lz_resolved l = Some x.

Lemma resolved_does {B} (a : access B) i s : resolved i s -> resolved i (snd (does a s)).
Proof.
  intros (l & x & N & E). destruct a as [t k|t k e|j|j y|t|t j]; cbn [does snd]; try (exists l, x; now split).
  unfold set_resolved. destruct (nth_error (s_lazies s) j) as [lj|] eqn:Nj; [|exists l, x; now split].
  unfold resolved. setoid_rewrite (nth_set j _ lj s i Nj). destruct (Nat.eqb_spec i j) as [->|D].
  - eexists _, y. split; reflexivity.
  - exists l, x. now split.
Qed.

(** [safe K P p]: when the objects in [K] have been resolved, then whatever other threads do
    between its accesses, [p] keeps [now] and ends with a result in [P] *)
Definition knows (K : nat -> Prop) (s : system) : Prop := forall i, K i -> resolved i s.

Fixpoint safe {A} (P : res A -> Prop) (K : nat -> Prop) (p : prog A) : Prop :=
  match p with
  | Done r => P r
  | Act a k => keeps_now a /\
      forall s, now s -> knows K s -> safe P (fun i => resolved i (snd (does a s))) (k (fst (does a s)))
  | Read t k => is_text t /\ safe P K (k (parse t))
  end.

Lemma Sf_done {A} (P : res A -> Prop) K r : P r -> safe P K (Done r). Proof. auto. Qed.
Lemma Sf_act {A B} (P : res A -> Prop) K (a : access B) k : keeps_now a ->
    (forall s, now s -> knows K s -> safe P (fun i => resolved i (snd (does a s))) (k (fst (does a s)))) -> safe P K (Act a k).
Proof. now split. Qed.
Lemma Sf_read {A} (P : res A -> Prop) K t k : is_text t -> safe P K (k (parse t)) -> safe P K (Read t k).
Proof. now split. Qed.

Lemma safe_learn {A} (P : res A -> Prop) p : forall K, safe P K p -> forall K' : nat -> Prop, (forall i, K i -> K' i) -> safe P K' p.
Proof.
  induction p as [r|B a k IH|t k IH]; intros K S K' L; cbn [safe] in *.
  - exact S.
  - destruct S as [H1 H2]. split; [exact H1|]. intros s N Kn. apply H2; [exact N|]. intros i Ki. apply Kn. auto.
  - destruct S as [H1 H2]. split; [exact H1|]. now apply (IH _ K).
Qed.

Lemma safe_weaken {A} (P Q : res A -> Prop) K p : (forall r, P r -> Q r) -> safe P K p -> safe Q K p.
Proof.
  intro H. revert K. induction p as [r|B a k IH|t k IH]; intros K S; cbn [safe] in *; [auto| |]; destruct S as [H1 H2]; split; auto.
Qed.

Lemma safe_bind {A B} (P : res A -> Prop) (Q : res B -> Prop) p f : forall K, safe P K p ->
  (forall (K' : nat -> Prop) a, (forall i, K i -> K' i) -> P (Ok a) -> safe Q K' (f a)) -> (forall e, P (Err e) -> Q (Err e)) -> safe Q K (pbind p f).
Proof.
  induction p as [r|C a k IH|t k IH]; intros K S H1 H2; cbn [pbind safe] in *.
  - destruct r as [a|e]; [now apply H1|now apply H2].
  - destruct S as [X S]. split; [exact X|]. intros s N Kn. apply IH; auto. intros K' a' L. apply H1. intros i Ki. apply L. apply resolved_does. now apply Kn.
  - destruct S as [T S]. split; [exact T|]. now apply IH.
Qed.

Lemma safe_swap {A B} (P : res B -> Prop) (p : prog A) f g : forall K, safe P K (pbind p f) ->
  (forall (K' : nat -> Prop) a, (forall i, K i -> K' i) -> safe P K' (f a) -> safe P K' (g a)) -> safe P K (pbind p g).
Proof.
  induction p as [[a|e]|C a k IH|t k IH]; intros K S H; cbn [pbind safe] in *; [now apply H|exact S| |].
  - destruct S as [X S]. split; [exact X|]. intros s N Kn. apply IH; auto. intros K' a' L. apply H. intros i Ki. apply L. apply resolved_does. now apply Kn.
  - destruct S as [T S]. split; [exact T|]. now apply IH.
Qed.

Ltac sf := first [apply Sf_done | apply Sf_act | apply Sf_read].

Definition csim {A} (n : nat) (p : prog A) (F : nat -> res A) : Prop := mono F /\ forall K, safe (fun r => agree n r F) K p.

Lemma csim_done {A} n (r : res A) : csim n (Done r) (fun _ => r).
Proof. split; [apply mono_const|]. intro K. sf. apply agree_const. Qed.

Lemma bind_agree {A B} n K (p : prog A) F (f : A -> prog B) G : mono F -> (forall a, mono (G a)) ->
  safe (fun r => agree n r F) K p ->
  (forall (K' : nat -> Prop) a, (forall i, K i -> K' i) -> agree n (Ok a) F -> safe (fun r => agree n r (G a)) K' (f a)) ->
  safe (fun r => agree n r (fun n => bind (F n) (fun a => G a n))) K (pbind p f).
Proof.
  intros MF MG S H. eapply safe_bind; [exact S| |].
  - intros K' a L A0. eapply safe_weaken; [|exact (H K' a L A0)]. intros r Ar. cbn beta in *.
    apply (agree_bind n (Ok a) F (fun _ => r) G); auto. intros a' E. injection E as <-. exact Ar.
  - intros e A0. cbn beta in *. apply (agree_bind n (Err e) F (fun _ => Err e) G); auto. discriminate.
Qed.

Lemma csim_bind {A B} n (p : prog A) F (f : A -> prog B) G : csim n p F -> (forall a, csim n (f a) (G a)) ->
  csim n (pbind p f) (fun n => bind (F n) (fun a => G a n)).
Proof.
  intros [MF S] H. assert (MG : forall a, mono (G a)) by (intro a; apply H). split; [now apply mono_bind|].
  intro K. apply bind_agree; auto. intros K' a _ _. apply H.
Qed.

Lemma csim_ext {A} n (p : prog A) F F' : (forall k, F k = F' k) -> csim n p F -> csim n p F'.
Proof.
  intros E [MF S]. split; [intros a b L; rewrite <- !E; now apply MF|]. intro K. eapply safe_weaken; [|exact (S K)].
  intros r [A1 A2]. split.
  - destruct A1 as [A1|[f A1]]; auto. right. exists f. now rewrite <- E.
  - rewrite <- !E. exact A2.
Qed.

Lemma csim_map {A B} n (f : A -> prog B) F l : (forall a, csim n (f a) (F a)) ->
  csim n (pmap f l) (fun n => mapM (fun a => F a n) l).
Proof.
  intro H. induction l as [|a l IH]; cbn [pmap mapM]; [apply (csim_done n (Ok []))|].
  apply csim_bind; auto. intro b. apply (csim_bind n _ _ _ (fun bs _ => Ok (b :: bs))); auto. intro bs. apply (csim_done n (Ok (b :: bs))).
Qed.

(** the claims of a definition *)
Lemma owned_put t k i l0 x : nth_error (s_lazies s0) i = Some l0 -> val ord s0 i x ->
  In k (match t with Symbols => r_symbols (lz_names l0) | Names => ref_names (lz_names l0)
        | AliasNames => ref_alias_names (lz_names l0) | AliasSymbols => r_alias_symbols (lz_names l0) end) ->
  keeps_now (Put t k (EUnit x (lz_names l0))).
Proof.
  intros N V I. apply put_now. destruct (clean i l0 N) as (O1 & O2 & O3 & O4).
  assert (O : dget k (content t s0) = Some (ELazy i) \/
    exists y, lz_resolved l0 = Some y /\ dget k (content t s0) = Some (EUnit y (lz_names l0))).
  { destruct t; [exact (O1 k I)|exact (O2 k I)|exact (O3 k I)|exact (O4 k I)]. }
  destruct O as [->|(y & R & ->)].
  - now apply Er_resolved.
  - assert (y = x) as ->; [|apply Er_same]. destruct V as [f V]. unfold p_resolve in V. rewrite N, R in V. congruence.
Qed.

Lemma puts_safe t e K : forall ks, (forall k, In k ks -> keeps_now (Put t k e)) -> safe (fun r => r = Ok tt) K (t_puts t ks e).
Proof.
  intros ks. revert K. induction ks as [|k ks IH]; intros K H; cbn [t_puts]; [now sf|]. sf; [apply H; now left|].
  intros s _ _. apply IH. intros k' I. apply H. now right.
Qed.

Lemma register_safe i l0 x K : nth_error (s_lazies s0) i = Some l0 -> val ord s0 i x ->
  safe (fun r => r = Ok tt) K (t_register (EUnit x (lz_names l0)) (lz_names l0)).
Proof.
  intros N V. unfold t_register.
  assert (P : forall K t, safe (fun r => r = Ok tt) K (t_puts t (match t with Symbols => r_symbols (lz_names l0) | Names => ref_names (lz_names l0)
        | AliasNames => ref_alias_names (lz_names l0) | AliasSymbols => r_alias_symbols (lz_names l0) end) (EUnit x (lz_names l0)))).
  { intros K' t. apply puts_safe. intros k I. now apply (owned_put t k i). }
  eapply safe_bind; [exact (P K Names)| |discriminate]. intros K1 _ _ _.
  eapply safe_bind; [exact (P K1 Symbols)| |discriminate]. intros K2 _ _ _.
  eapply safe_bind; [exact (P K2 AliasNames)| |discriminate]. intros K3 _ _ _. exact (P K3 AliasSymbols).
Qed.

Section Rec.
Variable n : nat.
Variable rec : str -> prog unit.
Hypothesis R : forall k, csim n (rec k) (fun n => p_lookup ord s0 n k).

Lemma csim_refs ids : csim n (t_refs ord rec ids) (fun n => p_refs ord (p_lookup ord s0 n) ids).
Proof.
  apply (csim_map n _ (fun k n => do x <- p_lookup ord s0 n k ;; Ok (k, RUnit x))). intro k.
  apply (csim_bind n _ _ _ (fun x _ => Ok (k, RUnit x))); [apply R|]. intro x. apply (csim_done n (Ok (k, RUnit x))).
Qed.

(** after the object has been resolved, by anyone *)
Lemma resolved_safe i (K : nat -> Prop) : K i -> safe (fun r => exists x, r = Ok x /\ val ord s0 i x) K (t_resolved i).
Proof.
  intro Ki. unfold t_resolved. sf; [apply object_now|]. intros s N Kn. cbn [does fst snd].
  destruct (Kn i Ki) as (l & x & Nl & E). rewrite Nl, E. sf. exists x. split; [reflexivity|].
  destruct (now_object s i l N Nl) as (l0 & N0 & L). exact (lrel_val i l0 l x N0 L E).
Qed.

Lemma resolved_agree i (K : nat -> Prop) : K i -> safe (fun r => agree n r (fun n => p_resolve ord s0 (p_lookup ord s0 n) i)) K (t_resolved i).
Proof.
  intro Ki. eapply safe_weaken; [|exact (resolved_safe i K Ki)]. intros r (x & -> & V). now apply val_agree.
Qed.

Lemma csim_resolve i : csim n (t_resolve ord rec i) (fun n => p_resolve ord s0 (p_lookup ord s0 n) i).
Proof.
  split; [apply mono_resolve|]. intro K. unfold t_resolve. sf; [apply object_now|]. intros s N Kn. cbn [does fst snd].
  destruct (nth_error (s_lazies s) i) as [l|] eqn:Nl.
  2: { sf. unfold agree, p_resolve. rewrite (now_no_object s i N Nl). exact (agree_const n (Err EOutOfModel)). }
  destruct (now_object s i l N Nl) as (l0 & N0 & L). destruct (lz_resolved l) as [x|] eqn:E.
  { apply resolved_agree. exists l, x. now split. }
  pose proof L as (D & _ & RS). assert (R0 : lz_resolved l0 = None) by (destruct RS as [RS|(RS & _)]; congruence).
  sf. { rewrite D. exact (texts i l0 N0). }
  eapply safe_weaken with (P := fun r => agree n r (fun n => do g <- parse (lz_def l) ;; do refs <- p_refs ord (p_lookup ord s0 n) (identifiers g) ;; mk_unit g refs)).
  { intros r Ar. unfold p_resolve. rewrite N0, R0, <- D. exact Ar. }
  set (K1 := fun i0 => resolved i0 s). generalize K1. clear K1. intro K1.
  destruct (parse (lz_def l)) as [g|e] eqn:Pr; cbn [pbind bind]; [|sf; exact (agree_const n (Err e))].
  apply (bind_agree n K1 _ (fun n => p_refs ord (p_lookup ord s0 n) (identifiers g)) _ (fun refs _ => mk_unit g refs)).
  - apply mono_refs.
  - intro refs. apply mono_const.
  - apply csim_refs.
  - intros K2 refs _ Ar. destruct (mk_unit g refs) as [x|e] eqn:MK; cbn [pbind]; [|sf; apply agree_const].
    assert (V : val ord s0 i x).
    { destruct Ar as [[Ar|[F Ar]] _]; [discriminate|]. exists F. unfold p_resolve. rewrite N0, R0, <- D, Pr. cbn [bind]. rewrite Ar. exact MK. }
    sf; [now apply set_now|]. intros s2 N2 _. cbn [does fst snd].
    eapply safe_weaken; [|apply resolved_safe].
    + intros r (y & -> & Vy). rewrite (val_unique ord s0 i y x Vy V). apply agree_const.
    + unfold set_resolved. destruct (nth_error (s_lazies s2) i) as [l2|] eqn:Nl2.
      * eexists _, x. rewrite (nth_set i _ l2 s2 i Nl2), Nat.eqb_refl. split; reflexivity.
      * apply (now_no_object s2 i N2) in Nl2. congruence.
Qed.

Lemma force_safe o0 o K : erel ord s0 o0 o ->
  safe (fun r => agree n r (fun n => p_opt ord s0 (p_lookup ord s0 n) o0)) K (t_force ord rec o).
Proof.
  intro E. destruct E as [o|i x r V].
  - destruct o as [[i|x r]|]; cbn [t_force p_opt p_entry bind]; [|sf; apply agree_const|sf; apply agree_const].
    sf; [apply object_now|]. intros s N Kn. cbn [does fst snd]. destruct (nth_error (s_lazies s) i) as [l|] eqn:Nl.
    2: { sf. unfold agree, p_resolve. rewrite (now_no_object s i N Nl). exact (agree_const n (Err EOutOfModel)). }
    destruct (now_object s i l N Nl) as (l0 & N0 & L).
    apply (bind_agree n _ _ (fun n => p_resolve ord s0 (p_lookup ord s0 n) i) _ (fun x _ => Ok (Some x))).
    + apply mono_resolve.
    + intro x. apply mono_const.
    + apply csim_resolve.
    + intros K2 x _ Ax. destruct L as (_ & -> & _). eapply safe_bind with (P := fun r => r = Ok tt).
      * apply register_safe with i; [exact N0|]. destruct Ax as [[Ax|[F Ax]] _]; [discriminate|]. now exists F.
      * intros K3 _ _ _. sf. apply agree_const.
      * discriminate.
  - cbn [t_force p_opt p_entry]. sf.
    apply (agree_bind n (Ok x) _ (fun x => Ok (Some x)) (fun x _ => Ok (Some x))).
    + apply mono_resolve.
    + intro y. apply mono_const.
    + now apply val_agree.
    + intros y _. apply agree_const.
Qed.

Definition entry_of (t1 t2 : table) (k : str) : option entry := get_or k (content t1 s0) (content t2 s0).

Lemma get_safe t1 t2 k K : safe (fun r => exists o, r = Ok o /\ erel ord s0 (entry_of t1 t2 k) o) K (t_get_or t1 t2 k).
Proof.
  unfold t_get_or, entry_of, get_or. sf; [apply get_now|]. intros s (_ & _ & T & _) _. cbn [does fst snd].
  pose proof (T t1 k) as E1. destruct (dget k (content t1 s)) as [e|].
  - sf. exists (Some e). split; [reflexivity|]. destruct (dget k (content t1 s0)) as [e0|]; [exact E1|]. inversion E1.
  - sf; [apply get_now|]. intros s2 (_ & _ & T2 & _) _. cbn [does fst snd]. sf. eexists. split; [reflexivity|].
    destruct (dget k (content t1 s0)) as [e0|]; [inversion E1|apply T2].
Qed.

Lemma csim_either k : csim n (t_either ord rec k) (fun n => p_either ord s0 (p_lookup ord s0 n) k).
Proof.
  split; [apply mono_either|]. intro K. unfold t_either, p_either. eapply safe_bind; [exact (get_safe Names AliasNames k K)| |].
  2: { intros e (o & E & _). discriminate. }
  intros K1 o _ (o' & E & H). injection E as <-.
  apply (bind_agree n K1 _ (fun n => p_opt ord s0 (p_lookup ord s0 n) (entry_of Names AliasNames k)) _
    (fun o n => match o with Some x => Ok (Some x) | None => p_opt ord s0 (p_lookup ord s0 n) (entry_of Symbols AliasSymbols k) end)).
  - apply mono_opt.
  - intros [x|]; [apply mono_const|apply mono_opt].
  - now apply force_safe.
  - intros K2 [x|] _ _; [sf; apply agree_const|].
    eapply safe_bind; [exact (get_safe Symbols AliasSymbols k K2)| |].
    + intros K3 o2 _ (o3 & E & H3). injection E as <-. now apply force_safe.
    + intros e (o2 & E & _). discriminate.
Qed.

(** the loop over a list that does not change *)
Fixpoint t_scan (ps : dict prefix) (q : str) : prog (option unit) :=
  match ps with
  | [] => Done (Ok None)
  | (key, p) :: ps' =>
    match strip_prefix key q with
    | None => t_scan ps' q
    | Some k =>
      run o <- t_either ord rec k ;
      match o with
      | Some x => run y <- Done (prefixed_unit key p k x) ; Done (Ok (Some y))
      | None => t_scan ps' q
      end
    end
  end.

Lemma try_safe (P : res (option unit) -> Prop) t q : let ps := prefixes t s0 in
  forall left i K, left = (List.length ps - i)%nat -> safe P K (t_scan (skipn i ps) q) -> safe P K (t_try ord rec left t (List.length ps) i q).
Proof.
  intro ps. induction left as [|left IH]; intros i K L S; cbn [t_try]; (sf; [apply item_now|]); intros s N Kn; cbn [does fst snd];
    rewrite (now_prefixes t s N); fold ps; rewrite Nat.eqb_refl; destruct (nth_error ps i) as [[key p]|] eqn:E.
  - assert (X : nth_error ps i <> None) by congruence. apply nth_error_Some in X. lia.
  - apply nth_error_None in E. rewrite skipn_all2 in S by exact E. exact S.
  - rewrite (nth_skipn ps i _ E) in S. cbn [t_scan] in S.
    assert (KL : forall j, K j -> resolved j s) by exact Kn.
    destruct (strip_prefix key q) as [k|]; [|apply IH; [lia|]; now apply (safe_learn P _ K)].
    eapply safe_swap; [exact (safe_learn P _ K S (fun i => resolved i s) KL)|]. intros K' [x|] L' Sf; [exact Sf|]. apply IH; [lia|exact Sf].
  - apply nth_error_None in E. rewrite skipn_all2 in S by exact E. exact S.
Qed.
Lemma loop_safe (P : res (option unit) -> Prop) t q K : safe P K (t_scan (prefixes t s0) q) -> safe P K (t_loop ord rec t q).
Proof.
  intro S. unfold t_loop. sf; [apply items_now|]. intros s N Kn. cbn [does fst snd]. rewrite (now_prefixes t s N). apply try_safe; [lia|].
  exact (safe_learn P _ K S (fun i => resolved i s) Kn).
Qed.

Lemma csim_scan ps q : csim n (t_scan ps q) (fun n => p_try ord s0 (p_lookup ord s0 n) ps q).
Proof.
  induction ps as [|[key p] ps IH]; cbn [t_scan p_try]; [exact (csim_done n (Ok None))|].
  destruct (strip_prefix key q) as [k|]; [|exact IH].
  apply (csim_bind n _ _ _ (fun o n => match o with Some x => do y <- prefixed_unit key p k x ;; Ok (Some y)
    | None => p_try ord s0 (p_lookup ord s0 n) ps q end)); [apply csim_either|].
  intros [x|]; [|exact IH]. destruct (prefixed_unit key p k x) as [y|e]; cbn [pbind bind]; apply csim_done.
Qed.
Lemma csim_loop t q : csim n (t_loop ord rec t q) (fun n => p_try ord s0 (p_lookup ord s0 n) (prefixes t s0) q).
Proof. destruct (csim_scan (prefixes t s0) q) as [M S]. split; [exact M|]. intro K. apply loop_safe, S. Qed.

Lemma csim_body q : csim n (t_body ord rec q) (fun n => p_body ord s0 (p_lookup ord s0 n) q).
Proof.
  unfold t_body, p_body.
  apply (csim_bind n _ _ _ (fun o n => match o with Some x => Ok x | None =>
    do o1 <- p_try ord s0 (p_lookup ord s0 n) (s_prefix_names s0) q ;;
    match o1 with Some x => Ok x | None =>
      do o2 <- p_try ord s0 (p_lookup ord s0 n) (s_prefix_symbols s0) q ;;
      match o2 with Some x => Ok x | None => Err (EUnresolvable q) end end end)); [apply csim_either|].
  intros [x|]; [apply csim_done|].
  apply (csim_bind n _ (fun n => p_try ord s0 (p_lookup ord s0 n) (s_prefix_names s0) q) _ (fun o1 n => match o1 with Some x => Ok x | None =>
      do o2 <- p_try ord s0 (p_lookup ord s0 n) (s_prefix_symbols s0) q ;;
      match o2 with Some x => Ok x | None => Err (EUnresolvable q) end end)); [exact (csim_loop PNames q)|].
  intros [x|]; [apply csim_done|].
  apply (csim_bind n _ (fun n => p_try ord s0 (p_lookup ord s0 n) (s_prefix_symbols s0) q) _
      (fun o2 _ => match o2 with Some x => Ok x | None => Err (EUnresolvable q) end)); [exact (csim_loop PSymbols q)|].
  intros [x|]; apply csim_done.
Qed.
End Rec.

Lemma csim_lookup f : forall q, csim f (t_lookup ord f q) (fun n => p_lookup ord s0 n q).
Proof.
  induction f as [|f IH]; intro q; cbn [t_lookup].
  - split; [apply mono_lookup|]. intro K. sf. split; [now left|]. intro N. exfalso. now apply N.
  - destruct (csim_body f (t_lookup ord f) IH q) as [MF Sf]. split; [apply mono_lookup|]. intro K.
    eapply safe_weaken; [|exact (Sf K)]. intros r [A1 A2]. split.
    + destruct A1 as [A1|[F A1]]; [now left|]. right. now exists (S F).
    + exact A2.
Qed.

Lemma unit_safe f t K : is_text t -> safe (fun r => agree f r (fun n => SystemProofs.p_unit ord s0 n t)) K (t_unit ord f t).
Proof.
  intro T. unfold t_unit, SystemProofs.p_unit. sf; [exact T|].
  destruct (parse t) as [g|e]; cbn [pbind bind]; [|sf; exact (agree_const f (Err e))].
  apply (bind_agree f K _ (fun n => p_refs ord (p_lookup ord s0 n) (identifiers g)) _ (fun refs _ => unit_from_expression g refs)).
  - apply mono_refs.
  - intro refs. apply mono_const.
  - apply csim_refs. apply csim_lookup.
  - intros K2 refs _ _. sf. apply agree_const.
Qed.

(** what a request must answer *)
Definition right_answer (r : request) (x : res anyunit) : Prop :=
  match r with
  | Lookup f q => exists y, x = (do u <- y ;; Ok (AUnit u)) /\ agree f y (fun n => p_lookup ord s0 n q)
  | UnitOf f t => agree f x (fun n => SystemProofs.p_unit ord s0 n t)
  end.

Lemma code_safe r K : is_str r -> safe (right_answer r) K (code_of ord r).
Proof.
  destruct r as [f q|f t]; cbn [is_str code_of right_answer]; intro T; [|now apply unit_safe].
  eapply safe_bind; [exact (proj2 (csim_lookup f q) K)| |].
  - intros K1 x _ A0. sf. exists (Ok x). split; [reflexivity|exact A0].
  - intros e A0. exists (Err e). split; [reflexivity|exact A0].
Qed.

(** ** Threads *)
Definition thread_ok (m : memory) (t : thread) : Prop :=
  exists K, knows K (fst m) /\
  match t_state t with
  | Running p => safe (right_answer (t_asked t)) K p
  | Parsing j k => is_text (c_arg j) /\ call_ok (snd m) j /\ safe (right_answer (t_asked t)) K (k (parse (c_arg j)))
  end.

(** a step of the others *)
Definition goes_on (m m' : memory) : Prop :=
  (forall i, resolved i (fst m) -> resolved i (fst m')) /\
  AtnSharedFacts.extends (fst (snd m)) (fst (snd m')) /\ PSharedFacts.grows (snd (snd m)) (snd (snd m')).

Lemma thread_ok_goes_on m m' t : goes_on m m' -> thread_ok m t -> thread_ok m' t.
Proof.
  intros (G1 & G2 & G3) (K & Kn & H). exists K. split; [intros i Ki; apply G1, Kn, Ki|].
  destruct (t_state t) as [p|j k]; [exact H|]. destruct H as (T & C & S). split; [exact T|]. split; [|exact S].
  now apply (call_ok_grows (snd m)).
Qed.

Definition memory_ok (m : memory) : Prop :=
  now (fst m) /\ AtnSharedFacts.cache_ok Atn.the_atn (fst (snd m)) /\ PSharedFacts.right (snd (snd m)).

Lemma thread_step_ok m t m' t' : thread_step m t m' t' -> memory_ok m -> thread_ok m t ->
  memory_ok m' /\ goes_on m m' /\ thread_ok m' t'.
Proof.
  intros S (N & HC & HR) (K & Kn & H). destruct S as [s c r p p' s' D|m r t k|s c r j k c' j' J|m r t x k]; cbn [fst snd t_state t_asked] in *.
  - destruct p as [x|B a k|t k]; cbn [next] in D; [discriminate| |discriminate]. cbn [safe] in H. destruct H as [Ka Hk].
    specialize (Hk s N Kn). pose proof (Ka s N) as N'. pose proof (fun i => resolved_does a i s) as RD.
    destruct (does a s) as [b s1]. cbn [fst snd] in *. injection D as D1 D2. subst p' s1.
    split; [|split].
    + split; [exact N'|]. now split.
    + split; [exact RD|]. split; [apply AtnSharedFacts.extends_refl|apply PSharedFacts.grows_refl].
    + exists (fun i => resolved i s'). split; [intros i Ki; exact Ki|]. exact Hk.
  - cbn [safe] in H. destruct H as [T Hk]. split; [|split].
    + split; [exact N|]. now split.
    + split; [auto|]. split; [apply AtnSharedFacts.extends_refl|apply PSharedFacts.grows_refl].
    + exists K. split; [exact Kn|]. cbn [t_state]. split; [exact T|]. split; [apply new_call_ok|exact Hk].
  - destruct H as (T & C & Sf). destruct (call_step_ok c j c' j' HC HR J C) as (G1 & G2 & G3 & G4 & G5).
    assert (E : c_arg j' = c_arg j) by (inversion J; reflexivity). split; [|split].
    + split; [exact N|]. now split.
    + split; [auto|]. now split.
    + exists K. split; [exact Kn|]. cbn [t_state t_asked]. rewrite E. split; [exact T|]. now split.
  - destruct H as (T & C & Sf). cbn [c_arg] in *. unfold call_ok in C. cbn [c_stage c_arg] in C. rewrite <- (C T) in Sf. split; [|split].
    + split; [exact N|]. now split.
    + split; [auto|]. split; [apply AtnSharedFacts.extends_refl|apply PSharedFacts.grows_refl].
    + exists K. now split.
Qed.

Definition world_ok (w : world) : Prop :=
  memory_ok (w_memory w) /\ (forall t, In t (w_threads w) -> thread_ok (w_memory w) t) /\
  (forall j, In j (w_parses w) -> call_ok (snd (w_memory w)) j).

Lemma world_step_ok w w' : world_step ord w w' -> world_ok w -> world_ok w'.
Proof.
  intros S (HM & HT & HJ). destruct S as [m ts js i t m' t' Ni S|m ts js r T|s c ts js c' js' S]; unfold world_ok; cbn [w_memory w_threads w_parses] in *.
  - destruct (thread_step_ok m t m' t' S HM (HT t (nth_error_In _ _ Ni))) as (M' & G & T'). split; [exact M'|]. split.
    + intros t0 I. apply in_set_nth in I. destruct I as [->|I]; [exact T'|]. apply (thread_ok_goes_on m); auto.
    + intros j I. destruct G as (_ & G2 & G3). apply (call_ok_grows (snd m)); auto.
  - split; [exact HM|]. split; [|exact HJ]. intros t0 I. apply in_app_or in I. destruct I as [I|[<-|[]]]; [auto|].
    exists (fun _ => False). split; [intros i []|]. cbn [new_thread t_state t_asked]. now apply code_safe.
  - destruct HM as (N & HC & HR). cbn [fst snd] in *.
    assert (P0 : process_ok (c, js)) by (split; [exact HC|split; [exact HR|exact HJ]]).
    destruct (process_step_ok _ _ S P0) as (HC' & HR' & HJ'). cbn [fst snd] in *.
    assert (G : goes_on (s, c) (s, c')).
    { split; [auto|]. cbn [fst snd]. inversion S as [c0 cs i k c1 k' Ni J|]; subst.
      - destruct (call_step_ok c k c' k' HC HR J (HJ k (nth_error_In _ _ Ni))) as (_ & _ & G3 & G4 & _). now split.
      - split; [apply AtnSharedFacts.extends_refl|apply PSharedFacts.grows_refl]. }
    split; [split; [exact N|now split]|]. split; [|exact HJ']. intros t I. apply (thread_ok_goes_on (s, c)); auto.
Qed.

Lemma start_ok : world_ok (start s0).
Proof.
  split; [|split; intros x []]. destruct empty_process_ok as (HC & HR & _). split; [exact now_refl|]. now split.
Qed.

Lemma reached_ok w w' : world_steps ord w w' -> world_ok w -> world_ok w'.
Proof. intros S. induction S as [w|w1 w2 w3 S1 _ IH]; intro H; [exact H|]. apply IH. now apply (world_step_ok w1). Qed.

Theorem answers w r x : world_steps ord (start s0) w -> In (mkThread r (Running (Done x))) (w_threads w) -> right_answer r x.
Proof.
  intros S I. destruct (reached_ok _ _ S start_ok) as (_ & HT & _). destruct (HT _ I) as (K & _ & H). cbn [t_state t_asked] in H.
  exact H.
Qed.

(** ** Progress *)
Theorem thread_progress w t : world_steps ord (start s0) w -> In t (w_threads w) ->
  (exists x, t_state t = Running (Done x)) \/ exists m' t', thread_step (w_memory w) t m' t'.
Proof.
  intros S I. destruct (reached_ok _ _ S start_ok) as (_ & HT & _). destruct (HT _ I) as (K & _ & H).
  destruct t as [r [[x|B a k|t k]|j k]]; cbn [t_state] in *.
  - left. eauto.
  - right. destruct (w_memory w) as [s c]. destruct (does a s) as [b s'] eqn:D. exists (s', c), (mkThread r (Running (k b))). apply T_access. cbn [next]. rewrite D. reflexivity.
  - right. eexists _, _. constructor.
  - right. destruct H as (T & C & _). destruct j as [u g]. destruct (w_memory w) as [s c]. cbn [snd c_arg] in *.
    destruct (ok_progress c u g C T) as [[x ->]|(c' & k' & J)].
    + eexists _, _. apply T_return.
    + eexists _, _. now apply T_parse with (c' := c') (j' := k').
Qed.

(** ** Termination *)
Definition thread_own (t' t : thread) : Prop :=
  exists w m', world_steps ord (start s0) w /\ In t (w_threads w) /\ thread_step (w_memory w) t m' t'.

Theorem thread_ends : forall t, Acc thread_own t.
Proof.
  assert (P : forall r (p : prog anyunit), Acc thread_own (mkThread r (Running p))).
  { intros r p. induction p as [x|B a k IH|t k IH].
    - constructor. intros t' (w & m' & _ & _ & S). inversion S; subst. discriminate.
    - constructor. intros t' (w & m' & _ & _ & S). inversion S as [s c r0 p p' s' D| | |]; subst. cbn [next] in D.
      destruct (does a s) as [b s1]. injection D as D1 D2. subst p'. apply IH.
    - constructor. intros t' (w & m' & _ & _ & S). inversion S; subst; [discriminate|]. clear S. generalize (new_call t) as j. intro j.
      induction (ok_ends j) as [j _ IHj]. constructor. intros t' (w2 & m2 & W & I & S). inversion S; subst.
      + apply IHj. destruct (reached_ok _ _ W start_ok) as (_ & HT & _). destruct (HT _ I) as (K & _ & HH). cbn [t_state] in HH.
        exists c, c'. split; [|assumption]. replace c with (snd (w_memory w2)); [apply HH|]. match goal with X : _ = w_memory w2 |- _ => rewrite <- X end. reflexivity.
      + apply IH. }
  intros [r [p|j k]]; [apply P|]. induction (ok_ends j) as [j _ IHj]. constructor. intros t' (w2 & m2 & W & I & S). inversion S; subst.
  - apply IHj. destruct (reached_ok _ _ W start_ok) as (_ & HT & _). destruct (HT _ I) as (K & _ & HH). cbn [t_state] in HH.
    exists c, c'. split; [|assumption]. replace c with (snd (w_memory w2)); [apply HH|]. match goal with X : _ = w_memory w2 |- _ => rewrite <- X end. reflexivity.
  - apply P.
Qed.
End Safe.
