(** * Look-ups keep the vocabulary; which systems are clash-free. *)
From Verif Require Import PyBase PyNum Graph Visitor Expr Units UnitSpec UnitFacts UnitProofs UnitSystem SystemSpec SystemFacts SystemProofs SystemMore.
From Coq Require Import Permutation.

Lemma same_vocabulary_refl s : same_vocabulary s s.
Proof. repeat split. Qed.

Lemma get_or_none k d1 d2 d1' d2' : dkeys d1 = dkeys d1' -> dkeys d2 = dkeys d2' ->
  (get_or k d1 d2 = None <-> get_or k d1' d2' = None).
Proof.
  intros E1 E2. pose proof (dmem_keys k _ _ E1) as M1. pose proof (dmem_keys k _ _ E2) as M2. unfold dmem, get_or in *.
  destruct (dget k d1), (dget k d1'), (dget k d2), (dget k d2'); try discriminate; split; auto; discriminate.
Qed.

Lemma known_opt_vocab s s' k : same_vocabulary s s' -> (known_opt s k = None <-> known_opt s' k = None).
Proof.
  intros (V1 & V2 & V3 & V4 & _). unfold known_opt.
  pose proof (get_or_none k _ _ _ _ V2 V3) as G1. pose proof (get_or_none k _ _ _ _ V1 V4) as G2.
  destruct (get_or k (s_names s) (s_alias_names s)), (get_or k (s_names s') (s_alias_names s')); try exact G2.
  - split; discriminate.
  - destruct G1 as [_ G1]. discriminate (G1 eq_refl).
  - destruct G1 as [G1 _]. discriminate (G1 eq_refl).
Qed.

Lemma misfits_vocab s s' q key : same_vocabulary s s' -> misfits s q key -> misfits s' q key.
Proof.
  intros V. rewrite !misfits_cons. destruct (strip_prefix key q); auto. now apply (known_opt_vocab s s').
Qed.

Lemma same_vocabulary_sym s s' : same_vocabulary s s' -> same_vocabulary s' s.
Proof. intros (A & B & C & D & E & F). repeat split; congruence. Qed.

Lemma unreadable_vocab s s' q : same_vocabulary s s' -> unreadable s q -> unreadable s' q.
Proof.
  intros V (U & P1 & P2). split; [|split].
  - apply unknown_iff. apply (known_opt_vocab s s' q V). now apply unknown_iff.
  - destruct V as (V1 & V2 & V3 & V4 & V5 & V6). rewrite <- V5. eapply Forall_impl; [|exact P1]. intros a. apply misfits_vocab. repeat split; auto.
  - destruct V as (V1 & V2 & V3 & V4 & V5 & V6). rewrite <- V6. eapply Forall_impl; [|exact P2]. intros a. apply misfits_vocab. repeat split; auto.
Qed.

(** ** no reading: nothing happens but the exception *)
Section Unread.
Variable ord : list str -> list str.
Variable rec : str -> M unit.

Lemma either_unknown k s : known_opt s k = None -> unit_by_either ord rec k s = (Ok None, s).
Proof.
  unfold known_opt, unit_by_either, unit_by_name, unit_by_symbol, mbind. destruct (get_or k (s_names s) (s_alias_names s)); [discriminate|].
  intro E. cbn [force_entry ret]. now rewrite E.
Qed.

Lemma force_none o s s' : force_entry ord rec o s = (Ok None, s') -> o = None /\ s' = s.
Proof.
  destruct o as [[i|x r]|]; cbn [force_entry]; try (injection 1 as <-; auto; fail).
  - destruct (nth_error (s_lazies s) i); [|discriminate]. unfold mbind. destruct (resolve ord rec i s) as [[x|] s1]; discriminate.
  - discriminate.
Qed.

Lemma either_none k s s' : unit_by_either ord rec k s = (Ok None, s') -> known_opt s k = None /\ s' = s.
Proof.
  unfold known_opt, unit_by_either, unit_by_name, unit_by_symbol, mbind.
  destruct (force_entry ord rec (get_or k (s_names s) (s_alias_names s)) s) as [[[x|]|e] s1] eqn:E; try discriminate.
  apply force_none in E as [-> ->]. intro E2. apply force_none in E2 as [E3 ->]. auto.
Qed.

Lemma try_unfit ps q s : fit_opt s q ps = None -> try_prefixes ord rec ps q s = (Ok None, s).
Proof.
  induction ps as [|[key p] ps IH]; cbn [fit_opt try_prefixes]; auto.
  destruct (strip_prefix key q) as [k|]; auto. destruct (known_opt s k) as [e|] eqn:K; [discriminate|].
  intro F. unfold mbind. rewrite (either_unknown k s K). auto.
Qed.

Lemma try_none ps q s s' : try_prefixes ord rec ps q s = (Ok None, s') -> fit_opt s q ps = None /\ s' = s.
Proof.
  induction ps as [|[key p] ps IH]; cbn [fit_opt try_prefixes]; [injection 1 as <-; auto|].
  destruct (strip_prefix key q) as [k|]; auto. unfold mbind.
  destruct (unit_by_either ord rec k s) as [[[x|]|e] s1] eqn:E; [destruct (lift (prefixed_unit key p k x) s1) as [[y|] ?]; discriminate| |discriminate].
  apply either_none in E as [-> ->]. auto.
Qed.

Lemma body_unreadable q s : unreadable s q -> lookup_body ord rec q s = (Err (EUnresolvable q), s).
Proof.
  intros (U & P1 & P2). apply unknown_iff in U. apply fit_opt_none in P1, P2.
  unfold lookup_body, mbind. rewrite either_unknown by auto. rewrite try_unfit by auto. now rewrite try_unfit by auto.
Qed.
End Unread.

(** ** the vocabulary is kept by closed systems *)
Section Kept.
Variable ord : list str -> list str.
Variable s0 : system.
Hypothesis closed0 : closed s0.

Definition kept (s : system) : Prop :=
  same_vocabulary s0 s /\
  forall i, option_map lz_names (nth_error (s_lazies s) i) = option_map lz_names (nth_error (s_lazies s0) i).

(** and failures name a query without reading *)
Definition keeps {A} (m : M A) : Prop := forall s, kept s ->
  kept (snd (m s)) /\ forall q, fst (m s) = Err (EUnresolvable q) -> unreadable s0 q.

Lemma keeps_lift {A} (r : res A) : routine r -> keeps (lift r).
Proof. intros H s K. split; auto. cbn [lift fst]. intros q ->. contradiction. Qed.
Lemma keeps_ret {A} (a : A) : keeps (ret a).
Proof. intros s K. split; auto. discriminate. Qed.
Lemma keeps_bind {A B} (m : M A) (f : A -> M B) : keeps m -> (forall a, keeps (f a)) -> keeps (mbind m f).
Proof.
  intros H1 H2 s K. destruct (H1 s K) as [K1 E1]. unfold mbind. destruct (m s) as [[a|e] s1]; cbn [fst snd] in *.
  - now apply H2.
  - split; auto. intros q E. apply E1. congruence.
Qed.
Lemma keeps_mmapM {A B} (f : A -> M B) l : (forall a, keeps (f a)) -> keeps (mmapM f l).
Proof.
  intro H. induction l; cbn [mmapM]; [apply keeps_ret|]. apply keeps_bind; auto. intro. apply keeps_bind; auto. intro; apply keeps_ret.
Qed.

Lemma kept_register i l s x r : nth_error (s_lazies s) i = Some l -> r = lz_names l -> kept s -> kept (register (EUnit x r) r s).
Proof.
  intros N -> [V L]. split; [|exact L].
  specialize (L i). rewrite N in L. destruct (nth_error (s_lazies s0) i) as [l0|] eqn:N0; [|discriminate]. injection L as L.
  rewrite L. destruct (closed0 i l0 N0) as (C1 & C2 & C3 & C4). destruct V as (V1 & V2 & V3 & V4 & V5 & V6).
  unfold same_vocabulary, register; cbn [s_prefix_names s_prefix_symbols s_symbols s_names s_alias_names s_alias_symbols].
  repeat split; auto; rewrite dkeys_dset_all; auto; intros k I.
  - rewrite <- (dmem_keys k _ _ V1). auto.
  - rewrite <- (dmem_keys k _ _ V2). auto.
  - rewrite <- (dmem_keys k _ _ V3). auto.
  - rewrite <- (dmem_keys k _ _ V4). auto.
Qed.

Lemma kept_set i l l' s : nth_error (s_lazies s0) i = Some l -> lz_names l' = lz_names l -> kept s -> kept (set_lazy i l' s).
Proof.
  intros N E [V L]. split; [exact V|]. intro j. rewrite nth_set_lazy.
  assert (Li : (i < List.length (s_lazies s))%nat).
  { specialize (L i). rewrite N in L. apply nth_error_Some. destruct (nth_error (s_lazies s) i); discriminate. }
  apply Nat.ltb_lt in Li. rewrite Li. destruct (Nat.eqb j i) eqn:Ej; auto.
  apply Nat.eqb_eq in Ej; subst j. rewrite N. cbn [option_map]. congruence.
Qed.

Section KRec.
Variable rec : str -> M unit.
Hypothesis R : forall k, keeps (rec k).

Lemma keeps_refs ids : keeps (resolve_refs ord rec ids).
Proof. apply keeps_mmapM. intro k. apply keeps_bind; auto. intro. apply keeps_ret. Qed.

Lemma keeps_resolve i : keeps (resolve ord rec i).
Proof.
  intros s K. unfold resolve. destruct (nth_error (s_lazies s) i) as [l|] eqn:N; [|split; auto; discriminate].
  destruct (lz_resolved l); [split; auto; discriminate|].
  revert s K N. intros s K N.
  assert (N0 : exists l0, nth_error (s_lazies s0) i = Some l0 /\ lz_names l = lz_names l0).
  { destruct K as [_ L]. specialize (L i). rewrite N in L. destruct (nth_error (s_lazies s0) i) as [l0|]; [|discriminate]. injection L as L. eauto. }
  destruct N0 as (l0 & N0 & EN).
  apply (keeps_bind (lift (parse (lz_def l)))); auto; [apply keeps_lift, ro_parse|]. intro g.
  apply keeps_bind; [apply keeps_refs|]. intro refs. apply keeps_bind; [apply keeps_lift, ro_mk_unit|]. intro x.
  intros s' K'. split; [|discriminate]. cbn [snd]. eapply kept_set; eauto.
Qed.

Lemma keeps_force o : keeps (force_entry ord rec o).
Proof.
  destruct o as [[i|x r]|]; cbn [force_entry]; try apply keeps_ret.
  intros s K. destruct (nth_error (s_lazies s) i) as [l|] eqn:N; [|split; auto; discriminate].
  destruct (keeps_resolve i s K) as [K1 E1]. unfold mbind. destruct (resolve ord rec i s) as [[x|e] s1]; cbn [fst snd] in *.
  - split; [|discriminate]. destruct K as [_ L]. pose proof K1 as [_ L1]. specialize (L i). specialize (L1 i). rewrite N in L. rewrite <- L in L1.
    destruct (nth_error (s_lazies s1) i) as [l1|] eqn:N1; [|discriminate]. injection L1 as L1.
    eapply kept_register; eauto.
  - split; auto. intros q E. apply E1. congruence.
Qed.

Lemma keeps_either k : keeps (unit_by_either ord rec k).
Proof.
  apply keeps_bind; [intros s K; now apply keeps_force|]. intros [x|]; [apply keeps_ret|]. intros s K; now apply keeps_force.
Qed.

Lemma keeps_try ps q : keeps (try_prefixes ord rec ps q).
Proof.
  induction ps as [|[key p] ps IH]; cbn [try_prefixes]; [apply keeps_ret|].
  destruct (strip_prefix key q); [|exact IH]. apply keeps_bind; [apply keeps_either|].
  intros [x|]; [|exact IH]. apply keeps_bind; [apply keeps_lift, ro_prefixed|]. intro; apply keeps_ret.
Qed.

Lemma keeps_body q : keeps (lookup_body ord rec q).
Proof.
  intros s K. pose proof (keeps_either q s K) as [K1 E1]. unfold lookup_body, mbind.
  destruct (unit_by_either ord rec q s) as [[[x|]|e] s1] eqn:E; cbn [fst snd] in *.
  1: { split; auto. discriminate. }
  2: { split; auto. intros q' X. apply E1. congruence. }
  apply either_none in E as [U ->].
  pose proof (keeps_try (s_prefix_names s) q s K) as [K2 E2].
  destruct (try_prefixes ord rec (s_prefix_names s) q s) as [[[x|]|e] s2] eqn:E; cbn [fst snd] in *.
  1: { split; auto. discriminate. }
  2: { split; auto. intros q' X. apply E2. congruence. }
  apply try_none in E as [F1 ->].
  pose proof (keeps_try (s_prefix_symbols s) q s K) as [K3 E3].
  destruct (try_prefixes ord rec (s_prefix_symbols s) q s) as [[[x|]|e] s2] eqn:E; cbn [fst snd] in *.
  1: { split; auto. discriminate. }
  2: { split; auto. intros q' X. apply E3. congruence. }
  apply try_none in E as [F2 ->]. split; auto. intros q' X. injection X as <-.
  destruct K as [V _]. apply (unreadable_vocab s s0 q (same_vocabulary_sym _ _ V)).
  split; [now apply unknown_iff|]. split; now apply fit_opt_none.
Qed.
End KRec.

Lemma keeps_lookup f : forall q, keeps (lookup ord f q).
Proof.
  induction f as [|f IH]; intro q; cbn [lookup]; [intros s K; split; auto; discriminate|]. now apply keeps_body.
Qed.

Lemma keeps_unit f t : keeps (sys_unit ord f t).
Proof.
  apply keeps_bind; [apply keeps_lift, ro_parse|]. intro g. apply keeps_bind; [apply keeps_refs, keeps_lookup|]. intro. apply keeps_lift, ro_unit_from.
Qed.

Lemma kept_refl : kept s0.
Proof. split; [apply same_vocabulary_refl|auto]. Qed.

Lemma kept_run s c : kept s -> kept (run ord s c).
Proof. intro K. destruct c; cbn [run]; [now apply keeps_lookup|now apply keeps_unit]. Qed.

Lemma kept_after cs : forall s, kept s -> kept (after ord s cs).
Proof. unfold after. induction cs as [|c cs IH]; intros s K; cbn [fold_left]; auto. apply IH. now apply kept_run. Qed.

Lemma kept_closed s : kept s -> closed s.
Proof.
  intros [V L] i l N. specialize (L i). rewrite N in L.
  destruct (nth_error (s_lazies s0) i) as [l0|] eqn:N0; [|discriminate]. injection L as ->.
  destruct V as (V1 & V2 & V3 & V4 & _). destruct (closed0 i l0 N0) as (C1 & C2 & C3 & C4).
  repeat split; intros k I.
  - rewrite <- (dmem_keys k _ _ V1). auto.
  - rewrite <- (dmem_keys k _ _ V2). auto.
  - rewrite <- (dmem_keys k _ _ V3). auto.
  - rewrite <- (dmem_keys k _ _ V4). auto.
Qed.
End Kept.

Lemma clash_free_closed s : clash_free s -> closed s.
Proof.
  intros C i l N. destruct (C i l N) as (C1 & C2 & C3 & C4).
  assert (G : forall d ks, owns d i l ks -> forall k, In k ks -> dmem k d = true).
  { intros d ks O k I. unfold dmem. destruct (O k I) as [->|(x & _ & ->)]; reflexivity. }
  repeat split; eapply G; eauto.
Qed.

(** ** built systems *)
Lemma closed_register e r s : closed s -> closed (register e r s).
Proof.
  intros C i l N. destruct (C i l N) as (C1 & C2 & C3 & C4).
  cbn [register s_symbols s_names s_alias_names s_alias_symbols].
  repeat split; intros k I; rewrite dmem_dset_all; apply orb_true_iff; right; auto.
Qed.

Lemma add_unit_ok e r rep s s' : add_unit e r rep s = Ok s' -> s' = register e r s.
Proof. unfold add_unit. destruct (negb rep && _); [discriminate|]. destruct (negb rep && _); [discriminate|]. congruence. Qed.

Lemma nth_snoc {A} (l : list A) a i b : nth_error (l ++ [a]) i = Some b ->
  nth_error l i = Some b \/ (i = List.length l /\ b = a).
Proof.
  intro H. destruct (Nat.lt_ge_cases i (List.length l)) as [L|L].
  - rewrite nth_error_app1 in H by auto. auto.
  - rewrite nth_error_app2 in H by auto. destruct (i - List.length l)%nat as [|m] eqn:D; cbn [nth_error] in H.
    + right. split; [lia|congruence].
    + destruct m; discriminate.
Qed.

Lemma built_closed ord s : built ord s -> closed s.
Proof.
  induction 1 as [|p s _ IH|x r rep s s' _ IH E|d r s s' _ IH E|c s _ IH].
  - intros i l N. destruct i; discriminate.
  - exact IH.
  - apply add_unit_ok in E as ->. now apply closed_register.
  - unfold add_lazy in E. apply add_unit_ok in E as ->. intros i l N.
    cbn [register s_lazies] in N. cbn [register s_symbols s_names s_alias_names s_alias_symbols].
    apply nth_snoc in N as [N|[-> ->]].
    + destruct (IH i l N) as (C1 & C2 & C3 & C4).
      repeat split; intros k I; rewrite dmem_dset_all; apply orb_true_iff; right; auto.
    + cbn [lz_names]. repeat split; intros k I; rewrite dmem_dset_all; apply orb_true_iff; left; now apply str_mem_In.
  - eapply kept_closed; [exact IH|]. apply kept_run; auto. apply kept_refl.
Qed.

Lemma owns_fresh d i l ks ks' e : owns d i l ks -> (forall k, In k ks' -> dmem k d = false) ->
  owns (dset_all ks' e d) i l ks.
Proof.
  intros O F k I. rewrite dget_dset_all. destruct (str_mem k ks') eqn:M; [|now apply O].
  apply str_mem_In in M. specialize (F k M). unfold dmem in F. destruct (O k I) as [X|(x & _ & X)]; rewrite X in F; discriminate.
Qed.

Lemma clash_free_fresh e r s : clash_free s -> fresh_words r s -> clash_free (register e r s).
Proof.
  intros C (F1 & F2 & F3 & F4) i l N. destruct (C i l N) as (C1 & C2 & C3 & C4).
  cbn [register s_symbols s_names s_alias_names s_alias_symbols]. repeat split; now apply owns_fresh.
Qed.

Lemma built_fresh_clash_free ord s : built_fresh ord s -> clash_free s.
Proof.
  induction 1 as [|p s _ IH|x r s s' _ IH F E|d r s s' _ IH F E|c s _ IH].
  - intros i l N. destruct i; discriminate.
  - exact IH.
  - apply add_unit_ok in E as ->. now apply clash_free_fresh.
  - unfold add_lazy in E. apply add_unit_ok in E as ->. intros i l N. cbn [register s_lazies] in N.
    apply nth_snoc in N as [N|[-> ->]].
    + destruct (IH i l N) as (C1 & C2 & C3 & C4). destruct F as (F1 & F2 & F3 & F4).
      cbn [register s_symbols s_names s_alias_names s_alias_symbols]. repeat split; now apply owns_fresh.
    + cbn [register s_symbols s_names s_alias_names s_alias_symbols lz_names].
      assert (G : forall d0 ks, owns (dset_all ks (ELazy (List.length (s_lazies s))) d0) (List.length (s_lazies s)) (mkLazy d r None) ks).
      { intros d0 ks k I. rewrite dget_dset_all. apply str_mem_In in I. rewrite I. now left. }
      repeat split; apply G.
  - pose proof (later_run ord s IH s c (later_refl ord s IH)) as (X & _). exact X.
Qed.

Lemma after_clash_free ord s cs : clash_free s -> clash_free (after ord s cs).
Proof. intro C. pose proof (later_after ord s C cs s (later_refl ord s C)) as (X & _). exact X. Qed.

(** ** add_unit as a program *)
Lemma check_names rep v l : forall s, mfor (check_free rep s_symbols v) l s =
  if negb rep && existsb (fun k => dmem k (s_symbols s)) l then (Err (EValue v), s) else (Ok tt, s).
Proof.
  induction l as [|k l IH]; intro s; cbn [mfor existsb].
  - destruct rep; reflexivity.
  - unfold mbind, check_free at 1. destruct rep; cbn [negb andb] in *; [rewrite IH; reflexivity|].
    destruct (dmem k (s_symbols s)); cbn [orb]; auto.
Qed.

Lemma check_name rep v n s : on_name (check_free rep s_names v) n s =
  if negb rep && existsb (fun k => dmem k (s_names s)) (name_keys n) then (Err (EValue v), s) else (Ok tt, s).
Proof.
  unfold on_name, name_keys, mbind, check_free. destruct rep; cbn [negb andb]; [destruct (n_plural n) as [[|]|]; reflexivity|].
  cbn [existsb]. destruct (dmem (n_singular n) (s_names s)); cbn [orb]; auto.
  destruct (n_plural n) as [[|c p]|]; cbn [existsb]; auto. destruct (dmem (c :: p) (s_names s)); reflexivity.
Qed.

Lemma set_names e n s : on_name (set_name e) n s =
  (Ok tt, mkSys (s_symbols s) (dset_all (name_keys n) e (s_names s)) (s_alias_names s) (s_alias_symbols s)
                (s_prefix_names s) (s_prefix_symbols s) (s_lazies s)).
Proof. unfold on_name, name_keys, mbind, set_name, dset_all. destruct (n_plural n) as [[|c p]|]; reflexivity. Qed.

Lemma set_symbols e l : forall s, mfor (set_symbol e) l s =
  (Ok tt, mkSys (dset_all l e (s_symbols s)) (s_names s) (s_alias_names s) (s_alias_symbols s)
                (s_prefix_names s) (s_prefix_symbols s) (s_lazies s)).
Proof. induction l as [|k l IH]; intros []; cbn [mfor]; [reflexivity|]. unfold mbind, set_symbol at 1. rewrite IH. reflexivity. Qed.

Lemma set_alias_symbols e l : forall s, mfor (set_alias_symbol e) l s =
  (Ok tt, mkSys (s_symbols s) (s_names s) (s_alias_names s) (dset_all l e (s_alias_symbols s))
                (s_prefix_names s) (s_prefix_symbols s) (s_lazies s)).
Proof. induction l as [|k l IH]; intros []; cbn [mfor]; [reflexivity|]. unfold mbind, set_alias_symbol at 1. rewrite IH. reflexivity. Qed.

Lemma set_alias_names e l : forall s, mfor (on_name (set_alias_name e)) l s =
  (Ok tt, mkSys (s_symbols s) (s_names s) (dset_all (flat_map name_keys l) e (s_alias_names s)) (s_alias_symbols s)
                (s_prefix_names s) (s_prefix_symbols s) (s_lazies s)).
Proof.
  induction l as [|n l IH]; intros s; cbn [mfor]; [destruct s; reflexivity|].
  assert (E : on_name (set_alias_name e) n s = (Ok tt, mkSys (s_symbols s) (s_names s) (dset_all (name_keys n) e (s_alias_names s)) (s_alias_symbols s)
                (s_prefix_names s) (s_prefix_symbols s) (s_lazies s))).
  { unfold on_name, name_keys, mbind, set_alias_name, dset_all. destruct (n_plural n) as [[|c p]|]; reflexivity. }
  unfold mbind. rewrite E, IH. cbn [s_symbols s_names s_alias_names s_alias_symbols s_prefix_names s_prefix_symbols s_lazies flat_map].
  unfold dset_all. now rewrite fold_left_app.
Qed.

Lemma add_unit_prog_spec e r rep s : add_unit_prog e r rep s =
  match add_unit e r rep s with Ok s' => (Ok tt, s') | Err v => (Err v, s) end.
Proof.
  unfold add_unit_prog, add_unit, if_named, ref_names, mbind, register, ref_alias_names, ref_names.
  destruct (r_name r) as [n|].
  - rewrite check_name. destruct (negb rep && existsb (fun k => dmem k (s_names s)) (name_keys n)); auto.
    rewrite check_names. destruct (negb rep && existsb (fun k => dmem k (s_symbols s)) (r_symbols r)); auto.
    rewrite set_names, set_symbols, set_alias_names, set_alias_symbols. reflexivity.
  - cbn [existsb ret]. rewrite andb_false_r. rewrite check_names.
    destruct (negb rep && existsb (fun k => dmem k (s_symbols s)) (r_symbols r)); auto.
    rewrite set_symbols, set_alias_names, set_alias_symbols. reflexivity.
Qed.

(** ** deciding clash-freedom of a freshly loaded system *)
Definition all_own (d : dict entry) (i : nat) (ks : list str) : bool :=
  forallb (fun k => match dget k d with Some (ELazy j) => Nat.eqb i j | _ => false end) ks.

Fixpoint indexed {A} (i : nat) (l : list A) : list (nat * A) :=
  match l with [] => [] | x :: l' => (i, x) :: indexed (S i) l' end.

Lemma indexed_nth {A} (l : list A) : forall i j x, nth_error l j = Some x -> In ((i + j)%nat, x) (indexed i l).
Proof.
  induction l as [|y l IH]; intros i [|j] x; cbn [nth_error indexed]; try discriminate.
  - injection 1 as ->. left. f_equal. lia.
  - intro H. right. replace (i + S j)%nat with (S i + j)%nat by lia. now apply IH.
Qed.

Definition clash_free_b (s : system) : bool :=
  forallb (fun il : nat * lazy => let (i, l) := il in
    all_own (s_symbols s) i (r_symbols (lz_names l)) && all_own (s_names s) i (ref_names (lz_names l)) &&
    all_own (s_alias_names s) i (ref_alias_names (lz_names l)) && all_own (s_alias_symbols s) i (r_alias_symbols (lz_names l)))
    (indexed 0 (s_lazies s)).

Lemma all_own_sound d i l ks : all_own d i ks = true -> owns d i l ks.
Proof.
  unfold all_own. rewrite forallb_forall. intros H k I. specialize (H k I). left.
  destruct (dget k d) as [[j|]|]; try discriminate. apply Nat.eqb_eq in H. now subst.
Qed.

Lemma clash_free_b_sound s : clash_free_b s = true -> clash_free s.
Proof.
  unfold clash_free_b. rewrite forallb_forall. intros H i l N. apply (indexed_nth _ O) in N. cbn [Nat.add] in N.
  specialize (H _ N). cbn beta iota in H. rewrite !andb_true_iff in H. destruct H as [[[H1 H2] H3] H4].
  repeat split; now apply all_own_sound.
Qed.

(** ** bounding the depth of definitions *)
Definition entry_rank (rk : list nat) (e : entry) : nat := match e with ELazy i => S (nth i rk O) | EUnit _ _ => O end.
Definition query_rank (s : system) (rk : list nat) (q : str) : nat :=
  match reading_opt s q with Some (_, e) => entry_rank rk e | None => O end.

Definition ranked_b (s : system) (rk : list nat) : bool :=
  forallb (fun il : nat * lazy => let (i, l) := il in
    match lz_resolved l, parse (lz_def l) with
    | None, Ok g => forallb (fun k => Nat.leb (query_rank s rk k) (nth i rk O)) (identifiers g)
    | _, _ => true
    end) (indexed 0 (s_lazies s)).

Lemma nth_max rk i : (nth i rk O <= list_max rk)%nat.
Proof.
  revert i. induction rk as [|x rk IH]; intros [|i]; cbn [nth list_max fold_right]; try lia.
  specialize (IH i). unfold list_max in IH. lia.
Qed.

Lemma ranked_b_sound s rk : ranked_b s rk = true -> depth_at_most s (query_rank s rk) (S (list_max rk)).
Proof.
  unfold ranked_b. rewrite forallb_forall. intro H. split.
  - intro q. unfold query_rank. destruct (reading_opt s q) as [[pre [i|x r]]|]; cbn [entry_rank]; try lia. pose proof (nth_max rk i). lia.
  - intros q k (l & g & [pre i Rd N R] & P & I). apply reading_iff in Rd.
    unfold query_rank at 2. rewrite Rd. cbn [entry_rank].
    apply (indexed_nth _ O) in N. specialize (H _ N). cbn beta iota in H. rewrite R, P in H.
    rewrite forallb_forall in H. specialize (H k I). apply Nat.leb_le in H. cbn [Nat.add] in H. lia.
Qed.

(** ** an unresolvable word is the query or is reached through definitions *)
Lemma mapM_err {A B} (f : A -> res B) l e : mapM f l = Err e -> exists a, In a l /\ f a = Err e.
Proof.
  induction l as [|a l IH]; cbn [mapM]; [discriminate|].
  destruct (f a) as [b|e'] eqn:E; cbn [bind].
  - destruct (mapM f l) as [bs|e'] eqn:E2; cbn [bind]; [discriminate|]. injection 1 as ->.
    destruct (IH eq_refl) as (a' & I & Ea). exists a'. split; auto. now right.
  - injection 1 as ->. exists a. split; auto. now left.
Qed.

Lemma p_lookup_unresolvable ord s (perm : rearranges ord) f : forall q q', p_lookup ord s f q = Err (EUnresolvable q') ->
  unreadable s q' /\ (q' = q \/ depends s q q').
Proof.
  induction f as [|f IH]; intros q q'; cbn [p_lookup]; [discriminate|].
  rewrite p_body_reading. destruct (reading_opt s q) as [[pre e]|] eqn:Rd; cbn [of_reading].
  2: { injection 1 as <-. split; auto. now apply unreadable_iff. }
  apply reading_iff in Rd. intro E.
  assert (E' : p_entry ord s (p_lookup ord s f) e = Err (EUnresolvable q')).
  { destruct pre as [[[key p] k]|]; auto. destruct (p_entry ord s (p_lookup ord s f) e) as [x|e']; cbn [bind] in E; [|congruence].
    pose proof (ro_prefixed key p k x) as X. rewrite E in X. contradiction. }
  destruct e as [i|y r]; cbn [p_entry] in E'; [|discriminate]. unfold p_resolve in E'.
  destruct (nth_error (s_lazies s) i) as [l|] eqn:N; [|discriminate].
  destruct (lz_resolved l) eqn:R; [discriminate|].
  destruct (parse (lz_def l)) as [g|e'] eqn:P; cbn [bind] in E'.
  2: { pose proof (ro_parse (lz_def l)) as X. rewrite P in X. injection E' as ->. contradiction. }
  destruct (p_refs ord (p_lookup ord s f) (identifiers g)) as [refs|e'] eqn:E2; cbn [bind] in E'.
  { pose proof (ro_mk_unit g refs) as X. rewrite E' in X. contradiction. }
  injection E' as ->. apply mapM_err in E2 as (k & I & Ek).
  destruct (p_lookup ord s f k) as [x|e'] eqn:El; cbn [bind] in Ek; [discriminate|]. injection Ek as ->.
  assert (M : mentions s q k).
  { exists l, g. split; [eapply Db; eauto|]. split; auto. apply (Permutation_in _ (perm _)). exact I. }
  destruct (IH _ _ El) as [U [->|D]]; split; auto; right; [now apply Dep_one|now apply Dep_more with k].
Qed.

(** ** stateful look-ups against the state-free evaluator, from any earlier clash-free state *)
Lemma lookup_agree ord s cs f q : clash_free s ->
  agree f (fst (lookup ord f q (after ord s cs))) (fun n => p_lookup ord s n q).
Proof.
  intro C. apply (proj2 (sim_lookup ord s C f q)). apply later_after; auto. now apply later_refl.
Qed.

Lemma unit_agree ord s cs f t : clash_free s ->
  agree f (fst (sys_unit ord f t (after ord s cs))) (fun n => p_unit ord s n t).
Proof.
  intro C. apply (proj2 (sim_unit ord s C f t)). apply later_after; auto. now apply later_refl.
Qed.

Lemma mono_unit ord s t : mono (fun n => p_unit ord s n t).
Proof.
  intros n m L. apply le_bind; [apply le_refl'|]. intro g. apply le_bind; [|intro; apply le_refl'].
  apply le_refs. intro. now apply p_lookup_mono.
Qed.

(** two agreeing outcomes that are not a stack overflow are equal *)
Lemma agree_same {A} n m (r r' : res A) P : mono P -> agree n r P -> agree m r' P ->
  r <> Err ERecursion -> r' <> Err ERecursion -> r = r'.
Proof.
  intros MP [[X|[F E]] _] [[X'|[F' E']] _] N N'; try contradiction.
  pose proof (MP F (Nat.max F F') ltac:(lia)) as M1. pose proof (MP F' (Nat.max F F') ltac:(lia)) as M2.
  unfold le_res in *. rewrite E in M1. rewrite E' in M2. rewrite <- (M1 N). now apply M2.
Qed.
