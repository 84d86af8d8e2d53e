(** * What the check of AtnCheck.v means: the generated lexer computes [lex] *)
From Coq Require Import FMapPositive.
From Verif Require Import PyBase Regex RegexFacts Lexer LexSpec LexerFacts Atn AtnCheck.
Local Open Scope Z_scope.

(** ** Equality tests *)
Lemma list_eqb_eq {A} (eqb : A -> A -> bool) :
  (forall x y, eqb x y = true -> x = y) -> forall l l', list_eqb eqb l l' = true -> l = l'.
Proof.
  intros H. induction l as [| x l IH]; intros [| y l']; cbn; try discriminate; auto.
  rewrite andb_true_iff. intros [E1 E2]. f_equal; auto.
Qed.

Lemma action_eqb_eq x y : action_eqb x y = true -> x = y.
Proof.
  destruct x, y; cbn; try discriminate; auto; rewrite Z.eqb_eq; now intros ->.
Qed.

Lemma config_eqb_eq x y : config_eqb x y = true -> x = y.
Proof.
  destruct x, y. unfold config_eqb. cbn. rewrite !andb_true_iff, !Z.eqb_eq.
  intros [[[[-> ->] E] E'] E''].
  apply list_eqb_eq in E; [| intros; now apply Z.eqb_eq].
  apply list_eqb_eq in E'; [| exact action_eqb_eq]. apply Bool.eqb_prop in E''. now subst.
Qed.

Lemma re_list_eqb_eq a b : re_list_eqb a b = true -> a = b.
Proof.
  revert b. induction a as [| x a IH]; intros [| y b]; cbn; try discriminate; auto.
  rewrite andb_true_iff. intros [E1 E2]. f_equal; [now apply re_eqb_eq | auto].
Qed.

Lemma kind_eqb_eq a b : kind_eqb a b = true -> a = b.
Proof. unfold kind_eqb. rewrite N.eqb_eq. destruct a, b; cbn; intros; congruence. Qed.

Lemma rstate_eqb_eq a b : rstate_eqb a b = true -> a = b.
Proof.
  revert b. induction a as [| [k x] a IH]; intros [| [k' y] b]; cbn; try discriminate; auto.
  rewrite !andb_true_iff. intros [[E1 E2] E3]. apply kind_eqb_eq in E1.
  apply re_list_eqb_eq in E2. apply IH in E3. congruence.
Qed.

Lemma pmem_in p l : pmem p l = true -> In p l.
Proof.
  unfold pmem. rewrite existsb_exists. intros (q & Hq & E). unfold pair_eqb in E.
  rewrite andb_true_iff in E. destruct E as [E1 E2]. destruct p, q. cbn in *.
  apply list_eqb_eq in E1; [| exact config_eqb_eq]. apply rstate_eqb_eq in E2. now subst.
Qed.

Lemma zmem_in x l : zmem x l = true <-> In x l.
Proof.
  induction l as [| y l IH]; cbn; [easy |]. rewrite orb_true_iff, Z.eqb_eq, IH.
  split; intros [H | H]; auto.
Qed.

(** ** Character classes *)

(** Two characters that lie on the same side of every end point. *)
Definition same_class (B : list Z) (x y : Z) : Prop := forall b, In b B -> (b <= x <-> b <= y).

Fixpoint below (B : list Z) (x : Z) (best : Z) : Z :=
  match B with
  | [] => best
  | b :: B' => below B' x (if (b <=? x) && (best <? b) then b else best)
  end.

Lemma below_spec B x best : best <= x ->
  best <= below B x best /\ below B x best <= x /\
  (below B x best = best \/ In (below B x best) B) /\
  forall b, In b B -> b <= x -> b <= below B x best.
Proof.
  revert best. induction B as [| b B IH]; intros best Hb; cbn [below].
  - repeat split; auto; try lia. intros b [].
  - assert (Hv : best <= (if (b <=? x) && (best <? b) then b else best) <= x /\
                 ((if (b <=? x) && (best <? b) then b else best) = best \/
                  (if (b <=? x) && (best <? b) then b else best) = b) /\
                 (b <= x -> b <= (if (b <=? x) && (best <? b) then b else best))).
    { destruct (Z.leb_spec b x), (Z.ltb_spec best b); cbn [andb]; repeat split; auto; lia. }
    revert Hv. generalize (if (b <=? x) && (best <? b) then b else best)%bool.
    intros v (Hv1 & Hv2 & Hv3).
    destruct (IH v ltac:(lia)) as (H1 & H2 & H3 & H4). repeat split; try lia.
    + destruct H3 as [-> | H3]; [destruct Hv2; auto; cbn; auto | cbn; auto].
    + intros b' [<- | Hin] Hle; [specialize (Hv3 Hle); lia | now apply H4].
Qed.

Lemma class_rep B x : In 0 B -> 0 <= x <= 1114111 ->
  exists b, In b (reps B) /\ same_class B x b.
Proof.
  intros H0 Hx. destruct (below_spec B x 0 ltac:(lia)) as (H1 & H2 & H3 & H4).
  exists (below B x 0). split.
  - apply filter_In. split.
    + destruct H3 as [-> | H3]; auto.
    + apply andb_true_iff. rewrite !Z.leb_le. lia.
  - intros b Hb. split; [intros; now apply H4 | lia].
Qed.

Lemma same_class_range B x y lo hi : same_class B x y -> In lo B -> In (hi + 1) B ->
  ((lo <=? x) && (x <=? hi))%bool = ((lo <=? y) && (y <=? hi))%bool.
Proof.
  intros H Hl Hh. specialize (H lo Hl) as H1. specialize (H _ Hh) as H2.
  destruct (Z.leb_spec lo x), (Z.leb_spec lo y), (Z.leb_spec x hi), (Z.leb_spec y hi);
    cbn; try reflexivity; exfalso; lia.
Qed.

Lemma same_class_set B x y rs : same_class B x y ->
  (forall b, In b (flat_map (fun r => [fst r; snd r + 1]) rs) -> In b B) ->
  in_set rs x = in_set rs y.
Proof.
  intros H. induction rs as [| [lo hi] rs IH]; intros HB; cbn; auto.
  f_equal.
  - apply (same_class_range B); auto; apply HB; cbn; auto.
  - apply IH. intros b Hb. apply HB. cbn. auto.
Qed.

Lemma same_class_trans B x y t : same_class B x y -> In 0 B -> In 1114112 B ->
  trans_respects B t = true -> trans_matches t x = trans_matches t y.
Proof.
  intros H H0 H1 Ht. unfold trans_respects in Ht. rewrite forallb_forall in Ht.
  assert (HB : forall b, In b (trans_ends t) -> In b B)
    by (intros b Hb; apply zmem_in; now apply Ht).
  destruct t; cbn [trans_ends] in HB; cbn [trans_matches]; auto.
  - apply (same_class_range B); auto; apply HB; cbn; auto.
  - assert (E : forall z, (c =? z) = ((c <=? z) && (z <=? c))%bool).
    { intros z. destruct (Z.eqb_spec c z), (Z.leb_spec c z), (Z.leb_spec z c); cbn; lia. }
    rewrite !E. apply (same_class_range B); auto; apply HB; cbn; auto.
  - now apply (same_class_set B).
  - f_equal; [| f_equal; now apply (same_class_set B)].
    now apply (same_class_range B).
  - now apply (same_class_range B).
Qed.

Lemma in_ranges_class B x y rs : same_class B (Z.of_N x) (Z.of_N y) ->
  forallb (fun r => zmem (Z.of_N (fst r)) B && zmem (Z.of_N (snd r) + 1) B) rs = true ->
  in_ranges rs x = in_ranges rs y.
Proof.
  intros H. induction rs as [| [lo hi] rs IH]; cbn; auto.
  rewrite !andb_true_iff, !zmem_in. intros [[H1 H2] H3].
  pose proof (same_class_range B _ _ _ _ H H1 H2) as E.
  change (existsb (fun r : N * N => ((fst r <=? x)%N && (x <=? snd r)%N)%bool) rs)
    with (in_ranges rs x).
  change (existsb (fun r : N * N => ((fst r <=? y)%N && (y <=? snd r)%N)%bool) rs)
    with (in_ranges rs y).
  rewrite (IH H3). f_equal.
  assert (F : forall a b, (a <=? b)%N = (Z.of_N a <=? Z.of_N b)).
  { intros a b. destruct (N.leb_spec a b), (Z.leb_spec (Z.of_N a) (Z.of_N b)); auto; lia. }
  now rewrite !F.
Qed.

Lemma pderiv_class B x y r : same_class B (Z.of_N x) (Z.of_N y) ->
  re_respects B r = true -> pderiv x r = pderiv y r.
Proof.
  intros H. induction r; cbn [re_respects pderiv]; intros Hr; auto.
  - now rewrite (in_ranges_class B x y).
  - apply andb_true_iff in Hr. destruct Hr. now rewrite IHr1, IHr2.
  - apply andb_true_iff in Hr. destruct Hr. now rewrite IHr1, IHr2.
  - now rewrite IHr.
Qed.

Lemma mstep_class B x y rs : same_class B (Z.of_N x) (Z.of_N y) ->
  forallb (fun q : kind * list re => forallb (re_respects B) (snd q)) rs = true ->
  mstep x rs = mstep y rs.
Proof.
  intros H Hr. unfold mstep. f_equal. apply map_ext_in. intros [k st] Hin.
  rewrite forallb_forall in Hr. specialize (Hr _ Hin). cbn [fst snd] in *. f_equal.
  unfold step. f_equal. rewrite forallb_forall in Hr.
  clear Hin. induction st as [| r st IH]; cbn [flat_map]; auto.
  rewrite (pderiv_class B x y) by (auto; apply Hr; cbn; auto).
  rewrite IH; auto. intros r' Hr'. apply Hr. cbn. auto.
Qed.

(** ** The simulator sees characters only through [trans_matches] *)
Section Sim.
  Variable A : atn.
  Variables x y : Z.
  Hypothesis same : forall t, In t (atn_trans A) -> trans_matches t x = trans_matches t y.

  Lemma get_state_trans n s t : get_state A n = Some s -> In t (st_trans s) ->
    In t (atn_trans A).
  Proof.
    unfold get_state. destruct (n <? 0); [discriminate |]. intros Hs Ht.
    apply PositiveMap.elements_correct in Hs. apply in_flat_map. now exists (key n, s).
  Qed.

  Lemma reach_trans_same c current ts acc : (forall t, In t ts -> In t (atn_trans A)) ->
    reach_trans A c x current ts acc = reach_trans A c y current ts acc.
  Proof.
    revert acc. induction ts as [| t ts IH]; intros acc H; cbn [reach_trans]; auto.
    rewrite (same t) by (apply H; cbn; auto).
    assert (H' : forall t, In t ts -> In t (atn_trans A)) by (intros; apply H; cbn; auto).
    destruct (trans_matches t y); [| now apply IH].
    destruct (closure A depth _ _ _) as [[configs reached] |]; auto.
  Qed.

  Lemma reach_same cs acc : reach A x cs acc = reach A y cs acc.
  Proof.
    revert acc. induction cs as [| c cs IH]; intros acc; cbn [reach]; auto.
    destruct ((c_alt c =? snd acc) && c_ng c)%bool; [apply IH |].
    destruct (get_state A (c_state c)) as [s |] eqn:E; auto.
    rewrite reach_trans_same by (intros t Ht; now apply (get_state_trans (c_state c) s)).
    destruct (reach_trans A c y _ _ _); auto.
  Qed.
End Sim.

(** ** All rules at once: the shape of [exec] *)
Fixpoint mexec (n : nat) (rs : rstate) (prev : option (kind * nat)) (s : str)
  : option (kind * nat) :=
  match s with
  | [] => prev
  | c :: s' =>
    match mstep c rs with
    | [] => prev
    | rs' => mexec (S n) rs' (match macc rs' with Some k => Some (k, S n) | None => prev end) s'
    end
  end.

Definition comb (a b : option (kind * nat)) : option (kind * nat) :=
  match a, b with
  | Some (_, n), Some (k', n') => if Nat.ltb n n' then b else a
  | Some _, None => a
  | None, _ => b
  end.

Lemma comb_assoc a b c : comb (comb a b) c = comb a (comb b c).
Proof.
  destruct a as [[k n] |], b as [[k' n'] |], c as [[k'' n''] |]; try reflexivity.
  - repeat (cbn [comb]; match goal with
            | |- context [Nat.ltb ?a ?b] => destruct (Nat.ltb_spec a b)
            end); cbn [comb]; auto; exfalso; lia.
  - cbn [comb]. now destruct (Nat.ltb n n').
Qed.

Fixpoint best_of (rs : rstate) (s : str) : option (kind * nat) :=
  match rs with
  | [] => None
  | (k, st) :: rs' =>
    comb (match longest st s with Some n => Some (k, n) | None => None end) (best_of rs' s)
  end.

Lemma best_rule_of rs s best :
  best_rule rs s best = comb best (best_of (map (fun kr => (fst kr, [snd kr])) rs) s).
Proof.
  revert best. induction rs as [| [k r] rs IH]; intros best; cbn [best_rule map best_of fst snd].
  - now destruct best as [[k n] |].
  - rewrite IH, <- comb_assoc. f_equal.
    destruct (longest [r] s) as [n |]; destruct best as [[k' m] |]; reflexivity.
Qed.

Definition lift1 (o : option (kind * nat)) : option (kind * nat) :=
  match o with Some (k, n) => Some (k, S n) | None => None end.
Definition or_else {A} (a b : option A) : option A := match a with Some _ => a | None => b end.
Definition at0 (rs : rstate) : option (kind * nat) :=
  match macc rs with Some k => Some (k, O) | None => None end.

Lemma macc_cons k st rs :
  macc ((k, st) :: rs) = if accepts st then Some k else macc rs.
Proof. unfold macc. cbn [find snd]. now destruct (accepts st). Qed.

Lemma longest_nil s : longest [] s = None.
Proof. destruct s; reflexivity. Qed.

Lemma longest_cons st c s :
  longest st (c :: s) =
  match longest (step c st) s with
  | Some n => Some (S n)
  | None => if accepts st then Some O else None
  end.
Proof.
  cbn [longest]. destruct (step c st) eqn:E; [| reflexivity]. now rewrite longest_nil.
Qed.

Lemma best_of_nil rs : best_of rs [] = at0 rs.
Proof.
  induction rs as [| [k st] rs IH]; [reflexivity |].
  cbn [best_of longest]. rewrite IH. unfold at0. rewrite macc_cons.
  destruct (accepts st); cbn; [| now destruct (macc rs)].
  destruct (macc rs); reflexivity.
Qed.

Lemma best_of_filter rs s : best_of (filter live rs) s = best_of rs s.
Proof.
  induction rs as [| [k st] rs IH]; [reflexivity |].
  change (filter live ((k, st) :: rs))
    with (if live (k, st) then (k, st) :: filter live rs else filter live rs).
  destruct st as [| r st]; cbn [best_of].
  - cbn [live snd]. rewrite IH, longest_nil. reflexivity.
  - cbn [live snd best_of]. now rewrite IH.
Qed.

Lemma best_of_cons rs c s :
  best_of rs (c :: s) = or_else (lift1 (best_of (mstep c rs) s)) (at0 rs).
Proof.
  unfold mstep. rewrite best_of_filter.
  induction rs as [| [k st] rs IH]; [reflexivity |].
  cbn [map best_of fst snd]. rewrite IH, longest_cons. unfold at0. rewrite macc_cons.
  destruct (longest (step c st) s) as [n |];
    destruct (best_of (map _ rs) s) as [[k' n'] |]; cbn [comb lift1 or_else];
    destruct (accepts st); cbn [comb lift1 or_else]; try reflexivity;
    try (destruct (macc rs); reflexivity).
  - change (Nat.ltb (S n) (S n')) with (Nat.ltb n n'). now destruct (Nat.ltb n n').
  - change (Nat.ltb (S n) (S n')) with (Nat.ltb n n'). now destruct (Nat.ltb n n').
Qed.

Definition shift (n : nat) (o : option (kind * nat)) : option (kind * nat) :=
  match o with Some (k, i) => Some (k, (n + i)%nat) | None => None end.

Lemma mexec_best n rs s prev :
  mexec n rs (or_else (shift n (at0 rs)) prev) s = or_else (shift n (best_of rs s)) prev.
Proof.
  revert n rs prev. induction s as [| c s IH]; intros n rs prev; cbn [mexec].
  - now rewrite best_of_nil.
  - rewrite best_of_cons. destruct (mstep c rs) as [| p rs'] eqn:E.
    + reflexivity.
    + rewrite <- E in *. clear E p rs'.
      specialize (IH (S n) (mstep c rs) (or_else (shift n (at0 rs)) prev)).
      etransitivity; [| etransitivity; [exact IH |]].
      * f_equal. unfold at0 at 2. destruct (macc (mstep c rs)); cbn; auto.
        now rewrite Nat.add_0_r.
      * destruct (best_of (mstep c rs) s) as [[k i] |]; cbn; auto.
        now rewrite Nat.add_succ_r.
Qed.

Lemma best_rule_mexec m s :
  best_rule (rules m) s None = mexec 0 (minit m) (at0 (minit m)) s.
Proof.
  rewrite best_rule_of. cbn [comb].
  pose proof (mexec_best 0 (minit m) s None) as H.
  assert (E : forall o, or_else (shift 0 o) None = o) by (intros [[k i] |]; reflexivity).
  rewrite !E in H. symmetry. exact H.
Qed.

(** ** The bisimulation *)
Section Bisim.
  Variable A : atn.
  Variable m : mode.
  Variables (B : list Z) (R : list pair_).
  Hypothesis Hends : check_ends A B = true.
  Hypothesis Hmode : check_mode A m B R = true.

  Let H0 : In 0 B.
  Proof. unfold check_ends in Hends. rewrite !andb_true_iff in Hends. apply zmem_in, Hends. Qed.
  Let H1 : In 1114112 B.
  Proof. unfold check_ends in Hends. rewrite !andb_true_iff in Hends. apply zmem_in, Hends. Qed.

  Lemma target_class cs x y : same_class B x y -> target A cs x = target A cs y.
  Proof.
    intros H. unfold target. apply reach_same. intros t Ht.
    apply (same_class_trans B); auto.
    unfold check_ends in Hends. rewrite !andb_true_iff in Hends. destruct Hends as [_ Hf].
    rewrite forallb_forall in Hf. now apply Hf.
  Qed.

  Lemma pair_checked p : In p R -> check_pair A m B R p = true.
  Proof.
    unfold check_mode in Hmode. apply andb_true_iff in Hmode. destruct Hmode as [_ Hf].
    rewrite forallb_forall in Hf. apply Hf.
  Qed.

  Lemma pair_answer cs rs : In (cs, rs) R ->
    same_answer m (accepted A cs) (macc rs) = true.
  Proof.
    intros Hin. apply pair_checked in Hin. unfold check_pair in Hin.
    rewrite !andb_true_iff in Hin. apply Hin.
  Qed.

  Lemma pair_step cs rs x : In (cs, rs) R -> (x <= 1114111)%N ->
    exists cs', target A cs (Z.of_N x) = Some cs' /\
      ((cs' = [] /\ mstep x rs = []) \/
       (cs' <> [] /\ mstep x rs <> [] /\ In (cs', mstep x rs) R)).
  Proof.
    intros Hin Hx. apply pair_checked in Hin. unfold check_pair in Hin.
    rewrite !andb_true_iff in Hin. destruct Hin as [[Hr _] Hf]. cbn [fst snd] in *.
    destruct (class_rep B (Z.of_N x) H0 ltac:(lia)) as (b & Hb & Hc).
    rewrite forallb_forall in Hf. specialize (Hf b Hb).
    rewrite (target_class cs _ _ Hc).
    assert (Hb0 : 0 <= b).
    { unfold reps in Hb. rewrite filter_In, andb_true_iff, !Z.leb_le in Hb. lia. }
    rewrite (mstep_class B x (Z.to_N b) rs) by (rewrite ?Z2N.id; auto).
    destruct (target A cs b) as [cs' |]; [| discriminate].
    exists cs'. split; auto.
    destruct cs' as [| c cs'], (mstep (Z.to_N b) rs) as [| r rs'] eqn:E; cbn in Hf;
      try discriminate; [left; auto |].
    right. repeat split; try discriminate. now apply pmem_in.
  Qed.

  (** What [exec] and [mexec] end with. *)
  Definition related (a : option (nat * Z * list action)) (k : option (kind * nat)) : Prop :=
    match a, k with
    | None, None => True
    | Some (n, ty, acts), Some (k, n') =>
      n = n' /\ same_answer m (Some (ty, acts)) (Some k) = true
    | _, _ => False
    end.

  Lemma related_update n cs rs a k : In (cs, rs) R -> related a k ->
    related (update A n cs a)
            (match macc rs with Some k' => Some (k', n) | None => k end).
  Proof.
    intros Hin Hr. apply pair_answer in Hin. unfold update.
    destruct (accepted A cs) as [[ty acts] |], (macc rs) as [k' |]; cbn in Hin |- *;
      try discriminate; auto.
  Qed.

  Lemma exec_related s n cs rs a k : is_text s -> In (cs, rs) R -> related a k ->
    exists a', exec A n cs a s = Some a' /\ related a' (mexec n rs k s).
  Proof.
    revert n cs rs a k. induction s as [| x s IH]; intros n cs rs a k Ht Hin Hr;
      cbn [exec mexec]; [now exists a |].
    inversion Ht as [| ? ? Hx Ht']; subst.
    destruct (pair_step cs rs x Hin Hx) as (cs' & E & [[-> E'] | (N1 & N2 & Hin')]);
      rewrite E.
    - rewrite E'. now exists a.
    - destruct cs' as [| c cs']; [contradiction |].
      destruct (mstep x rs) as [| r rs'] eqn:E'; [contradiction |].
      apply IH; auto. now apply related_update.
  Qed.

  Lemma match_token_related s : is_text s ->
    exists a, match_token A (mode_id m) s = Some a /\
              related a (best_rule (rules m) s None).
  Proof.
    intros Ht. pose proof Hmode as Hs. unfold check_mode in Hs. apply andb_true_iff in Hs.
    destruct Hs as [Hs _]. unfold match_token.
    destruct (start_configs A (mode_id m)) as [cs |]; [| discriminate].
    apply pmem_in in Hs. rewrite best_rule_mexec. apply exec_related; auto.
    unfold at0. apply (related_update 0 cs (minit m) None None Hs I).
  Qed.
End Bisim.

(** ** One token *)
Lemma run_actions_stack acts ty md st st' r :
  existsb is_pop acts = false -> run_actions (mkRegs ty md st) acts = Some r ->
  exists r', run_actions (mkRegs ty md st') acts = Some r' /\
             r_type r' = r_type r /\ r_mode r' = r_mode r.
Proof.
  revert ty md st st'. induction acts as [| a acts IH]; intros ty md st st' Hp Hr.
  - cbn in *. injection Hr as <-. eexists; repeat split.
  - cbn [existsb] in Hp. apply orb_false_iff in Hp. destruct Hp as [Hp1 Hp2].
    destruct a; try discriminate Hp1; cbn [run_actions run_action r_type r_mode r_stack] in *;
      eapply IH; eauto.
Qed.

Lemma next_token_lex A m B R : check_ends A B = true -> check_mode A m B R = true ->
  forall s k n stack, is_text s -> best_rule (rules m) s None = Some (k, S n) ->
  exists stack',
  next_token A (mode_id m) stack s =
  TToken (Z.of_N (kind_id k)) (firstn (S n) s) (skipn (S n) s) (mode_id (next_mode m k)) stack'.
Proof.
  intros HB Hm s k n stack Ht E.
  destruct (match_token_related A m B R HB Hm s Ht) as (a & Ea & Hr). rewrite E in Hr.
  destruct a as [[[n' ty] acts] |]; [| contradiction]. destruct Hr as [-> Hs].
  cbn [same_answer] in Hs.
  destruct (run_actions (mkRegs 0 (mode_id m) []) acts) as [r |] eqn:Er; [| discriminate].
  rewrite !andb_true_iff, !Z.eqb_eq in Hs. destruct Hs as [[Hp Hty] Hmd].
  apply negb_true_iff in Hp.
  destruct (run_actions_stack _ _ _ _ stack _ Hp Er) as (r' & Er' & T & M).
  unfold next_token. rewrite Ea, Er', T, M, Hty, Hmd.
  exists (r_stack r').
  assert (F : (Z.of_N (kind_id k) =? -3) = false /\ (Z.of_N (kind_id k) =? -2) = false)
    by (destruct k; split; reflexivity).
  destruct F as [-> ->]. reflexivity.
Qed.

Lemma check_parts A : check A = true ->
  check_ends A (ends A) = true /\
  forall m, check_mode A m (ends A) (joint_states A m) = true.
Proof.
  intros H. unfold check in H. cbv zeta in H.
  apply andb_true_iff in H. destruct H as [H1 H2]. split; [exact H1 |].
  rewrite forallb_forall in H2. intros m. apply H2. destruct m; cbn; auto.
Qed.

(** ** The token stream *)
Definition shown (t : token) : Z * str := (Z.of_N (kind_id (tkind t)), ttext t).

Lemma tokens_lex A : check A = true -> forall fuel m stack s ts,
  is_text s -> lex_fuel fuel m s = Some ts ->
  tokens A fuel (mode_id m) stack s = Some (map shown ts).
Proof.
  intros HA. destruct (check_parts A HA) as [HB HM].
  induction fuel as [| f IH]; intros m stack s ts Ht H;
    destruct s as [| c s]; cbn [lex_fuel tokens] in *; try discriminate;
    try (injection H as <-; reflexivity).
  destruct (best_rule (rules m) (c :: s) None) as [[k [| n]] |] eqn:E; try discriminate.
  destruct (lex_fuel f (next_mode m k) (skipn (S n) (c :: s))) as [ts' |] eqn:E';
    [| discriminate].
  injection H as <-.
  destruct (next_token_lex A m (ends A) (joint_states A m) HB (HM m) (c :: s) k n stack Ht E)
    as (stack' & ->).
  rewrite (IH _ stack' _ _ (is_text_skipn (S n) _ Ht) E'). reflexivity.
Qed.

(** The shipped automaton passes. *)
Lemma check_ok : check the_atn = true.
Proof. vm_compute. reflexivity. Qed.

Lemma generated_lex_ok s ts : is_text s -> lex s = Some ts ->
  generated_lex s = Some (map shown ts).
Proof. exact (fun Ht H => tokens_lex the_atn check_ok _ DEFAULT_MODE [] s ts Ht H). Qed.
