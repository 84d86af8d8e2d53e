(** * The prediction returns the least viable alternative: proofs *)
From Verif Require Import PyBase PAtn PSpec PSim.
Local Open Scope Z_scope.

(** ** Checks over all states *)
Definition state_ids : list Z := map Z.of_nat (seq 0 (List.length (p_states the_patn))).

Lemma edges_in_range : forall n tr, In tr (edges n) -> In n state_ids.
Proof.
  intros n tr H. unfold edges, pstate_of in H.
  destruct (n <? 0) eqn:E; [destruct H |].
  apply Z.ltb_ge in E.
  assert (L : (Z.to_nat n < List.length (p_states the_patn))%nat).
  { destruct (Nat.lt_ge_cases (Z.to_nat n) (List.length (p_states the_patn))) as [L | L];
      [exact L |].
    rewrite nth_overflow in H by exact L. destruct H. }
  unfold state_ids. apply in_map_iff. exists (Z.to_nat n). split; [lia |].
  apply in_seq. lia.
Qed.

Lemma stop_in_range : forall n, stop n = true -> In n state_ids.
Proof.
  intros n H. unfold stop, pstate_of in H.
  destruct (n <? 0) eqn:E; [discriminate H |].
  apply Z.ltb_ge in E.
  assert (L : (Z.to_nat n < List.length (p_states the_patn))%nat).
  { destruct (Nat.lt_ge_cases (Z.to_nat n) (List.length (p_states the_patn))) as [L | L];
      [exact L |].
    rewrite nth_overflow in H by exact L. discriminate H. }
  unfold state_ids. apply in_map_iff. exists (Z.to_nat n). split; [lia |].
  apply in_seq. lia.
Qed.

Lemma edge_check : forall P : Z -> ptrans -> bool,
  forallb (fun n => forallb (P n) (edges n)) state_ids = true ->
  forall n tr, In tr (edges n) -> P n tr = true.
Proof.
  intros P H n tr I.
  rewrite forallb_forall in H. pose proof (H n (edges_in_range n tr I)) as H1.
  rewrite forallb_forall in H1. exact (H1 tr I).
Qed.

Lemma stop_check : forall P : Z -> bool,
  forallb (fun n => negb (stop n) || P n) state_ids = true ->
  forall n, stop n = true -> P n = true.
Proof.
  intros P H n I.
  rewrite forallb_forall in H. pose proof (H n (stop_in_range n I)) as H1.
  rewrite I in H1. exact H1.
Qed.

Lemma stop_no_edges : forall n, stop n = true -> edges n = [].
Proof.
  intros n H.
  assert (E : (match edges n with [] => true | _ => false end) = true).
  { apply (stop_check (fun n => match edges n with [] => true | _ => false end));
      [vm_compute; reflexivity | exact H]. }
  destruct (edges n); [reflexivity | discriminate E].
Qed.

Lemma edge_not_stop : forall n tr, In tr (edges n) -> stop n = false.
Proof.
  intros n tr H. destruct (stop n) eqn:E; [| reflexivity].
  rewrite (stop_no_edges n E) in H. destruct H.
Qed.

(** states that are neither behind the edge labelled EOF nor the end of the start rule *)
Definition good (n : Z) : bool := negb (n =? 1) && negb (n =? 26).

Definition zin (x : Z) (l : list Z) : bool := existsb (Z.eqb x) l.

Lemma zin_In : forall x l, zin x l = true <-> In x l.
Proof.
  intros x l. unfold zin. rewrite existsb_exists. split.
  - intros [y [I E]]. apply Z.eqb_eq in E. subst. exact I.
  - intros I. exists x. split; [exact I | apply Z.eqb_refl].
Qed.

Definition edge_ok (n : Z) (t : ptrans) : bool :=
  match t with
  | PEps m | PAct m | PPrec m _ => (rule_of m =? rule_of n) && (negb (good n) || good m)
  | PCall s f => (rule_of f =? rule_of n) && zin f (follows (rule_of s)) && good s
  | PAtom m k => (rule_of m =? rule_of n) && ((k =? -1) || good m)
  | PSet m rs => (rule_of m =? rule_of n) && good m
                 && forallb (fun r => 0 <=? fst r) rs
  end.

Lemma edge_okay : forall n tr, In tr (edges n) -> edge_ok n tr = true.
Proof. apply edge_check. vm_compute. reflexivity. Qed.

Lemma follows_range : forall r f, In f (follows r) -> 0 <= r <= 10.
Proof.
  intros r f H. unfold follows in H. apply in_flat_map in H. destruct H as [s [I H]].
  apply in_flat_map in H. destruct H as [t [It H]].
  destruct t as [|st fo| | | |]; try destruct H.
  destruct (rule_of st =? r) eqn:E; [| destruct H]. apply Z.eqb_eq in E. subst r.
  assert (C : forallb (fun s => forallb (fun t => match t with PCall st fo =>
              (0 <=? rule_of st) && (rule_of st <=? 10) | _ => true end) (ps_trans s))
              (p_states the_patn) = true) by (vm_compute; reflexivity).
  rewrite forallb_forall in C. pose proof (C s I) as C1.
  rewrite forallb_forall in C1. pose proof (C1 _ It) as C2. cbv beta iota in C2.
  apply andb_true_iff in C2. lia.
Qed.

Lemma follow_good : forall r f, In f (follows r) -> good f = true.
Proof.
  intros r f H. pose proof (follows_range r f H) as R.
  assert (C : forallb (fun r => forallb good (follows (Z.of_nat r))) (seq 0 11) = true)
    by (vm_compute; reflexivity).
  rewrite forallb_forall in C.
  assert (I : In (Z.to_nat r) (seq 0 11)) by (apply in_seq; lia).
  pose proof (C _ I) as C1. rewrite Z2Nat.id in C1 by lia.
  rewrite forallb_forall in C1. exact (C1 f H).
Qed.

Lemma good_stop : forall n, stop n = true -> good n = true ->
  rule_of n <> 0 /\ follows (rule_of n) <> [].
Proof.
  intros n H G.
  assert (E : (negb (good n) || (negb (rule_of n =? 0)
               && match follows (rule_of n) with [] => false | _ => true end)) = true).
  { apply (stop_check (fun n => negb (good n) || (negb (rule_of n =? 0)
               && match follows (rule_of n) with [] => false | _ => true end)));
      [vm_compute; reflexivity | exact H]. }
  rewrite G in E. cbn [negb orb] in E. apply andb_true_iff in E. destruct E as [E1 E2].
  split.
  - intros Z0. rewrite Z0 in E1. discriminate E1.
  - intros Z0. rewrite Z0 in E2. discriminate E2.
Qed.

Lemma stop_rule_zero : forall n, stop n = true -> rule_of n = 0 -> n = 1.
Proof.
  intros n H Z0.
  assert (E : (negb (rule_of n =? 0) || (n =? 1)) = true).
  { apply (stop_check (fun n => negb (rule_of n =? 0) || (n =? 1)));
      [vm_compute; reflexivity | exact H]. }
  rewrite Z0 in E. cbn [Z.eqb negb orb] in E. now apply Z.eqb_eq in E.
Qed.

(** ** Runs, with the empty stack as a wildcard if [b = false] *)
Inductive racc (b : bool) : Z -> list Z -> list Z -> Prop :=
| R_end n : stop n = true -> rule_of n = 0 -> racc b n [] []
| R_ret n f st w : stop n = true -> racc b f st w -> racc b n (f :: st) w
| R_follow n f w : b = false -> stop n = true -> In f (follows (rule_of n)) ->
    racc b f [] w -> racc b n [] w
| R_eps n tr m c st w : In tr (edges n) -> eps_target tr st = Some (m, c) ->
    racc b m c w -> racc b n st w
| R_tok n tr t x st w : In tr (edges n) -> tok_target tr x = Some t ->
    racc b t st w -> racc b n st (x :: w).

Lemma symbol_in_iff : forall rs k,
  existsb (fun r : Z * Z => (fst r <=? k) && (k <=? snd r)) rs = true <-> symbol_in rs k.
Proof.
  intros rs k. rewrite existsb_exists. split.
  - intros [[lo hi] [I H]]. cbn [fst snd] in H. apply andb_true_iff in H.
    exists lo, hi. split; [exact I | lia].
  - intros [lo [hi [I H]]]. exists (lo, hi). split; [exact I |].
    cbn [fst snd]. apply andb_true_iff. lia.
Qed.

Lemma accepts_racc : forall n st w, accepts n st w <-> racc true n st w.
Proof.
  intros n st w. split.
  - intros H. induction H.
    + now apply R_end.
    + now apply R_ret.
    + eapply R_eps; [exact H | reflexivity | exact IHaccepts].
    + eapply R_eps; [exact H | reflexivity | exact IHaccepts].
    + eapply R_eps; [exact H | reflexivity | exact IHaccepts].
    + eapply R_tok; [exact H | | exact IHaccepts].
      cbn [tok_target]. now rewrite Z.eqb_refl.
    + eapply R_tok; [exact H | | exact IHaccepts].
      cbn [tok_target]. apply symbol_in_iff in H0. now rewrite H0.
    + eapply R_eps; [exact H | | exact IHaccepts].
      cbn [eps_target]. apply Z.leb_le in H0. now rewrite H0.
  - intros H. induction H.
    + now apply Run_end.
    + now apply Run_return.
    + discriminate H.
    + destruct tr as [t | s f | t k | t | t rs | t p]; cbn [eps_target] in H0.
      * injection H0 as E1 E2; subst. eapply Run_eps; eassumption.
      * injection H0 as E1 E2; subst. eapply Run_call; eassumption.
      * discriminate H0.
      * injection H0 as E1 E2; subst. eapply Run_action; eassumption.
      * discriminate H0.
      * destruct (0 <=? p) eqn:E; [| discriminate H0].
        injection H0 as E1 E2; subst. eapply Run_precedence; [eassumption | lia | assumption].
    + destruct tr as [t' | s f | t' k | t' | t' rs | t' p]; cbn [tok_target] in H0;
        try discriminate H0.
      * destruct (k =? x) eqn:E; [| discriminate H0]. apply Z.eqb_eq in E. subst.
        injection H0 as E1; subst. eapply Run_atom; eassumption.
      * destruct (existsb _ rs) eqn:E; [| discriminate H0].
        injection H0 as E1; subst. apply symbol_in_iff in E.
        eapply Run_set; eassumption.
Qed.

(** ** Well-formed stacks *)
Fixpoint wf (b : bool) (n : Z) (ctx : list Z) : Prop :=
  match ctx with
  | [] => b = true -> rule_of n = 0
  | f :: st => In f (follows (rule_of n)) /\ wf b f st
  end.

Lemma wf_rule : forall b n m ctx, rule_of m = rule_of n -> wf b n ctx -> wf b m ctx.
Proof. intros b n m ctx E H. destruct ctx; cbn [wf] in *; now rewrite E. Qed.

Lemma wf_weaken : forall n ctx, wf true n ctx -> wf false n ctx.
Proof.
  intros n ctx. revert n. induction ctx as [| f st IH]; intros n H; cbn [wf] in *.
  - intros E. discriminate E.
  - destruct H as [H1 H2]. split; [exact H1 | now apply IH].
Qed.

Lemma wf_eps : forall b n tr ctx m c, In tr (edges n) -> eps_target tr ctx = Some (m, c) ->
  wf b n ctx -> wf b m c.
Proof.
  intros b n tr ctx m c I E W. pose proof (edge_okay n tr I) as K.
  destruct tr as [t | s f | t k | t | t rs | t p]; cbn [eps_target edge_ok] in *;
    try discriminate E.
  - injection E as E1 E2; subst. apply andb_true_iff in K. destruct K as [K _].
    apply Z.eqb_eq in K. eapply wf_rule; eassumption.
  - injection E as E1 E2; subst. apply andb_true_iff in K. destruct K as [K _].
    apply andb_true_iff in K. destruct K as [K1 K2]. apply Z.eqb_eq in K1.
    cbn [wf]. split; [now apply zin_In | eapply wf_rule; eassumption].
  - injection E as E1 E2; subst. apply andb_true_iff in K. destruct K as [K _].
    apply Z.eqb_eq in K. eapply wf_rule; eassumption.
  - destruct (0 <=? p); [| discriminate E].
    injection E as E1 E2; subst. apply andb_true_iff in K. destruct K as [K _].
    apply Z.eqb_eq in K. eapply wf_rule; eassumption.
Qed.

Lemma good_eps : forall n tr ctx m c, In tr (edges n) -> eps_target tr ctx = Some (m, c) ->
  good n = true -> good m = true.
Proof.
  intros n tr ctx m c I E W. pose proof (edge_okay n tr I) as K.
  destruct tr as [t | s f | t k | t | t rs | t p]; cbn [eps_target edge_ok] in *;
    try discriminate E.
  - injection E as E1 E2; subst. apply andb_true_iff in K. destruct K as [_ K].
    rewrite W in K. exact K.
  - injection E as E1 E2; subst. apply andb_true_iff in K. now destruct K as [_ K].
  - injection E as E1 E2; subst. apply andb_true_iff in K. destruct K as [_ K].
    rewrite W in K. exact K.
  - destruct (0 <=? p); [| discriminate E].
    injection E as E1 E2; subst. apply andb_true_iff in K. destruct K as [_ K].
    rewrite W in K. exact K.
Qed.

Lemma rule_tok : forall n tr x t, In tr (edges n) -> tok_target tr x = Some t ->
  rule_of t = rule_of n.
Proof.
  intros n tr x t I E. pose proof (edge_okay n tr I) as K.
  destruct tr as [t' | s f | t' k | t' | t' rs | t' p]; cbn [tok_target edge_ok] in *;
    try discriminate E.
  - destruct (k =? x); [| discriminate E]. injection E as E1; subst.
    apply andb_true_iff in K. destruct K as [K _]. now apply Z.eqb_eq in K.
  - destruct (existsb _ rs); [| discriminate E]. injection E as E1; subst.
    apply andb_true_iff in K. destruct K as [K _]. apply andb_true_iff in K.
    destruct K as [K _]. now apply Z.eqb_eq in K.
Qed.

Lemma good_tok : forall n tr x t, In tr (edges n) -> tok_target tr x = Some t -> x <> -1 ->
  good t = true.
Proof.
  intros n tr x t I E X. pose proof (edge_okay n tr I) as K.
  destruct tr as [t' | s f | t' k | t' | t' rs | t' p]; cbn [tok_target edge_ok] in *;
    try discriminate E.
  - destruct (k =? x) eqn:Ek; [| discriminate E]. injection E as E1; subst.
    apply Z.eqb_eq in Ek. subst k.
    apply andb_true_iff in K. destruct K as [_ K]. apply orb_true_iff in K.
    destruct K as [K | K]; [| exact K]. apply Z.eqb_eq in K. contradiction.
  - destruct (existsb _ rs); [| discriminate E]. injection E as E1; subst.
    apply andb_true_iff in K. destruct K as [K _]. apply andb_true_iff in K.
    now destruct K as [_ K].
Qed.

(** Forgetting the lower part of a stack. *)
Lemma racc_forget : forall b n ctx w, racc b n ctx w -> wf false n ctx ->
  forall c r, ctx = c ++ r -> racc false n c w.
Proof.
  intros b n ctx w H. induction H; intros W c0 r E.
  - destruct c0; [| discriminate E]. now apply R_end.
  - cbn [wf] in W. destruct W as [W1 W2]. destruct c0 as [| f' c0].
    + cbn [app] in E. subst r. apply R_follow with f; auto.
      apply (IHracc W2 [] st). reflexivity.
    + cbn [app] in E. injection E as E1 E2. subst. apply R_ret; [assumption |].
      apply (IHracc W2 c0 r). reflexivity.
  - destruct c0; [| discriminate E]. cbn [app] in E. subst r.
    eapply R_follow; eauto. apply (IHracc) with (r := []); [| reflexivity].
    cbn [wf]. intros X. discriminate X.
  - pose proof (wf_eps false n tr st m c H H0 W) as W'.
    destruct tr as [t | s f | t k | t | t rs | t p]; cbn [eps_target] in H0;
      try discriminate H0.
    + injection H0 as E1 E2; subst. eapply R_eps; [exact H | reflexivity |].
      apply (IHracc W' c0 r). reflexivity.
    + injection H0 as E1 E2; subst. eapply R_eps; [exact H | reflexivity |].
      apply (IHracc W' (f :: c0) r). reflexivity.
    + injection H0 as E1 E2; subst. eapply R_eps; [exact H | reflexivity |].
      apply (IHracc W' c0 r). reflexivity.
    + destruct (0 <=? p) eqn:Ep; [| discriminate H0].
      injection H0 as E1 E2; subst. eapply R_eps; [exact H | cbn [eps_target]; rewrite Ep; reflexivity |].
      apply (IHracc W' c0 r). reflexivity.
  - eapply R_tok; [exact H | exact H0 |].
    apply IHracc with (r := r); [| exact E].
    eapply wf_rule; [| exact W]. eapply rule_tok; eassumption.
Qed.

(** ** Closures *)
Lemma all_some_in : forall {A} (l : list (option (list A))) r, all_some l = Some r ->
  forall o, In o l -> exists x, o = Some x /\ incl x r.
Proof.
  induction l as [| o l IH]; intros r H o' I; [destruct I |].
  cbn [all_some] in H. destruct o as [x |]; [| discriminate H].
  destruct (all_some l) as [y |] eqn:E; [| discriminate H]. injection H as H; subst r.
  destruct I as [I | I].
  - subst o'. exists x. split; [reflexivity |]. intros z Hz. apply in_or_app. now left.
  - destruct (IH y eq_refl o' I) as [x' [E1 E2]]. exists x'. split; [exact E1 |].
    intros z Hz. apply in_or_app. right. now apply E2.
Qed.

Lemma all_some_out : forall {A} (l : list (option (list A))) r, all_some l = Some r ->
  forall y, In y r -> exists x, In (Some x) l /\ In y x.
Proof.
  induction l as [| o l IH]; intros r H y I.
  - cbn [all_some] in H. injection H as H; subst r. destruct I.
  - cbn [all_some] in H. destruct o as [x |]; [| discriminate H].
    destruct (all_some l) as [z |] eqn:E; [| discriminate H]. injection H as H; subst r.
    apply in_app_or in I. destruct I as [I | I].
    + exists x. split; [now left | exact I].
    + destruct (IH z eq_refl y I) as [x' [E1 E2]]. exists x'. split; [now right | exact E2].
Qed.

Lemma all_some_total : forall {A} (l : list (option (list A))),
  (forall o, In o l -> o <> None) -> all_some l <> None.
Proof.
  induction l as [| o l IH]; intros H; cbn [all_some]; [discriminate |].
  destruct o as [x |]; [| exfalso; apply (H None); [now left | reflexivity]].
  destruct (all_some l) eqn:E; [discriminate |].
  exfalso. apply IH; [| reflexivity]. intros o I. apply H. now right.
Qed.

Lemma tok_not_eps : forall tr x t, tok_target tr x = Some t -> is_eps tr = false.
Proof. intros tr x t H; destruct tr; cbn [tok_target] in H; try discriminate H; reflexivity. Qed.

Lemma closure_complete : forall b n ctx w, racc b n ctx w ->
  forall fuel l, closure b fuel n ctx = Some l ->
  match w with
  | [] => exists m, In (m, []) l /\ stop m = true /\ rule_of m = 0
  | x :: w' => exists m c tr t, In (m, c) l /\ In tr (edges m) /\ tok_target tr x = Some t
                                /\ racc b t c w'
  end.
Proof.
  intros b n ctx w H. induction H; intros fuel l C.
  - destruct fuel as [| fuel]; [discriminate C |]. cbn [closure] in C. rewrite H in C.
    destruct b.
    + injection C as C; subst l. exists n. split; [now left | now split].
    + rewrite H0 in C.
      assert (F : follows 0 = []) by (vm_compute; reflexivity). rewrite F in C.
      injection C as C; subst l. exists n. split; [now left | now split].
  - destruct fuel as [| fuel]; [discriminate C |]. cbn [closure] in C. rewrite H in C.
    eapply IHracc. exact C.
  - destruct fuel as [| fuel]; [discriminate C |]. cbn [closure] in C. rewrite H0 in C.
    subst b. destruct (follows (rule_of n)) as [| f0 fs] eqn:F; [destruct H1 |].
    destruct (all_some_in _ _ C (closure false fuel f [])) as [x [E1 E2]].
    { apply in_map_iff. exists f. split; [reflexivity | exact H1]. }
    pose proof (IHracc fuel x E1) as K. destruct w as [| y w].
    + destruct K as [m [K1 K2]]. exists m. split; [now apply E2 | exact K2].
    + destruct K as [m [c [tr [t0 [K1 K2]]]]]. exists m, c, tr, t0.
      split; [now apply E2 | exact K2].
  - destruct fuel as [| fuel]; [discriminate C |]. cbn [closure] in C.
    rewrite (edge_not_stop n tr H) in C.
    destruct (all_some _) as [l0 |] eqn:A; [| discriminate C].
    destruct (all_some_in _ _ A (closure b fuel m c)) as [x [E1 E2]].
    { apply in_map_iff. exists tr. split; [now rewrite H0 | exact H]. }
    assert (E3 : incl x l).
    { injection C as C; subst l. destruct (eps_only n); [exact E2 |].
      intros z Z0. right. now apply E2. }
    pose proof (IHracc fuel x E1) as K. destruct w as [| y w].
    + destruct K as [m' [K1 K2]]. exists m'. split; [now apply E3 | exact K2].
    + destruct K as [m' [c' [tr' [t' [K1 K2]]]]]. exists m', c', tr', t'.
      split; [now apply E3 | exact K2].
  - destruct fuel as [| fuel]; [discriminate C |]. cbn [closure] in C.
    rewrite (edge_not_stop n tr H) in C.
    destruct (all_some _) as [l0 |] eqn:A; [| discriminate C].
    assert (N : eps_only n = false).
    { unfold eps_only. destruct (edges n) as [| e es] eqn:E; [destruct H |].
      destruct (forallb is_eps (e :: es)) eqn:F; [| reflexivity].
      rewrite forallb_forall in F. pose proof (F tr H) as F1.
      now rewrite (tok_not_eps tr x t H0) in F1. }
    rewrite N in C. injection C as C; subst l.
    exists n, st, tr, t. split; [now left |]. split; [exact H |]. split; assumption.
Qed.

Lemma closure_sound : forall fuel n ctx l, closure true fuel n ctx = Some l ->
  forall m c, In (m, c) l -> forall w, racc true m c w -> racc true n ctx w.
Proof.
  induction fuel as [| fuel IH]; intros n ctx l C m c I w R; [discriminate C |].
  cbn [closure] in C. destruct (stop n) eqn:S.
  - destruct ctx as [| r ctx'].
    + injection C as C; subst l. destruct I as [I | []]. injection I as I1 I2; subst.
      exact R.
    + apply R_ret; [exact S |]. eapply IH; eassumption.
  - destruct (all_some _) as [l0 |] eqn:A; [| discriminate C].
    assert (I' : In (m, c) l0 \/ (m, c) = (n, ctx)).
    { injection C as C; subst l. destruct (eps_only n); [now left |].
      destruct I as [I | I]; [right; now symmetry | now left]. }
    destruct I' as [I' | I'].
    + destruct (all_some_out _ _ A _ I') as [x [E1 E2]].
      apply in_map_iff in E1. destruct E1 as [tr [E1 It]].
      destruct (eps_target tr ctx) as [[m' c'] |] eqn:T.
      * eapply R_eps; [exact It | exact T |]. eapply IH; eassumption.
      * injection E1 as E1; subst x. destruct E2.
    + injection I' as I1 I2; subst. exact R.
Qed.

Lemma closure_wf : forall b fuel n ctx l, closure b fuel n ctx = Some l -> wf b n ctx ->
  forall m c, In (m, c) l -> wf b m c /\ (stop m = true -> c = []).
Proof.
  intros b. induction fuel as [| fuel IH]; intros n ctx l C W m c I; [discriminate C |].
  cbn [closure] in C. destruct (stop n) eqn:S.
  - destruct ctx as [| r ctx'].
    + destruct b.
      * injection C as C; subst l. destruct I as [I | []]. injection I as I1 I2; subst.
        split; [exact W | reflexivity].
      * destruct (follows (rule_of n)) as [| f0 fs] eqn:F.
        { injection C as C; subst l. destruct I as [I | []]. injection I as I1 I2; subst.
          split; [exact W | reflexivity]. }
        destruct (all_some_out _ _ C _ I) as [x [E1 E2]].
        apply in_map_iff in E1. destruct E1 as [t [E1 It]].
        eapply IH; [exact E1 | | exact E2]. cbn [wf]. intros X. discriminate X.
    + cbn [wf] in W. eapply IH; [exact C | now destruct W | exact I].
  - destruct (all_some _) as [l0 |] eqn:A; [| discriminate C].
    assert (I' : In (m, c) l0 \/ (m, c) = (n, ctx)).
    { injection C as C; subst l. destruct (eps_only n); [now left |].
      destruct I as [I | I]; [right; now symmetry | now left]. }
    destruct I' as [I' | I'].
    + destruct (all_some_out _ _ A _ I') as [x [E1 E2]].
      apply in_map_iff in E1. destruct E1 as [tr [E1 It]].
      destruct (eps_target tr ctx) as [[m' c'] |] eqn:T.
      * eapply IH; [exact E1 | | exact E2]. eapply wf_eps; eassumption.
      * injection E1 as E1; subst x. destruct E2.
    + injection I' as I1 I2; subst. split; [exact W |].
      intros X. rewrite X in S. discriminate S.
Qed.

Lemma closure_good : forall b fuel n ctx l, closure b fuel n ctx = Some l -> wf b n ctx ->
  good n = true -> forall m c, In (m, c) l -> good m = true /\ stop m = false.
Proof.
  intros b. induction fuel as [| fuel IH]; intros n ctx l C W G m c I; [discriminate C |].
  cbn [closure] in C. destruct (stop n) eqn:S.
  - destruct (good_stop n S G) as [G1 G2]. destruct ctx as [| r ctx'].
    + destruct b; [exfalso; apply G1; now apply W |].
      destruct (follows (rule_of n)) as [| f0 fs] eqn:F; [congruence |].
      destruct (all_some_out _ _ C _ I) as [x [E1 E2]].
      apply in_map_iff in E1. destruct E1 as [t [E1 It]].
      eapply IH; [exact E1 | | | exact E2].
      * cbn [wf]. intros X. discriminate X.
      * apply follow_good with (rule_of n). rewrite F. exact It.
    + cbn [wf] in W. destruct W as [W1 W2].
      eapply IH; [exact C | exact W2 | | exact I]. eapply follow_good. exact W1.
  - destruct (all_some _) as [l0 |] eqn:A; [| discriminate C].
    assert (I' : In (m, c) l0 \/ (m, c) = (n, ctx)).
    { injection C as C; subst l. destruct (eps_only n); [now left |].
      destruct I as [I | I]; [right; now symmetry | now left]. }
    destruct I' as [I' | I'].
    + destruct (all_some_out _ _ A _ I') as [x [E1 E2]].
      apply in_map_iff in E1. destruct E1 as [tr [E1 It]].
      destruct (eps_target tr ctx) as [[m' c'] |] eqn:T.
      * eapply IH; [exact E1 | | | exact E2].
        -- eapply wf_eps; eassumption.
        -- eapply good_eps; eassumption.
      * injection E1 as E1; subst x. destruct E2.
    + injection I' as I1 I2; subst. split; [exact G | exact S].
Qed.

(** ** The fuel is enough *)
Definition plain_target (t : ptrans) : list Z :=
  match t with PEps m | PAct m | PPrec m _ => [m] | _ => [] end.

Definition deep_target (t : ptrans) : list Z :=
  match t with PEps m | PAct m | PPrec m _ => [m] | PCall s _ => [s] | _ => [] end.

Fixpoint ends_f (fuel : nat) (n : Z) : bool :=
  match fuel with
  | O => false
  | S f => stop n || existsb (fun t => existsb (ends_f f) (plain_target t)) (edges n)
  end.

Fixpoint rank_f (fuel : nat) (n : Z) : nat :=
  match fuel with
  | O => O
  | S f =>
    let l := if stop n then follows (rule_of n) else flat_map deep_target (edges n) in
    S (fold_right Nat.max O (map (rank_f f) l))
  end.

Definition ends_table : list bool := Eval vm_compute in map (ends_f 30) state_ids.
Definition rank_table : list nat := Eval vm_compute in map (rank_f 40) state_ids.

Definition ends (n : Z) : bool := if n <? 0 then false else nth (Z.to_nat n) ends_table false.
Definition rank (n : Z) : nat := if n <? 0 then O else nth (Z.to_nat n) rank_table O.

Lemma rank_small : forall n, (rank n < 60)%nat.
Proof.
  intros n. unfold rank. destruct (n <? 0); [lia |].
  assert (C : forallb (fun r => Nat.ltb r 60) rank_table = true) by (vm_compute; reflexivity).
  destruct (Nat.lt_ge_cases (Z.to_nat n) (List.length rank_table)) as [L | L].
  - rewrite forallb_forall in C. pose proof (C _ (nth_In _ O L)) as K.
    now apply Nat.ltb_lt in K.
  - rewrite nth_overflow by exact L. lia.
Qed.

Lemma rank_edges : forall n tr, In tr (edges n) ->
  forallb (fun m => Nat.ltb (rank m) (rank n)) (deep_target tr)
  && forallb (fun m => ends n || negb (ends m)) (plain_target tr)
  && match tr with PCall s _ => negb (ends s) | _ => true end = true.
Proof.
  apply (edge_check (fun n tr => forallb (fun m => Nat.ltb (rank m) (rank n)) (deep_target tr)
  && forallb (fun m => ends n || negb (ends m)) (plain_target tr)
  && match tr with PCall s _ => negb (ends s) | _ => true end)).
  vm_compute. reflexivity.
Qed.

Lemma rank_stop : forall n, stop n = true ->
  ends n && forallb (fun m => Nat.ltb (rank m) (rank n)) (follows (rule_of n)) = true.
Proof.
  apply (stop_check (fun n => ends n
    && forallb (fun m => Nat.ltb (rank m) (rank n)) (follows (rule_of n)))).
  vm_compute. reflexivity.
Qed.

Definition measure (n : Z) (ctx : list Z) : nat :=
  if ends n then 60 * S (List.length ctx) + rank n else rank n.

Lemma closure_total_measure : forall b fuel n ctx, (measure n ctx < fuel)%nat ->
  closure b fuel n ctx <> None.
Proof.
  intros b. induction fuel as [| fuel IH]; intros n ctx M; [lia |].
  cbn [closure]. destruct (stop n) eqn:S.
  - pose proof (rank_stop n S) as K. apply andb_true_iff in K. destruct K as [K1 K2].
    unfold measure in M. rewrite K1 in M.
    destruct ctx as [| r ctx'].
    + destruct b; [discriminate |].
      destruct (follows (rule_of n)) as [| f0 fs] eqn:F; [discriminate |].
      apply all_some_total. intros o I. apply in_map_iff in I. destruct I as [t [E It]].
      subst o. apply IH. rewrite forallb_forall in K2. pose proof (K2 t It) as L.
      apply Nat.ltb_lt in L. unfold measure. cbn [List.length] in *.
      destruct (ends t); lia.
    + apply IH. unfold measure. cbn [List.length] in M. pose proof (rank_small r).
      destruct (ends r); lia.
  - assert (A : all_some (map (fun t => match eps_target t ctx with
                                        | Some (m, c) => closure b fuel m c
                                        | None => Some []
                                        end) (edges n)) <> None).
    { apply all_some_total. intros o I. apply in_map_iff in I. destruct I as [tr [E It]].
      pose proof (rank_edges n tr It) as K.
      apply andb_true_iff in K. destruct K as [K K3]. apply andb_true_iff in K.
      destruct K as [K1 K2].
      destruct (eps_target tr ctx) as [[m c] |] eqn:T; [| subst o; discriminate].
      subst o. apply IH. unfold measure in *.
      destruct tr as [t | s f | t k | t | t rs | t p];
        cbn [eps_target deep_target plain_target forallb] in *; try discriminate T.
      - injection T as T1 T2; subst. rewrite andb_true_r in K1, K2.
        apply Nat.ltb_lt in K1. destruct (ends n), (ends m); try discriminate K2; lia.
      - injection T as T1 T2; subst. rewrite andb_true_r in K1.
        apply Nat.ltb_lt in K1. destruct (ends m); [discriminate K3 |].
        pose proof (rank_small m). destruct (ends n); lia.
      - injection T as T1 T2; subst. rewrite andb_true_r in K1, K2.
        apply Nat.ltb_lt in K1. destruct (ends n), (ends m); try discriminate K2; lia.
      - destruct (0 <=? p); [| discriminate T].
        injection T as T1 T2; subst. rewrite andb_true_r in K1, K2.
        apply Nat.ltb_lt in K1. destruct (ends n), (ends m); try discriminate K2; lia. }
    destruct (all_some _); [discriminate | congruence].
Qed.

Lemma closure_total : forall b n ctx, exists l, closure b (fuel_of ctx) n ctx = Some l.
Proof.
  intros b n ctx. destruct (closure b (fuel_of ctx) n ctx) as [l |] eqn:C; [now exists l |].
  exfalso. apply (closure_total_measure b (fuel_of ctx) n ctx); [| exact C].
  unfold measure, fuel_of. pose proof (rank_small n). destruct (ends n); lia.
Qed.
