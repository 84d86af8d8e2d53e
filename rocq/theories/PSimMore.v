(** * The prediction returns the least viable alternative: sets of configurations *)
From Verif Require Import PyBase PAtn PSpec PSim PSimFacts.
Local Open Scope Z_scope.

Definition acc (b : bool) (c : pcfg) (w : list Z) : Prop := racc b (pc_state c) (pc_ctx c) w.

(** some configuration of the set with alternative [j] reads [w] *)
Definition has (b : bool) (cs : list pcfg) (j : Z) (w : list Z) : Prop :=
  exists c, In c cs /\ pc_alt c = j /\ acc b c w.

Definition wfs (b : bool) (cs : list pcfg) : Prop :=
  forall c, In c cs -> wf b (pc_state c) (pc_ctx c).

Lemma wf_false : forall b n ctx, wf b n ctx -> wf false n ctx.
Proof. intros [] n ctx H; [now apply wf_weaken | exact H]. Qed.

Lemma zlist_eqb_eq : forall a b, zlist_eqb a b = true <-> a = b.
Proof.
  induction a as [| x a IH]; intros [| y b]; cbn [zlist_eqb]; split; intros H;
    try reflexivity; try discriminate H.
  - apply andb_true_iff in H. destruct H as [H1 H2]. apply Z.eqb_eq in H1. apply IH in H2.
    now subst.
  - injection H as H1 H2. apply andb_true_iff. split; [now apply Z.eqb_eq | now apply IH].
Qed.

Lemma prefix_app : forall a b, prefix a b = true -> exists r, b = a ++ r.
Proof.
  induction a as [| x a IH]; intros b H; [now exists b |].
  destruct b as [| y b]; [discriminate H |]. cbn [prefix] in H.
  apply andb_true_iff in H. destruct H as [H1 H2]. apply Z.eqb_eq in H1.
  destruct (IH b H2) as [r E]. exists r. now subst.
Qed.

Lemma covers_acc : forall b n a c w, covers b a c = true -> wf b n c ->
  racc b n c w -> racc b n a w.
Proof.
  intros b n a c w C W R. unfold covers in C. destruct b.
  - apply zlist_eqb_eq in C. now subst.
  - apply prefix_app in C. destruct C as [r E]. now apply (racc_forget false n c w R W a r).
Qed.

Lemma same_node_eq : forall c d, same_node c d = true ->
  pc_state c = pc_state d /\ pc_alt c = pc_alt d.
Proof.
  intros c d H. unfold same_node in H. apply andb_true_iff in H.
  now rewrite !Z.eqb_eq in H.
Qed.

Lemma add_In : forall b c cs d, In d (add b c cs) -> d = c \/ In d cs.
Proof.
  intros b c cs d H. unfold add in H. destruct (existsb _ cs); [now right |].
  apply in_app_or in H. destruct H as [H | [H | []]]; [| now left].
  apply filter_In in H. right. now destruct H.
Qed.

Lemma add_has : forall b c cs, wf b (pc_state c) (pc_ctx c) -> wfs b cs ->
  forall j w, (has b cs j w \/ (pc_alt c = j /\ acc b c w)) -> has b (add b c cs) j w.
Proof.
  intros b c cs Wc Ws j w H. unfold add.
  destruct (existsb _ cs) eqn:E.
  - destruct H as [H | [H1 H2]]; [exact H |].
    apply existsb_exists in E. destruct E as [d [I E]].
    apply andb_true_iff in E. destruct E as [E1 E2].
    apply same_node_eq in E1. destruct E1 as [E1 E3].
    exists d. split; [exact I |]. split; [now rewrite <- E3 |].
    unfold acc in *. rewrite <- E1. eapply covers_acc; eassumption.
  - destruct H as [[d [I [H1 H2]]] | [H1 H2]].
    + destruct (same_node c d && covers b (pc_ctx c) (pc_ctx d)) eqn:F.
      * apply andb_true_iff in F. destruct F as [F1 F2].
        apply same_node_eq in F1. destruct F1 as [F1 F3].
        exists c. split; [apply in_or_app; right; now left |].
        split; [now rewrite F3 |]. unfold acc in *. rewrite F1.
        eapply covers_acc; [exact F2 | now apply Ws | exact H2].
      * exists d. split; [| now split]. apply in_or_app. left. apply filter_In.
        split; [exact I | now rewrite F].
    + exists c. split; [apply in_or_app; right; now left | now split].
Qed.

Lemma add_all_In : forall b l cs d, In d (add_all b l cs) -> In d l \/ In d cs.
Proof.
  intros b. induction l as [| c l IH]; intros cs d H; [now right |].
  unfold add_all in *. cbn [fold_left] in H. apply IH in H. destruct H as [H | H].
  - left. now right.
  - apply add_In in H. destruct H as [H | H]; [left; left; now symmetry | now right].
Qed.

Lemma wfs_add : forall b c cs, wf b (pc_state c) (pc_ctx c) -> wfs b cs -> wfs b (add b c cs).
Proof.
  intros b c cs Wc Ws d H. apply add_In in H. destruct H as [H | H]; [now subst | now apply Ws].
Qed.

Lemma add_all_has : forall b l cs, wfs b l -> wfs b cs ->
  forall j w, (has b l j w \/ has b cs j w) -> has b (add_all b l cs) j w.
Proof.
  intros b. induction l as [| c l IH]; intros cs Wl Ws j w H.
  - destruct H as [[c [[] _]] | H]. exact H.
  - unfold add_all in *. cbn [fold_left].
    assert (Wc : wf b (pc_state c) (pc_ctx c)) by (apply Wl; now left).
    apply IH; [intros d I; apply Wl; now right | now apply wfs_add |].
    destruct H as [[d [[I | I] [H1 H2]]] | H].
    + right. apply add_has; [exact Wc | exact Ws |]. right. now subst d.
    + left. exists d. now split.
    + right. apply add_has; [exact Wc | exact Ws |]. now left.
Qed.

(** ** Closures of sets *)
Definition closed (c : pcfg) : Prop := eps_only (pc_state c) = false.

Lemma close_total : forall b c, exists l, close b c = Some l.
Proof.
  intros b c. unfold close. destruct (closure_total b (pc_state c) (pc_ctx c)) as [l E].
  rewrite E. cbn [option_map]. now eexists.
Qed.

Lemma close_all_total : forall b cs, exists r, close_all b cs = Some r.
Proof.
  intros b cs. unfold close_all.
  destruct (all_some (map (close b) cs)) as [l |] eqn:E; [cbn [option_map]; now eexists |].
  exfalso. revert E. apply all_some_total. intros o I. apply in_map_iff in I.
  destruct I as [c [E _]]. destruct (close_total b c) as [l El]. rewrite El in E. subst o.
  discriminate.
Qed.

Lemma close_In : forall b c l d, close b c = Some l -> In d l ->
  exists l0, closure b (fuel_of (pc_ctx c)) (pc_state c) (pc_ctx c) = Some l0
             /\ In (pc_state d, pc_ctx d) l0 /\ pc_alt d = pc_alt c.
Proof.
  intros b c l d C I. unfold close in C.
  destruct (closure b _ _ _) as [l0 |]; [| discriminate C]. cbn [option_map] in C.
  injection C as C; subst l. apply in_map_iff in I. destruct I as [[m c'] [E I]].
  subst d. cbn [pc_state pc_ctx pc_alt fst snd]. exists l0. now split.
Qed.

Lemma close_all_In : forall b cs r d, close_all b cs = Some r -> In d r ->
  exists c l0, In c cs /\ closure b (fuel_of (pc_ctx c)) (pc_state c) (pc_ctx c) = Some l0
               /\ In (pc_state d, pc_ctx d) l0 /\ pc_alt d = pc_alt c.
Proof.
  intros b cs r d C I. unfold close_all in C.
  destruct (all_some (map (close b) cs)) as [l |] eqn:E; [| discriminate C].
  cbn [option_map] in C. injection C as C; subst r.
  apply add_all_In in I. destruct I as [I | []].
  destruct (all_some_out _ _ E d I) as [x [E1 E2]].
  apply in_map_iff in E1. destruct E1 as [c [E1 Ic]].
  destruct (close_In b c x d E1 E2) as [l0 H]. exists c, l0. now split.
Qed.

Lemma closure_closed : forall b fuel n ctx l, closure b fuel n ctx = Some l ->
  forall m c, In (m, c) l -> eps_only m = false.
Proof.
  intros b. induction fuel as [| fuel IH]; intros n ctx l C m c I; [discriminate C |].
  cbn [closure] in C. destruct (stop n) eqn:S.
  - assert (E : eps_only n = false) by (unfold eps_only; now rewrite (stop_no_edges n S)).
    destruct ctx as [| r ctx'].
    + destruct b.
      * injection C as C; subst l. destruct I as [I | []]. now injection I as I1 I2; subst.
      * destruct (follows (rule_of n)) as [| f0 fs] eqn:F.
        { injection C as C; subst l. destruct I as [I | []]. now injection I as I1 I2; subst. }
        destruct (all_some_out _ _ C _ I) as [x [E1 E2]].
        apply in_map_iff in E1. destruct E1 as [t [E1 It]].
        eapply IH; eassumption.
    + eapply IH; eassumption.
  - destruct (all_some _) as [l0 |] eqn:A; [| discriminate C].
    destruct (eps_only n) eqn:E.
    + injection C as C; subst l. destruct (all_some_out _ _ A _ I) as [x [E1 E2]].
      apply in_map_iff in E1. destruct E1 as [tr [E1 It]].
      destruct (eps_target tr ctx) as [[m' c'] |] eqn:T.
      * eapply IH; eassumption.
      * injection E1 as E1; subst x. destruct E2.
    + injection C as C; subst l. destruct I as [I | I]; [now injection I as I1 I2; subst |].
      destruct (all_some_out _ _ A _ I) as [x [E1 E2]].
      apply in_map_iff in E1. destruct E1 as [tr [E1 It]].
      destruct (eps_target tr ctx) as [[m' c'] |] eqn:T.
      * eapply IH; eassumption.
      * injection E1 as E1; subst x. destruct E2.
Qed.

Record okset (b : bool) (cs : list pcfg) : Prop := {
  ok_wf : wfs b cs;
  ok_closed : forall c, In c cs -> closed c;
  ok_stop : forall c, In c cs -> stopped c = true -> pc_ctx c = [] }.

Lemma close_all_ok : forall b cs r, close_all b cs = Some r -> wfs b cs -> okset b r.
Proof.
  intros b cs r C W. split.
  - intros d I. destruct (close_all_In b cs r d C I) as [c [l0 [Ic [Hc [Hd _]]]]].
    destruct (closure_wf b _ _ _ _ Hc (W c Ic) _ _ Hd) as [K _]. exact K.
  - intros d I. destruct (close_all_In b cs r d C I) as [c [l0 [Ic [Hc [Hd _]]]]].
    eapply closure_closed; eassumption.
  - intros d I. destruct (close_all_In b cs r d C I) as [c [l0 [Ic [Hc [Hd _]]]]].
    destruct (closure_wf b _ _ _ _ Hc (W c Ic) _ _ Hd) as [_ K]. exact K.
Qed.

Definition live (cs : list pcfg) : Prop := forall c, In c cs -> stopped c = false.

Lemma close_all_live : forall b cs r, close_all b cs = Some r -> wfs b cs ->
  (forall c, In c cs -> good (pc_state c) = true) -> live r.
Proof.
  intros b cs r C W G d I. destruct (close_all_In b cs r d C I) as [c [l0 [Ic [Hc [Hd _]]]]].
  destruct (closure_good b _ _ _ _ Hc (W c Ic) (G c Ic) _ _ Hd) as [_ K]. exact K.
Qed.

Lemma close_all_has : forall b cs r j w, close_all b cs = Some r -> wfs b cs ->
  has b cs j w -> has b r j w /\ (w = [] -> exists c, In c r /\ pc_alt c = j
                                  /\ stopped c = true /\ acc b c w).
Proof.
  intros b cs r j w C W [c [I [Ej A]]].
  pose proof C as C0. unfold close_all in C.
  destruct (all_some (map (close b) cs)) as [l |] eqn:E; [| discriminate C].
  cbn [option_map] in C. injection C as C.
  destruct (all_some_in _ _ E (close b c)) as [x [Ex Ix]].
  { apply in_map_iff. now exists c. }
  assert (Wl : wfs b l).
  { intros d Id. destruct (all_some_out _ _ E d Id) as [y [E1 E2]].
    apply in_map_iff in E1. destruct E1 as [c' [E1 Ic']].
    destruct (close_In b c' y d E1 E2) as [l0 [Hc [Hd _]]].
    destruct (closure_wf b _ _ _ _ Hc (W c' Ic') _ _ Hd) as [K _]. exact K. }
  unfold close in Ex. destruct (closure b _ _ _) as [l0 |] eqn:Cl; [| discriminate Ex].
  cbn [option_map] in Ex. injection Ex as Ex.
  pose proof (closure_complete b _ _ _ A _ _ Cl) as K.
  assert (H : has b l j w).
  { destruct w as [| y w].
    - destruct K as [m [K1 [K2 K3]]]. exists (mkC m (pc_alt c) []). split.
      + apply Ix. subst x. apply in_map_iff. now exists (m, []).
      + split; [exact Ej |]. now apply R_end.
    - destruct K as [m [c' [tr [t [K1 [K2 [K3 K4]]]]]]].
      exists (mkC m (pc_alt c) c'). split.
      + apply Ix. subst x. apply in_map_iff. now exists (m, c').
      + split; [exact Ej |]. eapply R_tok; eassumption. }
  assert (H1 : has b r j w).
  { subst r. apply add_all_has; [exact Wl | intros d [] |]. now left. }
  split; [exact H1 |]. intros Ew. subst w.
  destruct H1 as [d [Id [Hj Hd]]]. exists d. split; [exact Id |]. split; [exact Hj |].
  split; [| exact Hd].
  pose proof (ok_closed b r (close_all_ok b cs r C0 W) d Id) as Cd.
  unfold closed in Cd. unfold acc in Hd. unfold stopped.
  inversion Hd; subst; try assumption.
  - assert (X : negb (is_eps tr) || eps_only (pc_state d) = true).
    { apply (edge_check (fun n tr => negb (is_eps tr) || eps_only n));
        [vm_compute; reflexivity | assumption]. }
    rewrite Cd in X. destruct tr; cbn [is_eps negb orb eps_target] in *; discriminate.
Qed.

Lemma close_all_sound : forall cs r j w, close_all true cs = Some r ->
  has true r j w -> has true cs j w.
Proof.
  intros cs r j w C [d [I [Ej A]]].
  destruct (close_all_In true cs r d C I) as [c [l0 [Ic [Hc [Hd Ha]]]]].
  exists c. split; [exact Ic |]. split; [now rewrite <- Ha |].
  eapply closure_sound; eassumption.
Qed.

(** ** Steps *)
Lemma acc_step : forall b c x w, closed c -> stopped c = false -> acc b c (x :: w) ->
  exists tr t, In tr (edges (pc_state c)) /\ tok_target tr x = Some t
               /\ racc b t (pc_ctx c) w.
Proof.
  intros b c x w C S A. unfold acc in A. unfold stopped in S. unfold closed in C.
  inversion A; subst; try congruence.
  - assert (X : negb (is_eps tr) || eps_only (pc_state c) = true).
    { apply (edge_check (fun n tr => negb (is_eps tr) || eps_only n));
        [vm_compute; reflexivity | assumption]. }
    rewrite C in X. destruct tr; cbn [is_eps negb orb eps_target] in *; discriminate.
  - exists tr, t. now repeat split.
Qed.

Definition stepped (b : bool) (cs : list pcfg) (x : Z) : list pcfg :=
  add_all b (flat_map (moves x) (filter (fun c => negb (stopped c)) cs)) [].

Lemma moves_In : forall x c d, In d (moves x c) ->
  exists tr t, In tr (edges (pc_state c)) /\ tok_target tr x = Some t
               /\ d = mkC t (pc_alt c) (pc_ctx c).
Proof.
  intros x c d H. unfold moves in H. apply in_flat_map in H. destruct H as [tr [I H]].
  destruct (tok_target tr x) as [t |] eqn:E; [| destruct H].
  destruct H as [H | []]. exists tr, t. repeat split; [exact I | exact E | now symmetry].
Qed.

Lemma step_moves : forall x cs d,
  In d (flat_map (moves x) (filter (fun c => negb (stopped c)) cs)) ->
  exists c tr t, In c cs /\ In tr (edges (pc_state c)) /\ tok_target tr x = Some t
               /\ d = mkC t (pc_alt c) (pc_ctx c).
Proof.
  intros x cs d H. apply in_flat_map in H. destruct H as [c [I H]].
  apply filter_In in I. destruct I as [I _]. apply moves_In in H.
  destruct H as [tr [t H]]. exists c, tr, t. now split.
Qed.

Lemma step_wf_moves : forall b cs x, wfs b cs ->
  wfs b (flat_map (moves x) (filter (fun c => negb (stopped c)) cs)).
Proof.
  intros b cs x W d I. apply step_moves in I. destruct I as [c [tr [t [Ic [It [T E]]]]]].
  subst d. cbn [pc_state pc_ctx]. eapply wf_rule; [eapply rule_tok; eassumption | now apply W].
Qed.

Lemma stepped_wf : forall b cs x, wfs b cs -> wfs b (stepped b cs x).
Proof.
  intros b cs x W d I. unfold stepped in I. apply add_all_In in I.
  destruct I as [I | []]. now apply (step_wf_moves b cs x W).
Qed.

Lemma stepped_good : forall b cs x, x <> -1 ->
  forall c, In c (stepped b cs x) -> good (pc_state c) = true.
Proof.
  intros b cs x X d I. unfold stepped in I. apply add_all_In in I.
  destruct I as [I | []]. apply step_moves in I.
  destruct I as [c [tr [t [Ic [It [T E]]]]]]. subst d. cbn [pc_state].
  eapply good_tok; eassumption.
Qed.

Lemma stepped_has : forall b cs x j w, okset b cs -> live cs ->
  has b cs j (x :: w) -> has b (stepped b cs x) j w.
Proof.
  intros b cs x j w K L [c [I [Ej A]]].
  destruct (acc_step b c x w (ok_closed b cs K c I) (L c I) A) as [tr [t [It [T R]]]].
  apply add_all_has; [apply step_wf_moves, (ok_wf b cs K) | intros d [] |]. left.
  exists (mkC t (pc_alt c) (pc_ctx c)). split.
  - apply in_flat_map. exists c. split.
    + apply filter_In. split; [exact I | now rewrite (L c I)].
    + unfold moves. apply in_flat_map. exists tr. split; [exact It |]. rewrite T. now left.
  - now split.
Qed.

Lemma stepped_sound : forall b cs x j w, has b (stepped b cs x) j w -> has b cs j (x :: w).
Proof.
  intros b cs x j w [d [I [Ej A]]]. unfold stepped in I. apply add_all_In in I.
  destruct I as [I | []]. apply step_moves in I.
  destruct I as [c [tr [t [Ic [It [T E]]]]]]. subst d. cbn [pc_alt pc_state pc_ctx] in *.
  exists c. split; [exact Ic |]. split; [exact Ej |]. eapply R_tok; eassumption.
Qed.

Lemma filter_none : forall {A} (f : A -> bool) l, (forall x, In x l -> f x = false) ->
  filter f l = [].
Proof.
  intros A f. induction l as [| x l IH]; intros H; [reflexivity |]. cbn [filter].
  rewrite (H x (or_introl eq_refl)). apply IH. intros y I. apply H. now right.
Qed.

Lemma existsb_none : forall {A} (f : A -> bool) l, (forall x, In x l -> f x = false) ->
  existsb f l = false.
Proof.
  intros A f. induction l as [| x l IH]; intros H; [reflexivity |]. cbn [existsb].
  rewrite (H x (or_introl eq_refl)). apply IH. intros y I. apply H. now right.
Qed.

Lemma reach_total : forall b cs x, exists r, reach b cs x = Some r.
Proof.
  intros b cs x. unfold reach.
  match goal with |- context [if ?d then Some ?i else close_all b ?i] => destruct d end.
  - now eexists.
  - match goal with |- context [close_all b ?i] => destruct (close_all_total b i) as [r E] end.
    rewrite E. now eexists.
Qed.

(** ** A symbol that is not the end of the input *)
Lemma reach_step : forall b cs x r, x <> -1 -> okset b cs -> live cs ->
  reach b cs x = Some r ->
  (forall j w, has b cs j (x :: w) -> has b r j w)
  /\ (b = true -> forall j w, has b r j w -> has b cs j (x :: w))
  /\ (unique_alt r = None -> okset b r /\ live r).
Proof.
  intros b cs x r X K L H. unfold reach in H.
  assert (X' : (x =? -1) = false) by now apply Z.eqb_neq.
  rewrite X' in H. rewrite orb_false_r in H. cbn [negb] in H.
  assert (Sk : (if b then filter stopped cs else []) = []).
  { destruct b; [| reflexivity]. now apply filter_none. }
  rewrite Sk in H. cbn [add_all fold_left] in H.
  change (add_all b (flat_map (moves x) (filter (fun c => negb (stopped c)) cs)) [])
    with (stepped b cs x) in H.
  pose proof (stepped_wf b cs x (ok_wf b cs K)) as W.
  destruct (unique_alt (stepped b cs x)) as [m |] eqn:U.
  - assert (E : r = stepped b cs x).
    { destruct (negb b || negb (existsb stopped (stepped b cs x)));
        injection H as H; now symmetry. }
    subst r. split; [| split].
    + intros j w. now apply stepped_has.
    + intros _ j w. apply stepped_sound.
    + intros E. rewrite U in E. discriminate E.
  - destruct (close_all b (stepped b cs x)) as [r0 |] eqn:C; [| discriminate H].
    assert (E : r = r0).
    { destruct (negb b || negb (existsb stopped r0)); injection H as H; now symmetry. }
    subst r0. split; [| split].
    + intros j w A. eapply close_all_has; [exact C | exact W |]. now apply stepped_has.
    + intros -> j w A. apply (stepped_sound true). eapply close_all_sound; eassumption.
    + intros _. split; [eapply close_all_ok; eassumption |].
      eapply close_all_live; [exact C | exact W |]. now apply stepped_good.
Qed.

(** ** The end of the input *)
Lemma reach_eof : forall b cs r, okset b cs -> live cs ->
  reach b cs (-1) = Some r ->
  (forall j, has b cs j [-1] -> has b r j [])
  /\ (b = true -> forall j, has b r j [] -> has b cs j [-1])
  /\ (forall c, In c r -> stopped c = true /\ pc_ctx c = [])
  /\ wfs b r.
Proof.
  intros b cs r K L H. unfold reach in H.
  change (-1 =? -1) with true in H. rewrite orb_true_r in H. cbn [negb] in H.
  rewrite (filter_none stopped cs L) in H.
  change (add_all b (flat_map (moves (-1)) (filter (fun c => negb (stopped c)) cs)) [])
    with (stepped b cs (-1)) in H.
  assert (D : (match unique_alt (stepped b cs (-1)) with Some _ => false | None => false end)
              = false) by (destruct (unique_alt _); reflexivity).
  rewrite D in H. clear D.
  pose proof (stepped_wf b cs (-1) (ok_wf b cs K)) as W.
  destruct (close_all b (stepped b cs (-1))) as [r0 |] eqn:C; [| discriminate H].
  assert (E : r = filter stopped r0).
  { cbn [add_all fold_left] in H.
    destruct (negb b || negb (existsb stopped (filter stopped r0)));
      injection H as H; now symmetry. }
  subst r. pose proof (close_all_ok b _ _ C W) as K0. split; [| split; [| split]].
  - intros j A. apply (stepped_has b cs (-1) j [] K L) in A.
    destruct (close_all_has b _ _ j [] C W A) as [_ A1].
    destruct (A1 eq_refl) as [c [I [Ej [S Ac]]]].
    exists c. split; [apply filter_In; now split | now split].
  - intros -> j [c [I [Ej Ac]]]. apply filter_In in I. destruct I as [I _].
    apply (stepped_sound true). eapply close_all_sound; [exact C |]. exists c. now split.
  - intros c I. apply filter_In in I. destruct I as [I S]. split; [exact S |].
    now apply (ok_stop b r0 K0 c I).
  - intros c I. apply filter_In in I. destruct I as [I S]. now apply (ok_wf b r0 K0).
Qed.

(** ** Unique alternatives *)
Lemma unique_alt_all : forall cs m, unique_alt cs = Some m ->
  forall c, In c cs -> pc_alt c = m.
Proof.
  intros [| c0 cs] m H c I; [destruct I |]. cbn [unique_alt] in H.
  destruct (forallb _ cs) eqn:E; [| discriminate H]. injection H as H; subst m.
  destruct I as [I | I]; [now subst |].
  rewrite forallb_forall in E. pose proof (E c I) as E1. now apply Z.eqb_eq in E1.
Qed.

Lemma unique_alt_has : forall b cs m j w, unique_alt cs = Some m -> has b cs j w -> j = m.
Proof.
  intros b cs m j w U [c [I [Ej _]]]. rewrite <- Ej. now apply (unique_alt_all cs m U).
Qed.

(** ** Groups of configurations *)
Lemma least_le : forall l x, least l x <= x /\ (forall y, In y l -> least l x <= y)
  /\ (least l x = x \/ In (least l x) l).
Proof.
  induction l as [| a l IH]; intros x; cbn [least fold_right].
  - split; [lia |]. split; [intros y [] | now left].
  - change (fold_right Z.min x l) with (least l x).
    destruct (IH x) as [I1 [I2 I3]]. split; [lia |]. split.
    + intros y [H | H]; [lia |]. pose proof (I2 y H). lia.
    + destruct (Z.min_spec a (least l x)) as [[M E] | [M E]]; rewrite E.
      * right. now left.
      * destruct I3 as [I3 | I3]; [now left | right; now right].
Qed.

Lemma sub_stacks_In : forall a b x, sub_stacks a b = true -> In x a -> In x b.
Proof.
  intros a b x H I. unfold sub_stacks in H. rewrite forallb_forall in H.
  pose proof (H x I) as E. apply existsb_exists in E. destruct E as [y [Iy E]].
  apply zlist_eqb_eq in E. now subst.
Qed.

Lemma stacks_In : forall cs n i x, In x (stacks cs n i) <->
  exists c, In c cs /\ pc_state c = n /\ pc_alt c = i /\ pc_ctx c = x.
Proof.
  intros cs n i x. unfold stacks. rewrite in_map_iff. split.
  - intros [c [E I]]. apply filter_In in I. destruct I as [I F].
    apply andb_true_iff in F. rewrite !Z.eqb_eq in F. exists c. tauto.
  - intros [c [I [E1 [E2 E3]]]]. exists c. split; [exact E3 |]. apply filter_In.
    split; [exact I |]. apply andb_true_iff. now rewrite !Z.eqb_eq.
Qed.

Lemma single_viable_least : forall b cs m w, single_viable cs = Some m ->
  forall j, has b cs j w -> m <= j /\ has b cs m w.
Proof.
  intros b cs m w H j [c [I [Ej A]]]. unfold single_viable in H.
  assert (E : least (alt_subset cs c) (pc_alt c) = m).
  { assert (In (least (alt_subset cs c) (pc_alt c))
              (map (fun c => least (alt_subset cs c) (pc_alt c)) cs)).
    { apply in_map_iff. now exists c. }
    destruct (map _ cs) as [| m0 ms]; [discriminate H |].
    destruct (forallb (Z.eqb m0) ms) eqn:F; [| discriminate H]. injection H as H; subst m0.
    destruct H0 as [H0 | H0]; [now symmetry |].
    rewrite forallb_forall in F. pose proof (F _ H0) as F1. apply Z.eqb_eq in F1. now symmetry. }
  destruct (least_le (alt_subset cs c) (pc_alt c)) as [L1 [_ L3]]. rewrite E in *.
  split; [lia |]. destruct L3 as [L3 | L3].
  - exists c. split; [exact I |]. split; [now symmetry | exact A].
  - unfold alt_subset in L3. apply in_map_iff in L3. destruct L3 as [d [Ed Id]].
    apply filter_In in Id. destruct Id as [Id F]. apply andb_true_iff in F.
    destruct F as [F1 F2]. apply Z.eqb_eq in F1.
    unfold same_context in F2. apply andb_true_iff in F2. destruct F2 as [_ F2].
    assert (S : In (pc_ctx c) (stacks cs (pc_state c) (pc_alt d))).
    { eapply sub_stacks_In; [exact F2 |]. apply stacks_In. now exists c. }
    apply stacks_In in S. destruct S as [e [Ie [S1 [S2 S3]]]].
    exists e. split; [exact Ie |]. split; [congruence |]. unfold acc in *. now rewrite S1, S3.
Qed.

Lemma single_viable_stopped : forall cs, cs <> [] ->
  (forall c, In c cs -> pc_state c = 1 /\ pc_ctx c = []) -> single_viable cs <> None.
Proof.
  intros cs N H.
  assert (Sub : forall c, In c cs -> alt_subset cs c = map pc_alt cs).
  { intros c I. unfold alt_subset. f_equal.
    assert (F : forall l, incl l cs -> filter (fun d => (pc_state d =? pc_state c)
              && same_context cs (pc_state c) (pc_alt d) (pc_alt c)) l = l).
    { induction l as [| d l IH]; intros Il; [reflexivity |]. cbn [filter].
      destruct (H c I) as [Hc1 Hc2].
      assert (Id : In d cs) by (apply Il; now left).
      destruct (H d Id) as [Hd1 Hd2].
      assert (E : (pc_state d =? pc_state c)
                  && same_context cs (pc_state c) (pc_alt d) (pc_alt c) = true).
      { apply andb_true_iff. split; [apply Z.eqb_eq; congruence |].
        unfold same_context, sub_stacks. apply andb_true_iff.
        split; apply forallb_forall; intros x Ix; apply stacks_In in Ix;
          destruct Ix as [e [Ie [_ [_ E3]]]]; destruct (H e Ie) as [_ He];
          rewrite He in E3; subst x; apply existsb_exists; exists []; 
          (split; [apply stacks_In | reflexivity]).
        - exists c. repeat split; assumption.
        - exists d. repeat split; [assumption | congruence | assumption]. }
      rewrite E. f_equal. apply IH. intros y Iy. apply Il. now right. }
    apply F. intros x Ix. exact Ix. }
  assert (L : forall l x y, In x l -> In y l -> least l x = least l y).
  { intros l x y Ix Iy. destruct (least_le l x) as [A1 [A2 A3]].
    destruct (least_le l y) as [B1 [B2 B3]].
    assert (In (least l x) l) by (destruct A3 as [A3 | A3]; [now rewrite A3 | exact A3]).
    assert (In (least l y) l) by (destruct B3 as [B3 | B3]; [now rewrite B3 | exact B3]).
    pose proof (A2 _ H1). pose proof (B2 _ H0). lia. }
  unfold single_viable. destruct cs as [| c0 cs0]; [congruence |]. cbn [map].
  assert (F : forallb (Z.eqb (least (alt_subset (c0 :: cs0) c0) (pc_alt c0)))
    (map (fun c => least (alt_subset (c0 :: cs0) c) (pc_alt c)) cs0) = true).
  { apply forallb_forall. intros x Ix. apply in_map_iff in Ix. destruct Ix as [c [E I]].
    subst x. apply Z.eqb_eq.
    rewrite (Sub c0 (or_introl eq_refl)), (Sub c (or_intror I)).
    apply L; apply in_map; [now left | now right]. }
  rewrite F. discriminate.
Qed.

(** ** Runs of the prediction *)
Definition ended (w : list Z) : Prop := exists u, w = u ++ [-1] /\ ~ In (-1) u.

Lemma ended_cons : forall x w, ended (x :: w) ->
  (x = -1 /\ w = []) \/ (x <> -1 /\ ended w).
Proof.
  intros x w [u [E N]]. destruct u as [| y u].
  - cbn [app] in E. injection E as E1 E2. now left.
  - cbn [app] in E. injection E as E1 E2. subst y. right. split.
    + intros X. apply N. now left.
    + exists u. split; [exact E2 |]. intros X. apply N. now right.
Qed.

Lemma has_not_nil : forall b cs j w, has b cs j w -> cs <> [].
Proof. intros b cs j w [c [I _]] E. subst. destruct I. Qed.

Lemma exec_full_least : forall pick w cs j0, ended w -> okset true cs -> live cs ->
  has true cs j0 w ->
  exists m, exec_full pick cs w = Some m /\ has true cs m w
            /\ forall j, has true cs j w -> m <= j.
Proof.
  intros pick. induction w as [| x w IH]; intros cs j0 E K L H.
  - destruct E as [u [E _]]. destruct u; discriminate E.
  - cbn [exec_full]. destruct (reach_total true cs x) as [r R]. rewrite R.
    destruct (ended_cons x w E) as [[X W] | [X W]].
    + subst x w. destruct (reach_eof true cs r K L R) as [A [B [C D]]].
      pose proof (A j0 H) as H'. pose proof (has_not_nil _ _ _ _ H') as N.
      destruct r as [| c0 r0] eqn:Er; [congruence |]. rewrite <- Er in *. clear Er c0 r0.
      destruct (unique_alt r) as [m |] eqn:U.
      * exists m. split; [reflexivity |].
        pose proof (unique_alt_has true r m j0 [] U H'). subst j0. split; [exact H |].
        intros j Hj. pose proof (unique_alt_has true r m j [] U (A j Hj)). lia.
      * destruct (single_viable r) as [m |] eqn:V.
        -- exists m. split; [reflexivity |].
           destruct (single_viable_least true r m [] V j0 H') as [_ Hm].
           split; [now apply B |].
           intros j Hj. now destruct (single_viable_least true r m [] V j (A j Hj)).
        -- exfalso. revert V. apply single_viable_stopped; [exact N |].
           intros c I. destruct (C c I) as [C1 C2]. split; [| exact C2].
           pose proof (D c I) as D1. rewrite C2 in D1. cbn [wf] in D1.
           apply stop_rule_zero; [exact C1 | now apply D1].
    + destruct (reach_step true cs x r X K L R) as [A [B C]].
      pose proof (A j0 w H) as H'. pose proof (has_not_nil _ _ _ _ H') as N.
      destruct r as [| c0 r0] eqn:Er; [congruence |]. rewrite <- Er in *. clear Er c0 r0.
      destruct (unique_alt r) as [m |] eqn:U.
      * exists m. split; [reflexivity |].
        pose proof (unique_alt_has true r m j0 w U H'). subst j0. split; [exact H |].
        intros j Hj. pose proof (unique_alt_has true r m j w U (A j w Hj)). lia.
      * destruct (single_viable r) as [m |] eqn:V.
        -- exists m. split; [reflexivity |].
           destruct (single_viable_least true r m w V j0 H') as [_ Hm].
           split; [now apply B |].
           intros j Hj. now destruct (single_viable_least true r m w V j (A j w Hj)).
        -- destruct (C eq_refl) as [K' L'].
           destruct (IH r j0 W K' L' H') as [m [E1 [E2 E3]]].
           exists m. split; [exact E1 |]. split; [now apply B |].
           intros j Hj. apply E3. now apply A.
Qed.

Lemma exec_sll_or : forall pick again w cs j0, ended w -> okset false cs -> live cs ->
  has false cs j0 w ->
  exec_sll pick again cs w = again
  \/ exists m, exec_sll pick again cs w = Some m /\ forall j, has false cs j w -> j = m.
Proof.
  intros pick again. induction w as [| x w IH]; intros cs j0 E K L H.
  - destruct E as [u [E _]]. destruct u; discriminate E.
  - cbn [exec_sll]. destruct (reach_total false cs x) as [r R]. rewrite R.
    destruct (ended_cons x w E) as [[X W] | [X W]].
    + subst x w. destruct (reach_eof false cs r K L R) as [A [_ [C D]]].
      pose proof (A j0 H) as H'. pose proof (has_not_nil _ _ _ _ H') as N.
      destruct r as [| c0 r0] eqn:Er; [congruence |]. rewrite <- Er in *. clear Er c0 r0.
      destruct (unique_alt r) as [m |] eqn:U.
      * right. exists m. split; [reflexivity |].
        intros j Hj. exact (unique_alt_has false r m j [] U (A j Hj)).
      * left. unfold sll_conflict.
        assert (F : forallb stopped r = true).
        { apply forallb_forall. intros c I. now destruct (C c I). }
        now rewrite F.
    + destruct (reach_step false cs x r X K L R) as [A [_ C]].
      pose proof (A j0 w H) as H'. pose proof (has_not_nil _ _ _ _ H') as N.
      destruct r as [| c0 r0] eqn:Er; [congruence |]. rewrite <- Er in *. clear Er c0 r0.
      destruct (unique_alt r) as [m |] eqn:U.
      * right. exists m. split; [reflexivity |].
        intros j Hj. exact (unique_alt_has false r m j w U (A j w Hj)).
      * destruct (sll_conflict r); [now left |].
        destruct (C eq_refl) as [K' L'].
        destruct (IH r j0 W K' L' H') as [E1 | [m [E1 E2]]]; [now left |].
        right. exists m. split; [exact E1 |]. intros j Hj. apply E2. now apply A.
Qed.

(** ** The start *)
Lemma numbered_In : forall ts i ctx c, In c (numbered i ts ctx) <->
  exists k t, nth_error ts k = Some (PEps t) /\ c = mkC t (i + Z.of_nat k) ctx.
Proof.
  induction ts as [| tr ts IH]; intros i ctx c.
  - cbn [numbered]. split; [intros [] | intros [k [t [H _]]]; destruct k; discriminate H].
  - assert (T : In c (numbered (i + 1) ts ctx) <->
      exists k t, nth_error (tr :: ts) (S k) = Some (PEps t)
                  /\ c = mkC t (i + Z.of_nat (S k)) ctx).
    { rewrite IH. cbn [nth_error]. split; intros [k [t [H1 H2]]]; exists k, t;
        (split; [exact H1 |]); rewrite H2; f_equal; lia. }
    assert (Q : forall P : nat -> Prop, (exists k, P k) <-> P O \/ exists k, P (S k)).
    { intros P. split.
      - intros [[| k] H]; [now left | right; now exists k].
      - intros [H | [k H]]; [now exists O | now exists (S k)]. }
    rewrite Q, <- T. cbn [nth_error].
    destruct tr as [n | s f | n k | n | n rs | n p]; cbn [numbered In];
      try (split; [intros H; now right | intros [[t [H _]] | H]; [discriminate H | exact H]]).
    split.
    + intros [H | H]; [| now right]. left. exists n. split; [reflexivity |].
      rewrite <- H. f_equal. lia.
    + intros [[t [H1 H2]] | H]; [| now right]. left. injection H1 as H1; subst.
      f_equal. lia.
Qed.

Lemma viable_has : forall d j st w, viable d j st w <->
  has true (numbered 1 (edges (decision_state d)) st) j w.
Proof.
  intros d j st w. split.
  - intros [t [P [N A]]]. exists (mkC t j st). split; [| split; [reflexivity |]].
    + apply numbered_In. exists (Z.to_nat (j - 1)), t. split; [exact N |]. f_equal. lia.
    + now apply accepts_racc.
  - intros [c [I [Ej A]]]. apply numbered_In in I. destruct I as [k [t [N E]]]. subst c.
    cbn [pc_alt] in Ej. exists t. split; [lia |]. split.
    + rewrite <- N. f_equal. lia.
    + now apply accepts_racc.
Qed.

Definition decisions : list Z := [5; 7; 8; 9; 23].

Lemma start_wf : forall b d st, wf b (decision_state d) st ->
  wfs b (numbered 1 (edges (decision_state d)) st).
Proof.
  intros b d st W c I. apply numbered_In in I. destruct I as [k [t [N E]]]. subst c.
  cbn [pc_state pc_ctx]. apply nth_error_In in N.
  apply (wf_eps b (decision_state d) (PEps t) st t st N eq_refl W).
Qed.

Lemma start_good : forall d st, In d decisions ->
  forall c, In c (numbered 1 (edges (decision_state d)) st) -> good (pc_state c) = true.
Proof.
  intros d st D c I. apply numbered_In in I. destruct I as [k [t [N E]]]. subst c.
  cbn [pc_state]. apply nth_error_In in N.
  apply (good_eps (decision_state d) (PEps t) st t st N eq_refl).
  assert (G : forallb (fun d => good (decision_state d)) decisions = true)
    by (vm_compute; reflexivity).
  rewrite forallb_forall in G. now apply G.
Qed.

Lemma filter_keeps_all : forall d cs, In d decisions -> start_set false d [] = Some cs ->
  (if precedence_decision d then precedence_filter cs else cs) = cs.
Proof.
  intros d cs D. unfold decisions in D. cbn [In] in D.
  destruct D as [D | [D | [D | [D | [D | []]]]]]; subst d; vm_compute; intros H;
    injection H as H; subst cs; reflexivity.
Qed.

Theorem predict_least : forall pick d st w, In d decisions ->
  wf true (decision_state d) st -> ended w -> (exists j, viable d j st w) ->
  exists m, predict pick d st w = Some m /\ least_viable d st w m.
Proof.
  intros pick d st w D W E [j0 V]. unfold predict.
  destruct (start_set false d []) as [cs |] eqn:S.
  2:{ exfalso. unfold start_set in S.
      destruct (close_all_total false (numbered 1 (edges (decision_state d)) [])) as [r R].
      congruence. }
  cbv zeta. rewrite (filter_keeps_all d cs D S).
  pose proof (start_wf true d st W) as Wt.
  assert (Wf : wfs false (numbered 1 (edges (decision_state d)) [])).
  { apply start_wf. cbn [wf]. intros X. discriminate X. }
  destruct (start_set true d st) as [fs |] eqn:F.
  2:{ exfalso. unfold start_set in F.
      destruct (close_all_total true (numbered 1 (edges (decision_state d)) st)) as [r R].
      congruence. }
  unfold start_set in S, F.
  assert (Vf : forall j, viable d j st w <-> has true fs j w).
  { intros j. rewrite viable_has. split; intros H.
    - now apply (close_all_has true _ _ j w F Wt).
    - now apply (close_all_sound _ _ j w F). }
  assert (Vs : forall j, viable d j st w -> has false cs j w).
  { intros j H. apply (close_all_has false _ _ j w S Wf).
    apply viable_has in H. destruct H as [c [I [Ej A]]].
    apply numbered_In in I. destruct I as [k [t [N Ec]]]. subst c.
    cbn [pc_alt] in Ej. unfold acc in A. cbn [pc_state pc_ctx] in A.
    exists (mkC t j []). split; [| split; [reflexivity |]].
    - apply numbered_In. exists k, t. split; [exact N | now rewrite Ej].
    - unfold acc. cbn [pc_state pc_ctx].
      apply (racc_forget true t st w A) with (r := st); [| reflexivity].
      apply nth_error_In in N. apply wf_weaken.
      apply (wf_eps true (decision_state d) (PEps t) st t st N eq_refl W). }
  assert (Lf : live fs) by (eapply close_all_live; [exact F | exact Wt | now apply start_good]).
  assert (Ls : live cs) by (eapply close_all_live; [exact S | exact Wf | now apply start_good]).
  destruct (exec_full_least pick w fs j0 E (close_all_ok true _ _ F Wt) Lf
              (proj1 (Vf j0) V)) as [m [M1 [M2 M3]]].
  destruct (exec_sll_or pick (exec_full pick fs w) w cs j0 E (close_all_ok false _ _ S Wf) Ls
              (Vs j0 V)) as [R | [m' [R1 R2]]].
  - exists m. split; [now rewrite R |]. split; [now apply Vf |].
    intros j Hj. apply M3. now apply Vf.
  - exists m'. split; [exact R1 |]. pose proof (R2 j0 (Vs j0 V)). subst m'.
    split; [exact V |]. intros j Hj. pose proof (R2 j (Vs j Hj)). lia.
Qed.
