(** * Completeness of the parser, and existence and uniqueness of the preferred tree. *)
From Verif Require Import PyBase Regex RegexFacts Lexer Parser GrammarSpec ParserFacts.

(** ** Fuel: any fuel from twice the number of tokens on gives the same successes. *)
Lemma power_shorter f ts t r : p_power f ts = Some (t, r) -> List.length r < List.length ts.
Proof.
  intro H. destruct (sound f) as (_ & _ & S). apply S in H as (c & -> & _ & _ & N & _).
  rewrite app_length. destruct c; [contradiction|simpl; lia].
Qed.

Lemma span_ws_shorter ts w r : span_ws ts = (w, r) -> List.length r <= List.length ts.
Proof. intro H. apply span_ws_ok in H as [-> _]. rewrite app_length. lia. Qed.

Lemma fuel_enough f :
  (forall ts x g, p_shift f ts = Some x -> 2 * List.length ts + 1 <= g -> p_shift g ts = Some x) /\
  (forall acc ts x g, p_loop f acc ts = Some x -> 2 * List.length ts + 1 <= g ->
     p_loop g acc ts = Some x) /\
  (forall ts x g, p_power f ts = Some x -> 2 * List.length ts <= g -> p_power g ts = Some x).
Proof.
  induction f as [|f (IHs & IHl & IHp)]; [repeat split; discriminate|].
  split; [|split].
  - intros ts x g H Hg. destruct g as [|g]; [lia|]. cbn [p_shift] in *.
    destruct (p_power f ts) as [[pw r]|] eqn:E1; [|discriminate].
    pose proof (power_shorter _ _ _ _ E1).
    apply IHp with (g := g) in E1; [|lia]. rewrite E1.
    destruct (p_loop f (PNode Product [pw]) r) as [[prod r2]|] eqn:E2; [|discriminate].
    apply IHl with (g := g) in E2; [|lia]. now rewrite E2.
  - intros acc ts x g H Hg. destruct g as [|g]; [lia|]. cbn [p_loop] in *.
    destruct (starts_power ts).
    + destruct (p_power f ts) as [[pw r]|] eqn:E1; [|discriminate].
      pose proof (power_shorter _ _ _ _ E1).
      apply IHp with (g := g) in E1; [|lia]. rewrite E1. apply IHl; auto; lia.
    + destruct ts as [|t0 ts]; auto. simpl in Hg.
      destruct (is_kind MULTIPLY t0 || is_kind DIVIDE t0).
      * destruct (p_power f ts) as [[pw r]|] eqn:E1; [|discriminate].
        pose proof (power_shorter _ _ _ _ E1).
        apply IHp with (g := g) in E1; [|lia]. rewrite E1. apply IHl; auto; lia.
      * destruct (is_kind WS t0); auto.
        destruct (span_ws (t0 :: ts)) as [ws r'] eqn:Es.
        pose proof (span_ws_shorter _ _ _ Es) as Hs. simpl in Hs.
        destruct (starts_power r'); auto.
        destruct (p_power f r') as [[pw r]|] eqn:E1; [|discriminate].
        pose proof (power_shorter _ _ _ _ E1).
        apply IHp with (g := g) in E1; [|lia]. rewrite E1. apply IHl; auto; lia.
  - intros ts x g H Hg. destruct ts as [|t0 ts]; [discriminate|].
    simpl in Hg. destruct g as [|g]; [lia|]. cbn [p_power] in *.
    destruct (is_kind LOG t0).
    + destruct (p_shift f ts) as [[sh r]|] eqn:E1; [|discriminate].
      apply IHs with (g := g) in E1; [|lia]. now rewrite E1.
    + destruct (is_kind OPEN_PAREN t0); auto.
      destruct (p_shift f ts) as [[sh r]|] eqn:E1; [|discriminate].
      apply IHs with (g := g) in E1; [|lia]. now rewrite E1.
Qed.

(** ** Completeness for preferred derivations *)
Lemma follow_ok_exp pw r t r' : r = t :: r' -> has_exponent pw = true ->
  ~ kinded RAISE t -> ~ kinded UNICODE_EXPONENT t -> follow_ok pw r.
Proof. intros -> H1 H2 H3. simpl. repeat split; auto. congruence. Qed.

Lemma power_starts c t : derives Power c t -> exists x c', c = x :: c' /\
  forall r, starts_power (x :: r) = true.
Proof.
  assert (B : forall ts b, derives Basic_spec ts b -> exists x c', ts = x :: c' /\
     forall r, starts_power (x :: r) = true).
  { intros ts b H. inversion H; subst.
    - exists i, []. split; auto. intro r. simpl. kinds.
    - eexists _, _. split; [reflexivity|]. intro r. simpl. kinds.
    - inversion H0; subst.
      + inversion H1; subst. exists i0, []. split; auto. intro r. simpl. kinds.
      + exists f, []. split; auto. intro r. simpl. kinds. }
  assert (L : forall ts b, derives Logarithm_r ts b -> exists x c', ts = x :: c' /\
     forall r, starts_power (x :: r) = true).
  { intros ts b H. inversion H; subst; eauto.
    eexists _, _. split; [reflexivity|]. intro r. simpl. kinds. }
  intro H. inversion H; subst;
    match goal with D : derives Logarithm_r _ _ |- _ => apply L in D as (x & c' & -> & Hx) end;
    eexists _, _; (split; [reflexivity|]); auto.
Qed.

Lemma starts_not_raise x r : starts_power (x :: r) = true ->
  ~ kinded RAISE x /\ ~ kinded UNICODE_EXPONENT x /\ ~ kinded WS x /\ ~ kinded MULTIPLY x /\ ~ kinded DIVIDE x.
Proof. intro H. apply starts_power_head in H. repeat split; kinds. Qed.


Lemma preferred_inv r cs : preferred (PNode r cs) -> local_ok r cs /\ Forall preferred cs.
Proof. apply preferred_node. Qed.

(** what may follow a whole product: the end, or the shift operator *)
Definition product_end (r : list token) : Prop :=
  at_end r = true \/
  exists w op r', r = w ++ op :: r' /\ opt_space w /\ kinded SHIFT_OP op.

Lemma loop_end f acc r : product_end r -> p_loop (S f) acc r = Some (acc, r).
Proof.
  intros [H|(w & op & r' & -> & Hw & Ho)]; cbn [p_loop].
  - destruct r as [|t r]; auto. simpl in H. apply is_kind_true in H.
    assert (starts_power (t :: r) = false) as -> by (simpl; kinds).
    assert (is_kind MULTIPLY t || is_kind DIVIDE t = false) as -> by kinds.
    assert (is_kind WS t = false) as -> by kinds. reflexivity.
  - destruct Hw as [|w Hw]; cbn [app].
    + assert (starts_power (op :: r') = false) as -> by (simpl; kinds).
      assert (is_kind MULTIPLY op || is_kind DIVIDE op = false) as -> by kinds.
      assert (is_kind WS op = false) as -> by kinds. reflexivity.
    + assert (starts_power (w :: op :: r') = false) as -> by (simpl; kinds).
      assert (is_kind MULTIPLY w || is_kind DIVIDE w = false) as -> by kinds.
      cbn [span_ws].
      assert (is_kind WS w = true) as -> by kinds.
      assert (is_kind WS op = false) as -> by kinds.
      assert (starts_power (op :: r') = false) as -> by (simpl; kinds). reflexivity.
Qed.

Lemma product_end_follow pw r : product_end r -> follow_ok pw r.
Proof.
  intros [H|(w & op & r' & -> & Hw & Ho)].
  - destruct r as [|t r]; simpl; auto. simpl in H. apply is_kind_true in H.
    repeat split; kinds.
  - destruct Hw as [|w Hw]; simpl; repeat split; kinds.
Qed.

Lemma opt_ws_complete w x r : opt_space w -> ~ kinded WS x -> opt_ws (w ++ x :: r) = (w, x :: r).
Proof.
  intros [|y Hy] Hx; simpl.
  - apply is_kind_false in Hx. now rewrite Hx.
  - apply is_kind_true in Hy. now rewrite Hy.
Qed.

Lemma span_ws_complete w x r : Forall (kinded WS) w -> ~ kinded WS x ->
  span_ws (w ++ x :: r) = (w, x :: r).
Proof.
  intros H Hx. induction H as [|y w Hy Hw IH]; simpl.
  - apply is_kind_false in Hx. now rewrite Hx.
  - apply is_kind_true in Hy. rewrite Hy, IH. reflexivity.
Qed.

Lemma span_to_end_complete b r : Forall ts_kind b -> at_end r = true ->
  span_to_end (b ++ r) = (b, r).
Proof.
  intros H He. induction H as [|y b [Hy _] Hb IH]; simpl.
  - destruct r as [|t r]; simpl in *; auto. now rewrite He.
  - apply is_kind_false in Hy. rewrite Hy, IH. reflexivity.
Qed.

Lemma shift_tail_plain prod r : at_end r = true ->
  p_shift_tail prod r = Some (PNode Shift_spec [prod], r).
Proof.
  intro H. unfold p_shift_tail. destruct r as [|t r]; auto. simpl in H. simpl.
  apply is_kind_true in H.
  assert (is_kind WS t = false) as -> by kinds.
  assert (is_kind SHIFT_OP t = false) as -> by kinds. reflexivity.
Qed.

Lemma shift_tail_number prod w1 op w2 ns n r :
  opt_space w1 -> kinded SHIFT_OP op -> opt_space w2 -> derives Number_r ns n ->
  at_end r = true ->
  p_shift_tail prod ((w1 ++ op :: w2 ++ ns) ++ r)
  = Some (PNode Shift_spec ((prod :: map PLeaf w1 ++ PLeaf op :: map PLeaf w2) ++ [n]), r).
Proof.
  intros H1 Ho H2 D He. unfold p_shift_tail.
  rewrite <- app_assoc. cbn [app]. rewrite <- app_assoc.
  rewrite (opt_ws_complete w1 op) by (auto; kinds).
  assert (is_kind SHIFT_OP op = true) as -> by kinds.
  destruct (derives_number_inv _ _ D) as (i & -> & Hn).
  assert (~ kinded WS i).
  { specialize (Hn []). unfold p_number in Hn. destruct (is_integer i) eqn:E.
    - apply is_integer_true in E. kinds.
    - destruct (is_kind FLOAT i) eqn:E2; [|discriminate]. apply is_kind_true in E2. clear E. kinds. }
  cbn [app]. rewrite (opt_ws_complete w2 i) by auto. rewrite Hn, He. reflexivity.
Qed.

Lemma shift_tail_timestamp prod w1 op w2 ns r :
  opt_space w1 -> kinded SHIFT_OP op -> opt_space w2 -> timestamp ns ->
  (forall t, ns = [t] -> ~ integer_token t) -> at_end r = true ->
  p_shift_tail prod ((w1 ++ op :: w2 ++ ns) ++ r)
  = Some (PNode Shift_spec ((prod :: map PLeaf w1 ++ PLeaf op :: map PLeaf w2)
            ++ [PNode Timestamp_r (map PLeaf ns)]), r).
Proof.
  intros H1 Ho H2 Ht Hni He. unfold p_shift_tail.
  rewrite <- app_assoc. cbn [app]. rewrite <- app_assoc.
  rewrite (opt_ws_complete w1 op) by (auto; kinds).
  assert (is_kind SHIFT_OP op = true) as -> by kinds.
  destruct (timestamp_head _ Ht) as (t & b & -> & Hw & Hk).
  cbn [app]. rewrite (opt_ws_complete w2 t) by auto.
  change (t :: b ++ r) with ((t :: b) ++ r).
  rewrite span_to_end_complete by (auto; now apply timestamp_kinds).
  pose proof Ht as Ht'. apply is_timestamp_ok in Ht'. rewrite Ht'.
  pose proof (timestamp_kinds _ Ht) as Hks. inversion Hks as [|? ? Hk1 Hk2]; subst.
  cbn [p_number app]. destruct Hk as [Hk|[Hk1' Hk2']].
  - apply is_integer_true in Hk. rewrite Hk. destruct b as [|x b].
    + exfalso. apply (Hni t); auto. now apply is_integer_true.
    + simpl. inversion Hk2 as [|? ? [Hx _] _]; subst. apply is_kind_false in Hx. rewrite Hx. reflexivity.
  - apply is_integer_false in Hk1'. apply is_kind_false in Hk2'. rewrite Hk1', Hk2'. reflexivity.
Qed.

Lemma derives_power_inv c t : derives Power c t -> exists ls lg, derives Logarithm_r ls lg /\
  ((exists i, c = ls ++ [i] /\ integer_token i /\ t = PNode Power [lg; mk_integer i]) \/
   (c = ls /\ t = PNode Power [lg]) \/
   (exists r i, c = ls ++ [r; i] /\ kinded RAISE r /\ integer_token i /\ t = PNode Power [lg; PLeaf r; mk_integer i]) \/
   (exists e, c = ls ++ [e] /\ kinded UNICODE_EXPONENT e /\ t = PNode Power [lg; PLeaf e])).
Proof.
  intro D. inversion D; subst; eexists _, _; (split; [eassumption|]).
  - match goal with H : derives Integer_r _ _ |- _ => apply derives_integer_inv in H as (j & -> & Hj & ->) end.
    left. eauto.
  - auto.
  - match goal with H : derives Integer_r _ _ |- _ => apply derives_integer_inv in H as (j & -> & Hj & ->) end.
    right; right; left. eauto 6.
  - right; right; right. eauto.
Qed.

Lemma derives_log_inv ls lg : derives Logarithm_r ls lg ->
  (exists x xs, ls = x :: xs /\ ~ integer_token x /\ integer_power lg = false) \/
  (exists x, ls = [x] /\ integer_token x /\ integer_power lg = true).
Proof.
  intro D. inversion D; subst.
  - match goal with H : derives Basic_spec _ _ |- _ => inversion H; subst end.
    + left. eexists _, _. split; [reflexivity|]. split; [kinds|reflexivity].
    + left. eexists _, _. split; [reflexivity|]. split; [kinds|reflexivity].
    + match goal with H : derives Number_r _ _ |- _ => inversion H; subst end.
      * match goal with H : derives Integer_r _ _ |- _ => inversion H; subst end.
        right. eauto.
      * left. eexists _, _. split; [reflexivity|]. split; [kinds|reflexivity].
  - left. eexists _, _. split; [reflexivity|]. split; [kinds|reflexivity].
Qed.

Lemma derives_product_inv c t : derives Product c t -> exists cq q, derives Power cq q /\
  ((c = cq /\ t = PNode Product [q]) \/
   exists ts1 p, derives Product ts1 p /\
     ((c = ts1 ++ cq /\ t = PNode Product [p; q]) \/
      (exists o, kinded MULTIPLY o /\ c = ts1 ++ o :: cq /\ t = PNode Product [p; PLeaf o; q]) \/
      (exists o, kinded DIVIDE o /\ c = ts1 ++ o :: cq /\ t = PNode Product [p; PLeaf o; q]) \/
      (exists ws, ws <> [] /\ Forall (kinded WS) ws /\ c = ts1 ++ ws ++ cq /\
                  t = PNode Product (p :: map PLeaf ws ++ [q])))).
Proof.
  intro D. inversion D; subst; eexists _, _; (split; [eassumption|]); auto;
    right; eexists _, _; (split; [eassumption|]); eauto 8.
Qed.

Lemma nonbare_integer_head c q x c' : derives Power c q -> c = x :: c' -> integer_token x ->
  bare_integer q = false -> exists t2 r2, c' = t2 :: r2 /\ (kinded RAISE t2 \/ kinded UNICODE_EXPONENT t2).
Proof.
  intros D E Hx B. apply derives_power_inv in D as (ls & lg & Dl & Hc).
  apply derives_log_inv in Dl as [(y & ys & -> & Hy & _)|(y & -> & Hy & I)].
  - exfalso. destruct Hc as [(i & -> & _)|[[-> _]|[(r & i & -> & _)|(e & -> & _)]]];
      simpl in E; injection E as -> _; contradiction.
  - destruct Hc as [(i & -> & _ & ->)|[[-> ->]|[(r & i & -> & Hr & _)|(e & -> & He & _)]]];
      simpl in E, B; try congruence; injection E as _ <-; eauto.
Qed.

Definition complete_at (ru : rule) (c : list token) (t : ptree) : Prop :=
  preferred t ->
  match ru with
  | Shift_spec => forall r, at_end r = true -> exists f, p_shift f (c ++ r) = Some (t, r)
  | Product => forall r, follow_ok (last_power t) r ->
      exists f pw0 r0, p_power f (c ++ r) = Some (pw0, r0) /\
        forall g x, p_loop g t r = Some x -> exists g', p_loop g' (PNode Product [pw0]) r0 = Some x
  | Power => forall r, follow_ok t r -> exists f, p_power f (c ++ r) = Some (t, r)
  | Logarithm_r => forall r, exists f, p_power f (c ++ r) = p_exponent t r
  | Basic_spec => forall r, exists f, p_power f (c ++ r) = p_exponent (PNode Logarithm_r [t]) r
  | _ => True
  end.

Lemma loop_step_juxt f g acc x0 c1 r pw x :
  (forall y, starts_power (x0 :: y) = true) ->
  p_power f ((x0 :: c1) ++ r) = Some (pw, r) -> p_loop g (PNode Product [acc; pw]) r = Some x ->
  exists g', p_loop g' acc ((x0 :: c1) ++ r) = Some x.
Proof.
  intros Hs Hp Hl.
  set (G := 2 * List.length ((x0 :: c1) ++ r) + 1 + 2 * List.length r + 1).
  exists (S G). cbn [p_loop]. cbn [app] in *. rewrite Hs.
  destruct (fuel_enough f) as (_ & _ & Fp). destruct (fuel_enough g) as (_ & Fl & _).
  rewrite (Fp _ _ G Hp) by (subst G; cbn [app]; lia).
  apply (Fl _ _ _ G Hl). subst G. lia.
Qed.

Lemma loop_step_op f g acc o c1 r pw x :
  kinded MULTIPLY o \/ kinded DIVIDE o ->
  p_power f (c1 ++ r) = Some (pw, r) -> p_loop g (PNode Product [acc; PLeaf o; pw]) r = Some x ->
  exists g', p_loop g' acc ((o :: c1) ++ r) = Some x.
Proof.
  intros Ho Hp Hl.
  set (G := 2 * List.length (c1 ++ r) + 1 + 2 * List.length r + 1).
  exists (S G). cbn [p_loop]. cbn [app] in *.
  assert (starts_power (o :: c1 ++ r) = false) as -> by (simpl; kinds).
  assert (is_kind MULTIPLY o || is_kind DIVIDE o = true) as -> by kinds.
  destruct (fuel_enough f) as (_ & _ & Fp). destruct (fuel_enough g) as (_ & Fl & _).
  rewrite (Fp _ _ G Hp) by (subst G; lia).
  apply (Fl _ _ _ G Hl). subst G. lia.
Qed.

Lemma loop_step_space f g acc ws x0 c1 r pw x :
  ws <> [] -> Forall (kinded WS) ws -> (forall y, starts_power (x0 :: y) = true) ->
  p_power f ((x0 :: c1) ++ r) = Some (pw, r) ->
  p_loop g (PNode Product (acc :: map PLeaf ws ++ [pw])) r = Some x ->
  exists g', p_loop g' acc ((ws ++ x0 :: c1) ++ r) = Some x.
Proof.
  intros N Hw Hs Hp Hl. destruct ws as [|w ws]; [contradiction|].
  set (G := 2 * List.length ((x0 :: c1) ++ r) + 1 + 2 * List.length r + 1).
  exists (S G). cbn [p_loop]. rewrite <- app_assoc. cbn [app] in *.
  assert (kinded WS w) by (inversion Hw; auto).
  assert (starts_power (w :: ws ++ x0 :: c1 ++ r) = false) as -> by (simpl; kinds).
  assert (is_kind MULTIPLY w || is_kind DIVIDE w = false) as -> by kinds.
  assert (is_kind WS w = true) as -> by kinds.
  change (w :: ws ++ x0 :: c1 ++ r) with ((w :: ws) ++ x0 :: c1 ++ r).
  rewrite span_ws_complete; [|auto|].
  2:{ destruct (starts_not_raise x0 [] (Hs [])) as (_ & _ & ? & _); auto. }
  rewrite Hs.
  destruct (fuel_enough f) as (_ & _ & Fp). destruct (fuel_enough g) as (_ & Fl & _).
  rewrite (Fp _ _ G Hp) by (subst G; cbn [app]; lia).
  apply (Fl _ _ _ G Hl). subst G. lia.
Qed.

Lemma shift_assemble f g c t prod pw0 r0 r1 r tail :
  p_power f (c ++ r1) = Some (pw0, r0) ->
  p_loop g (PNode Product [pw0]) r0 = Some (prod, r1) ->
  p_shift_tail prod r1 = Some (t, r) -> r1 = tail ++ r ->
  exists h, p_shift h (c ++ r1) = Some (t, r).
Proof.
  intros Hp Hl Ht _.
  set (G := 2 * List.length (c ++ r1) + 2 * List.length r0 + 1).
  exists (S G). cbn [p_shift].
  destruct (fuel_enough f) as (_ & _ & Fp). destruct (fuel_enough g) as (_ & Fl & _).
  rewrite (Fp _ _ G Hp) by (subst G; lia).
  rewrite (Fl _ _ _ G Hl) by (subst G; lia). auto.
Qed.

Lemma complete ru c t : derives ru c t -> complete_at ru c t.
Proof.
  assert (Pc : forall r cs x, In x cs -> preferred (PNode r cs) -> preferred x).
  { intros r cs x I P. apply preferred_inv in P as [_ P]. rewrite Forall_forall in P. auto. }
  intro D. induction D; unfold complete_at in *; intro P; auto.
  - (* shift: product *)
    intros r He. assert (Pp : preferred p) by (eapply Pc; [|exact P]; simpl; auto).
    destruct (IHD Pp r) as (f & pw0 & r0 & Hp & Hl).
    { apply product_end_follow. left; auto. }
    destruct (Hl 1 (p, r)) as [g Hg].
    { apply loop_end. left; auto. }
    eapply shift_assemble; eauto. + now apply shift_tail_plain. + instantiate (1 := []). reflexivity.
  - (* shift: number *)
    intros r He. assert (Pp : preferred p) by (eapply Pc; [|exact P]; simpl; auto).
    rewrite <- app_assoc.
    assert (PE : product_end ((w1 ++ op :: w2 ++ ns) ++ r)).
    { right. exists w1, op, ((w2 ++ ns) ++ r). rewrite <- !app_assoc. simpl. rewrite <- app_assoc. auto. }
    destruct (IHD1 Pp ((w1 ++ op :: w2 ++ ns) ++ r)) as (f & pw0 & r0 & Hp & Hl).
    { now apply product_end_follow. }
    destruct (Hl 1 (p, (w1 ++ op :: w2 ++ ns) ++ r)) as [g Hg].
    { now apply loop_end. }
    eapply shift_assemble; eauto. now apply shift_tail_number.
  - (* shift: timestamp *)
    intros r He. assert (Pp : preferred p) by (eapply Pc; [|exact P]; simpl; auto).
    rewrite <- app_assoc.
    assert (PE : product_end ((w1 ++ op :: w2 ++ ns) ++ r)).
    { right. exists w1, op, ((w2 ++ ns) ++ r). rewrite <- !app_assoc. simpl. rewrite <- app_assoc. auto. }
    destruct (IHD Pp ((w1 ++ op :: w2 ++ ns) ++ r)) as (f & pw0 & r0 & Hp & Hl).
    { now apply product_end_follow. }
    destruct (Hl 1 (p, (w1 ++ op :: w2 ++ ns) ++ r)) as [g Hg].
    { now apply loop_end. }
    eapply shift_assemble; eauto. apply shift_tail_timestamp; auto.
    intros t -> Ht. apply preferred_inv in P as [P _]. unfold local_ok in P.
    rewrite <- app_comm_cons, last_cons_app in P. simpl in P. auto.
  - (* product: power *)
    intros r F. simpl in F. assert (Pp : preferred p) by (eapply Pc; [|exact P]; simpl; auto).
    destruct (IHD Pp r F) as [f Hf]. exists f, p, r. split; auto. intros g x Hx. eauto.
  - (* juxtaposed *)
    intros r F. simpl in F.
    assert (Pp : preferred p) by (eapply Pc; [|exact P]; simpl; auto).
    assert (Pq : preferred q) by (eapply Pc; [|exact P]; simpl; auto).
    destruct (IHD2 Pq r F) as [f Hf].
    destruct (power_starts _ _ D2) as (x0 & c' & -> & Hs).
    destruct (starts_not_raise x0 [] (Hs [])) as (N1 & N2 & _).
    rewrite <- app_assoc.
    destruct (IHD1 Pp ((x0 :: c') ++ r)) as (f1 & pw0 & r0 & Hp & Hl).
    { simpl. repeat split; auto. intros Hi He.
      apply preferred_inv in P as [P _]. simpl in P.
      destruct (bare_integer q) eqn:B; [rewrite P in He by auto; discriminate|].
      destruct (nonbare_integer_head _ _ _ _ D2 eq_refl Hi B) as (t2 & r2 & -> & Ht).
      exists t2, (r2 ++ r). auto. }
    exists f1, pw0, r0. split; auto. intros g x Hx.
    destruct (loop_step_juxt _ _ _ _ _ _ _ _ Hs Hf Hx) as [g' Hg']. eauto.
  - (* multiply *)
    intros r F. simpl in F.
    assert (Pp : preferred p) by (eapply Pc; [|exact P]; simpl; auto).
    assert (Pq : preferred q) by (eapply Pc; [|exact P]; simpl; auto).
    destruct (IHD2 Pq r F) as [f Hf].
    rewrite <- app_assoc.
    destruct (IHD1 Pp ((o :: ts2) ++ r)) as (f1 & pw0 & r0 & Hp & Hl).
    { simpl. repeat split; kinds. }
    exists f1, pw0, r0. split; auto. intros g x Hx.
    destruct (loop_step_op _ _ _ o _ _ _ _ (or_introl H) Hf Hx) as [g' Hg']. eauto.
  - (* divide *)
    intros r F. simpl in F.
    assert (Pp : preferred p) by (eapply Pc; [|exact P]; simpl; auto).
    assert (Pq : preferred q) by (eapply Pc; [|exact P]; simpl; auto).
    destruct (IHD2 Pq r F) as [f Hf].
    rewrite <- app_assoc.
    destruct (IHD1 Pp ((o :: ts2) ++ r)) as (f1 & pw0 & r0 & Hp & Hl).
    { simpl. repeat split; kinds. }
    exists f1, pw0, r0. split; auto. intros g x Hx.
    destruct (loop_step_op _ _ _ o _ _ _ _ (or_intror H) Hf Hx) as [g' Hg']. eauto.
  - (* space *)
    intros r F.
    assert (Pp : preferred p) by (eapply Pc; [|exact P]; simpl; auto).
    assert (Pq : preferred q).
    { eapply Pc; [|exact P]. right. apply in_or_app. simpl. auto. }
    unfold last_power in F. rewrite last_cons_app in F.
    destruct (IHD2 Pq r F) as [f Hf].
    destruct (power_starts _ _ D2) as (x0 & c' & -> & Hs).
    rewrite <- app_assoc.
    destruct (IHD1 Pp ((ws ++ x0 :: c') ++ r)) as (f1 & pw0 & r0 & Hp & Hl).
    { destruct ws as [|w ws]; [contradiction|]. assert (kinded WS w) by (inversion H0; auto).
      simpl. repeat split; kinds. }
    exists f1, pw0, r0. split; auto. intros g x Hx.
    destruct (loop_step_space _ _ _ _ _ _ _ _ _ H H0 Hs Hf Hx) as [g' Hg']. eauto.
  - (* power: integer *)
    intros r F. assert (Pl : preferred l) by (eapply Pc; [|exact P]; simpl; auto).
    rewrite <- app_assoc. destruct (IHD1 Pl (is ++ r)) as [f Hf]. exists f. rewrite Hf.
    inversion D2; subst. unfold p_exponent. cbn [app].
    assert (is_integer i0 = true) as -> by now apply is_integer_true.
    destruct r as [|t2 r]; auto. simpl in F. destruct F as (F1 & F2 & _).
    apply is_kind_false in F1, F2. now rewrite F1, F2.
  - (* power: plain *)
    intros r F. assert (Pl : preferred l) by (eapply Pc; [|exact P]; simpl; auto).
    destruct (IHD Pl r) as [f Hf]. exists f. rewrite Hf. unfold p_exponent.
    destruct r as [|t0 r]; auto. simpl in F. destruct F as (F1 & F2 & F3).
    apply is_kind_false in F1, F2. rewrite F1, F2.
    destruct (is_integer t0) eqn:E; auto. apply is_integer_true in E.
    destruct (F3 E eq_refl) as (t2 & r2 & -> & Ht).
    assert (is_kind RAISE t2 || is_kind UNICODE_EXPONENT t2 = true) as ->; auto.
    rewrite orb_true_iff, !is_kind_true. auto.
  - (* power: raise *)
    intros r' F. assert (Pl : preferred l) by (eapply Pc; [|exact P]; simpl; auto).
    rewrite <- app_assoc. destruct (IHD1 Pl ((r :: is) ++ r')) as [f Hf]. exists f. rewrite Hf.
    inversion D2; subst. unfold p_exponent. cbn [app].
    assert (is_integer r = false) as -> by (apply is_integer_false; kinds).
    assert (is_kind RAISE r = true) as -> by kinds.
    assert (is_integer i0 = true) as -> by now apply is_integer_true. reflexivity.
  - (* power: unicode *)
    intros r' F. assert (Pl : preferred l) by (eapply Pc; [|exact P]; simpl; auto).
    rewrite <- app_assoc. destruct (IHD Pl ([e] ++ r')) as [f Hf]. exists f. rewrite Hf.
    unfold p_exponent. cbn [app].
    assert (is_integer e = false) as -> by (apply is_integer_false; kinds).
    assert (is_kind RAISE e = false) as -> by kinds.
    assert (is_kind UNICODE_EXPONENT e = true) as -> by kinds. reflexivity.
  - (* logarithm: basic *)
    intros r. assert (Pl : preferred b) by (eapply Pc; [|exact P]; simpl; auto).
    apply (IHD Pl r).
  - (* logarithm *)
    intros r. assert (Pl : preferred s) by (eapply Pc; [|exact P]; simpl; auto).
    destruct (IHD Pl (c :: r)) as [f Hf].
    { simpl. now apply is_kind_true. }
    exists (S f). cbn [p_power app]. rewrite <- app_assoc. cbn [app].
    assert (is_kind LOG l = true) as -> by kinds. rewrite Hf.
    assert (is_kind CLOSE_PAREN c = true) as -> by kinds. reflexivity.
  - (* id *)
    intros r. exists 1. cbn [p_power app].
    assert (is_kind LOG i = false) as -> by kinds.
    assert (is_kind OPEN_PAREN i = false) as -> by kinds.
    assert (is_kind ID i = true) as -> by kinds. reflexivity.
  - (* parenthesised *)
    intros r. assert (Pl : preferred s) by (eapply Pc; [|exact P]; simpl; auto).
    destruct (IHD Pl (c :: r)) as [f Hf].
    { simpl. now apply is_kind_true. }
    exists (S f). cbn [p_power app]. rewrite <- app_assoc. cbn [app].
    assert (is_kind LOG o = false) as -> by kinds.
    assert (is_kind OPEN_PAREN o = true) as -> by kinds. rewrite Hf.
    assert (is_kind CLOSE_PAREN c = true) as -> by kinds. reflexivity.
  - (* number *)
    intros r. destruct (derives_number_inv _ _ D) as (i & -> & Hn). exists 1. cbn [p_power app].
    rewrite Hn. specialize (Hn []). unfold p_number in Hn.
    destruct (is_integer i) eqn:E.
    + apply is_integer_true in E.
      assert (is_kind LOG i = false) as -> by kinds.
      assert (is_kind OPEN_PAREN i = false) as -> by kinds.
      assert (is_kind ID i = false) as -> by kinds. reflexivity.
    + destruct (is_kind FLOAT i) eqn:E2; [|discriminate]. apply is_kind_true in E2. clear E Hn.
      assert (is_kind LOG i = false) as -> by kinds.
      assert (is_kind OPEN_PAREN i = false) as -> by kinds.
      assert (is_kind ID i = false) as -> by kinds. reflexivity.
Qed.

(** ** The main equivalence *)
Lemma shift_nonempty c t : derives Shift_spec c t -> c <> [].
Proof.
  assert (Q : forall c t, derives Product c t -> c <> []).
  { intros c0 t0 D. remember Product as ru. induction D; try discriminate.
    - destruct (power_starts _ _ D) as (x & c' & -> & _). discriminate.
    - intro E. apply app_eq_nil in E as [E _]. now apply IHD1.
    - intro E. apply app_eq_nil in E as [E _]. now apply IHD1.
    - intro E. apply app_eq_nil in E as [E _]. now apply IHD1.
    - intro E. apply app_eq_nil in E as [E _]. now apply IHD1. }
  intro D. inversion D; subst.
  - eapply Q; eauto.
  - intro E. apply app_eq_nil in E as [E _]. eapply Q; eauto.
  - intro E. apply app_eq_nil in E as [E _]. eapply Q; eauto.
Qed.

Theorem p_unit_exact ts t : p_unit ts = Some t <-> derives Unit_spec ts t /\ preferred t.
Proof.
  assert (PE : preferred PEOF) by exact eof_pref.
  split.
  - unfold p_unit. destruct ts as [|t0 ts].
    + intro H; injection H as <-. split; [constructor|]. apply preferred_node. split; [exact I|auto].
    + destruct (p_shift (fuel_for (t0 :: ts)) (t0 :: ts)) as [[sh [|]]|] eqn:E; try discriminate.
      intro H; injection H as <-. destruct (sound (fuel_for (t0 :: ts))) as (S & _ & _).
      apply S in E as (c & Ec & D & P & N). rewrite app_nil_r in Ec. subst c.
      split; [now constructor|]. apply preferred_node. split; [exact I|auto].
  - intros [D P]. inversion D as [|ts' sh Ds| | | | | | | | | | | | | | | | | | | |]; subst; auto.
    assert (Ps : preferred sh) by (apply preferred_inv in P as [_ P]; now inversion P).
    destruct (complete _ _ _ Ds Ps [] eq_refl) as [f Hf]. rewrite app_nil_r in Hf.
    pose proof (shift_nonempty _ _ Ds) as N. destruct ts as [|t0 ts]; [contradiction|].
    unfold p_unit. destruct (fuel_enough f) as (Fs & _ & _).
    rewrite (Fs _ _ (fuel_for (t0 :: ts)) Hf) by (unfold fuel_for; lia). reflexivity.
Qed.

(** ** Every derivable text has a preferred derivation. *)
Definition pref_exists (ru : rule) (c : list token) (t : ptree) : Prop :=
  exists t', derives ru c t' /\ preferred t'.

Lemma leaf_pref x : preferred (PLeaf x).
Proof. pose proof (Forall_leaf [x]) as H. now inversion H. Qed.

Lemma int_pref i : preferred (mk_integer i).
Proof. apply preferred_node. split; [exact I|]. constructor; auto. apply leaf_pref. Qed.

Ltac conjs := repeat match goal with |- _ /\ _ => split end; try reflexivity.

(** attach an exponent to the last power of a product *)
Lemma attach ts p i : derives Product ts p -> preferred p -> has_exponent (last_power p) = false ->
  integer_token i ->
  exists p', derives Product (ts ++ [i]) p' /\ preferred p' /\ has_exponent (last_power p') = true.
Proof.
  intros D P He Hi.
  assert (A : forall c q, derives Power c q -> preferred q -> has_exponent q = false ->
     exists q', derives Power (c ++ [i]) q' /\ preferred q' /\ has_exponent q' = true /\
       bare_integer q' = bare_integer q).
  { intros c q Dq Pq Hq. apply derives_power_inv in Dq as (ls & lg & Dl & Hc).
    destruct Hc as [(j & -> & _ & ->)|[[-> ->]|[(r & j & -> & _ & _ & ->)|(e & -> & _ & ->)]]]; try discriminate.
    exists (PNode Power [lg; mk_integer i]). conjs.
    - apply D_power_integer; auto. now constructor.
    - apply preferred_node. split; [exact I|]. apply preferred_inv in Pq as [_ Pq].
      inversion Pq; subst. constructor; auto. constructor; auto. apply int_pref. }
  apply derives_product_inv in D as (c & q & Dq & [[-> ->]|(ts1 & p1 & D1 &
    [[-> ->]|[(o & Ho & -> & ->)|[(o & Ho & -> & ->)|(ws & Nw & Hw & -> & ->)]]])]);
    apply preferred_inv in P as [Pl Pc].
  - inversion Pc; subst. destruct (A _ _ Dq) as (q' & Dq' & Pq' & Hq' & _); auto.
    exists (PNode Product [q']). conjs; auto.
    + now constructor.
    + apply preferred_node. split; [exact I|auto].
  - inversion Pc as [|? ? P1 Pc']; subst. inversion Pc'; subst.
    destruct (A _ _ Dq) as (q' & Dq' & Pq' & Hq' & Hb); auto.
    exists (PNode Product [p1; q']). rewrite <- app_assoc. conjs; auto.
    + now constructor.
    + apply preferred_node. split; [|auto]. simpl in *. rewrite Hb. auto.
  - inversion Pc as [|? ? P1 Pc']; subst. inversion Pc' as [|? ? P2 Pc'']; subst. inversion Pc''; subst.
    destruct (A _ _ Dq) as (q' & Dq' & Pq' & Hq' & _); auto.
    exists (PNode Product [p1; PLeaf o; q']). rewrite <- app_assoc. conjs; auto.
    + now apply D_product_multiply.
    + apply preferred_node. split; [exact I|auto].
  - inversion Pc as [|? ? P1 Pc']; subst. inversion Pc' as [|? ? P2 Pc'']; subst. inversion Pc''; subst.
    destruct (A _ _ Dq) as (q' & Dq' & Pq' & Hq' & _); auto.
    exists (PNode Product [p1; PLeaf o; q']). rewrite <- app_assoc. conjs; auto.
    + now apply D_product_divide.
    + apply preferred_node. split; [exact I|auto].
  - inversion Pc as [|? ? P1 Pc']; subst. apply Forall_app in Pc' as [Pw Pq]. inversion Pq; subst.
    unfold last_power in He. rewrite last_cons_app in He.
    destruct (A _ _ Dq) as (q' & Dq' & Pq' & Hq' & _); auto.
    exists (PNode Product (p1 :: map PLeaf ws ++ [q'])). rewrite <- !app_assoc. conjs; auto.
    + now apply D_product_space.
    + apply preferred_node. split.
      * destruct ws as [|w ws]; [contradiction|]. simpl. destruct (map PLeaf ws); exact I.
      * constructor; auto. apply Forall_app; split; auto.
    + unfold last_power. rewrite last_cons_app. auto.
Qed.

Lemma bare_shape c q : derives Power c q -> bare_integer q = true ->
  exists i, integer_token i /\ (c = [i] \/ exists j, c = [i; j] /\ integer_token j).
Proof.
  intros D B. apply derives_power_inv in D as (ls & lg & Dl & Hc).
  apply derives_log_inv in Dl as [(y & ys & -> & Hy & I)|(y & -> & Hy & I)].
  - exfalso. destruct Hc as [(i & -> & _ & ->)|[[-> ->]|[(r & i & -> & _ & _ & ->)|(e & -> & _ & ->)]]];
      simpl in B; congruence.
  - exists y. split; auto.
    destruct Hc as [(i & -> & Hi & ->)|[[-> ->]|[(r & i & -> & _ & _ & ->)|(e & -> & _ & ->)]]]; simpl in B; try discriminate.
    + right. exists i. auto.
    + auto.
Qed.

Lemma preferred_exists ru c t : derives ru c t -> pref_exists ru c t.
Proof.
  assert (PE : preferred PEOF) by exact eof_pref. 
  intro D. unfold pref_exists in *. induction D.
  - exists (PNode Unit_spec [PEOF]). split; [constructor|]. apply preferred_node. split; [exact I|auto].
  - destruct IHD as (t' & D' & P'). exists (PNode Unit_spec [t'; PEOF]). split; [now constructor|].
    apply preferred_node. split; [exact I|auto].
  - destruct IHD as (t' & D' & P'). exists (PNode Shift_spec [t']). split; [now constructor|].
    apply preferred_node. split; [|auto]. simpl. inversion D'; auto.
  - destruct IHD1 as (p' & Dp & Pp), IHD2 as (n' & Dn & Pn).
    eexists. split; [apply D_shift_number; eauto|].
    apply preferred_node. split; [|now apply Forall_shift].
    unfold local_ok. rewrite <- app_comm_cons, last_cons_app. inversion Dn; auto.
  - destruct IHD as (p' & Dp & Pp).
    assert (X : (exists i, ns = [i] /\ integer_token i) \/ (forall t, ns = [t] -> ~ integer_token t)).
    { destruct ns as [|i [|j ns]].
      - right; discriminate.
      - destruct (is_integer i) eqn:E.
        + left. exists i. split; auto. now apply is_integer_true.
        + right. intros t Et. injection Et as <-. now apply is_integer_false.
      - right; discriminate. }
    destruct X as [(i & -> & Hi)|Hn].
    + exists (PNode Shift_spec ((p' :: map PLeaf w1 ++ PLeaf op :: map PLeaf w2) ++ [PNode Number_r [mk_integer i]])).
      split.
      * apply D_shift_number; auto. constructor. now constructor.
      * apply preferred_node. split.
        -- unfold local_ok. rewrite <- app_comm_cons, last_cons_app. exact I.
        -- apply Forall_shift; auto. apply preferred_node. split; [exact I|]. constructor; auto. apply int_pref.
    + eexists. split; [apply D_shift_timestamp; eauto|].
      apply preferred_node. split.
      * unfold local_ok. rewrite <- app_comm_cons, last_cons_app.
        destruct ns as [|i [|]]; simpl; auto.
      * apply Forall_shift; auto. apply preferred_node. split; [exact I|apply Forall_leaf].
  - destruct IHD as (t' & D' & P'). exists (PNode Product [t']). split; [now constructor|].
    apply preferred_node. split; [exact I|auto].
  - destruct IHD1 as (p' & Dp & Pp), IHD2 as (q' & Dq & Pq).
    destruct (bare_integer q') eqn:B; [destruct (has_exponent (last_power p')) eqn:E|].
    + exists (PNode Product [p'; q']). split; [now constructor|].
      apply preferred_node. split; [|auto]. simpl. auto.
    + destruct (bare_shape _ _ Dq B) as (i & Hi & [->|(j & -> & Hj)]).
      * destruct (attach _ _ i Dp Pp E Hi) as (p2 & D2' & P2 & _). eauto.
      * destruct (attach _ _ i Dp Pp E Hi) as (p2 & D2' & P2 & E2).
        exists (PNode Product [p2; PNode Power [PNode Logarithm_r [PNode Basic_spec [PNode Number_r [mk_integer j]]]]]).
        split.
        -- change [i; j] with ([i] ++ [j]). rewrite app_assoc. constructor; auto.
           do 4 constructor. now constructor.
        -- apply preferred_node. split; [simpl; auto|]. constructor; auto. constructor; auto.
           do 4 (apply preferred_node; split; [exact I|]; constructor; auto). apply int_pref.
    + exists (PNode Product [p'; q']). split; [now constructor|].
      apply preferred_node. split; [|auto]. simpl. congruence.
  - destruct IHD1 as (p' & Dp & Pp), IHD2 as (q' & Dq & Pq).
    exists (PNode Product [p'; PLeaf o; q']). split; [now apply D_product_multiply|].
    apply preferred_node. split; [exact I|]. pose proof (leaf_pref o). auto.
  - destruct IHD1 as (p' & Dp & Pp), IHD2 as (q' & Dq & Pq).
    exists (PNode Product [p'; PLeaf o; q']). split; [now apply D_product_divide|].
    apply preferred_node. split; [exact I|]. pose proof (leaf_pref o). auto.
  - destruct IHD1 as (p' & Dp & Pp), IHD2 as (q' & Dq & Pq).
    exists (PNode Product (p' :: map PLeaf ws ++ [q'])). split; [now apply D_product_space|].
    apply preferred_node. split.
    + destruct ws as [|w ws]; [contradiction|]. simpl. destruct (map PLeaf ws); exact I.
    + constructor; auto. apply Forall_app; split; [apply Forall_leaf|auto].
  - destruct IHD1 as (p' & Dp & Pp), IHD2 as (q' & Dq & Pq).
    exists (PNode Power [p'; q']). split; [now constructor|].
    apply preferred_node. split; [exact I|auto].
  - destruct IHD as (p' & Dp & Pp). exists (PNode Power [p']). split; [now constructor|].
    apply preferred_node. split; [exact I|auto].
  - destruct IHD1 as (p' & Dp & Pp), IHD2 as (q' & Dq & Pq).
    exists (PNode Power [p'; PLeaf r; q']). split; [now constructor|].
    apply preferred_node. split; [exact I|]. pose proof (leaf_pref r). auto.
  - destruct IHD as (p' & Dp & Pp). exists (PNode Power [p'; PLeaf e]). split; [now constructor|].
    apply preferred_node. split; [exact I|]. pose proof (leaf_pref e). auto.
  - destruct IHD as (p' & Dp & Pp). exists (PNode Logarithm_r [p']). split; [now constructor|].
    apply preferred_node. split; [exact I|auto].
  - destruct IHD as (p' & Dp & Pp). exists (PNode Logarithm_r [PLeaf l; p'; PLeaf c]). split; [now constructor|].
    apply preferred_node. split; [exact I|]. pose proof (leaf_pref l). pose proof (leaf_pref c). auto.
  - exists (PNode Basic_spec [PLeaf i]). split; [now constructor|].
    apply preferred_node. split; [exact I|]. pose proof (leaf_pref i). auto.
  - destruct IHD as (p' & Dp & Pp). exists (PNode Basic_spec [PLeaf o; p'; PLeaf c]). split; [now constructor|].
    apply preferred_node. split; [exact I|]. pose proof (leaf_pref o). pose proof (leaf_pref c). auto.
  - destruct IHD as (p' & Dp & Pp). exists (PNode Basic_spec [p']). split; [now constructor|].
    apply preferred_node. split; [exact I|auto].
  - exists (mk_integer i). split; [now constructor|apply int_pref].
  - destruct IHD as (p' & Dp & Pp). exists (PNode Number_r [p']). split; [now constructor|].
    apply preferred_node. split; [exact I|auto].
  - exists (PNode Number_r [PLeaf f]). split; [now apply D_number_float|].
    apply preferred_node. split; [exact I|]. pose proof (leaf_pref f). auto.
Qed.

Theorem p_unit_accepts ts : (exists t, p_unit ts = Some t) <-> (exists t, derives Unit_spec ts t).
Proof.
  split.
  - intros [t H]. apply p_unit_exact in H as [D _]. eauto.
  - intros [t D]. apply preferred_exists in D as (t' & D' & P'). exists t'. now apply p_unit_exact.
Qed.

Theorem preferred_unique ts t1 t2 :
  derives Unit_spec ts t1 -> preferred t1 -> derives Unit_spec ts t2 -> preferred t2 -> t1 = t2.
Proof.
  intros D1 P1 D2 P2.
  assert (E1 : p_unit ts = Some t1) by now apply p_unit_exact.
  assert (E2 : p_unit ts = Some t2) by now apply p_unit_exact.
  congruence.
Qed.
