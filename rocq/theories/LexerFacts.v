(** * The tokeniser meets its specification. *)
From Verif Require Import PyBase Regex RegexFacts Lexer LexSpec.

Definition cand (rs : list (kind * re)) (s : str) (k : kind) (n : nat) : Prop :=
  exists r, In (k, r) rs /\ n <= List.length s /\ matches r (firstn n s).

(** [best_rule] with an accumulator: either keeps it (when no rule does strictly better) or
    returns the first rule reaching the maximum. *)
Lemma best_rule_ok rs s best :
  match best_rule rs s best with
  | None => best = None /\ forall k n, ~ cand rs s k n
  | Some (k, n) =>
    (forall k' n', cand rs s k' n' -> n' <= n) /\
    (forall k' n', best = Some (k', n') -> n' <= n) /\
    ((best = Some (k, n)) \/
     ((forall k' n', best = Some (k', n') -> n' < n) /\
      exists before r after, rs = before ++ (k, r) :: after /\ n <= List.length s /\
        matches r (firstn n s) /\ forall k' r', In (k', r') before -> ~ matches r' (firstn n s)))
  end.
Proof.
  revert best. induction rs as [|[k0 r0] rs IH]; intro best; simpl.
  - destruct best as [[k n]|].
    + split; [intros k' n' (r & [] & _)|]. split; [intros k' n' E; injection E; lia|]. auto.
    + split; auto. intros k n (r & [] & _).
  - pose proof (longest1_ok r0 s) as L. destruct (longest [r0] s) as [n0|] eqn:El.
    2:{ (* rule does not apply *)
      specialize (IH best). destruct (best_rule rs s best) as [[k n]|].
      - destruct IH as (H1 & H2 & H3). split; [|split; auto].
        + intros k' n' (r & [E|I] & Hn & M); [injection E as -> ->|].
          * exfalso. apply (L n' Hn M).
          * apply (H1 k' n'). exists r; auto.
        + destruct H3 as [H3|(H3 & before & r & after & -> & Hn & M & Hb)]; auto.
          right. split; auto. exists ((k0, r0) :: before), r, after. repeat split; auto.
          intros k' r' [E|I]; eauto. injection E as <- <-. apply L; auto.
      - destruct IH as [-> H]. split; auto. intros k n (r & [E|I] & Hn & M).
        + injection E as -> ->. apply (L n Hn M).
        + apply (H k n). exists r; auto. }
    destruct L as (L1 & L2 & L3).
    set (best' := match best with
                  | Some (_, m) => if Nat.ltb m n0 then Some (k0, n0) else best
                  | None => Some (k0, n0) end).
    specialize (IH best').
    assert (Hb' : exists kb nb, best' = Some (kb, nb) /\ n0 <= nb /\
              (forall k' n', best = Some (k', n') -> n' <= nb) /\
              ((best = Some (kb, nb)) \/ ((kb, nb) = (k0, n0) /\ forall k' n', best = Some (k', n') -> n' < n0))).
    { unfold best'. destruct best as [[kb nb]|].
      - destruct (Nat.ltb nb n0) eqn:E.
        + apply Nat.ltb_lt in E. exists k0, n0. repeat split; auto.
          * intros k' n' H; injection H as <- <-; lia.
          * right. split; auto. intros k' n' H; injection H as <- <-; auto.
        + apply Nat.ltb_ge in E. exists kb, nb. repeat split; auto.
          intros k' n' H; injection H as <- <-; auto.
      - exists k0, n0. repeat split; auto; try discriminate. right; split; auto; discriminate. }
    destruct Hb' as (kb & nb & Eb & Hn0 & Hmax & Hor). fold best'. rewrite Eb in IH |- *.
    destruct (best_rule rs s (Some (kb, nb))) as [[k n]|]; [|destruct IH; discriminate].
    destruct IH as (H1 & H2 & H3). specialize (H2 kb nb eq_refl).
    split; [|split].
    + intros k' n' (r & [E|I] & Hn & M).
      * injection E as -> ->. specialize (L3 n' Hn M). lia.
      * apply (H1 k' n'). exists r; auto.
    + intros k' n' E. specialize (Hmax k' n' E). lia.
    + destruct H3 as [H3|(H3 & before & r & after & -> & Hn & M & Hb)].
      * injection H3 as -> ->. destruct Hor as [Hor|[E Hlt]]; auto.
        injection E as -> ->. right. split; auto.
        exists [], r0, rs. repeat split; auto; try (intros k' r' []).
      * specialize (H3 kb nb eq_refl). right. split.
        -- intros k' n' E. specialize (Hmax k' n' E). lia.
        -- exists ((k0, r0) :: before), r, after. repeat split; auto.
           intros k' r' [E|I] M'; [injection E as <- <-|eapply Hb; eauto].
           specialize (L3 n Hn M'). lia.
Qed.

Lemma any_rule m : In (ERRORCHARACTER, r_any) (rules m).
Proof.
  destruct m; simpl; repeat (try (left; reflexivity); right).
Qed.

Lemma best_rule_text m c s : (c <= 1114111)%N ->
  exists k n, best_rule (rules m) (c :: s) None = Some (k, S n) /\
    takes m k (firstn (S n) (c :: s)) (skipn (S n) (c :: s)).
Proof.
  intro Hc. pose proof (best_rule_ok (rules m) (c :: s) None) as B.
  assert (C : cand (rules m) (c :: s) ERRORCHARACTER 1).
  { exists r_any. split; [apply any_rule|]. split; [simpl; lia|]. simpl. constructor.
    unfold in_ranges. simpl. rewrite orb_false_r.
    apply N.leb_le in Hc. rewrite Hc, andb_true_r. now apply N.leb_le, N.le_0_l. }
  destruct (best_rule (rules m) (c :: s) None) as [[k n]|].
  2:{ destruct B as [_ B]. destruct (B _ _ C). }
  destruct B as (H1 & _ & [H3|(_ & before & r & after & E & Hn & M & Hb)]); [discriminate|].
  pose proof (H1 _ _ C) as H4. destruct n as [|n]; [lia|].
  exists k, n. split; auto. split.
  - discriminate.
  - intros k' r' w' rest' I Ew M'. rewrite firstn_skipn in Ew.
    rewrite firstn_length_le by auto. apply (H1 k' (List.length w')).
    exists r'. split; auto. rewrite <- Ew. split; [rewrite app_length; lia|].
    rewrite firstn_app, Nat.sub_diag, firstn_all, firstn_O, app_nil_r. auto.
  - exists before, r, after. auto.
Qed.

Lemma is_text_skipn n s : is_text s -> is_text (skipn n s).
Proof.
  unfold is_text. revert s; induction n; intros s H; simpl; auto.
  destruct s; auto. inversion H; auto.
Qed.

Lemma lex_fuel_total fuel m s : is_text s -> List.length s <= fuel ->
  exists ts, lex_fuel fuel m s = Some ts /\ tokenises m s ts.
Proof.
  revert m s. induction fuel as [|f IH]; intros m s Ht Hf.
  - destruct s; [|simpl in Hf; lia]. exists []. split; auto. constructor.
  - destruct s as [|c s]; [exists []; split; auto; constructor|].
    assert (Hc : (c <= 1114111)%N) by (inversion Ht; auto).
    destruct (best_rule_text m c s Hc) as (k & n & E & Tk).
    cbn [lex_fuel]. rewrite E.
    destruct (IH (next_mode m k) (skipn (S n) (c :: s))) as (ts & E2 & T2).
    + now apply is_text_skipn.
    + simpl. rewrite skipn_length. simpl in Hf. lia.
    + rewrite E2. eexists; split; [reflexivity|].
      rewrite <- (firstn_skipn (S n) (c :: s)) at 1. constructor; auto.
Qed.

Lemma lex_total s : is_text s -> exists ts, lex s = Some ts /\ tokenises DEFAULT_MODE s ts.
Proof. intro H. apply lex_fuel_total; auto. Qed.

Lemma NoDup_kinds_split {A} (l1 l1' : list A) x y l2 l2' (P : A -> Prop) :
  l1 ++ x :: l2 = l1' ++ y :: l2' -> P x -> P y ->
  (forall z, In z l1 -> ~ P z) -> (forall z, In z l1' -> ~ P z) -> x = y.
Proof.
  revert l1'. induction l1 as [|a l1 IH]; destruct l1' as [|b l1']; simpl; intros E Px Py H1 H2.
  - congruence.
  - injection E as -> _. exfalso. apply (H2 b); auto.
  - injection E as <- _. exfalso. apply (H1 a); auto.
  - injection E as -> E. eapply IH; eauto.
Qed.

Lemma takes_unique m k w rest k' w' rest' :
  takes m k w rest -> takes m k' w' rest' -> w ++ rest = w' ++ rest' ->
  k = k' /\ w = w' /\ rest = rest'.
Proof.
  intros T1 T2 E.
  destruct (tk_first _ _ _ _ T1) as (b1 & r1 & a1 & R1 & M1 & F1).
  destruct (tk_first _ _ _ _ T2) as (b2 & r2 & a2 & R2 & M2 & F2).
  assert (L : List.length w = List.length w').
  { apply Nat.le_antisymm.
    - eapply (tk_longest _ _ _ _ T2 k r1 w rest); eauto. rewrite R1. apply in_elt.
    - eapply (tk_longest _ _ _ _ T1 k' r2 w' rest'); eauto. rewrite R2. apply in_elt. }
  assert (W : w = w' /\ rest = rest').
  { clear -L E. revert w' L E. induction w as [|c w IH]; destruct w' as [|c' w']; simpl;
      intros L E; try discriminate; auto. injection E as -> E. injection L as L.
    destruct (IH w' L E). split; congruence. }
  destruct W as [-> ->]. split; auto.
  assert (X : (k, r1) = (k', r2)).
  { eapply (NoDup_kinds_split _ _ _ _ _ _ (fun kr => matches (snd kr) w')); simpl; auto.
    - rewrite <- R1. exact R2.
    - intros [kz rz] I. simpl. eauto.
    - intros [kz rz] I. simpl. eauto. }
  congruence.
Qed.

Lemma tokenises_unique m s ts ts' : tokenises m s ts -> tokenises m s ts' -> ts = ts'.
Proof.
  intro H. revert ts'. induction H as [|m k w rest ts Tk T IH]; intros ts' H'.
  - inversion H' as [|? k w rest ts Tk T Em Es]; auto. exfalso.
    apply app_eq_nil in Es as [-> _]. destruct (tk_nonempty _ _ _ _ Tk); auto.
  - inversion H' as [m0 Em Es|m0 k' w' rest' ts2 Tk' T' Em Es]; subst.
    + symmetry in Es. apply app_eq_nil in Es as [-> _]. destruct (tk_nonempty _ _ _ _ Tk); auto.
    + destruct (takes_unique _ _ _ _ _ _ _ Tk Tk' (eq_sym Es)) as (-> & -> & ->).
      f_equal. auto.
Qed.

Lemma tokenises_concat m s ts : tokenises m s ts -> text_of ts = s.
Proof.
  induction 1; auto. unfold text_of in *. simpl. now rewrite IHtokenises.
Qed.

Lemma tokenises_nonempty m s ts : tokenises m s ts -> Forall (fun t => ttext t <> []) ts.
Proof. induction 1; constructor; auto. apply (tk_nonempty _ _ _ _ H). Qed.

(** The text of a token is matched by a rule for its kind in some mode. *)
Lemma tokenises_rule m s ts : tokenises m s ts ->
  Forall (fun t => exists m' r, In (tkind t, r) (rules m') /\ matches r (ttext t)) ts.
Proof.
  induction 1; constructor; auto. simpl.
  destruct (tk_first _ _ _ _ H) as (b & r & a & R & M & _). exists m, r. split; auto.
  rewrite R. apply in_elt.
Qed.

Lemma lex_spec s ts : is_text s -> (lex s = Some ts <-> tokenises DEFAULT_MODE s ts).
Proof.
  intro H. destruct (lex_total s H) as (ts0 & E & T). split.
  - intro E'. congruence.
  - intro T'. rewrite E. f_equal. eapply tokenises_unique; eauto.
Qed.

(** Once in SHIFT_MODE the tokeniser never leaves it. *)
Lemma shift_mode_absorbing ks : fold_left next_mode ks SHIFT_MODE = SHIFT_MODE.
Proof. induction ks; simpl; auto. Qed.

(** Only SHIFT_OP in DEFAULT_MODE enters it. *)
Lemma enters_shift_mode m k : next_mode m k = SHIFT_MODE ->
  m = SHIFT_MODE \/ (m = DEFAULT_MODE /\ k = SHIFT_OP).
Proof. destruct m; simpl; auto; destruct k; try discriminate; auto. Qed.
