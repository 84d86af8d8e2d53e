(** * The parser returns exactly the preferred derivations of the grammar. *)
From Verif Require Import PyBase Regex RegexFacts Lexer Parser GrammarSpec.

Lemma kind_eqb_eq a b : kind_eqb a b = true <-> a = b.
Proof.
  split; [|intros ->; unfold kind_eqb; apply N.eqb_refl].
  unfold kind_eqb. intro H. apply N.eqb_eq in H.
  destruct a, b; simpl in H; try discriminate; reflexivity.
Qed.

Lemma is_kind_true k t : is_kind k t = true <-> kinded k t.
Proof. unfold is_kind, kinded. apply kind_eqb_eq. Qed.

Lemma is_kind_false k t : is_kind k t = false <-> ~ kinded k t.
Proof. rewrite <- is_kind_true. destruct (is_kind k t); split; congruence. Qed.

Lemma is_integer_true t : is_integer t = true <-> integer_token t.
Proof. unfold is_integer, integer_token. rewrite orb_true_iff, !is_kind_true. tauto. Qed.

Lemma is_integer_false t : is_integer t = false <-> ~ integer_token t.
Proof. rewrite <- is_integer_true. destruct (is_integer t); split; congruence. Qed.

(** decide all kind tests about a token of known kind *)
Ltac kinds :=
  repeat match goal with
         | H : integer_token _ |- _ => destruct H as [H|H]
         | H : date_or_integer _ |- _ => destruct H as [H|H]
         | H : signed_clock _ |- _ => destruct H as [H|H]
         | H : offset_or_zone _ |- _ => destruct H as [H|H]
         | H : _ \/ _ |- _ => destruct H as [H|H]
         end;
  unfold is_integer, is_kind, integer_token, kinded in *;
  repeat match goal with
         | H : tkind ?t = _ |- _ => rewrite ?H in *; revert H
         end; intros; cbn in *; try reflexivity; try discriminate; try tauto;
  try (intuition congruence).

(** ** timestamps *)
Section Ts.
  Let K (t : token) := kind_id (tkind t).

  Lemma m_k1 k ts : matches (k1 k) (map K ts) <-> exists t, ts = [t] /\ kinded k t.
  Proof.
    unfold k1, ch. split.
    - intro H. inversion H as [|rs c Hc Ers Em| | | | |]; subst.
      destruct ts as [|t [|]]; try discriminate. simpl in Em. injection Em as Em.
      exists t. split; auto. unfold in_ranges in Hc; simpl in Hc.
      rewrite orb_false_r, andb_true_iff, !N.leb_le in Hc.
      assert (E : kind_id k = kind_id (tkind t)) by (subst K; simpl in Em; lia).
      symmetry. apply kind_eqb_eq. unfold kind_eqb. now rewrite E, N.eqb_refl.
    - intros [t [-> Hk]]. simpl. constructor. unfold in_ranges. simpl. subst K. simpl.
      rewrite Hk. now rewrite N.leb_refl.
  Qed.

  Lemma m_alt a b w : matches (Alt a b) w <-> matches a w \/ matches b w.
  Proof.
    split; [intro H; inversion H; auto|intros [H|H]; [now apply M_alt_l|now apply M_alt_r]].
  Qed.

  Lemma m_seq a b ts : matches (Seq a b) (map K ts) <->
    exists t1 t2, ts = t1 ++ t2 /\ matches a (map K t1) /\ matches b (map K t2).
  Proof.
    split.
    - intro H. inversion H as [| | | |x y s t M1 M2 E1 E2| |]; subst.
      symmetry in E2. apply map_eq_app in E2 as (t1 & t2 & -> & <- & <-). eauto.
    - intros (t1 & t2 & -> & M1 & M2). rewrite map_app. now constructor.
  Qed.

  Lemma m_eps ts : matches Eps (map K ts) <-> ts = [].
  Proof.
    split; [intro H; inversion H; destruct ts; auto; discriminate|intros ->; constructor].
  Qed.

  Lemma is_timestamp_ok ts : is_timestamp ts = true <-> timestamp ts.
  Proof.
    unfold is_timestamp. rewrite full_match1. fold K.
    unfold re_timestamp. cbn [alts seqs].
    unfold k_date, k_clock, k_zone, k_offset, k_integer, opt. cbn [alts seqs].
    split.
    - intro H.
      repeat first [ setoid_rewrite m_alt in H | setoid_rewrite m_seq in H
                   | setoid_rewrite m_eps in H | setoid_rewrite m_k1 in H ].
      destruct H as [H|[H|[H|[H|H]]]].
      + assert (exists t, ts = [t] /\ date_or_integer t) as (t & -> & Hd).
        { unfold date_or_integer, integer_token. destruct H as [[t [? ?]]|[[t [? ?]]|[t [? ?]]]]; eauto. }
        now constructor.
      + destruct H as (a1 & r1 & -> & Hd & a2 & r2 & -> & Hw & a3 & r3 & -> & Hc & a4 & r4 & -> & Hw2 & Hz).
        assert (exists t, a1 = [t] /\ date_or_integer t) as (d & -> & Hd').
        { unfold date_or_integer, integer_token. destruct Hd as [[t [? ?]]|[[t [? ?]]|[t [? ?]]]]; eauto. }
        assert (exists t, a3 = [t] /\ signed_clock t) as (c & -> & Hc').
        { unfold signed_clock, integer_token.
          destruct Hc as [[t [? ?]]|[[t [? ?]]|[[t [? ?]]|[t [? ?]]]]]; eauto 6. }
        apply (Ts_clock d a2 c a4 r4); auto.
        * destruct Hw as [[[t [-> ?]]|[t [-> ?]]]| ->]; [now apply Ot_ws|now apply Ot_T|apply Ot_none].
        * destruct Hw2 as [[t [-> ?]]| ->]; constructor; auto.
        * destruct Hz as [[[[t [-> ?]]|[[t [-> ?]]|[t [-> ?]]]]|[t [-> ?]]]| ->]; constructor;
            unfold offset_or_zone, integer_token; auto.
      + destruct H as (a1 & r1 & -> & Hd & Hz).
        assert (exists t, a1 = [t] /\ integer_token t) as (d & -> & Hd').
        { unfold integer_token. destruct Hd as [[t [? ?]]|[t [? ?]]]; eauto. }
        apply (Ts_integer d r1); auto.
        destruct Hz as [[[[t [-> ?]]|[[t [-> ?]]|[t [-> ?]]]]|[t [-> ?]]]| ->]; constructor;
            unfold offset_or_zone, integer_token; auto.
      + destruct H as (a1 & r1 & -> & (t & -> & Ht) & a2 & r2 & -> & Hw & Hz).
        apply (Ts_stamp t a2 r2); auto.
        * destruct Hw as [[t' [-> ?]]| ->]; constructor; auto.
        * destruct Hz as [[[[t' [-> ?]]|[[t' [-> ?]]|[t' [-> ?]]]]|[t' [-> ?]]]| ->]; constructor;
            unfold offset_or_zone, integer_token; auto.
      + destruct H as (a1 & r1 & -> & Hd & a2 & r2 & -> & Hw & Hz).
        assert (exists t, a1 = [t] /\ date_or_integer t) as (d & -> & Hd').
        { unfold date_or_integer, integer_token. destruct Hd as [[t [? ?]]|[[t [? ?]]|[t [? ?]]]]; eauto. }
        assert (exists t, r2 = [t] /\ (kinded TIMEZONE t \/ kinded TZ t)) as (z & -> & Hz').
        { destruct Hz as [[t [? ?]]|[t [? ?]]]; eauto. }
        apply (Ts_zone d a2 z); auto.
        destruct Hw as [[t' [-> ?]]| ->]; constructor; auto.
    - assert (ZO : forall z, opt_zone z ->
          matches (Alt (Alt (Alt (k1 HOUR_MINUTE) (Alt (k1 INT) (k1 SIGNED_INT))) (k1 TIMEZONE)) Eps) (map K z)).
      { intros z Hz. rewrite !m_alt, m_eps, !m_k1. destruct Hz as [|z Hz]; auto. left.
        unfold offset_or_zone, integer_token in Hz.
        destruct Hz as [[?|[?|?]]|?]; eauto 10. }
      assert (WO : forall w, opt_space w -> matches (Alt (k1 WS) Eps) (map K w)).
      { intros w Hw. rewrite m_alt, m_eps, m_k1. destruct Hw; eauto. }
      assert (DO : forall d, date_or_integer d ->
          matches (Alt (k1 DATE) (Alt (k1 INT) (k1 SIGNED_INT))) (map K [d])).
      { intros d Hd. rewrite !m_alt, !m_k1. unfold date_or_integer, integer_token in Hd.
        destruct Hd as [?|[?|?]]; eauto 10. }
      intro H. destruct H as [d Hd|d w c w2 z Hd Hw Hc Hw2 Hz|i z Hi Hz|s w z Hs Hw Hz|d w z Hd Hw Hz].
      + apply M_alt_l. auto.
      + apply M_alt_r, M_alt_l. change (d :: w ++ c :: w2 ++ z) with ([d] ++ w ++ [c] ++ w2 ++ z).
        apply m_seq. exists [d], (w ++ [c] ++ w2 ++ z). repeat split; auto.
        apply m_seq. exists w, ([c] ++ w2 ++ z). repeat split; auto.
        { rewrite !m_alt, m_eps, !m_k1. destruct Hw; eauto 6. }
        apply m_seq. exists [c], (w2 ++ z). repeat split; auto.
        { rewrite !m_alt, !m_k1. unfold signed_clock, integer_token in Hc.
          destruct Hc as [?|[?|[?|?]]]; eauto 10. }
        apply m_seq. exists w2, z. auto.
      + apply M_alt_r, M_alt_r, M_alt_l. apply m_seq. exists [i], z. repeat split; auto.
        rewrite !m_alt, !m_k1. destruct Hi; eauto.
      + apply M_alt_r, M_alt_r, M_alt_r, M_alt_l.
        apply m_seq. exists [s], (w ++ z). repeat split; auto.
        { apply m_k1. eauto. }
        apply m_seq. exists w, z. auto.
      + apply M_alt_r, M_alt_r, M_alt_r, M_alt_r.
        apply m_seq. exists [d], (w ++ [z]). repeat split; auto.
        apply m_seq. exists w, [z]. repeat split; auto.
        rewrite m_alt, !m_k1. destruct Hz; eauto.
  Qed.
End Ts.

Definition ts_kind (t : token) : Prop :=
  ~ kinded CLOSE_PAREN t /\ ~ kinded FLOAT t.

Lemma timestamp_kinds ts : timestamp ts -> Forall ts_kind ts.
Proof.
  assert (W : forall w, opt_space w -> Forall ts_kind w)
    by (intros w [|x Hx]; repeat constructor; kinds).
  assert (Z : forall w, opt_zone w -> Forall ts_kind w)
    by (intros w [|x Hx]; repeat constructor; kinds).
  intros [d Hd|d w c w2 z Hd Hw Hc Hw2 Hz|i z Hi Hz|s w z Hs Hw Hz|d w z Hd Hw Hz];
    constructor; auto; try (split; kinds; fail).
  - apply Forall_app; split.
    + destruct Hw; repeat constructor; kinds.
    + constructor; [split; kinds|]. apply Forall_app; auto.
  - apply Forall_app; auto.
  - apply Forall_app; split; auto. repeat constructor; kinds.
Qed.

Lemma timestamp_head ts : timestamp ts ->
  exists t r, ts = t :: r /\ ~ kinded WS t /\
    (integer_token t \/ (~ integer_token t /\ ~ kinded FLOAT t)).
Proof.
  intros [d Hd|d w c w2 z Hd Hw Hc Hw2 Hz|i z Hi Hz|s w z Hs Hw Hz|d w z Hd Hw Hz];
    eexists _, _; (split; [reflexivity|]); split;
    try (kinds; fail).
Qed.

(** ** Shapes *)
Definition follow_ok (pw : ptree) (r : list token) : Prop :=
  match r with
  | [] => True
  | t :: r' =>
    ~ kinded RAISE t /\ ~ kinded UNICODE_EXPONENT t /\
    (integer_token t -> has_exponent pw = false ->
     exists t2 r2, r' = t2 :: r2 /\ (kinded RAISE t2 \/ kinded UNICODE_EXPONENT t2))
  end.

Lemma derives_integer_inv ts t : derives Integer_r ts t ->
  exists i, ts = [i] /\ integer_token i /\ t = mk_integer i.
Proof. intro H; inversion H; subst. eauto. Qed.

Lemma p_number_sound ts t r : p_number ts = Some (t, r) ->
  exists i, ts = i :: r /\ derives Number_r [i] t /\ preferred t.
Proof.
  unfold p_number. destruct ts as [|i ts]; [discriminate|].
  destruct (is_integer i) eqn:E1; [|destruct (is_kind FLOAT i) eqn:E2; [|discriminate]];
    intro H; injection H as <- <-; exists i; (split; [reflexivity|split]); simpl; auto.
  - constructor. constructor. now apply is_integer_true.
  - apply D_number_float. now apply is_kind_true.
Qed.

Lemma derives_number_inv ts t : derives Number_r ts t ->
  exists i, ts = [i] /\ forall r, p_number (i :: r) = Some (t, r).
Proof.
  intro H; inversion H; subst.
  - apply derives_integer_inv in H0 as (j & -> & Hi & ->). exists j. split; auto.
    intro r. unfold p_number. apply is_integer_true in Hi. now rewrite Hi.
  - exists f. split; auto. intro r. unfold p_number.
    assert (is_integer f = false) as -> by (apply is_integer_false; kinds).
    assert (is_kind FLOAT f = true) as -> by now apply is_kind_true.
    reflexivity.
Qed.

Lemma p_exponent_sound lg ls ts t r : derives Logarithm_r ls lg -> preferred lg ->
  p_exponent lg ts = Some (t, r) ->
  exists c, ts = c ++ r /\ derives Power (ls ++ c) t /\ preferred t /\
            (has_exponent t = false -> follow_ok t r) /\
            (exists exps, t = PNode Power (lg :: exps) /\ (exps = [] -> c = [])) /\
            (forall x xs, c = x :: xs -> integer_token x -> t = PNode Power [lg; mk_integer x]) /\
            (match ts with
             | x :: _ => kinded RAISE x \/ kinded UNICODE_EXPONENT x -> c <> [] /\
                         forall i, t <> PNode Power [lg; PNode Integer_r i]
             | [] => True
             end).
Proof.
  intros D Pl H. unfold p_exponent in H.
  assert (Plain : t = PNode Power [lg] -> r = ts ->
    (match ts with [] => True | x :: r' =>
      ~ kinded RAISE x /\ ~ kinded UNICODE_EXPONENT x /\
      (integer_token x -> exists t2 r2, r' = t2 :: r2 /\ (kinded RAISE t2 \/ kinded UNICODE_EXPONENT t2))
     end) -> exists c, ts = c ++ r /\ derives Power (ls ++ c) t /\ preferred t /\
            (has_exponent t = false -> follow_ok t r) /\
            (exists exps, t = PNode Power (lg :: exps) /\ (exps = [] -> c = [])) /\
            (forall x xs, c = x :: xs -> integer_token x -> t = PNode Power [lg; mk_integer x]) /\
            (match ts with
             | x :: _ => kinded RAISE x \/ kinded UNICODE_EXPONENT x -> c <> [] /\
                         forall i, t <> PNode Power [lg; PNode Integer_r i]
             | [] => True
             end)).
  { intros -> -> Hf. exists []. rewrite app_nil_r. repeat split; auto.
    - now constructor.
    - intros _. unfold follow_ok. destruct ts; auto. simpl. intuition.
    - exists []. auto.
    - intros x xs E; discriminate.
    - destruct ts as [|x ts]; auto. intros [Hx|Hx]; destruct Hf as (? & ? & _); tauto. }
  destruct ts as [|t0 r0].
  { injection H as <- <-. apply Plain; auto. }
  destruct (is_integer t0) eqn:E0.
  - apply is_integer_true in E0.
    assert (Take : t = PNode Power [lg; mk_integer t0] -> r = r0 ->
      exists c, t0 :: r0 = c ++ r /\ derives Power (ls ++ c) t /\ preferred t /\
            (has_exponent t = false -> follow_ok t r) /\
            (exists exps, t = PNode Power (lg :: exps) /\ (exps = [] -> c = [])) /\
            (forall x xs, c = x :: xs -> integer_token x -> t = PNode Power [lg; mk_integer x]) /\
            (kinded RAISE t0 \/ kinded UNICODE_EXPONENT t0 -> c <> [] /\
                         forall i, t <> PNode Power [lg; PNode Integer_r i])).
    { intros -> ->. exists [t0]. split; [reflexivity|]. split.
      { apply (D_power_integer ls lg [t0]); auto. now constructor. }
      split; [simpl; tauto|]. split; [intro; discriminate|]. split; [eexists; split; [reflexivity|discriminate]|]. split.
      - intros x xs E _. injection E as <- <-. reflexivity.
      - intros [Hx|Hx]; exfalso; kinds. }
    destruct r0 as [|t2 r2].
    + injection H as <- <-. auto.
    + destruct (is_kind RAISE t2 || is_kind UNICODE_EXPONENT t2) eqn:E2.
      * injection H as <- <-. apply Plain; auto.
        rewrite orb_true_iff, !is_kind_true in E2.
        repeat split; try (kinds; fail). intros _. eauto.
      * injection H as <- <-. auto.
  - apply is_integer_false in E0. destruct (is_kind RAISE t0) eqn:E1.
    + apply is_kind_true in E1. destruct r0 as [|i r0]; [discriminate|].
      destruct (is_integer i) eqn:Ei; [|discriminate]. apply is_integer_true in Ei.
      injection H as <- <-. exists [t0; i]. split; [reflexivity|]. split.
      { apply (D_power_raise ls lg t0 [i]); auto. now constructor. }
      split; [simpl; tauto|]. split; [intro; discriminate|]. split; [eexists; split; [reflexivity|discriminate]|]. split.
      * intros x xs E Hx. injection E as <- <-. exfalso. auto.
      * intros _. split; [discriminate|]. intro; discriminate.
    + apply is_kind_false in E1. destruct (is_kind UNICODE_EXPONENT t0) eqn:E2.
      * apply is_kind_true in E2. injection H as <- <-. exists [t0]. split; [reflexivity|]. split.
        { now apply D_power_unicode. }
        split; [simpl; tauto|]. split; [intro; discriminate|]. split; [eexists; split; [reflexivity|discriminate]|]. split.
        -- intros x xs E Hx. injection E as <- <-. exfalso. auto.
        -- intros _. split; [discriminate|]. intro; discriminate.
      * apply is_kind_false in E2. injection H as <- <-. apply Plain; auto.
        repeat split; auto. intro; contradiction.
Qed.

Lemma opt_ws_ok ts w r : opt_ws ts = (w, r) -> ts = w ++ r /\ opt_space w.
Proof.
  unfold opt_ws. destruct ts as [|t ts].
  - intro H; injection H as <- <-. split; auto. constructor.
  - destruct (is_kind WS t) eqn:E; intro H; injection H as <- <-; split; auto; constructor.
    now apply is_kind_true.
Qed.

Lemma span_ws_ok ts w r : span_ws ts = (w, r) -> ts = w ++ r /\ Forall (kinded WS) w.
Proof.
  revert w r. induction ts as [|t ts IH]; simpl; intros w r H.
  - injection H as <- <-. auto.
  - destruct (is_kind WS t) eqn:E.
    + destruct (span_ws ts) as [a b]. injection H as <- <-.
      destruct (IH a b eq_refl) as [-> Hf]. split; auto. constructor; auto. now apply is_kind_true.
    + injection H as <- <-. auto.
Qed.

Lemma span_to_end_ok ts b r : span_to_end ts = (b, r) -> ts = b ++ r /\ at_end r = true.
Proof.
  revert b r. induction ts as [|t ts IH]; simpl; intros b r H.
  - injection H as <- <-. auto.
  - destruct (is_kind CLOSE_PAREN t) eqn:E.
    + injection H as <- <-. auto.
    + destruct (span_to_end ts) as [x y]. injection H as <- <-.
      destruct (IH x y eq_refl) as [-> He]. auto.
Qed.

Lemma all_map_leaf ts : (fix all (l : list ptree) : Prop :=
       match l with [] => True | x :: l' => preferred x /\ all l' end) (map PLeaf ts).
Proof. induction ts; simpl; auto. Qed.

Lemma all_app a b : (fix all (l : list ptree) : Prop :=
       match l with [] => True | x :: l' => preferred x /\ all l' end) (a ++ b) <->
  (fix all (l : list ptree) : Prop :=
       match l with [] => True | x :: l' => preferred x /\ all l' end) a /\
  (fix all (l : list ptree) : Prop :=
       match l with [] => True | x :: l' => preferred x /\ all l' end) b.
Proof. induction a; simpl; tauto. Qed.

Lemma preferred_node r cs : preferred (PNode r cs) <->
  local_ok r cs /\ Forall preferred cs.
Proof.
  simpl. assert (H : (fix all (l : list ptree) : Prop :=
       match l with [] => True | x :: l' => preferred x /\ all l' end) cs <-> Forall preferred cs).
  { induction cs as [|c cs IH]; [split; auto|]. rewrite Forall_cons_iff, <- IH. reflexivity. }
  tauto.
Qed.

Lemma Forall_leaf ts : Forall preferred (map PLeaf ts).
Proof. induction ts; simpl; constructor; auto. exact I. Qed.

Lemma eof_pref : preferred PEOF.
Proof. exact I. Qed.
Global Opaque preferred.

Lemma last_cons_app {A} (x : A) l y d : last (x :: l ++ [y]) d = y.
Proof. change (x :: l ++ [y]) with ((x :: l) ++ [y]). apply last_last. Qed.

Lemma Forall_shift prod w1 op w2 n : preferred prod -> preferred n ->
  Forall preferred ((prod :: map PLeaf w1 ++ PLeaf op :: map PLeaf w2) ++ [n]).
Proof.
  intros P Pn. apply Forall_app; split; [|auto]. constructor; auto.
  apply Forall_app; split; [apply Forall_leaf|].
  constructor; [|apply Forall_leaf]. pose proof (Forall_leaf [op]) as H. now inversion H.
Qed.

Lemma shift_tail_sound prod ps ts t r : derives Product ps prod -> preferred prod ->
  p_shift_tail prod ts = Some (t, r) ->
  exists c, ts = c ++ r /\ derives Shift_spec (ps ++ c) t /\ preferred t.
Proof.
  intros D P H. unfold p_shift_tail in H.
  assert (Plain : Some (PNode Shift_spec [prod], ts) = Some (t, r) ->
    exists c, ts = c ++ r /\ derives Shift_spec (ps ++ c) t /\ preferred t).
  { intro E; injection E as <- <-. exists []. rewrite app_nil_r. repeat split; auto.
    - now constructor.
    - apply preferred_node. split; [|auto]. simpl. inversion D; subst; auto. }
  destruct (opt_ws ts) as [w1 r1] eqn:E1. apply opt_ws_ok in E1 as [-> Hw1].
  destruct r1 as [|op r2]; auto.
  destruct (is_kind SHIFT_OP op) eqn:Eop; auto. apply is_kind_true in Eop.
  destruct (opt_ws r2) as [w2 r3] eqn:E2. apply opt_ws_ok in E2 as [-> Hw2].
  assert (Stamp : (forall i, r3 = i :: r -> ~ integer_token i) ->
    (let (body, rest) := span_to_end r3 in
       if is_timestamp body then Some (PNode Shift_spec ((prod :: map PLeaf w1 ++ PLeaf op :: map PLeaf w2) ++ [PNode Timestamp_r (map PLeaf body)]), rest)
       else None) = Some (t, r) ->
    exists c, w1 ++ op :: w2 ++ r3 = c ++ r /\ derives Shift_spec (ps ++ c) t /\ preferred t).
  { intros Hni Hs. destruct (span_to_end r3) as [body rest] eqn:E3.
    apply span_to_end_ok in E3 as [-> He]. destruct (is_timestamp body) eqn:E4; [|discriminate].
    apply is_timestamp_ok in E4. injection Hs as <- <-.
    exists (w1 ++ op :: w2 ++ body). split.
    { rewrite <- app_assoc. simpl. rewrite <- app_assoc. reflexivity. }
    split.
    { now apply D_shift_timestamp. }
    apply preferred_node. split.
    - unfold local_ok. rewrite last_cons_app. destruct body as [|i [|]]; simpl; auto.
    - apply Forall_shift; auto. apply preferred_node. split; [exact I|apply Forall_leaf]. }
  destruct (p_number r3) as [[n rest]|] eqn:En.
  - destruct (at_end rest) eqn:Ee.
    + injection H as <- <-. apply p_number_sound in En as (i & -> & Dn & Pn).
      exists (w1 ++ op :: w2 ++ [i]). split.
      { rewrite <- app_assoc. simpl. rewrite <- app_assoc. reflexivity. }
      split.
      { now apply D_shift_number. }
      apply preferred_node. split.
      * unfold local_ok.
        rewrite last_cons_app. inversion Dn; subst; auto.
      * apply Forall_shift; auto.
    + apply Stamp; auto. intros i -> Hi.
      assert (r = rest) as ->.
      { apply p_number_sound in En as (j & Ej & _). injection Ej as _ Ej; auto. }
      destruct (span_to_end (i :: rest)) as [body rest'] eqn:E3.
      apply span_to_end_ok in E3 as [E3 He].
      destruct (is_timestamp body); [|discriminate]. injection H as _ ->. congruence.
  - apply Stamp; auto. intros i -> Hi. apply is_integer_true in Hi. simpl in En. now rewrite Hi in En.
Qed.

(** ** Soundness: what the parser returns is a preferred derivation. *)
Lemma last_power_snoc cs p : last_power (PNode Product (cs ++ [p])) = p.
Proof. simpl. apply last_last. Qed.

Lemma starts_power_head t r : starts_power (t :: r) = true ->
  kinded ID t \/ kinded OPEN_PAREN t \/ integer_token t \/ kinded FLOAT t \/ kinded LOG t.
Proof.
  simpl. rewrite !orb_true_iff, !is_kind_true, is_integer_true. tauto.
Qed.

(** what the head of the text says about an integer power *)
Definition head_ok (c : list token) (t : ptree) (r : list token) : Prop :=
  bare_integer t = true ->
  exists i c', c = i :: c' /\ integer_token i /\
    match c' ++ r with
    | x :: _ => ~ kinded RAISE x /\ ~ kinded UNICODE_EXPONENT x
    | [] => True
    end.

Lemma sound f :
  (forall ts t r, p_shift f ts = Some (t, r) ->
     exists c, ts = c ++ r /\ derives Shift_spec c t /\ preferred t /\ c <> []) /\
  (forall acc ps ts t r, derives Product ps acc -> preferred acc ->
     (has_exponent (last_power acc) = false -> follow_ok (last_power acc) ts) ->
     p_loop f acc ts = Some (t, r) ->
     exists c, ts = c ++ r /\ derives Product (ps ++ c) t /\ preferred t) /\
  (forall ts t r, p_power f ts = Some (t, r) ->
     exists c, ts = c ++ r /\ derives Power c t /\ preferred t /\ c <> [] /\
       (has_exponent t = false -> follow_ok t r) /\ head_ok c t r).
Proof.
  induction f as [|f IH]; [repeat split; discriminate|].
  destruct IH as (IHs & IHl & IHp). split; [|split].
  - intros ts t r H. cbn [p_shift] in H.
    destruct (p_power f ts) as [[pw r1]|] eqn:E1; [|discriminate].
    destruct (p_loop f (PNode Product [pw]) r1) as [[prod r2]|] eqn:E2; [|discriminate].
    apply IHp in E1 as (c1 & -> & D1 & P1 & N1 & F1 & _).
    apply (IHl _ c1) in E2 as (c2 & -> & D2 & P2).
    + destruct (shift_tail_sound _ _ _ _ _ D2 P2 H) as (c3 & -> & D3 & P3).
      exists ((c1 ++ c2) ++ c3). rewrite !app_assoc. repeat split; auto.
      destruct c1; [contradiction|discriminate].
    + now constructor.
    + apply preferred_node. split; [exact I|auto].
    + auto.
  - intros acc ps ts t r D P F H. cbn [p_loop] in H.
    destruct (starts_power ts) eqn:Es.
    + destruct (p_power f ts) as [[pw r1]|] eqn:E1; [|discriminate].
      apply IHp in E1 as (c1 & -> & D1 & P1 & N1 & F1 & H1).
      apply (IHl _ (ps ++ c1)) in H as (c2 & -> & D2 & P2).
      * exists (c1 ++ c2). rewrite !app_assoc in *. auto.
      * now constructor.
      * apply preferred_node. split; [|auto]. simpl. intro B.
        destruct (has_exponent (last_power acc)) eqn:Ex; auto.
        destruct (H1 B) as (i & c' & -> & Hi & Hx). simpl in F.
        destruct (F eq_refl) as (_ & _ & F3).
        destruct (F3 Hi Ex) as (t2 & r2 & E & Ht2). rewrite E in Hx. tauto.
      * simpl. auto.
    + assert (Stop : Some (acc, ts) = Some (t, r) -> exists c, ts = c ++ r /\ derives Product (ps ++ c) t /\ preferred t).
      { intro E; injection E as <- <-. exists []. rewrite app_nil_r. auto. }
      destruct ts as [|t0 ts]; auto.
      destruct (is_kind MULTIPLY t0 || is_kind DIVIDE t0) eqn:Em.
      * destruct (p_power f ts) as [[pw r1]|] eqn:E1; [|discriminate].
        apply IHp in E1 as (c1 & -> & D1 & P1 & N1 & F1 & _).
        apply (IHl _ (ps ++ t0 :: c1)) in H as (c2 & -> & D2 & P2).
        -- exists (t0 :: c1 ++ c2). simpl. rewrite <- !app_assoc in *. auto.
        -- rewrite orb_true_iff, !is_kind_true in Em. destruct Em.
           ++ now apply D_product_multiply.
           ++ now apply D_product_divide.
        -- apply preferred_node. split; [exact I|]. constructor; auto. constructor; auto.
           pose proof (Forall_leaf [t0]) as HH; now inversion HH.
        -- simpl. auto.
      * destruct (is_kind WS t0) eqn:Ew; auto.
        destruct (span_ws (t0 :: ts)) as [ws r'] eqn:Esp.
        pose proof (span_ws_ok _ _ _ Esp) as [Eq Hws].
        destruct (starts_power r') eqn:Es'; auto.
        destruct (p_power f r') as [[pw r1]|] eqn:E1; [|discriminate].
        apply IHp in E1 as (c1 & -> & D1 & P1 & N1 & F1 & _).
        apply (IHl _ (ps ++ ws ++ c1)) in H as (c2 & -> & D2 & P2).
        -- exists (ws ++ c1 ++ c2). rewrite Eq, <- !app_assoc in *. auto.
        -- apply D_product_space; auto. intros ->. simpl in Esp. rewrite Ew in Esp.
           destruct (span_ws ts); discriminate.
        -- apply preferred_node. split.
           ++ destruct ws as [|w ws]; [simpl in Esp; rewrite Ew in Esp; destruct (span_ws ts); discriminate|].
              simpl. destruct (map PLeaf ws); exact I.
           ++ constructor; auto. apply Forall_app; split; [apply Forall_leaf|auto].
        -- unfold last_power. rewrite last_cons_app. auto.
  - intros ts t r H. cbn [p_power] in H. destruct ts as [|t0 ts]; [discriminate|].
    assert (Fin : forall ls lg rest, derives Logarithm_r ls lg -> preferred lg -> ls <> [] ->
        (integer_power lg = true -> exists i, ls = [i] /\ integer_token i) ->
        t0 :: ts = ls ++ rest -> p_exponent lg rest = Some (t, r) ->
        exists c, t0 :: ts = c ++ r /\ derives Power c t /\ preferred t /\ c <> [] /\
          (has_exponent t = false -> follow_ok t r) /\ head_ok c t r).
    { intros ls lg rest D P N HI E HE.
      destruct (p_exponent_sound _ _ _ _ _ D P HE) as (c & -> & D1 & P1 & F1 & (exps & Ex & Exc) & Hint & Hr).
      exists (ls ++ c). rewrite E, app_assoc. repeat split; auto.
      - destruct ls; [contradiction|discriminate].
      - intro B. subst t.
        assert (integer_power lg = true /\ (exps = [] \/ exists i, exps = [PNode Integer_r i])) as [B1 B2].
        { destruct exps as [|e [|]]; simpl in B; auto.
          - destruct e as [[] | |]; try discriminate. eauto.
          - destruct e as [[] | |]; discriminate. }
        destruct (HI B1) as (i & -> & Hi). exists i, c. repeat split; auto.
        destruct (c ++ r) as [|x rest'] eqn:Ec; auto.
        assert (forall K, (K = RAISE \/ K = UNICODE_EXPONENT) -> ~ kinded K x) as HK.
        { intros K HK Hk. destruct Hr as [Hc Hne].
          - destruct HK; subst K; auto.
          - destruct B2 as [->|[j ->]].
            + apply Hc. auto.
            + apply (Hne j). reflexivity. }
        split; apply HK; auto. }
    destruct (is_kind LOG t0) eqn:El.
    + apply is_kind_true in El.
      destruct (p_shift f ts) as [[sh [|c r']]|] eqn:E1; try discriminate.
      destruct (is_kind CLOSE_PAREN c) eqn:Ec; [|discriminate]. apply is_kind_true in Ec.
      apply IHs in E1 as (cs & -> & D1 & P1 & N1).
      eapply (Fin (t0 :: cs ++ [c])); [| | | | |exact H].
      * now apply D_log.
      * apply preferred_node. split; [exact I|].
        pose proof (Forall_leaf [t0; c]) as HH. inversion HH as [|? ? A1 A2]; subst. inversion A2; subst.
        repeat constructor; auto.
      * discriminate.
      * discriminate.
      * simpl. now rewrite <- app_assoc.
    + destruct (is_kind OPEN_PAREN t0) eqn:Eo.
      * apply is_kind_true in Eo.
        destruct (p_shift f ts) as [[sh [|c r']]|] eqn:E1; try discriminate.
        destruct (is_kind CLOSE_PAREN c) eqn:Ec; [|discriminate]. apply is_kind_true in Ec.
        apply IHs in E1 as (cs & -> & D1 & P1 & N1).
        eapply (Fin (t0 :: cs ++ [c])); [| | | | |exact H].
        -- constructor. now apply D_basic_paren.
        -- apply preferred_node. split; [exact I|]. constructor; auto.
           apply preferred_node. split; [exact I|].
           pose proof (Forall_leaf [t0; c]) as HH. inversion HH as [|? ? A1 A2]; subst. inversion A2; subst.
           repeat constructor; auto.
        -- discriminate.
        -- discriminate.
        -- simpl. now rewrite <- app_assoc.
      * destruct (is_kind ID t0) eqn:Ei.
        -- apply is_kind_true in Ei. eapply (Fin [t0]); [| | | | |exact H]; auto; try discriminate.
           ++ constructor. now constructor.
           ++ apply preferred_node. split; [exact I|]. constructor; auto.
              apply preferred_node. split; [exact I|]. apply (Forall_leaf [t0]).
        -- destruct (p_number (t0 :: ts)) as [[n r']|] eqn:En; [|discriminate].
           pose proof En as En'.
           apply p_number_sound in En as (i & E & Dn & Pn). injection E as <- ->.
           eapply (Fin [t0]); [| | | | |exact H]; auto; try discriminate.
           ++ constructor. now constructor.
           ++ apply preferred_node. split; [exact I|]. constructor; auto.
              apply preferred_node. split; [exact I|]. auto.
           ++ intro B. exists t0. split; auto. simpl in En'.
              destruct (is_integer t0) eqn:E; [now apply is_integer_true|].
              destruct (is_kind FLOAT t0); [|discriminate]. injection En' as <-. discriminate.
Qed.
