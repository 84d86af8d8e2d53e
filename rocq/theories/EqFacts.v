(** * Unit.__eq__: when two expanded definitions compare equal. *)
From Verif Require Import PyBase PyNum Graph Expr Units UnitSpec UnitFacts UnitProofs RegexFacts Sympy Convert ConvertSpec ConvertFacts ConvertProofs ConvertMore.
From Coq Require Import QArith Reals Qreals Lra Lia.
Close Scope Q_scope.

Lemma base_distinct : 2%R <> 10%R /\ 2%R <> exp 1 /\ 10%R <> exp 1.
Proof.
  pose proof exp_le_3. pose proof (exp_ineq1 1 ltac:(lra)). repeat split; lra.
Qed.

Lemma log_base_same f g : log_base_R f = log_base_R g -> log_base_R f <> None -> log_base f = log_base g.
Proof.
  destruct base_distinct as (A & B & C). unfold log_base_R, log_base.
  destruct (str_eqb f (u "lb")), (str_eqb g (u "lb")); auto;
  destruct (str_eqb f (u "lg")), (str_eqb g (u "lg")); auto;
  destruct (str_eqb f (u "ln")), (str_eqb g (u "ln")); cbn [orb]; auto;
  destruct (str_eqb f (u "log")), (str_eqb g (u "log")); cbn [orb]; auto;
  intros H N; injection H as H || discriminate || (now exfalso) || idtac; try (exfalso; congruence); try discriminate.
Qed.

Definition logs (bs : list lbase) : chain := map OpLog bs.

Lemma scale_form a b : same_scale a b -> forall root, exists t1 d1 t2 d2 st1 st2 bs,
  Expr.split root a = Ok (t1, d1) /\ Expr.split root b = Ok (t2, d2) /\ rated d1 /\ rated d2 /\
  factor d1 = factor d2 /\ (forall s, symexp d1 s = symexp d2 s) /\
  to_sympy (transform_node t1) = Ok st1 /\ to_sympy (transform_node t2) = Ok st2 /\
  chain_of st1 = Some (logs bs) /\ chain_of st2 = Some (logs bs).
Proof.
  induction 1 as [f g a b N E S IH|a b Ra Rb F X]; intro root.
  - destruct (IH false) as (t1 & d1 & t2 & d2 & st1 & st2 & bs & S1 & S2 & R1 & R2 & F & X & T1 & T2 & C1 & C2).
    destruct (log_base_R f) as [r|] eqn:L; [|congruence]. destruct (log_base_spec _ _ L) as (k & Lk & _).
    assert (Lg : log_base g = Some k). { rewrite <- Lk. symmetry. apply log_base_same; congruence. }
    exists (Some (Logarithm f (transform_node t1))), d1, (Some (Logarithm g (transform_node t2))), d2, (SLog k st1), (SLog k st2), (bs ++ [k]).
    cbn [Expr.split]. rewrite S1, S2. cbn [bind fst snd].
    split; [reflexivity|]. split; [reflexivity|]. split; [exact R1|]. split; [exact R2|]. split; [exact F|]. split; [exact X|].
    change (transform_node (Some (Logarithm f (transform_node t1)))) with (Logarithm f (transform_node t1)).
    change (transform_node (Some (Logarithm g (transform_node t2)))) with (Logarithm g (transform_node t2)).
    cbn [to_sympy]. rewrite Lk, Lg, T1, T2. cbn [bind]. split; [reflexivity|]. split; [reflexivity|].
    cbn [chain_of]. rewrite C1, C2. unfold logs. rewrite map_app. split; reflexivity.
  - exists None, a, None, b, (SSym (u "value")), (SSym (u "value")), [].
    split; [apply split_plain, rated_plain, Ra|]. split; [apply split_plain, rated_plain, Rb|].
    repeat split; auto.
Qed.

Lemma norm_logs bs : forall acc, fold_left (fun a o => push o a) (logs bs) acc = rev (logs bs) ++ acc.
Proof.
  induction bs as [|b bs IH]; intro acc; [reflexivity|]. cbn [logs map fold_left]. change (push (OpLog b) acc) with (OpLog b :: acc).
  fold (logs bs). rewrite IH. cbn [rev]. now rewrite <- app_assoc.
Qed.

Lemma norm_shift bs q1 q2 : (q1 == q2)%Q -> chain_norm (logs bs ++ [OpAdd q1]) = chain_norm (logs bs ++ [OpAdd q2]).
Proof.
  intro E. unfold chain_norm. f_equal. rewrite !fold_left_app, norm_logs. cbn [fold_left].
  assert (P : forall q, push (OpAdd q) (rev (logs bs) ++ []) = if Q_is0 q then rev (logs bs) ++ [] else OpAdd (Qred q) :: rev (logs bs) ++ []).
  { intro q. destruct bs as [|b bs]; [reflexivity|]. cbn [logs map rev]. fold (logs bs).
    unfold logs. rewrite <- map_rev. destruct (rev bs) as [|c r]; reflexivity. }
  rewrite !P. rewrite (Qred_complete _ _ E). assert (Z : Q_is0 q1 = Q_is0 q2); [|now rewrite Z].
  unfold Q_is0. unfold Qeq in E. apply eq_true_iff_eq. rewrite !Z.eqb_eq. nia.
Qed.

Lemma op_eqb_refl o : match o with OpScale _ => False | _ => True end -> op_eqb o o = true.
Proof. destruct o as [m|q|[]|[]|]; cbn; intro H; auto; try contradiction. apply Qeq_bool_iff. reflexivity. Qed.
Lemma chain_eqb_refl c : noscale c -> chain_eqb c c = true.
Proof. induction 1 as [|o c H _ IH]; [reflexivity|]. cbn [chain_eqb]. now rewrite op_eqb_refl, IH. Qed.
Lemma logs_noscale bs : noscale (logs bs).
Proof. induction bs; constructor; cbn; auto. Qed.

Lemma normal_from x e t d st c : expanded x = Ok e -> split_root e = Ok (t, d) -> rated d ->
  to_sympy (transform_node t) = Ok st -> chain_of st = Some c -> exists m, normal_form x = Ok (c, m) /\ good m /\
  Q2R (m_coef m) = factor d /\ forall s, mget s (m_exps m) = symexp d s.
Proof.
  intros Ex S Rd T C. destruct (rated_mono _ Rd) as (sd & m & Td & Md & G & Cm & Xm).
  exists m. unfold normal_form, symbolic. rewrite Ex. cbn [bind]. rewrite S. cbn [bind fst snd].
  assert (T' : (match t with Some t => to_sympy t | None => Ok (SSym (u "value")) end) = Ok st) by (destruct t; exact T).
  rewrite T'. cbn [bind]. rewrite Td. cbn [bind fst snd]. rewrite C. cbn [of_option bind]. rewrite Md. cbn [of_option bind].
  auto.
Qed.

Lemma mono_same m1 m2 : good m1 -> good m2 -> Q2R (m_coef m1) = Q2R (m_coef m2) ->
  (forall s, mget s (m_exps m1) = mget s (m_exps m2)) -> mono_eqb m1 m2 = true.
Proof.
  intros G1 G2 C X. unfold mono_eqb. apply andb_true_iff. split.
  - apply Qeq_bool_iff. now apply eqR_Qeq.
  - rewrite exps_eqb_iff; [exact X|apply G1|apply G2].
Qed.

Lemma unit_eq_complete x y e1 e2 : expanded x = Ok e1 -> expanded y = Ok e2 -> same_measure e1 e2 -> unit_eq x y = Ok true.
Proof.
  intros X1 X2 M. unfold unit_eq. destruct (str_eqb _ _); [reflexivity|]. destruct M as [a b v w r1 r2 S N|a b S].
  - destruct (scale_form a b S false) as (t1 & d1 & t2 & d2 & st1 & st2 & bs & S1 & S2 & R1 & R2 & F & X & T1 & T2 & C1 & C2).
    assert (V : exists q1 q2, num_sympy v = Ok (SNum q1) /\ num_sympy w = Ok (SNum q2) /\ (q1 == q2)%Q).
    { destruct v as [a1|a1|a1], w as [b1|b1|b1]; cbn [same_number] in N; try contradiction.
      - subst. eexists _, _. split; [reflexivity|]. split; reflexivity.
      - eexists _, _. split; [reflexivity|]. split; [reflexivity|exact N]. }
    destruct V as (q1 & q2 & V1 & V2 & Q).
    destruct (normal_from x (Shift a (Number v r1)) (Some (Shift (transform_node t1) (Number v r1))) d1 (SSub st1 (SNum q1)) (logs bs ++ [OpAdd (- q1)]))
      as (m1 & N1 & G1 & K1 & Y1); auto.
    { unfold split_root. cbn [Expr.split]. rewrite S1. reflexivity. }
    { change (transform_node (Some (Shift (transform_node t1) (Number v r1)))) with (Shift (transform_node t1) (Number v r1)).
      cbn [to_sympy]. rewrite T1, V1. reflexivity. }
    { cbn [chain_of]. rewrite C1. reflexivity. }
    destruct (normal_from y (Shift b (Number w r2)) (Some (Shift (transform_node t2) (Number w r2))) d2 (SSub st2 (SNum q2)) (logs bs ++ [OpAdd (- q2)]))
      as (m2 & N2 & G2 & K2 & Y2); auto.
    { unfold split_root. cbn [Expr.split]. rewrite S2. reflexivity. }
    { change (transform_node (Some (Shift (transform_node t2) (Number w r2)))) with (Shift (transform_node t2) (Number w r2)).
      cbn [to_sympy]. rewrite T2, V2. reflexivity. }
    { cbn [chain_of]. rewrite C2. reflexivity. }
    rewrite N1, N2. cbn [bind fst snd]. f_equal. apply andb_true_iff. split.
    + apply mono_same; auto; [congruence|]. intro s. now rewrite Y1, Y2.
    + rewrite (norm_shift bs (- q1) (- q2)) by now rewrite Q. apply chain_eqb_refl, chain_norm_noscale.
      apply Forall_app. split; [apply logs_noscale|repeat constructor].
  - destruct (scale_form a b S true) as (t1 & d1 & t2 & d2 & st1 & st2 & bs & S1 & S2 & R1 & R2 & F & X & T1 & T2 & C1 & C2).
    destruct (normal_from x a t1 d1 st1 (logs bs)) as (m1 & N1 & G1 & K1 & Y1); auto.
    destruct (normal_from y b t2 d2 st2 (logs bs)) as (m2 & N2 & G2 & K2 & Y2); auto.
    rewrite N1, N2. cbn [bind fst snd]. f_equal. apply andb_true_iff. split.
    + apply mono_same; auto; [congruence|]. intro s. now rewrite Y1, Y2.
    + apply chain_eqb_refl, chain_norm_noscale, logs_noscale.
Qed.

(** transitivity of the comparison of normal forms *)
Lemma mono_eqb_trans a b c : wf_exps (m_exps a) -> wf_exps (m_exps b) -> wf_exps (m_exps c) ->
  mono_eqb a b = true -> mono_eqb b c = true -> mono_eqb a c = true.
Proof.
  unfold mono_eqb. intros Wa Wb Wc H1 H2. apply andb_true_iff in H1 as [A1 B1], H2 as [A2 B2].
  apply Qeq_bool_iff in A1, A2. rewrite exps_eqb_iff in B1, B2 by auto. apply andb_true_iff. split.
  - apply Qeq_bool_iff. now rewrite A1.
  - rewrite exps_eqb_iff by auto. intro s. now rewrite B1.
Qed.
Lemma op_eqb_trans a b c : op_wf a -> op_wf b -> op_wf c -> op_eqb a b = true -> op_eqb b c = true -> op_eqb a c = true.
Proof.
  destruct a as [m|q|[]|[]|], b as [m'|q'|[]|[]|]; cbn [op_eqb op_wf]; try (intros; discriminate);
  destruct c as [m''|q''|[]|[]|]; cbn [op_eqb op_wf]; try (intros; discriminate); auto.
  - intros A B C. now apply mono_eqb_trans.
  - intros _ _ _ A B. apply Qeq_bool_iff in A, B. apply Qeq_bool_iff. now rewrite A.
Qed.
Lemma chain_eqb_trans a : forall b c, Forall op_wf a -> Forall op_wf b -> Forall op_wf c ->
  chain_eqb a b = true -> chain_eqb b c = true -> chain_eqb a c = true.
Proof.
  induction a as [|x a IH]; intros [|y b] [|z c] A B C; cbn [chain_eqb]; try discriminate; auto.
  inversion A; inversion B; inversion C; subst. intros Q1 Q2. apply andb_true_iff in Q1 as [Q1 I1], Q2 as [Q2 I2].
  apply andb_true_iff. split; [eapply op_eqb_trans with (b := y); eauto|eapply IH with (b := b); eauto].
Qed.

Lemma unit_eq_trans x y z : node_str (definition_of x) <> node_str (definition_of y) ->
  node_str (definition_of y) <> node_str (definition_of z) ->
  unit_eq x y = Ok true -> unit_eq y z = Ok true -> unit_eq x z = Ok true.
Proof.
  intros D1 D2. unfold unit_eq.
  destruct (str_eqb (node_str (definition_of y)) (node_str (definition_of x))) eqn:S1; [apply str_eqb_eq in S1; congruence|].
  destruct (str_eqb (node_str (definition_of z)) (node_str (definition_of y))) eqn:S2; [apply str_eqb_eq in S2; congruence|].
  destruct (str_eqb (node_str (definition_of z)) (node_str (definition_of x))); [reflexivity|].
  destruct (normal_form x) as [[c1 m1]|] eqn:N1; [|discriminate].
  destruct (normal_form y) as [[c2 m2]|] eqn:N2; [|discriminate].
  destruct (normal_form z) as [[c3 m3]|] eqn:N3; [|discriminate]. cbn [bind fst snd]. intros H1 H2.
  injection H1 as H1. injection H2 as H2. apply andb_true_iff in H1 as [A1 B1], H2 as [A2 B2].
  apply normal_form_wf in N1 as [W1 V1], N2 as [W2 V2], N3 as [W3 V3]. f_equal. apply andb_true_iff. split.
  - eapply mono_eqb_trans with (b := m2); eauto.
  - eapply chain_eqb_trans with (b := chain_norm c2); eauto; now apply chain_norm_wf.
Qed.
