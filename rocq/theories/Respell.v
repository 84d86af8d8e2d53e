(** * C06: the spelling of operator tokens does not influence the result. *)
From Verif Require Import PyBase PyNum Graph Lexer LexSpec LexerFacts Parser GrammarSpec
  ParserFacts ParserComplete Visitor VisitSpec VisitorFacts ParseFacts.

(** Two tokens that differ at most in how an operator is spelt. *)
Inductive respelled : token -> token -> Prop :=
| Rs_same t : respelled t t
| Rs_operator k a b : In k [MULTIPLY; DIVIDE; RAISE; SHIFT_OP] -> respelled (mkTok k a) (mkTok k b)
| Rs_log f sp1 sp2 r1 r2 : In f log_names ->
    Forall (fun x => x = 32%N) sp1 -> Forall (fun x => x = 32%N) sp2 ->
    respelled (mkTok LOG (f ++ sp1 ++ 40%N :: r1)) (mkTok LOG (f ++ sp2 ++ 40%N :: r2)).

Lemma respelled_sym a b : respelled a b -> respelled b a.
Proof. intros [t|k x y H|f sp1 sp2 r1 r2 H H1 H2]; [apply Rs_same|now apply Rs_operator|now apply Rs_log]. Qed.

Lemma respelled_kind a b : respelled a b -> tkind a = tkind b.
Proof. now intros [t|k x y H|f sp1 sp2 r1 r2 H H1 H2]. Qed.

Lemma log_name f sp r : In f log_names -> Forall (fun x => x = 32%N) sp ->
  strip (before_paren (f ++ sp ++ 40%N :: r)) = f.
Proof.
  intros Hn Hs. rewrite app_assoc, before_paren_app.
  - now apply strip_trailing.
  - apply Forall_app. split.
    + repeat (destruct Hn as [<-|Hn]; [repeat constructor; discriminate|]). destruct Hn.
    + eapply Forall_impl; [|exact Hs]. intros a ->. discriminate.
Qed.

Lemma respelled_visit a b : respelled a b -> visit_terminal a = visit_terminal b.
Proof.
  intros [t|k x y H|f sp1 sp2 r1 r2 H H1 H2]; auto.
  - simpl in H. destruct H as [<-|[<-|[<-|[<-|[]]]]]; reflexivity.
  - unfold visit_terminal. cbn [tkind ttext]. now rewrite !log_name.
Qed.

Inductive trel : ptree -> ptree -> Prop :=
| T_leaf a b : respelled a b -> trel (PLeaf a) (PLeaf b)
| T_eof : trel PEOF PEOF
| T_node r cs cs' : r <> Timestamp_r -> Forall2 trel cs cs' -> trel (PNode r cs) (PNode r cs')
| T_stamp cs : trel (PNode Timestamp_r cs) (PNode Timestamp_r cs).

Section Ind.
  Variable P : ptree -> Prop.
  Hypothesis Pl : forall t, P (PLeaf t).
  Hypothesis Pe : P PEOF.
  Hypothesis Pn : forall r cs, Forall P cs -> P (PNode r cs).
  Fixpoint ptree_ind' (t : ptree) : P t :=
    match t with
    | PLeaf t => Pl t
    | PEOF => Pe
    | PNode r cs => Pn r cs ((fix go l : Forall P l :=
        match l with [] => Forall_nil P | x :: l' => Forall_cons x (ptree_ind' x) (go l') end) cs)
    end.
End Ind.

Lemma trel_visit t : forall t', trel t t' -> visit t = visit t'.
Proof.
  induction t as [x| |r cs IH] using ptree_ind'; intros t' H; inversion H; subst; auto.
  - simpl. now apply respelled_visit.
  - rewrite !visit_node by auto. replace (mapM visit cs') with (mapM visit cs); auto.
    clear -IH H4. induction H4; auto. inversion IH; subst. cbn [mapM].
    rewrite (H2 _ H), IHForall2; auto.
Qed.

Fixpoint shape (t : ptree) : ptree :=
  match t with
  | PLeaf x => PLeaf (mkTok (tkind x) [])
  | PEOF => PEOF
  | PNode r cs => PNode r (map shape cs)
  end.

Lemma trel_shape t : forall t', trel t t' -> shape t = shape t'.
Proof.
  induction t as [x| |r cs IH] using ptree_ind'; intros t' H; inversion H; subst; auto.
  - simpl. now rewrite (respelled_kind x b).
  - simpl. f_equal. clear -IH H4. induction H4; auto. inversion IH; subst. simpl. f_equal; auto.
Qed.

Ltac crack := repeat (simpl; try reflexivity;
  match goal with
  | |- context [match ?x with _ => _ end] => is_var x; destruct x
  end).

Lemma shape_integer_power t : integer_power (shape t) = integer_power t.
Proof. destruct t; try reflexivity. unfold integer_power. crack. Qed.
Lemma shape_has_exponent t : has_exponent (shape t) = has_exponent t.
Proof. destruct t; try reflexivity. unfold has_exponent. crack. Qed.
Lemma shape_bare_integer t : bare_integer (shape t) = bare_integer t.
Proof.
  destruct t as [r cs| |]; try reflexivity. destruct r; try reflexivity.
  destruct cs as [|a [|b [|c cs]]]; try reflexivity; simpl.
  - apply shape_integer_power.
  - destruct b as [r cs| |]; try reflexivity. destruct r; try reflexivity. apply shape_integer_power.
  - destruct b as [r ds| |]; try reflexivity; destruct r; reflexivity.
Qed.
Lemma shape_last cs : last (map shape cs) PEOF = shape (last cs PEOF).
Proof. induction cs as [|a [|b cs] IH]; auto. Qed.
Lemma shape_last_power t : last_power (shape t) = shape (last_power t).
Proof. destruct t; try reflexivity. apply shape_last. Qed.

Lemma shape_local_ok r cs : local_ok r (map shape cs) <-> local_ok r cs.
Proof.
  destruct r; try reflexivity.
  - unfold local_ok. rewrite shape_last. destruct (last cs PEOF) as [r ds| |]; try reflexivity.
    destruct r; try reflexivity. destruct ds as [|d [|e ds]]; try reflexivity.
    + destruct d; reflexivity.
    + destruct d; reflexivity.
  - destruct cs as [|a [|b [|c cs]]]; try reflexivity. unfold local_ok; simpl.
    rewrite shape_bare_integer, shape_last_power, shape_has_exponent. reflexivity.
Qed.

Lemma shape_preferred t : preferred (shape t) <-> preferred t.
Proof.
  induction t as [x| |r cs IH] using ptree_ind'; try reflexivity.
  change (shape (PNode r cs)) with (PNode r (map shape cs)).
  rewrite !preferred_node, shape_local_ok.
  assert (Forall preferred (map shape cs) <-> Forall preferred cs); [|tauto].
  induction IH as [|c cs Hc _ IH]; simpl; [split; constructor|].
  rewrite !Forall_cons_iff, Hc, IH. reflexivity.
Qed.

Lemma trel_preferred t t' : trel t t' -> preferred t -> preferred t'.
Proof. intros H. rewrite <- (shape_preferred t), <- (shape_preferred t'), (trel_shape t t' H). auto. Qed.

Lemma respelled_kinded k a b : respelled a b -> kinded k a -> kinded k b.
Proof. intros H. unfold kinded. now rewrite (respelled_kind a b H). Qed.
Lemma respelled_integer a b : respelled a b -> integer_token a -> integer_token b.
Proof. intros H [K|K]; [left|right]; eapply respelled_kinded; eauto. Qed.

Lemma respelled_opt_space w w' : Forall2 respelled w w' -> opt_space w -> opt_space w'.
Proof.
  intros F O. destruct O; inversion F; subst; [constructor|]. inversion H4; subst.
  constructor. eapply respelled_kinded; eauto.
Qed.

Lemma respelled_leaves w w' : Forall2 respelled w w' -> Forall2 trel (map PLeaf w) (map PLeaf w').
Proof. induction 1; simpl; constructor; auto. now constructor. Qed.

Definition stamp_kinds : list kind :=
  [DATE; INT; SIGNED_INT; HOUR_MINUTE_SECOND; HOUR_MINUTE; TIMEZONE; TZ; WS; T; TIMESTAMP].

Lemma timestamp_in_kinds ts : timestamp ts -> Forall (fun t => In (tkind t) stamp_kinds) ts.
Proof.
  assert (I : forall t, integer_token t -> In (tkind t) stamp_kinds)
    by (intros t [H|H]; unfold kinded in H; rewrite H; simpl; tauto).
  assert (D : forall t, date_or_integer t -> In (tkind t) stamp_kinds)
    by (intros t [H|H]; auto; unfold kinded in H; rewrite H; simpl; tauto).
  assert (C : forall t, signed_clock t -> In (tkind t) stamp_kinds)
    by (intros t [H|[H|H]]; auto; unfold kinded in H; rewrite H; simpl; tauto).
  assert (O : forall w, opt_space w -> Forall (fun t => In (tkind t) stamp_kinds) w).
  { intros w [|x H]; try apply Forall_nil; apply Forall_cons; try apply Forall_nil. unfold kinded in H; rewrite H; simpl; tauto. }
  assert (Z : forall w, opt_zone w -> Forall (fun t => In (tkind t) stamp_kinds) w).
  { intros w [|x [[H|H]|H]]; try apply Forall_nil; apply Forall_cons; try apply Forall_nil; auto; unfold kinded in H; rewrite H; simpl; tauto. }
  assert (OT : forall w, opt_space_or_T w -> Forall (fun t => In (tkind t) stamp_kinds) w).
  { intros w [|x H|x H]; try apply Forall_nil; apply Forall_cons; try apply Forall_nil; auto; unfold kinded in H; rewrite H; simpl; tauto. }
  intros [d Hd|d w c w2 z Hd Hw Hc Hw2 Hz|i z Hi Hz|s w z Hs Hw Hz|d w z Hd Hw Hz];
    constructor; auto; rewrite ?Forall_app; auto.
  - split; auto. constructor; auto. rewrite Forall_app; auto.
  - unfold kinded in Hs; rewrite Hs; simpl; tauto.
  - split; auto. constructor; auto. destruct Hz as [H|H]; unfold kinded in H; rewrite H; simpl; tauto.
Qed.

Lemma respelled_stamp ts ts' : timestamp ts -> Forall2 respelled ts ts' -> ts = ts'.
Proof.
  intros H F. apply timestamp_in_kinds in H. induction F as [|a b l l' R F IH]; auto.
  inversion H as [|? ? K H']; subst. f_equal; auto.
  destruct R as [t|k x y I|f sp1 sp2 r1 r2 I H1 H2]; auto; exfalso; simpl in K.
  - simpl in I. destruct I as [<-|[<-|[<-|[<-|[]]]]]; intuition discriminate.
  - intuition discriminate.
Qed.

Ltac f2 := repeat match goal with
  | H : Forall2 respelled (_ ++ _) _ |- _ =>
      let a := fresh "la" in let b := fresh "lb" in
      apply Forall2_app_inv_l in H as (a & b & ? & ? & ->)
  | H : Forall2 respelled (_ :: _) _ |- _ => inversion H; subst; clear H
  | H : Forall2 respelled [] _ |- _ => inversion H; subst; clear H
  | IH : forall ts', Forall2 respelled ?ts ts' -> _, H : Forall2 respelled ?ts ?l |- _ =>
      let t := fresh "t'" in
      destruct (IH l H) as (t & ? & ?); clear IH
  end.

Lemma derives_respelled r ts t : derives r ts t ->
  forall ts', Forall2 respelled ts ts' -> exists t', derives r ts' t' /\ trel t t'.
Proof.
  assert (K := respelled_kinded). assert (KI := respelled_integer). assert (KO := respelled_opt_space).
  intro D. induction D; intros ts' F; f2;
    try (eexists; split; [constructor; eauto; fail|]; apply T_node; [discriminate|];
         repeat (constructor; auto; try (now constructor)); fail).
  - eexists. split.
    + eapply D_shift_number; eauto.
    + apply T_node; [discriminate|]. apply Forall2_app; [|repeat constructor; auto].
      constructor; auto. apply Forall2_app; [now apply respelled_leaves|].
      constructor; [now constructor|now apply respelled_leaves].
  - match goal with H : Forall2 respelled ns ?l |- _ => assert (ns = l) as <- by (eapply respelled_stamp; eauto) end.
    eexists. split.
    + eapply D_shift_timestamp; eauto.
    + apply T_node; [discriminate|]. apply Forall2_app; [|constructor; [apply T_stamp|constructor]].
      constructor; auto. apply Forall2_app; [now apply respelled_leaves|].
      constructor; [now constructor|now apply respelled_leaves].
  - eexists. split.
    + eapply D_product_space; eauto.
      * intro E. subst. match goal with H : Forall2 respelled ws [] |- _ => inversion H; subst; auto end.
      * match goal with H : Forall2 respelled ws ?l |- Forall _ ?l => clear -H H0 K; induction H; auto; inversion H0; subst; constructor; eauto end.
    + apply T_node; [discriminate|]. constructor; auto. apply Forall2_app; [now apply respelled_leaves|repeat constructor; auto].
Qed.

Lemma p_unit_respelled ts ts' : Forall2 respelled ts ts' ->
  match p_unit ts with
  | Some t => exists t', p_unit ts' = Some t' /\ visit t = visit t'
  | None => p_unit ts' = None
  end.
Proof.
  intro F. destruct (p_unit ts) as [t|] eqn:E.
  - apply p_unit_exact in E as [D P]. destruct (derives_respelled _ _ _ D _ F) as (t' & D' & R).
    exists t'. split; [apply p_unit_exact; split; auto; now apply (trel_preferred t)|now apply trel_visit].
  - destruct (p_unit ts') as [t|] eqn:E'; auto.
    apply p_unit_exact in E' as [D P].
    assert (F' : Forall2 respelled ts' ts).
    { clear -F. induction F; constructor; auto. now apply respelled_sym. }
    destruct (derives_respelled _ _ _ D _ F') as (t' & D' & R).
    assert (p_unit ts = Some t') by (apply p_unit_exact; split; auto; now apply (trel_preferred t)).
    congruence.
Qed.

Lemma parse_respelled s s' ts ts' : is_text s -> is_text s' ->
  tokenises DEFAULT_MODE (strip s) ts -> tokenises DEFAULT_MODE (strip s') ts' ->
  Forall2 respelled ts ts' -> parse s = parse s'.
Proof.
  intros H H' T T' F. unfold parse.
  rewrite (proj2 (lex_spec _ ts (is_text_strip s H)) T).
  rewrite (proj2 (lex_spec _ ts' (is_text_strip s' H')) T').
  pose proof (p_unit_respelled ts ts' F) as P. destruct (p_unit ts) as [t|].
  - destruct P as (t' & -> & ->). reflexivity.
  - now rewrite P.
Qed.
