(** * Calls of parse() in a process: facts *)
From Verif Require Import PyBase Lexer LexSpec LexerFacts Parser Graph Visitor ParseFacts Process.
From Verif Require Atn AtnFacts AtnShared AtnSharedFacts PGen PGenExact PShared
  PSharedFacts.
Import PSim.

Lemma kind_of_id : forall k, kind_of (Z.of_N (kind_id k)) = Some k.
Proof. intros k. destruct k; reflexivity. Qed.

Lemma tokens_of_shown : forall ts, tokens_of (map AtnFacts.shown ts) = Some ts.
Proof.
  induction ts as [| [k w] ts IH]; [reflexivity |].
  cbn [map tokens_of AtnFacts.shown tkind ttext].
  rewrite kind_of_id, IH. reflexivity.
Qed.

Lemma generated_tokens : forall s, is_text s -> exists ts,
  lex s = Some ts /\ Atn.generated_lex s = Some (map AtnFacts.shown ts).
Proof.
  intros s H. destruct (lex_total s H) as [ts [E _]]. exists ts. split; [exact E |].
  now apply AtnFacts.generated_lex_ok.
Qed.

Theorem generated_parse_exact : forall pick s, PGen.picks_from_set pick -> is_text s ->
  generated_parse pick s = parse s.
Proof.
  intros pick s P H. unfold generated_parse, parse.
  destruct (generated_tokens (strip s) (is_text_strip s H)) as [ts [E1 E2]].
  rewrite E1, E2, tokens_of_shown, (PGenExact.generated_parser_exact pick ts P). reflexivity.
Qed.

(** ** What holds of every reachable process *)
Definition call_ok (c : caches) (k : job) : Prop :=
  match c_stage k with
  | Lexing l =>
      AtnShared.t_src l = strip (c_arg k) /\
      AtnSharedFacts.lexer_ok Atn.the_atn (fst c) l
        (AtnSharedFacts.lex_of Atn.the_atn (strip (c_arg k)))
  | Parsing q =>
      (is_text (c_arg k) -> lex (strip (c_arg k)) = Some (PShared.q_tokens q)) /\
      PSharedFacts.good (snd c) (PShared.q_prog q) (fun x => x = p_unit (PShared.q_tokens q))
  | Ended r => is_text (c_arg k) -> r = parse (c_arg k)
  end.

Definition process_ok (w : process) : Prop :=
  AtnSharedFacts.cache_ok Atn.the_atn (fst (fst w)) /\ PSharedFacts.right (snd (fst w)) /\
  forall k, In k (snd w) -> call_ok (fst w) k.

Lemma new_call_ok : forall c s, call_ok c (new_call s).
Proof.
  intros c s. unfold call_ok, new_call. cbn [c_stage c_arg]. split.
  - unfold AtnShared.new_lexer. cbn [AtnShared.t_src]. reflexivity.
  - apply AtnSharedFacts.new_lexer_ok.
Qed.

Lemma lexed_tokens : forall s l ts, is_text s -> 
  AtnSharedFacts.lex_of Atn.the_atn (strip s) = Some l -> tokens_of l = Some ts ->
  lex (strip s) = Some ts.
Proof.
  intros s l ts H E1 E2.
  destruct (generated_tokens (strip s) (is_text_strip s H)) as [ts' [E3 E4]].
  change (AtnSharedFacts.lex_of Atn.the_atn (strip s)) with (Atn.generated_lex (strip s)) in E1.
  rewrite E4 in E1. injection E1 as E1. subst l. rewrite tokens_of_shown in E2.
  rewrite E3. exact E2.
Qed.

(** a step of a call keeps the caches right, and the call; [others]: it does not disturb
    other calls *)
Lemma call_step_ok : forall c k c' k',
  AtnSharedFacts.cache_ok Atn.the_atn (fst c) -> PSharedFacts.right (snd c) ->
  call_step c k c' k' -> call_ok c k ->
  AtnSharedFacts.cache_ok Atn.the_atn (fst c') /\ PSharedFacts.right (snd c') /\
  AtnSharedFacts.extends (fst c) (fst c') /\ PSharedFacts.grows (snd c) (snd c') /\
  call_ok c' k'.
Proof.
  intros c k c' k' HC HR S HK.
  destruct S as [a b s l a' l' E | c s l ts E1 E2 | a b s q b' q' E | c s q x E];
    unfold call_ok in HK |- *; cbn [c_stage c_arg fst snd] in *.
  - destruct HK as [K1 K2].
    destruct (AtnSharedFacts.step_ok Atn.the_atn a l _ a' l' HC K2 E) as [G1 [G2 [G3 G4]]].
    split; [exact G1 |]. split; [exact HR |]. split; [exact G2 |].
    split; [apply PSharedFacts.grows_refl |]. split; [| exact G3].
    rewrite G4. exact K1.
  - split; [exact HC |]. split; [exact HR |]. split; [apply AtnSharedFacts.extends_refl |].
    split; [apply PSharedFacts.grows_refl |]. destruct HK as [K1 K2]. split.
    + intros Ht. unfold AtnSharedFacts.lexer_ok in K2. rewrite E1 in K2.
      exact (lexed_tokens s _ ts Ht K2 E2).
    + apply (PSharedFacts.new_parser_good _ ts HR).
  - destruct HK as [K1 K2]. unfold PShared.parser_step in E.
    destruct (PShared.q_prog q) as [x | B o f] eqn:Eq; [destruct E |].
    destruct E as [y [D Eq']]. subst q'. destruct K2 as [W K2].
    destruct (PSharedFacts.does_right o b y b' HR W D) as [G R'].
    split; [exact HC |]. split; [exact R' |]. split; [apply AtnSharedFacts.extends_refl |].
    split; [exact G |]. cbn [PShared.q_tokens PShared.q_prog]. split; [exact K1 |].
    apply (K2 b y b'); [apply PSharedFacts.grows_refl | exact HR | exact D].
  - split; [exact HC |]. split; [exact HR |]. split; [apply AtnSharedFacts.extends_refl |].
    split; [apply PSharedFacts.grows_refl |]. intros Ht. destruct HK as [K1 K2].
    rewrite E in K2. cbn [PSharedFacts.good] in K2. subst x. unfold parse.
    rewrite (K1 Ht). reflexivity.
Qed.

Lemma call_ok_grows : forall c c' k, AtnSharedFacts.extends (fst c) (fst c') ->
  PSharedFacts.grows (snd c) (snd c') -> call_ok c k -> call_ok c' k.
Proof.
  intros c c' [s [l | q | r]] X G H; unfold call_ok in *; cbn [c_stage c_arg] in *.
  - destruct H as [H1 H2]. split; [exact H1 |].
    now apply (AtnSharedFacts.lexer_ok_extends Atn.the_atn (fst c)).
  - destruct H as [H1 H2]. split; [exact H1 |]. now apply (PSharedFacts.good_grows _ (snd c)).
  - exact H.
Qed.

Lemma in_set_nth : forall {X} (l : list X) i x y, In y (PShared.set_nth l i x) -> y = x \/ In y l.
Proof.
  intros X l. induction l as [| z l IH]; intros [| i] x y; cbn; try tauto.
  - intros [-> | H]; auto.
  - intros [-> | H]; auto. apply IH in H. tauto.
Qed.

Lemma process_step_ok : forall w w', process_step w w' -> process_ok w -> process_ok w'.
Proof.
  intros w w' S [HC [HR HK]].
  destruct S as [c cs i k c' k' N S | c cs s]; unfold process_ok; cbn [fst snd] in *.
  - pose proof (HK k (nth_error_In _ _ N)) as Hk.
    destruct (call_step_ok c k c' k' HC HR S Hk) as [G1 [G2 [G3 [G4 G5]]]].
    split; [exact G1 |]. split; [exact G2 |]. intros k0 I. apply in_set_nth in I.
    destruct I as [-> | I]; [exact G5 |]. apply (call_ok_grows c); [exact G3 | exact G4 |].
    now apply HK.
  - split; [exact HC |]. split; [exact HR |]. intros k I. apply in_app_or in I.
    destruct I as [I | [<- | []]]; [now apply HK | apply new_call_ok].
Qed.

Lemma process_steps_ok : forall w w', process_steps w w' -> process_ok w -> process_ok w'.
Proof.
  intros w w' S. induction S as [w | w1 w2 w3 S1 S2 IH]; intros H; [exact H |].
  apply IH. now apply (process_step_ok w1).
Qed.

Lemma empty_process_ok : process_ok (empty_caches, []).
Proof.
  split; [| split]; cbn [fst snd empty_caches].
  - exact (proj1 (AtnSharedFacts.empty_ok Atn.the_atn)).
  - exact (proj1 PSharedFacts.empty_sane).
  - intros k [].
Qed.

Definition reachable (w : process) : Prop := process_steps (empty_caches, []) w.

Lemma reachable_ok : forall w, reachable w -> process_ok w.
Proof. intros w H. exact (process_steps_ok _ w H empty_process_ok). Qed.

Theorem call_result : forall c ks s r, reachable (c, ks) -> In (mkCall s (Ended r)) ks ->
  is_text s -> r = parse s.
Proof.
  intros c ks s r H I Ht. destruct (reachable_ok _ H) as [_ [_ HK]].
  exact (HK _ I Ht).
Qed.

(** ** Progress *)
Lemma ok_progress : forall c s g, call_ok c (mkCall s g) -> is_text s ->
  (exists r, g = Ended r) \/ (exists c' k', call_step c (mkCall s g) c' k').
Proof.
  intros c s g K Ht. unfold call_ok in K. cbn [c_stage c_arg fst snd] in *.
  destruct c as [a b]. cbn [fst snd] in *.
  destruct g as [l | q | r]; [right | right | left; now exists r].
  - destruct K as [_ K].
    destruct (AtnShared.lexer_step Atn.the_atn a l) as [[a' l'] |] eqn:E.
    { eexists _, _. apply S_lex. exact E. }
    assert (D : AtnShared.t_pc l = AtnShared.PDone \/ AtnShared.t_pc l = AtnShared.PFail).
    { unfold AtnShared.lexer_step in E. destruct (AtnShared.t_pc l); auto; exfalso;
        repeat match type of E with
               | context [match ?x with _ => _ end] => destruct x
               end; discriminate E. }
    destruct (generated_tokens (strip s) (is_text_strip s Ht)) as [ts [E1 E2]].
    change (Atn.generated_lex (strip s)) with (AtnSharedFacts.lex_of Atn.the_atn (strip s)) in E2.
    unfold AtnSharedFacts.lexer_ok in K.
    destruct D as [D | D]; rewrite D in K; rewrite K in E2.
    + injection E2 as E2. eexists _, _. apply (S_lexed _ _ l ts D).
      rewrite E2. apply tokens_of_shown.
    + discriminate E2.
  - destruct K as [_ K]. destruct (PShared.q_prog q) as [x | B o f] eqn:Eq.
    + eexists _, _. apply (S_parsed _ _ q x Eq).
    + destruct K as [W _]. destruct (PSharedFacts.allowed_does o b W) as [y [b' D]].
      eexists _, _. apply S_parse. unfold PShared.parser_step. rewrite Eq. exists y.
      split; [exact D | reflexivity].
Qed.

Theorem call_progress : forall c ks s g, reachable (c, ks) -> In (mkCall s g) ks -> is_text s ->
  (exists r, g = Ended r) \/ (exists c' k', call_step c (mkCall s g) c' k').
Proof.
  intros c ks s g H I Ht. destruct (reachable_ok _ H) as [_ [_ HK]].
  exact (ok_progress c s g (HK _ I) Ht).
Qed.

(** the steps of one call *)
Definition ok_step (k' k : job) : Prop := exists c c', call_ok c k /\ call_step c k c' k'.

Lemma ended_ends : forall s r, Acc ok_step (mkCall s (Ended r)).
Proof.
  intros s r. constructor. intros k' [c [c' [_ S]]]. inversion S.
Qed.

Lemma parsing_ends : forall s q, Acc ok_step (mkCall s (Parsing q)).
Proof.
  intros s q. induction (PSharedFacts.steps_end q) as [q _ IH]. constructor.
  intros k' [c [c' [_ S]]]. inversion S; subst.
  - apply IH. eexists _, _. eassumption.
  - apply ended_ends.
Qed.

Lemma ok_ends : forall k, Acc ok_step k.
Proof.
  intros [s [l | q | r]]; [| apply parsing_ends | apply ended_ends].
  remember (AtnSharedFacts.work l) as n eqn:E. revert l E.
  induction n as [n IH] using (well_founded_induction lt_wf). intros l E.
  constructor. intros k' [c [c' [K S]]].
  unfold call_ok in K. cbn [c_stage c_arg fst snd] in *. destruct K as [_ K].
  inversion S; subst.
  - apply (IH (AtnSharedFacts.work l')); [| reflexivity].
    eapply AtnSharedFacts.step_work; eassumption.
  - apply parsing_ends.
Qed.

Definition own_step (k' k : job) : Prop :=
  exists c ks c', reachable (c, ks) /\ In k ks /\ call_step c k c' k'.

Theorem call_ends : forall k, Acc own_step k.
Proof.
  intro k. induction (ok_ends k) as [k _ IH]. constructor.
  intros k' [c [ks [c' [H [I S]]]]]. apply IH. exists c, c'. split; [|exact S].
  exact (proj2 (proj2 (reachable_ok _ H)) _ I).
Qed.
