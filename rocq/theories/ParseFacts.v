(** * Facts about parse: outcomes, surrounding white space. *)
From Verif Require Import PyBase PyNum Graph Regex RegexFacts Lexer LexSpec LexerFacts Parser GrammarSpec
  ParserFacts ParserComplete Visitor VisitSpec NumFacts VisitorFacts.

(** ** strip *)
Definition blank (w : str) : Prop := Forall (fun c => is_space c = true) w.

Lemma lstrip_split s : exists w, blank w /\ s = w ++ lstrip s.
Proof.
  induction s as [|c s (w & W & E)]; [exists []; split; constructor|].
  simpl. destruct (is_space c) eqn:C.
  - exists (c :: w). split; [now constructor|]. simpl. now f_equal.
  - exists []. split; [constructor|reflexivity].
Qed.

Lemma lstrip_first s : match lstrip s with c :: _ => is_space c = false | [] => True end.
Proof. induction s as [|c s IH]; simpl; auto. destruct (is_space c) eqn:C; auto. Qed.

Lemma lstrip_blank w : blank w -> lstrip w = [].
Proof. intro W. rewrite <- (app_nil_r w). now rewrite lstrip_spaces. Qed.

Lemma lstrip_app_nonblank s t : lstrip s <> [] -> lstrip (s ++ t) = lstrip s ++ t.
Proof.
  induction s as [|c s IH]; simpl; [congruence|]. destruct (is_space c); auto.
Qed.

Lemma lstrip_nil s : lstrip s = [] -> blank s.
Proof. intro E. destruct (lstrip_split s) as (w & W & H). rewrite E, app_nil_r in H. now subst. Qed.

Lemma strip_blank w : blank w -> strip w = [].
Proof. intro W. unfold strip. rewrite (lstrip_blank w W). reflexivity. Qed.

Lemma blank_rev w : blank w -> blank (rev w).
Proof. apply Forall_rev. Qed.

Lemma strip_surround w1 s w2 : blank w1 -> blank w2 -> strip (w1 ++ s ++ w2) = strip s.
Proof.
  intros H1 H2. unfold strip at 1. rewrite lstrip_spaces by auto.
  destruct (lstrip s) as [|c l] eqn:E.
  - assert (Hs : blank s) by now apply lstrip_nil.
    rewrite (strip_blank s) by auto.
    rewrite (lstrip_blank (s ++ w2)); [reflexivity|]. apply Forall_app; auto.
  - rewrite lstrip_app_nonblank by congruence.
    rewrite rev_app_distr, lstrip_spaces by now apply blank_rev. unfold strip. now rewrite E.
Qed.

Lemma strip_split s : exists w1 w2, blank w1 /\ blank w2 /\ s = w1 ++ strip s ++ w2.
Proof.
  destruct (lstrip_split s) as (w1 & W1 & E1).
  destruct (lstrip_split (rev (lstrip s))) as (w2 & W2 & E2).
  exists w1, (rev w2). split; auto. split; [now apply blank_rev|].
  unfold strip. rewrite E1 at 1. f_equal.
  apply (f_equal (@rev N)) in E2. rewrite rev_app_distr, rev_involutive in E2. exact E2.
Qed.

Lemma strip_idem s : strip (strip s) = strip s.
Proof.
  destruct (strip_split s) as (w1 & w2 & W1 & W2 & E).
  pose proof (strip_surround w1 (strip s) w2 W1 W2) as K. now rewrite <- E in K.
Qed.

Lemma is_text_strip s : is_text s -> is_text (strip s).
Proof.
  intro H. destruct (strip_split s) as (w1 & w2 & _ & _ & E). rewrite E in H.
  unfold is_text in *. rewrite !Forall_app in H. tauto.
Qed.

(** ** parse *)
Lemma well_lexed_all s ts : tokenises DEFAULT_MODE s ts -> Forall well_lexed ts.
Proof. intro T. exact (tokenises_rule _ _ _ T). Qed.

Lemma parse_cases s : is_text s -> exists ts, tokenises DEFAULT_MODE (strip s) ts /\
  ((exists t g, parse s = Ok g /\ derives Unit_spec ts t /\ preferred t /\ reads t g) \/
   (parse s = Err ESyntax /\ ~ exists t, derives Unit_spec ts t) \/
   (exists t e, parse s = Err e /\ derives Unit_spec ts t /\ preferred t /\ bad_number e ts)).
Proof.
  intro H. destruct (lex_total (strip s) (is_text_strip s H)) as (ts & E & T).
  exists ts. split; auto. unfold parse. rewrite E.
  destruct (p_unit ts) as [t|] eqn:P.
  - apply p_unit_exact in P as [D Pt].
    destruct (visit_outcome _ _ _ D (well_lexed_all _ _ T)) as [(g & V & R)|(e & V & B)].
    + left. exists t, g. rewrite V. auto.
    + right. right. exists t, e. rewrite V. auto.
  - right. left. split; auto. intros (t & D).
    assert (exists t, p_unit ts = Some t) as [t' E'] by (apply p_unit_accepts; eauto). congruence.
Qed.

Lemma parse_reads s g : is_text s ->
  (parse s = Ok g <-> exists ts t, tokenises DEFAULT_MODE (strip s) ts /\
      derives Unit_spec ts t /\ preferred t /\ reads t g).
Proof.
  intro H. split.
  - intro E. destruct (parse_cases s H) as (ts & T & [(t & g' & E' & D & P & R)|[[E' _]|(t & e & E' & _)]]);
      rewrite E in E'; try discriminate. injection E' as <-. eauto 7.
  - intros (ts & t & T & D & P & R). unfold parse.
    rewrite (proj2 (lex_spec (strip s) ts (is_text_strip s H)) T).
    rewrite (proj2 (p_unit_exact ts t)) by auto. now rewrite (reads_visit t g R).
Qed.

Lemma parse_surround w1 s w2 : blank w1 -> blank w2 -> parse (w1 ++ s ++ w2) = parse s.
Proof. intros. unfold parse. now rewrite strip_surround. Qed.

(** ** the numeric errors, in plain terms *)
Lemma too_long_int_digits t : well_lexed t -> integer_token t ->
  (too_long_int t <-> (4300 < List.length (filter is_digit (ttext t)))%nat).
Proof.
  intros (m & r & I & M) K. unfold too_long_int.
  assert (A : matches r_any_int (ttext t)).
  { unfold r_any_int. apply matches_alt.
    destruct K as [K|K]; unfold kinded in K; rewrite K in I; apply rule_of_kind in I; subst r; auto. }
  apply matches_any_int in A as (neg & sg & ds & S & E & N & D). rewrite E.
  rewrite (py_int_value neg sg ds S N D).
  replace (filter is_digit (sg ++ ds)) with ds.
  - destruct (N.ltb_spec 4300 (N.of_nat (List.length ds))) as [L|L]; split.
    + intros _. lia.
    + auto.
    + intros [_ E']. discriminate.
    + lia.
  - rewrite filter_app. replace (filter is_digit sg) with (@nil BinNums.N).
    + simpl. clear -D. induction D as [|c ds Hc D IH]; simpl; auto. rewrite Hc. now f_equal.
    + destruct S as [[-> _]|[[-> _]|[-> _]]]; reflexivity.
Qed.
