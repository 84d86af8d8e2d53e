(** * The tokens of the text of an expression. *)
From Verif Require Import PyBase PyNum Graph Regex RegexFacts Lexer LexSpec LexerFacts Parser
  GrammarSpec VisitSpec VisitorFacts ParserFacts NumText NumFacts Atn AtnCheck AtnFacts ReDisjoint
  PrintSpec PrintNum.
Local Open Scope N_scope.

(** ** The tokens *)
Definition num_tok (v : numv) : token := mkTok (num_kind v) (num_str v).
Definition tk_raise := mkTok RAISE (u "^").
Definition tk_mul := mkTok MULTIPLY (u "·").
Definition tk_div := mkTok DIVIDE (u "/").
Definition tk_open := mkTok OPEN_PAREN (u "(").
Definition tk_close := mkTok CLOSE_PAREN (u ")").
Definition tk_space := mkTok WS (u " ").
Definition tk_at := mkTok SHIFT_OP (u "@").
Definition tk_log (f : str) := mkTok LOG (f ++ u "(re ").
Definition date_toks (raw : str) : list token :=
  match lex_fuel (List.length raw) SHIFT_MODE raw with Some ns => ns | None => [] end.

Fixpoint toks (g : node) : list token :=
  match g with
  | Unhandled raw => date_toks raw
  | Number v _ => [num_tok v]
  | Identifier x => [mkTok ID x]
  | Raise a b => toks a ++ tk_raise :: toks b
  | Multiply a b => toks a ++ tk_mul :: toks b
  | Divide a b => toks a ++ tk_div :: toks b
  | Shift a b => tk_open :: toks a ++ tk_space :: tk_at :: tk_space :: toks b ++ [tk_close]
  | Logarithm f t => tk_open :: tk_log f :: toks t ++ [tk_close; tk_close]
  end.

Definition base (sh : bool) : mode := if sh then SHIFT_MODE else DEFAULT_MODE.

(** the mode after an expression, and that it does not matter for what follows *)
Definition end_mode (sh : bool) (m : mode) : Prop := m = base sh \/ m = ID_SEEN /\ sh = false.

Lemma end_next sh m k : end_mode sh m -> next_mode DEFAULT_MODE k = DEFAULT_MODE ->
  next_mode m k = base sh.
Proof. intros [-> | [-> ->]] H; [destruct sh; auto | reflexivity]. Qed.

(** ** What may follow *)
Definition bnd : re :=
  Alt (Seq (Chr [(94, 94); (183, 183); (47, 47); (41, 41)]) r_rest)
      (Alt (ch 32) (Seq (ch 32) (Seq (Chr [(64, 64); (115, 115)]) r_rest))).
Definition start_ranges : list (N * N) := [(40, 40); (43, 43); (45, 45); (48, 57)] ++ id_ranges.
Definition num_ranges : list (N * N) := [(43, 43); (45, 45); (48, 57)].

Lemma bnd_sep c rest : is_text rest -> In c [94; 183; 47; 41] -> follows bnd (c :: rest).
Proof.
  intros Ht Hc. apply follows_alt_l. apply follows_class; auto.
  repeat (destruct Hc as [<- | Hc]; [reflexivity |]). destruct Hc.
Qed.

Lemma bnd_shift a rest : a = 64 \/ a = 115 -> is_text rest -> follows bnd (32 :: a :: rest).
Proof.
  intros Ha Ht. apply follows_alt_r. intros x y E Hx. destruct x as [| c x]; [contradiction |].
  cbn in E. injection E as <- E. destruct x as [| c x].
  - apply M_alt_l. now apply matches_ch.
  - apply M_alt_r. cbn in E. injection E as <- ->.
    change (32 :: a :: x) with ([32] ++ [a] ++ x). apply M_seq; [now apply matches_ch |].
    apply M_seq; [constructor; destruct Ha as [-> | ->]; reflexivity |]. apply matches_any_text.
    unfold is_text in *. rewrite Forall_app in Ht. tauto.
Qed.
Lemma bnd_at rest : is_text rest -> follows bnd (32 :: 64 :: rest).
Proof. apply bnd_shift. now left. Qed.

(** ** Text *)
Fixpoint re_text (r : re) : bool :=
  match r with
  | Eps => true
  | Chr rs => forallb (fun p => snd p <=? 1114111) rs
  | Alt a b | Seq a b => re_text a && re_text b
  | Star a => re_text a
  end.

Lemma in_ranges_text rs c : forallb (fun p => snd p <=? 1114111) rs = true ->
  in_ranges rs c = true -> c <= 1114111.
Proof.
  unfold in_ranges. induction rs as [| [lo hi] rs IH]; cbn [existsb forallb fst snd];
    [discriminate |].
  rewrite andb_true_iff, orb_true_iff, andb_true_iff, !N.leb_le. intros [H1 H2] [H | H]; auto. lia.
Qed.

Lemma matches_text r w : re_text r = true -> matches r w -> is_text w.
Proof.
  unfold is_text. intros H M. induction M; cbn [re_text] in H.
  - constructor.
  - constructor; [now apply (in_ranges_text rs) | constructor].
  - apply andb_true_iff in H. tauto.
  - apply andb_true_iff in H. tauto.
  - apply andb_true_iff in H. apply Forall_app. tauto.
  - constructor.
  - apply Forall_app. auto.
Qed.

Lemma is_text_app a b : is_text (a ++ b) <-> is_text a /\ is_text b.
Proof. apply Forall_app. Qed.
Lemma is_text_cons c b : is_text (c :: b) <-> c <= 1114111 /\ is_text b.
Proof. unfold is_text. rewrite Forall_cons_iff. reflexivity. Qed.

Definition all_rules_text : bool :=
  forallb (fun m => forallb (fun kr => re_text (snd kr)) (rules m)) [DEFAULT_MODE; SHIFT_MODE; ID_SEEN].
Lemma rules_text m k r : In (k, r) (rules m) -> re_text r = true.
Proof.
  assert (H : all_rules_text = true) by (vm_compute; reflexivity).
  unfold all_rules_text in H. rewrite forallb_forall in H.
  specialize (H m ltac:(destruct m; cbn; auto)). rewrite forallb_forall in H.
  intros Hin. exact (H _ Hin).
Qed.
Lemma tokenises_text m s ts : tokenises m s ts -> is_text s.
Proof.
  induction 1 as [| m k w rest ts Hk Hr IH]; [constructor |]. apply is_text_app. split; auto.
  destruct (tk_first _ _ _ _ Hk) as (b & r & a & E & M & _).
  apply (matches_text r); auto. apply (rules_text m k). rewrite E, in_app_iff. cbn. auto.
Qed.

(** ** Single tokens *)
Definition all_modes := [DEFAULT_MODE; SHIFT_MODE; ID_SEEN].
Definition base_modes := [DEFAULT_MODE; SHIFT_MODE].
Lemma in_all_modes m : In m all_modes. Proof. destruct m; cbn; auto. Qed.
Lemma in_base_modes sh : In (base sh) base_modes. Proof. destruct sh; cbn; auto. Qed.

(** a token of fixed text *)
Lemma takes_fixed ms m k c w G rest :
  forallb (fun m => token_check m k (lit (c :: w)) G &&
    match rule_of k (rules m) with Some r => full_match [r] (c :: w) | None => false end) ms = true ->
  In m ms -> is_text ((c :: w) ++ rest) -> follows G rest -> takes m k (c :: w) rest.
Proof.
  intros H Hm Ht Hf. rewrite forallb_forall in H. specialize (H m Hm).
  apply andb_true_iff in H. destruct H as [H1 H2].
  destruct (rule_of k (rules m)) as [r |] eqn:E; [| discriminate].
  apply (takes_check m k (lit (c :: w)) G (c :: w) rest r); auto.
  - discriminate.
  - now apply full_match1.
  - now apply matches_lit.
Qed.

Definition anything : re := Seq r_any r_rest.
Lemma follows_anything rest : is_text rest -> follows anything rest.
Proof.
  intros Ht. destruct rest as [| c rest]; [apply follows_nil |]. apply is_text_cons in Ht.
  destruct Ht as [Hc Ht]. apply follows_class; auto.
  unfold in_ranges. cbn [existsb fst snd]. rewrite orb_false_r. apply andb_true_iff.
  rewrite !N.leb_le. lia.
Qed.

Ltac fixed ms G := apply (takes_fixed ms _ _ _ _ G); [vm_compute; reflexivity | | | ].

Lemma takes_raise m rest : is_text rest -> takes m RAISE [94] rest.
Proof.
  intros Ht. fixed all_modes anything; [apply in_all_modes | | now apply follows_anything].
  apply is_text_app. split; auto. repeat constructor; vm_compute; discriminate.
Qed.
Lemma takes_mul m rest : is_text rest -> takes m MULTIPLY [183] rest.
Proof.
  intros Ht. assert (T : is_text ([183] ++ rest))
    by (apply is_text_app; split; auto; repeat constructor; vm_compute; discriminate).
  pose proof (follows_anything rest Ht) as F.
  destruct m; [fixed base_modes anything; cbn; auto | fixed base_modes anything; cbn; auto |].
  (* ID_SEEN has two rules for the token; this is the second *)
  assert (S : stops ID_SEEN (ch 183) anything = true) by (vm_compute; reflexivity).
  constructor; [discriminate | |].
  - intros k' r' w' rest' Hin E M.
    destruct (Nat.le_gt_cases (List.length w') 1) as [L | L]; auto. exfalso.
    destruct w' as [| c [| c' w']]; [cbn in L; lia | cbn in L; lia |]. cbn in E.
    injection E as -> E. unfold stops in S. rewrite forallb_forall in S. specialize (S _ Hin).
    cbn [snd] in S. subst rest. apply (disjoint_ok _ _ S (183 :: c' :: w')); auto.
    + apply is_text_cons in T. destruct T as [T0 T]. change (c' :: w' ++ rest') with ((c' :: w') ++ rest') in T.
      apply is_text_app in T. apply is_text_cons. tauto.
    + change (183 :: c' :: w') with ([183] ++ c' :: w'). apply M_seq; [now apply matches_ch |].
      apply (F (c' :: w') rest'); [reflexivity | discriminate].
  - exists (firstn 4 (rules ID_SEEN)), r_multiply, (skipn 5 (rules ID_SEEN)).
    split; [reflexivity |]. split; [apply full_match1; vm_compute; reflexivity |].
    assert (H : forallb (fun kr => negb (full_match [snd kr] [183])) (firstn 4 (rules ID_SEEN)) = true)
      by (vm_compute; reflexivity).
    rewrite forallb_forall in H. intros k' r' Hin M. specialize (H _ Hin). cbn [snd] in H.
    apply full_match1 in M. rewrite M in H. discriminate.
Qed.
Lemma takes_close m rest : is_text rest -> takes m CLOSE_PAREN [41] rest.
Proof.
  intros Ht. fixed all_modes anything; [apply in_all_modes | | now apply follows_anything].
  apply is_text_app. split; auto. repeat constructor; vm_compute; discriminate.
Qed.
Lemma takes_open m rest : is_text rest -> takes m OPEN_PAREN [40] rest.
Proof.
  intros Ht. fixed all_modes anything; [apply in_all_modes | | now apply follows_anything].
  apply is_text_app. split; auto. repeat constructor; vm_compute; discriminate.
Qed.
Lemma takes_at m rest : is_text rest -> takes m SHIFT_OP [64] rest.
Proof.
  intros Ht. fixed all_modes anything; [apply in_all_modes | | now apply follows_anything].
  apply is_text_app. split; auto. repeat constructor; vm_compute; discriminate.
Qed.
Lemma takes_div m c rest : is_text (c :: rest) -> in_ranges start_ranges c = true ->
  takes m DIVIDE [47] (c :: rest).
Proof.
  intros Ht Hc. fixed all_modes (Seq (Chr start_ranges) r_rest); [apply in_all_modes | | ].
  - apply is_text_app. split; auto. repeat constructor; vm_compute; discriminate.
  - apply is_text_cons in Ht. now apply follows_class.
Qed.
Lemma takes_space_at m rest : is_text rest -> takes m WS [32] (64 :: rest).
Proof.
  intros Ht. fixed all_modes (Seq (ch 64) r_rest); [apply in_all_modes | | ].
  - repeat constructor; auto; vm_compute; discriminate.
  - unfold ch. now apply follows_class.
Qed.
Lemma takes_space_num c rest : is_text (c :: rest) -> in_ranges num_ranges c = true ->
  takes SHIFT_MODE WS [32] (c :: rest).
Proof.
  intros Ht Hc. fixed [SHIFT_MODE] (Seq (Chr num_ranges) r_rest); [cbn; auto | | ].
  - apply is_text_app. split; auto. repeat constructor; vm_compute; discriminate.
  - apply is_text_cons in Ht. now apply follows_class.
Qed.
Lemma takes_log f sh c rest : In f log_names -> is_text (c :: rest) ->
  in_ranges start_ranges c = true -> takes (base sh) LOG (f ++ u "(re ") (c :: rest).
Proof.
  intros Hf Ht Hc.
  assert (F : follows (Seq (Chr start_ranges) r_rest) (c :: rest))
    by (apply is_text_cons in Ht; now apply follows_class).
  repeat (destruct Hf as [<- | Hf]; [
    fixed base_modes (Seq (Chr start_ranges) r_rest); [apply in_base_modes | | exact F];
    apply is_text_app; (split; [repeat constructor; vm_compute; discriminate | exact Ht]) |]).
  destruct Hf.
Qed.

(** numbers *)
Definition number_check : bool :=
  forallb (fun m => forallb (fun k => token_check m k (kind_re k) bnd
      && match rule_of k (rules m) with Some r => re_eqb r (kind_re k) | None => false end
      && re_text (kind_re k) && negb (nullable (kind_re k)))
    [INT; SIGNED_INT; FLOAT]) base_modes.
Lemma number_check_ok : number_check = true. Proof. vm_compute. reflexivity. Qed.

Lemma number_kind_in v n : num_reads (num_kind v) (num_str v) n ->
  In (num_kind v) [INT; SIGNED_INT; FLOAT].
Proof. intros [_ [[[-> | ->] _] | [-> _]]]; cbn; auto. Qed.

Lemma takes_number v n sh rest : num_reads (num_kind v) (num_str v) n -> is_text rest ->
  follows bnd rest ->
  takes (base sh) (num_kind v) (num_str v) rest /\ is_text (num_str v).
Proof.
  intros R Ht Hf. pose proof (number_kind_in v n R) as Hk. destruct R as [M _].
  pose proof number_check_ok as H. unfold number_check in H. rewrite forallb_forall in H.
  specialize (H _ (in_base_modes sh)). cbv beta in H. rewrite forallb_forall in H.
  specialize (H _ Hk). cbv beta in H.
  rewrite !andb_true_iff in H. destruct H as [[[H1 H2] H3] H4].
  destruct (rule_of (num_kind v) (rules (base sh))) as [r |] eqn:E; [| discriminate].
  apply re_eqb_eq in H2. subst r.
  assert (T : is_text (num_str v)) by now apply (matches_text (kind_re (num_kind v))).
  split; auto. apply (takes_check _ _ _ _ _ _ (kind_re (num_kind v)) H1); auto.
  - now apply is_text_app.
  - intros E0. rewrite E0 in M. apply nullable_ok in M. rewrite M in H4. discriminate.
Qed.

(** words *)
Definition word_check (m : mode) (exceptions : list re) : bool :=
  stops m r_id bnd
  && match rule_of ID (rules m) with Some r => re_eqb r r_id | None => false end
  && forallb (fun r => disjoint r r_id || re_mem r exceptions) (before_kind ID (rules m)).
Definition zone_res : list re :=
  [alts [lit (u "UTC"); lit (u "Z"); lit (u "GMT")]; lit (u "TZ"); ch 84].

Lemma shift_op_words x : matches r_shift_op x -> In x (u "@" :: shift_words).
Proof.
  unfold r_shift_op. cbn [alts]. rewrite !matches_alt, !matches_lit. unfold shift_words.
  cbn [In]. intuition auto.
Qed.
Lemma zone_re_words r x : In r zone_res -> matches r x -> In x zone_words.
Proof.
  unfold zone_res, zone_words. intros [<- | [<- | [<- | []]]]; cbn [alts].
  - rewrite !matches_alt, !matches_lit. cbn [In]. intuition auto.
  - rewrite matches_lit. cbn [In]. intuition auto.
  - rewrite matches_ch. intros ->. vm_compute. auto 6.
Qed.

Lemma word_matches x : x <> [] -> Forall (fun c => in_ranges id_ranges c = true) x -> matches r_id x.
Proof. intros. unfold r_id. apply matches_plus_chr. auto. Qed.

Lemma takes_word sh x rest : word_ok sh x -> is_text rest -> follows bnd rest ->
  takes (base sh) ID x rest /\ is_text x.
Proof.
  intros (Hn & Hw & Hs & Hz) Ht Hf. pose proof (word_matches x Hn Hw) as M.
  assert (T : is_text x) by (apply (matches_text r_id); auto).
  assert (C : word_check (base sh) (r_shift_op :: if sh then zone_res else []) = true)
    by (destruct sh; vm_compute; reflexivity).
  split; auto. unfold word_check in C. rewrite !andb_true_iff in C. destruct C as [[C1 C2] C3].
  destruct (rule_of ID (rules (base sh))) as [r |] eqn:E; [| discriminate].
  apply re_eqb_eq in C2. subst r.
  apply (takes_family (base sh) ID r_id r_id bnd); auto.
  - now apply is_text_app.
  - intros r' Hr' M'. rewrite forallb_forall in C3. specialize (C3 _ Hr').
    apply orb_true_iff in C3. destruct C3 as [C3 | C3].
    + exact (disjoint_ok _ _ C3 x T M' M).
    + apply re_mem_in in C3. destruct C3 as [<- | C3].
      * apply shift_op_words in M'. destruct M' as [<- | M']; [| contradiction].
        rewrite Forall_forall in Hw. specialize (Hw 64 ltac:(cbn; auto)). discriminate.
      * destruct sh; [| destruct C3]. apply (Hz eq_refl). now apply (zone_re_words r').
Qed.

(** ** Dates: tokens that end before a bracket *)
Definition no_close (m : mode) : bool :=
  forallb (fun kr => disjoint (snd kr) (Seq r_any (Seq r_rest (Seq (ch 41) r_rest)))) (rules m).
Lemma no_close_ok : no_close SHIFT_MODE = true. Proof. vm_compute. reflexivity. Qed.

Lemma prefix_cases (w' rest' a b : str) : w' ++ rest' = a ++ b ->
  (exists y, a = w' ++ y) \/ (exists y, w' = a ++ y /\ y <> [] /\ exists z, b = y ++ z).
Proof.
  revert w'. induction a as [| c a IH]; intros w' E; cbn in E.
  - destruct w' as [| c w']; [left; exists []; auto |]. right. exists (c :: w').
    split; auto. split; [discriminate | eauto].
  - destruct w' as [| c' w']; [left; exists (c :: a); reflexivity |]. cbn [app] in E. injection E as E0 E; subst c'.
    destruct (IH w' E) as [[y ->] | (y & -> & Hy & z & ->)]; [left; exists y; reflexivity | right].
    exists y. repeat split; eauto.
Qed.

Lemma takes_extend k w x rest : is_text (w ++ x ++ 41 :: rest) ->
  takes SHIFT_MODE k w x -> takes SHIFT_MODE k w (x ++ 41 :: rest).
Proof.
  intros Ht [N L F]. constructor; auto. intros k' r' w' rest' Hin E M.
  rewrite app_assoc in E. destruct (prefix_cases _ _ _ _ E) as [[y Ey] | (y & -> & Hy & z & Ez)].
  - symmetry in Ey. exact (L k' r' w' y Hin Ey M).
  - exfalso. pose proof no_close_ok as C. unfold no_close in C. rewrite forallb_forall in C.
    specialize (C _ Hin). cbn [snd] in C.
    destruct y as [| c y]; [contradiction |]. cbn in Ez. injection Ez as <- ->.
    destruct w as [| c w]; [contradiction |].
    apply is_text_app in Ht. destruct Ht as [T1 T2]. apply is_text_app in T2. destruct T2 as [T2 T3].
    apply is_text_cons in T1, T3. destruct T1 as [T0 T1], T3 as [T3 T4]. apply is_text_app in T4.
    apply (disjoint_ok _ _ C (((c :: w) ++ x) ++ 41 :: y)); auto.
    + repeat (rewrite is_text_app || rewrite is_text_cons). tauto.
    + replace (((c :: w) ++ x) ++ 41 :: y) with ([c] ++ (w ++ x) ++ [41] ++ y)
        by (cbn; now rewrite <- !app_assoc).
      apply M_seq.
      { constructor. unfold in_ranges. cbn [existsb fst snd]. rewrite orb_false_r.
        apply andb_true_iff. rewrite !N.leb_le. lia. }
      apply M_seq; [apply matches_any_text; apply is_text_app; tauto |].
      apply M_seq; [now apply matches_ch | apply matches_any_text; tauto].
Qed.

Lemma tokenises_extend raw ns rest ts : tokenises SHIFT_MODE raw ns -> is_text rest ->
  tokenises SHIFT_MODE (41 :: rest) ts ->
  tokenises SHIFT_MODE (raw ++ 41 :: rest) (ns ++ ts).
Proof.
  intros H. remember SHIFT_MODE as m eqn:Em. induction H as [| m k w x ns Hk Hr IH]; intros Tr T.
  - exact T.
  - subst m. rewrite <- app_assoc. cbn [app]. constructor.
    + apply takes_extend; auto. apply is_text_app. split.
      * destruct (tk_first _ _ _ _ Hk) as (b & r & a & E & M & _).
        apply (matches_text r); auto. apply (rules_text SHIFT_MODE k). rewrite E, in_app_iff. cbn. auto.
      * apply is_text_app. split; [now apply tokenises_text in Hr |]. now apply tokenises_text in T.
    + apply IH; auto.
Qed.

Lemma lex_fuel_any fuel m s ts : is_text s -> (List.length s <= fuel)%nat ->
  tokenises m s ts -> lex_fuel fuel m s = Some ts.
Proof.
  intros Ht L T. destruct (lex_fuel_total fuel m s Ht L) as (ts' & E & T').
  rewrite E. f_equal. now apply (tokenises_unique m s).
Qed.

Lemma date_toks_ok raw ns : tokenises SHIFT_MODE raw ns -> date_toks raw = ns.
Proof.
  intros T. unfold date_toks.
  rewrite (lex_fuel_any _ SHIFT_MODE raw ns); auto. now apply tokenises_text in T.
Qed.

(** a date starts with a digit or a sign *)
Definition other_ranges : list (N * N) := [(0, 42); (44, 44); (46, 47); (58, 1114111)].
Definition date_start_check : bool :=
  forallb (fun k => match rule_of k (rules SHIFT_MODE) with
    | Some r => disjoint r (Seq (Chr other_ranges) r_rest) | None => false end)
    [DATE; INT; SIGNED_INT; TIMESTAMP].
Lemma date_start_check_ok : date_start_check = true. Proof. vm_compute. reflexivity. Qed.

Lemma kind_rule_unique m k r : In (k, r) (rules m) -> k <> MULTIPLY -> k <> SIGNED_INT ->
  rule_of k (rules m) = Some r.
Proof.
  intros H N1 N2. destruct m; cbn in H;
  repeat (destruct H as [H | H]; [injection H as <- <-; first [reflexivity | contradiction (N1 eq_refl) | contradiction (N2 eq_refl)] |]);
  destruct H.
Qed.

Lemma shift_kind_rule k r : In (k, r) (rules SHIFT_MODE) -> rule_of k (rules SHIFT_MODE) = Some r.
Proof.
  intros H. cbn in H.
  repeat (destruct H as [H | H]; [injection H as <- <-; reflexivity |]). destruct H.
Qed.

Lemma num_or_other c : c <= 1114111 -> in_ranges num_ranges c = true \/ in_ranges other_ranges c = true.
Proof.
  intros H. unfold in_ranges, num_ranges, other_ranges. cbn [existsb fst snd].
  rewrite !orb_true_iff, !andb_true_iff, !N.leb_le. lia.
Qed.

Lemma date_start raw ns : tokenises SHIFT_MODE raw ns -> timestamp ns ->
  exists c s, raw = c :: s /\ in_ranges num_ranges c = true.
Proof.
  intros T H. assert (H' : exists t ns', ns = t :: ns' /\
    (kinded DATE t \/ integer_token t \/ kinded TIMESTAMP t)).
  { destruct H as [d Hd|d w c w2 z Hd Hw Hc Hw2 Hz|i z Hi Hz|s w z Hs Hw Hz|d w z Hd Hw Hz];
      eexists _, _; (split; [reflexivity|]); try unfold date_or_integer in Hd; tauto. }
  clear H. destruct H' as (t & ns' & -> & H).
  inversion T as [| m k w rest ts Hk Hr]; subst.
  assert (Kd : In k [DATE; INT; SIGNED_INT; TIMESTAMP]).
  { revert H. unfold integer_token, kinded. cbn [tkind In]. intuition auto. }
  pose proof date_start_check_ok as C. unfold date_start_check in C. rewrite forallb_forall in C.
  specialize (C _ Kd). cbv beta in C.
  destruct (tk_first _ _ _ _ Hk) as (b & r & a & E & M & _).
  rewrite (shift_kind_rule k r) in C by (rewrite E, in_app_iff; cbn; auto).
  pose proof (tk_nonempty _ _ _ _ Hk) as Hn. destruct w as [| c w]; [contradiction |].
  exists c, (w ++ rest). split; [reflexivity |].
  assert (Tx : is_text (c :: w)).
  { apply (matches_text r); auto. apply (rules_text SHIFT_MODE k). rewrite E, in_app_iff. cbn. auto. }
  pose proof Tx as Tx'. apply is_text_cons in Tx. destruct Tx as [Tc Tw].
  destruct (num_or_other c Tc) as [G | G]; auto. exfalso.
  apply (disjoint_ok _ _ C (c :: w) Tx' M). change (c :: w) with ([c] ++ w).
  apply M_seq; [now constructor | now apply matches_any_text].
Qed.

(** ** The first character *)
Lemma num_start v n : num_reads (num_kind v) (num_str v) n ->
  exists c s, num_str v = c :: s /\ in_ranges num_ranges c = true.
Proof.
  intros R. pose proof (number_kind_in v n R) as Hk. destruct R as [M _].
  assert (C : forallb (fun k => disjoint (kind_re k) (Seq (Chr other_ranges) r_rest)
     && negb (disjoint (kind_re k) (kind_re k)) && re_text (kind_re k) && negb (nullable (kind_re k))) [INT; SIGNED_INT] = true)
    by (vm_compute; reflexivity).
  rewrite forallb_forall in C.
  destruct (num_str v) as [| c s] eqn:E.
  { exfalso. apply nullable_ok in M. destruct Hk as [K | [K | [K | []]]]; rewrite <- K in M; discriminate. }
  exists c, s. split; auto.
  assert (T : is_text (c :: s)).
  { apply (matches_text (kind_re (num_kind v))); auto.
    destruct Hk as [K | [K | [K | []]]]; rewrite <- K; reflexivity. }
  pose proof T as T'. apply is_text_cons in T. destruct T as [Tc Ts].
  assert (Mo : in_ranges other_ranges c = true -> matches (Seq (Chr other_ranges) r_rest) (c :: s)).
  { intros G. change (c :: s) with ([c] ++ s). apply M_seq; [now constructor | now apply matches_any_text]. }
  destruct (num_or_other c Tc) as [G | G]; auto. exfalso.
  destruct Hk as [K | [K | [K | []]]].
  - rewrite <- K in *. specialize (C INT ltac:(cbn; auto)). cbv beta in C. rewrite !andb_true_iff in C.
    destruct C as [[[C _] _] _]. exact (disjoint_ok _ _ C _ T' M (Mo G)).
  - rewrite <- K in *. specialize (C SIGNED_INT ltac:(cbn; auto)). cbv beta in C. rewrite !andb_true_iff in C.
    destruct C as [[[C _] _] _]. exact (disjoint_ok _ _ C _ T' M (Mo G)).
  - (* a float written by str() has digits before the point *)
    destruct v as [z | d | s0]; cbn [num_kind] in K.
    + destruct (z <? 0)%Z; discriminate.
    + destruct (dec_str_shape d) as (ip & fp & dot & ex & e & Es & Di & Ni & _).
      cbn [num_str] in E. rewrite Es in E. destruct Di as [| c0 ip Hc Di]; [contradiction |].
      destruct (dneg d); cbn in E; injection E as <- _; [vm_compute in G; discriminate |].
      clear - Hc G. unfold is_digit in Hc. apply andb_true_iff in Hc. rewrite !N.leb_le in Hc.
      unfold in_ranges, other_ranges in G. cbn [existsb fst snd] in G.
      rewrite !orb_true_iff, !andb_true_iff, !N.leb_le in G. lia.
    + destruct s0 as [| p s0]; [discriminate |].
      destruct p as [| p]; [discriminate |].
      repeat (destruct p as [p | p |]; try discriminate).
Qed.

Lemma num_in_start c : in_ranges num_ranges c = true -> in_ranges start_ranges c = true.
Proof.
  unfold in_ranges, start_ranges, num_ranges. cbn [existsb fst snd app].
  rewrite !orb_true_iff, !andb_true_iff, !N.leb_le. lia.
Qed.

Lemma id_in_start c : in_ranges id_ranges c = true -> in_ranges start_ranges c = true.
Proof.
  unfold start_ranges, in_ranges. rewrite existsb_app. intros ->. apply orb_true_r.
Qed.

Lemma first_char sh g : writable sh g ->
  exists c s, node_str g = c :: s /\ in_ranges start_ranges c = true.
Proof.
  revert sh. induction g as [raw | v raw | x | a IHa b IHb | a IHa b IHb | a IHa b IHb | a IHa b IHb | f t IHt];
    intros sh W; cbn [writable node_str] in *.
  - destruct W.
  - destruct (num_start v (renumber v)) as (c & s & E & H); [apply num_token; auto |].
    exists c, s. split; auto using num_in_start.
  - destruct W as (Hn & Hw & _). destruct x as [| c x]; [contradiction |]. exists c, x. split; auto.
    inversion Hw; subst. now apply id_in_start.
  - assert (Wa : writable sh a) by (destruct b; tauto).
    destruct (IHa sh Wa) as (c & s & -> & H). eexists c, _. split; [reflexivity | exact H].
  - destruct W as [Wa _]. destruct (IHa sh Wa) as (c & s & -> & H). eexists c, _. split; [reflexivity | exact H].
  - destruct W as [Wa _]. destruct (IHa sh Wa) as (c & s & -> & H). eexists c, _. split; [reflexivity | exact H].
  - eexists 40, _. split; reflexivity.
  - eexists 40, _. split; reflexivity.
Qed.

(** ** Everything is text *)
Lemma is_text_u_cons c : c <= 1114111 -> is_text [c].
Proof. intros. repeat constructor; auto. Qed.

Lemma log_name_text f : In f log_names -> is_text f.
Proof.
  intros H. repeat (destruct H as [<- | H]; [repeat constructor; vm_compute; discriminate |]). destruct H.
Qed.

Lemma node_text sh g : writable sh g -> is_text (node_str g).
Proof.
  assert (U : forall s, In s [u "^"; u "·"; u "/"; u "("; u ")"; u " @ "; u "(re "; u "))"] -> is_text s).
  { intros s H. repeat (destruct H as [<- | H]; [repeat constructor; vm_compute; discriminate |]). destruct H. }
  assert (Nm : forall v, number_ok v \/ exponent_ok v -> is_text (num_str v)).
  { intros v H. destruct (takes_number v (renumber v) false [] (num_token v H)); auto.
    - constructor.
    - apply follows_nil. }
  revert sh. induction g as [raw | v raw | x | a IHa b IHb | a IHa b IHb | a IHa b IHb | a IHa b IHb | f t IHt];
    intros sh W; cbn [writable node_str] in *.
  - destruct W.
  - auto.
  - destruct (takes_word sh x [] W); auto; [constructor | apply follows_nil].
  - destruct b; try contradiction. destruct W as [Wa We]. cbn [node_str].
    rewrite !is_text_app. repeat split; eauto; apply U; cbn; auto 10.
  - destruct W as [Wa Wb]. rewrite !is_text_app. repeat split; eauto; apply U; cbn; auto 10.
  - destruct W as [Wa Wb]. rewrite !is_text_app. repeat split; eauto; apply U; cbn; auto 10.
  - rewrite !is_text_app. destruct b; try contradiction; destruct W as [Wa Wb]; cbn [node_str].
    + destruct Wb as (ns & T & _). apply tokenises_text in T.
      repeat split; eauto; apply U; cbn; auto 10.
    + repeat split; eauto; apply U; cbn; auto 10.
  - destruct W as [Hf Wt]. rewrite !is_text_app.
    repeat split; eauto using log_name_text; apply U; cbn; auto 10.
Qed.

(** ** The whole text *)
Lemma tok_step m k w rest ts : takes m k w rest -> tokenises (next_mode m k) rest ts ->
  tokenises m (w ++ rest) (mkTok k w :: ts).
Proof. intros; now constructor. Qed.

Lemma next_base sh k : next_mode DEFAULT_MODE k = DEFAULT_MODE -> next_mode (base sh) k = base sh.
Proof. destruct sh; auto. Qed.

Theorem toks_ok g : forall sh rest ts, writable sh g -> is_text rest -> follows bnd rest ->
  (forall m, end_mode (sh || has_shift g) m -> tokenises m rest ts) ->
  tokenises (base sh) (node_str g ++ rest) (toks g ++ ts).
Proof.
  assert (Nm : forall v sh rest ts, number_ok v \/ exponent_ok v -> is_text rest -> follows bnd rest ->
    tokenises (base sh) rest ts -> tokenises (base sh) (num_str v ++ rest) (num_tok v :: ts)).
  { intros v sh rest ts Hv Ht Hf T. pose proof (num_token v Hv) as R.
    destruct (takes_number v (renumber v) sh rest R Ht Hf) as [Tk _].
    constructor; auto.
    replace (next_mode (base sh) (num_kind v)) with (base sh); auto.
    symmetry. apply next_base. apply number_kind_in in R.
    destruct R as [<- | [<- | [<- | []]]]; reflexivity. }
  assert (Dm : forall sh, end_mode sh (base sh)) by (intros; left; reflexivity).
  induction g as [raw | v raw | x | a IHa b IHb | a IHa b IHb | a IHa b IHb | a IHa b IHb | f t IHt];
    intros sh rest ts W Ht Hf C; cbn [writable node_str toks has_shift] in *.
  - destruct W.
  - cbn [app]. rewrite orb_false_r in C. apply Nm; auto.
  - destruct (takes_word sh x rest W Ht Hf) as [Tk _]. cbn [app]. rewrite orb_false_r in C.
    constructor; auto. apply C. destruct sh; [left; reflexivity | right; auto].
  - destruct b as [| v r | | | | | |]; try contradiction. destruct W as [Wa We].
    cbn [node_str toks has_shift] in *. rewrite orb_false_r in C. rewrite <- !app_assoc.
    assert (Tv : is_text (num_str v ++ rest)).
    { apply is_text_app. split; auto. apply (takes_number v (renumber v) sh rest); auto. apply num_token; auto. }
    apply IHa; auto.
    + apply is_text_app. split; [repeat constructor; vm_compute; discriminate | exact Tv].
    + apply (bnd_sep 94); [exact Tv | cbn; auto].
    + intros m Hm. apply tok_step; [now apply takes_raise |].
      rewrite (end_next _ m _ Hm) by reflexivity. apply Nm; auto.
  - destruct W as [Wa Wb]. rewrite <- !app_assoc.
    assert (Tb : is_text (node_str b ++ rest)) by (apply is_text_app; eauto using node_text).
    apply IHa; auto.
    + apply is_text_app. split; [repeat constructor; vm_compute; discriminate | exact Tb].
    + apply (bnd_sep 183); [exact Tb | cbn; auto].
    + intros m Hm. apply tok_step; [now apply takes_mul |].
      rewrite (end_next _ m _ Hm) by reflexivity. apply IHb; auto. now rewrite <- orb_assoc.
  - destruct W as [Wa Wb]. rewrite <- !app_assoc.
    assert (Tb : is_text (node_str b ++ rest)) by (apply is_text_app; eauto using node_text).
    apply IHa; auto.
    + apply is_text_app. split; [repeat constructor; vm_compute; discriminate | exact Tb].
    + apply (bnd_sep 47); [exact Tb | cbn; auto].
    + intros m Hm. apply tok_step.
      * destruct (first_char _ _ Wb) as (c & s & E & Hc). rewrite E in Tb |- *.
        now apply takes_div.
      * rewrite (end_next _ m _ Hm) by reflexivity. apply IHb; auto. now rewrite <- orb_assoc.
  - rewrite orb_true_r in C. specialize (C _ (Dm true)). cbn [base] in C.
    change (u "(") with [40]. change (u " @ ") with ([32] ++ [64] ++ [32]). change (u ")") with [41].
    rewrite <- !app_assoc. cbn [app]. change (u "(") with [40].
    assert (Wa : writable sh a) by (destruct b; tauto).
    assert (Hb : is_text (node_str b ++ 41 :: rest) /\
      (exists c s, node_str b ++ 41 :: rest = c :: s /\ in_ranges num_ranges c = true) /\
      tokenises SHIFT_MODE (node_str b ++ 41 :: rest) (toks b ++ tk_close :: ts)).
    { assert (Tc : tokenises SHIFT_MODE (41 :: rest) (tk_close :: ts)).
      { apply (tok_step SHIFT_MODE CLOSE_PAREN [41]); [now apply takes_close | exact C]. }
      assert (T41 : is_text (41 :: rest)) by (apply is_text_cons; split; [lia | exact Ht]).
      destruct b as [raw | v r | | | | | |]; try contradiction; destruct W as [_ Wb]; cbn [node_str toks].
      - destruct Wb as (ns & T & Ts & _). rewrite (date_toks_ok raw ns T).
        split; [apply is_text_app; split; [now apply tokenises_text in T | exact T41] |].
        split; [| now apply tokenises_extend].
        destruct (date_start raw ns T Ts) as (c & s & -> & H). exists c, (s ++ 41 :: rest). auto.
      - pose proof (num_token v (or_introl Wb)) as R.
        split; [apply is_text_app; split; [| exact T41] |].
        { apply (takes_number v (renumber v) sh rest); auto. }
        split.
        { destruct (num_start v _ R) as (c & s & -> & H). exists c, (s ++ 41 :: rest). auto. }
        cbn [app]. apply (Nm v true); auto. apply (bnd_sep 41); [exact Ht | cbn; auto]. }
    destruct Hb as (Tb & (c & s & Eb & Hc) & Kb).
    assert (T1 : is_text (32 :: 64 :: 32 :: node_str b ++ 41 :: rest))
      by (rewrite !is_text_cons; repeat split; auto; lia).
    change (40 :: node_str a ++ 32 :: 64 :: 32 :: node_str b ++ 41 :: rest)
      with ([40] ++ node_str a ++ 32 :: 64 :: 32 :: node_str b ++ 41 :: rest).
    apply (tok_step (base sh) OPEN_PAREN [40]).
    { apply takes_open. apply is_text_app. split; [now apply (node_text sh) | exact T1]. }
    rewrite next_base by reflexivity.
    replace ((toks a ++ tk_space :: tk_at :: tk_space :: toks b ++ [tk_close]) ++ ts)
      with (toks a ++ tk_space :: tk_at :: tk_space :: toks b ++ tk_close :: ts)
      by (rewrite <- app_assoc; cbn [app]; rewrite <- app_assoc; reflexivity).
    apply IHa; auto.
    + apply bnd_at. apply is_text_cons in T1. destruct T1 as [_ T1]. apply is_text_cons in T1. tauto.
    + intros m Hm.
      apply (tok_step m WS [32] (64 :: 32 :: node_str b ++ 41 :: rest)).
      { apply takes_space_at. apply is_text_cons in T1. destruct T1 as [_ T1]. apply is_text_cons in T1. tauto. }
      rewrite (end_next _ m _ Hm) by reflexivity.
      apply (tok_step _ SHIFT_OP [64] (32 :: node_str b ++ 41 :: rest)).
      { apply takes_at. apply is_text_cons. split; [lia | exact Tb]. }
      replace (next_mode (base (sh || has_shift a)) SHIFT_OP) with SHIFT_MODE
        by (destruct (sh || has_shift a)%bool; reflexivity).
      apply (tok_step _ WS [32] (node_str b ++ 41 :: rest)); [| exact Kb].
      rewrite Eb in Tb |- *. now apply takes_space_num.
  - destruct W as [Hl Wt].
    change (u "(") with [40]. change (u "))") with [41; 41].
    rewrite <- !app_assoc.
    assert (T1 : is_text (41 :: 41 :: rest)) by (rewrite !is_text_cons; repeat split; auto; lia).
    assert (Tt : is_text (node_str t ++ 41 :: 41 :: rest))
      by (apply is_text_app; split; [now apply (node_text sh) | exact T1]).
    assert (T2 : is_text (f ++ u "(re " ++ node_str t ++ 41 :: 41 :: rest)).
    { rewrite !is_text_app in *. repeat split; try tauto; [now apply log_name_text |].
      repeat constructor; vm_compute; discriminate. }
    replace ((tk_open :: tk_log f :: toks t ++ [tk_close; tk_close]) ++ ts)
      with (tk_open :: tk_log f :: toks t ++ tk_close :: tk_close :: ts)
      by (cbn [app]; rewrite <- app_assoc; reflexivity).
    apply (tok_step (base sh) OPEN_PAREN [40]); [now apply takes_open |].
    rewrite next_base by reflexivity. rewrite app_assoc.
    apply (tok_step (base sh) LOG (f ++ u "(re ")).
    { destruct (first_char _ _ Wt) as (c & s & E & Hc). rewrite E in Tt |- *. now apply takes_log. }
    rewrite next_base by reflexivity.
    apply IHt; auto.
    + apply (bnd_sep 41); [| cbn; auto]. apply is_text_cons in T1. tauto.
    + intros m Hm.
      apply (tok_step m CLOSE_PAREN [41] (41 :: rest)).
      { apply takes_close. apply is_text_cons in T1. tauto. }
      rewrite (end_next _ m _ Hm) by reflexivity.
      apply (tok_step _ CLOSE_PAREN [41] rest); [now apply takes_close |].
      rewrite next_base by reflexivity. apply C. left. reflexivity.
Qed.

Theorem node_tokens g : writable false g -> tokenises DEFAULT_MODE (node_str g) (toks g).
Proof.
  intros W. rewrite <- (app_nil_r (node_str g)), <- (app_nil_r (toks g)).
  apply (toks_ok g false [] []); auto; [constructor | apply follows_nil | intros; constructor].
Qed.
