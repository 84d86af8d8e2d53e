(** * C63, C64: the generated lexer. *)
From Verif Require Import PyBase Regex Lexer LexSpec LexerFacts Atn AtnCheck AtnFacts
  AtnShared AtnSharedFacts.

(** A token as the generated lexer shows it: its type number and its text.  ([shown] is
    [(Z.of_N (kind_id (tkind t)), ttext t)].) *)

(** C63.  For every text, the automaton that is shipped in parser/udunits2Lexer.py, run by
    the runtime's simulator, produces the tokenisation that the rules of
    udunits2Lexer.g4.jinja prescribe. *)
Theorem C63_generated_lexer_is_the_grammar :
  forall s, is_text s ->
  exists ts, tokenises DEFAULT_MODE s ts /\
    generated_lex s = Some (map (fun t => (Z.of_N (kind_id (tkind t)), ttext t)) ts).
Proof.
  intros s Hs. destruct (lex_total s Hs) as (ts & E & T). exists ts. split; [exact T |].
  exact (generated_lex_ok s ts Hs E).
Qed.

Example C63_example :
  generated_lex (u "m2 s^-1 @ 5T") =
  Some [(16, u "m"); (9, u "2"); (18, u " "); (16, u "s"); (14, u "^"); (1, u "-1");
        (18, u " "); (12, u "@"); (18, u " "); (9, u "5"); (26, u "T")]%Z.
Proof. vm_compute. reflexivity. Qed.

(** C63, one token: in each mode, with any mode stack, the next token, the text left and
    the next mode are those of the rules. *)
Theorem C63_one_token :
  forall m stack w rest k, is_text (w ++ rest) -> takes m k w rest ->
  exists stack',
    next_token the_atn (mode_id m) stack (w ++ rest) =
    TToken (Z.of_N (kind_id k)) w rest (mode_id (next_mode m k)) stack'.
Proof.
  intros m stack w rest k Ht Hk.
  destruct (w ++ rest) as [| c s] eqn:E.
  { apply app_eq_nil in E. destruct E as [-> _]. now destruct Hk. }
  inversion Ht as [| ? ? Hc Hs]; subst.
  destruct (best_rule_text m c s Hc) as (k' & n & Hb & Hk').
  destruct (check_parts the_atn check_ok) as [HB HM].
  destruct (next_token_lex the_atn m _ _ HB (HM m) (c :: s) k' n stack Ht Hb) as (stack' & En).
  exists stack'. rewrite En.
  destruct (takes_unique m k w rest k' (firstn (S n) (c :: s)) (skipn (S n) (c :: s)))
    as (-> & -> & ->); auto.
  rewrite firstn_skipn. exact E.
Qed.

(** C64.  In every process in which any number of lexers, created at any moments over any
    texts, take steps in any order and share the cache, a lexer over a text never fails,
    and when it has ended its tokens are those the grammar prescribes for its own text. *)
Theorem C64_tokens_do_not_depend_on_history :
  forall h ls l, world_steps the_atn (empty_shared, []) (h, ls) -> In l ls ->
  is_text (t_src l) ->
  t_pc l <> PFail /\
  (t_pc l = PDone ->
   exists ts, tokenises DEFAULT_MODE (t_src l) ts /\
     t_out l = map (fun t => (Z.of_N (kind_id (tkind t)), ttext t)) ts).
Proof.
  intros h ls l Hw Hin Ht. destruct (shared_output the_atn h ls l Hw Hin) as [H1 H2].
  destruct (C63_generated_lexer_is_the_grammar (t_src l) Ht) as (ts & T & E).
  change (generated_lex (t_src l)) with (lex_of the_atn (t_src l)) in E. split.
  - intros Hf. rewrite (H2 Hf) in E. discriminate E.
  - intros Hd. rewrite (H1 Hd) in E. injection E as E. exists ts. auto.
Qed.

(** C64, no waiting: a lexer that has not ended can always take a step itself, and the
    number of its own steps is bounded by a number that only depends on its text, whatever
    the others do in between. *)
Theorem C64_every_lexer_ends :
  (forall h ls l, world_steps the_atn (empty_shared, []) (h, ls) -> In l ls ->
   is_text (t_src l) -> t_pc l <> PDone ->
   exists h' l', lexer_step the_atn h l = Some (h', l') /\ work l' < work l) /\
  (forall s, work (new_lexer s) <= 8 * (List.length s + 1) * (List.length s + 1)).
Proof.
  split.
  - intros h ls l Hw Hin Ht Hd.
    destruct (shared_progress the_atn h ls l Hw Hin) as [H | [H | H]];
      [contradiction | | exact H].
    destruct (C64_tokens_do_not_depend_on_history h ls l Hw Hin Ht) as [Hf _]. contradiction.
  - intros [| c s]; unfold work, new_lexer; cbn [t_pc t_text]; [lia |]. nia.
Qed.

(** A concrete process: two lexers, created one after the other, stepping in turn. *)
Fixpoint play (sched : list nat) (w : world) : world :=
  match sched with
  | [] => w
  | i :: sched' =>
    match nth_error (snd w) i with
    | Some t => match lexer_step the_atn (fst w) t with
                | Some (h', t') => play sched' (h', set_nth (snd w) i t')
                | None => play sched' w
                end
    | None => play sched' w
    end
  end.

Lemma play_steps sched w : world_steps the_atn w (play sched w).
Proof.
  revert w. induction sched as [| i sched IH]; intros [h ls]; cbn [play fst snd];
    [apply Ws_refl |].
  destruct (nth_error ls i) as [t |] eqn:E; [| apply IH].
  destruct (lexer_step the_atn h t) as [[h' t'] |] eqn:E'; [| apply IH].
  eapply Ws_step; [exact (W_step the_atn h ls i t h' t' E E') | apply IH].
Qed.

Fixpoint turns (n : nat) : list nat :=
  match n with O => [] | S n' => 0%nat :: 1%nat :: 1%nat :: turns n' end.

Example C64_example :
  let w := play (turns 60) (empty_shared, [new_lexer (u "m2"); new_lexer (u "2 m2")]) in
  map (fun l => (t_pc l, t_out l)) (snd w) =
  [(PDone, [(16, u "m"); (9, u "2")]%Z);
   (PDone, [(9, u "2"); (18, u " "); (16, u "m"); (9, u "2")]%Z)].
Proof. vm_compute. reflexivity. Qed.

Definition summary (w : world) : list str * list bool * bool :=
  (map t_src (snd w), map (fun l => match t_pc l with PDone => true | _ => false end) (snd w),
   Nat.ltb 0 (List.length (h_objs (fst w)))).

Lemma summary_means (w : world) :
  summary w = ([u "m2"; u "2 m2"], [true; true], true) ->
  map t_src (snd w) = [u "m2"; u "2 m2"] /\ List.length (h_objs (fst w)) > 0 /\
  forall l, In l (snd w) -> is_text (t_src l) /\ t_pc l = PDone.
Proof.
  unfold summary. generalize (h_objs (fst w)). generalize (snd w). intros ls os H.
  injection H as H1 H2 H3. split; [exact H1 |]. split.
  { destruct os; [discriminate H3 | cbn; lia]. }
  destruct ls as [| a [| b [|]]]; try discriminate H1.
  injection H1 as Ha Hb. injection H2 as Pa Pb.
  intros l [<- | [<- | []]].
  - rewrite Ha. split.
    { let x := eval vm_compute in (u "m2") in change (u "m2") with x.
      repeat (apply Forall_cons; [lia |]). apply Forall_nil. }
    destruct (t_pc a); congruence.
  - rewrite Hb. split.
    { let x := eval vm_compute in (u "2 m2") in change (u "2 m2") with x.
      repeat (apply Forall_cons; [lia |]). apply Forall_nil. }
    destruct (t_pc b); congruence.
Qed.

Example C64_example_reachable :
  exists w, world_steps the_atn (empty_shared, []) w /\
    map t_src (snd w) = [u "m2"; u "2 m2"] /\ List.length (h_objs (fst w)) > 0 /\
    forall l, In l (snd w) -> is_text (t_src l) /\ t_pc l = PDone.
Proof.
  exists (play (turns 60) (empty_shared, [new_lexer (u "m2"); new_lexer (u "2 m2")])). split.
  - eapply Ws_step; [exact (W_new the_atn empty_shared [] (u "m2")) |].
    eapply Ws_step; [exact (W_new the_atn empty_shared _ (u "2 m2")) |].
    exact (play_steps (turns 60) (empty_shared, [new_lexer (u "m2"); new_lexer (u "2 m2")])).
  - apply summary_means. vm_compute. reflexivity.
Qed.

Print Assumptions C63_generated_lexer_is_the_grammar.
Print Assumptions C63_one_token.
Print Assumptions C64_tokens_do_not_depend_on_history.
Print Assumptions C64_every_lexer_ends.
