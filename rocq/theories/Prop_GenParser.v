(** * C71, C72: the generated parser; whole calls of parse(). *)
From Verif Require Import PyBase Lexer LexSpec Parser GrammarSpec ParserComplete Graph Visitor
  PAtn PSpec PSim PSimFacts PSimMore PGen PGenExact Process ProcessFacts.
From Verif Require Atn AtnShared PShared.

(** C71.  For every token sequence, the automaton that is shipped in
    parser/udunits2Parser.py, consulted by the generated code and run by the runtime's
    prediction, yields the preferred derivation of udunits2Parser.g4, and a syntax error
    iff there is no derivation. *)
Theorem C71_generated_parser_is_the_grammar :
  forall pick, picks_from_set pick -> forall ts,
  (forall t, generated_parser pick ts = Some t <-> derives Unit_spec ts t /\ preferred t) /\
  (generated_parser pick ts = None <-> ~ exists t, derives Unit_spec ts t).
Proof.
  intros pick P ts. rewrite (generated_parser_exact pick ts P). split.
  - apply p_unit_exact.
  - pose proof (p_unit_accepts ts) as A. split.
    + intros E H. apply A in H. destruct H as [t H]. congruence.
    + intros H. destruct (p_unit ts) as [t |] eqn:E; [| reflexivity]. exfalso. apply H, A.
      now exists t.
Qed.

(** C71, one prediction: at each decision of the parser, in each state of its stack, the
    runtime answers the first alternative with which the rest of the input can be
    matched, if there is one. *)
Theorem C71_prediction_is_the_first_viable_alternative :
  forall pick d st w, In d decisions -> wf true (decision_state d) st -> ended w ->
  (exists j, viable d j st w) ->
  exists m, predict pick d st w = Some m /\ viable d m st w /\
            (forall j, viable d j st w -> (m <= j)%Z).
Proof.
  intros pick d st w D W E V. destruct (predict_least pick d st w D W E V) as [m [H1 H2]].
  exists m. split; [exact H1 |]. exact H2.
Qed.

(** C71, whole calls: with the generated lexer and parser, parse() returns the graph (or
    raises the error) that the grammars prescribe. *)
Theorem C71_generated_parse_is_parse :
  forall pick s, picks_from_set pick -> is_text s -> generated_parse pick s = parse s.
Proof. exact generated_parse_exact. Qed.

(** C72.  In every process in which any number of calls of parse(), made at any moments
    with any texts, in any threads, take steps in any order and share the two caches, a
    call that has ended has the result prescribed for its own text. *)
Theorem C72_results_do_not_depend_on_history :
  forall c ks s r, process_steps (empty_caches, []) (c, ks) -> In (mkCall s (Ended r)) ks ->
  is_text s -> r = parse s.
Proof. exact call_result. Qed.

(** C72, no waiting: a call that has not ended can always take a step itself ... *)
Theorem C72_calls_never_wait :
  forall c ks s g, process_steps (empty_caches, []) (c, ks) -> In (mkCall s g) ks ->
  is_text s -> (exists r, g = Ended r) \/ (exists c' k', call_step c (mkCall s g) c' k').
Proof. exact call_progress. Qed.

(** ... and takes no infinite sequence of own steps, whatever happens in between. *)
Theorem C72_calls_end :
  forall f : nat -> job,
  ~ (forall n, exists c ks c', process_steps (empty_caches, []) (c, ks) /\ In (f n) ks /\
       call_step c (f n) c' (f (S n))).
Proof.
  intros f H.
  assert (X : forall k, Acc own_step k -> forall n, f n = k -> False).
  { intros k A. induction A as [k _ IH]. intros n E. subst k.
    apply (IH (f (S n)) (H n) (S n)). reflexivity. }
  exact (X (f 0%nat) (call_ends (f 0%nat)) 0%nat eq_refl).
Qed.

(** ** Concrete cases *)
Definition no_pick : list pcfg -> option Z := fun _ => None.

Lemma no_pick_ok : picks_from_set no_pick.
Proof. intros cs m H. discriminate H. Qed.

Example C71_example : generated_parser no_pick [mkTok ID (u "m"); mkTok INT (u "2")] =
  Some (PNode Unit_spec [PNode Shift_spec [PNode Product [PNode Power
     [PNode Logarithm_r [PNode Basic_spec [PLeaf (mkTok ID (u "m"))]];
      mk_integer (mkTok INT (u "2"))]]]; PEOF]).
Proof. vm_compute. reflexivity. Qed.

Example C71_example_rejected : generated_parser no_pick [mkTok RAISE (u "^")] = None.
Proof. vm_compute. reflexivity. Qed.

Example C71_example_text :
  generated_parse no_pick (u " m2") = Ok (Raise (Identifier (u "m")) (Number (NInt 2) (Some (u "2")))).
Proof. vm_compute. reflexivity. Qed.

(** Decision 9 (the rule power) in front of [m 2]: its first two alternatives (a base and its
    exponent; a base alone, [2] being the next factor) are both viable, the first is taken.
    [finds] searches for a run. *)
Fixpoint any_of {A} (f : A -> bool) (l : list A) : bool :=
  match l with [] => false | x :: l' => if f x then true else any_of f l' end.

Fixpoint finds (fuel : nat) (n : Z) (st w : list Z) : bool :=
  match fuel with
  | O => false
  | S f =>
    if stop n then
      match st with
      | [] => if Z.eqb (rule_of n) 0 then match w with [] => true | _ => false end else false
      | r :: st' => finds f r st' w
      end
    else any_of (fun e =>
         match e with
         | PEps t | PAct t => finds f t st w
         | PCall s r => finds f s (r :: st) w
         | PAtom t k =>
           match w with
           | x :: w' => if Z.eqb x k then finds f t st w' else false
           | [] => false
           end
         | PSet t rs =>
           match w with
           | x :: w' => if any_of (fun p => if Z.leb (fst p) x then Z.leb x (snd p) else false) rs
                        then finds f t st w' else false
           | [] => false
           end
         | PPrec t p => if Z.leb 0 p then finds f t st w else false
         end) (edges n)
  end.

Lemma any_of_In : forall {A} (f : A -> bool) l, any_of f l = true ->
  exists x, In x l /\ f x = true.
Proof.
  intros A f l. induction l as [| x l IH]; cbn [any_of]; intros H; [discriminate H |].
  destruct (f x) eqn:E.
  - exists x. split; [now left | exact E].
  - destruct (IH H) as [y [I F]]. exists y. split; [now right | exact F].
Qed.

Lemma finds_accepts : forall fuel n st w, finds fuel n st w = true -> accepts n st w.
Proof.
  induction fuel as [| f IH]; intros n st w H; cbn [finds] in H; [discriminate H |].
  destruct (stop n) eqn:S.
  - destruct st as [| r st'].
    + destruct (Z.eqb (rule_of n) 0) eqn:R; [| discriminate H]. destruct w; [| discriminate H].
      apply Run_end; [exact S | now apply Z.eqb_eq].
    + apply Run_return; [exact S | now apply IH].
  - apply any_of_In in H. destruct H as [e [I H]]. destruct e.
    all: try (destruct w as [| x w']; [discriminate H |]).
    all: try (match type of H with (if ?c then _ else _) = _ => destruct c eqn:C end;
              [| discriminate H]).
    all: try (apply any_of_In in C; destruct C as [[lo hi] [J C]]; cbn [fst snd] in C).
    all: try (destruct (Z.leb lo x) eqn:L; [| discriminate C]).
    all: try apply Z.eqb_eq in C; try subst.
    all: try (eapply Run_eps; [exact I | now apply IH]).
    all: try (eapply Run_action; [exact I | now apply IH]).
    all: try (eapply Run_call; [exact I | now apply IH]).
    all: try (eapply Run_atom; [exact I | now apply IH]).
    all: try (eapply Run_precedence; [exact I | now apply Z.leb_le | now apply IH]).
    eapply Run_set; [exact I | | now apply IH]. exists lo, hi.
    apply Z.leb_le in L. apply Z.leb_le in C. split; [exact J | lia].
Qed.

Example C71_example_prediction :
  let st := [52; 49; 24]%Z in let w := [16; 9; -1]%Z in
  In 9%Z decisions /\ wf true (decision_state 9) st /\ ended w /\
  viable 9 1 st w /\ viable 9 2 st w /\ predict no_pick 9 st w = Some 1%Z.
Proof.
  cbv zeta. split; [| split; [| split; [| split; [| split]]]].
  - vm_compute. tauto.
  - vm_compute. repeat split; auto 10.
  - exists [16; 9]%Z. split; [reflexivity |]. intros [H | [H | []]]; discriminate H.
  - eexists. split; [lia |]. split; [vm_compute; reflexivity |].
    apply (finds_accepts 80). vm_compute. reflexivity.
  - eexists. split; [lia |]. split; [vm_compute; reflexivity |].
    apply (finds_accepts 80). vm_compute. reflexivity.
  - vm_compute. reflexivity.
Qed.

(** One step, executed; [Choose] gives nothing here. *)
Definition do_access {B} (o : PShared.access B) (h : PShared.memory)
  : option (B * PShared.memory) :=
  match o in PShared.access B return option (B * PShared.memory) with
  | PShared.ReadStart d => Some (PShared.find d (PShared.m_s0 h), h)
  | PShared.WriteStart d id =>
    Some (tt, PShared.mkM (PShared.m_objs h) ((d, id) :: PShared.m_s0 h) (PShared.m_states h))
  | PShared.Find d cs v => Some (PShared.find_state h d cs v (PShared.m_states h), h)
  | PShared.Insert d cs v =>
    let id := List.length (PShared.m_objs h) in
    Some (id, PShared.mkM (PShared.m_objs h ++ [PShared.mkD cs v None]) (PShared.m_s0 h)
                ((d, id) :: PShared.m_states h))
  | PShared.Load id =>
    match nth_error (PShared.m_objs h) id with
    | Some o => Some ((PShared.s_configs o, PShared.s_verdict o), h)
    | None => None
    end
  | PShared.ReadEdge id x =>
    match nth_error (PShared.m_objs h) id with
    | Some o => Some (match PShared.s_edges o with
                      | Some es => PShared.find x es | None => None end, h)
    | None => None
    end
  | PShared.HasEdges id =>
    match nth_error (PShared.m_objs h) id with
    | Some o => Some (match PShared.s_edges o with Some _ => true | None => false end, h)
    | None => None
    end
  | PShared.Alloc id => Some (tt, PShared.set_edges h id [])
  | PShared.Store id x e =>
    match nth_error (PShared.m_objs h) id with
    | Some o => match PShared.s_edges o with
                | Some es => Some (tt, PShared.set_edges h id ((x, e) :: es))
                | None => None
                end
    | None => None
    end
  | PShared.Choose cs => Some (None, h)
  end.

Lemma do_access_does : forall {B} (o : PShared.access B) h b h',
  do_access o h = Some (b, h') -> PShared.does o h b h'.
Proof.
  intros B o h b h' H. destruct o; cbn [do_access PShared.does] in *;
    repeat match type of H with
           | match ?x with _ => _ end = _ => destruct x eqn:?; try discriminate H
           end;
    injection H as H1 H2; subst; eauto 6.
  split; [reflexivity |]. intros m X. discriminate X.
Qed.

Definition do_call (c : caches) (k : job) : option (caches * job) :=
  match c_stage k with
  | Lexing l =>
    match AtnShared.lexer_step Atn.the_atn (fst c) l with
    | Some (a, l') => Some ((a, snd c), mkCall (c_arg k) (Lexing l'))
    | None => match AtnShared.t_pc l, tokens_of (AtnShared.t_out l) with
              | AtnShared.PDone, Some ts =>
                Some (c, mkCall (c_arg k) (Parsing (PShared.new_parser ts)))
              | _, _ => None
              end
    end
  | Parsing q =>
    match PShared.q_prog q with
    | PShared.Done x => Some (c, mkCall (c_arg k) (Ended (visit_tree x)))
    | PShared.Act o f =>
      match do_access o (snd c) with
      | Some (b, h) => Some ((fst c, h), mkCall (c_arg k)
                                          (Parsing (PShared.mkParser (PShared.q_tokens q) (f b))))
      | None => None
      end
    end
  | Ended _ => None
  end.

Lemma do_call_step : forall c k c' k', do_call c k = Some (c', k') -> call_step c k c' k'.
Proof.
  intros [a b] [s [l | q | r]] c' k' H; unfold do_call in H; cbn [c_stage c_arg fst snd] in H.
  - destruct (AtnShared.lexer_step Atn.the_atn a l) as [[a' l'] |] eqn:E.
    + injection H as H1 H2. subst c' k'. now apply S_lex.
    + destruct (AtnShared.t_pc l) eqn:E1; try discriminate H.
      destruct (tokens_of (AtnShared.t_out l)) as [ts |] eqn:E2; [| discriminate H].
      injection H as H1 H2. subst c' k'. now apply S_lexed.
  - destruct (PShared.q_prog q) as [x | B o f] eqn:E.
    + injection H as H1 H2. subst c' k'. now apply S_parsed.
    + destruct (do_access o b) as [[y h] |] eqn:E1; [| discriminate H].
      injection H as H1 H2. subst c' k'. apply S_parse. unfold PShared.parser_step. rewrite E.
      exists y. split; [now apply do_access_does | reflexivity].
  - discriminate H.
Qed.

Fixpoint play (sched : list nat) (w : process) : process :=
  match sched with
  | [] => w
  | i :: sched' =>
    match nth_error (snd w) i with
    | Some k => match do_call (fst w) k with
                | Some (c', k') => play sched' (c', PShared.set_nth (snd w) i k')
                | None => play sched' w
                end
    | None => play sched' w
    end
  end.

Lemma play_steps : forall sched w, process_steps w (play sched w).
Proof.
  induction sched as [| i sched IH]; intros [c ks]; cbn [play fst snd]; [apply Ps_refl |].
  destruct (nth_error ks i) as [k |] eqn:E; [| apply IH].
  destruct (do_call c k) as [[c' k'] |] eqn:E'; [| apply IH].
  apply (Ps_step _ (c', PShared.set_nth ks i k')); [| apply IH].
  apply (P_step c ks i k c' k' E). now apply do_call_step.
Qed.

Fixpoint turns (n : nat) : list nat :=
  match n with O => [] | S n' => 0%nat :: 1%nat :: 1%nat :: turns n' end.

(** Two calls, stepping in turn; both have ended, and the parsers' cache holds 12 states. *)
Definition summary (w : process) : nat * list (str * option (res node)) :=
  (List.length (PShared.m_objs (snd (fst w))),
   map (fun k => (c_arg k, match c_stage k with Ended r => Some r | _ => None end)) (snd w)).

Lemma summary_means : forall w n l s r, summary w = (n, l) -> In (s, Some r) l ->
  In (mkCall s (Ended r)) (snd w).
Proof.
  intros w n l s r H I. unfold summary in H. injection H as _ H. subst l.
  apply in_map_iff in I. destruct I as [[s' g] [E I]]. cbn [c_arg c_stage] in E.
  injection E as E1 E2. subst s'. destruct g; try discriminate E2. injection E2 as E2. now subst.
Qed.

Example C72_example :
  exists w, process_steps (empty_caches, []) w /\
    In (mkCall (u "m") (Ended (Ok (Identifier (u "m"))))) (snd w) /\
    In (mkCall (u "m2") (Ended (Ok (Raise (Identifier (u "m")) (Number (NInt 2) (Some (u "2")))))))
       (snd w).
Proof.
  exists (play (turns 150) (empty_caches, [new_call (u "m"); new_call (u "m2")])). split.
  - eapply Ps_step; [exact (P_new empty_caches [] (u "m")) |].
    eapply Ps_step; [exact (P_new empty_caches _ (u "m2")) |]. apply play_steps.
  - assert (H : summary (play (turns 150) (empty_caches, [new_call (u "m"); new_call (u "m2")]))
                = (12%nat, [(u "m", Some (Ok (Identifier (u "m"))));
                     (u "m2", Some (Ok (Raise (Identifier (u "m"))
                                          (Number (NInt 2) (Some (u "2"))))))]))
      by (vm_compute; reflexivity).
    split.
    + apply (summary_means _ _ _ _ _ H). now left.
    + apply (summary_means _ _ _ _ _ H). right. now left.
Qed.

Print Assumptions C71_generated_parser_is_the_grammar.
Print Assumptions C71_prediction_is_the_first_viable_alternative.
Print Assumptions C71_generated_parse_is_parse.
Print Assumptions C72_results_do_not_depend_on_history.
Print Assumptions C72_calls_never_wait.
Print Assumptions C72_calls_end.
