(** * C76: one UnitSystem used from many threads. *)
From Verif Require Import PyBase PyNum LexSpec Graph Visitor Expr Units UnitSystem SystemSpec SystemFacts SystemProofs SystemMore SystemKeep
  Process ProcessFacts SysShared SysSharedFacts Xml XmlPrefix XmlData Database.
From Verif Require PShared Prop_System Prop_Database Prop_GenParser.

(** What a request returns when nothing else is going on *)
Definition answer (ord : list str -> list str) (s : system) (r : request) : res anyunit :=
  match r with
  | Lookup stack q => match fst (lookup ord stack q s) with Ok x => Ok (AUnit x) | Err e => Err e end
  | UnitOf stack text => fst (sys_unit ord stack text s)
  end.

Definition stack_of (r : request) : nat := match r with Lookup f _ | UnitOf f _ => f end.

Definition str_definitions (s : system) : Prop :=
  forall i l, nth_error (s_lazies s) i = Some l -> is_text (lz_def l).

(** The accesses of one request, one after the other, are the call of UnitSystem.v: same
    result, same system left behind. *)
Theorem C76_accesses_are_the_call :
  forall ord stack s,
  (forall q, alone (t_lookup ord stack q) s = lookup ord stack q s) /\
  (forall text, alone (t_unit ord stack text) s = sys_unit ord stack text s).
Proof. intros ord f s. split; intro t; [apply alone_lookup|apply alone_unit]. Qed.

(** C76.  However the accesses of the threads (and of calls of parse() elsewhere) interleave,
    a thread that has ended has the answer it would have got alone from the system as first
    built, unless one of the two ran out of stack. *)
Theorem C76_threads_get_the_answers_of_one_thread :
  forall ord s w, clash_free s -> str_definitions s -> world_steps ord (start s) w ->
  forall r x, In (mkThread r (Running (Done x))) (w_threads w) ->
  x <> Err ERecursion -> answer ord s r <> Err ERecursion -> x = answer ord s r.
Proof.
  intros ord s w C T W r x I N1 N2. pose proof (answers ord s C T w r x W I) as A. destruct r as [f q|f t]; cbn [right_answer answer] in *.
  - destruct A as (y & -> & A). pose proof (lookup_agree ord s [] f q C) as A0. cbn [after fold_left] in A0.
    assert (E : y = fst (lookup ord f q s)).
    { eapply agree_same; [apply mono_lookup|exact A|exact A0| |].
      - intros ->. now apply N1.
      - intro E. rewrite E in N2. now apply N2. }
    rewrite <- E. destruct y; reflexivity.
  - pose proof (unit_agree ord s [] f t C) as A0. cbn [after fold_left] in A0. eapply agree_same; [apply mono_unit|exact A|exact A0|exact N1|exact N2].
Qed.

(** With definitions at most [n] deep and stacks deeper than that: equal outright. *)
Theorem C76_threads_get_the_answers_when_stack_suffices :
  forall ord s w rank n, rearranges ord -> clash_free s -> str_definitions s -> depth_at_most s rank n ->
  world_steps ord (start s) w ->
  forall r x, In (mkThread r (Running (Done x))) (w_threads w) -> (n < stack_of r)%nat ->
  x = answer ord s r /\ x <> Err ERecursion.
Proof.
  intros ord s w rank n P C T D W r x I L. pose proof (answers ord s C T w r x W I) as A. destruct r as [f q|f t]; cbn [right_answer answer stack_of] in *.
  - destruct A as (y & -> & _ & A). destruct (Prop_System.depth_lookup ord s rank n P C D [] f q L) as [E N]. cbn [after fold_left] in E.
    rewrite E, (A N). destruct y as [y|e]; (split; [reflexivity|]); [discriminate|]. intro X. apply N. rewrite (A N). cbn [bind] in X. congruence.
  - destruct A as (_ & A). destruct (Prop_System.depth_unit ord s rank n P C D [] f t L) as [E N]. cbn [after fold_left] in E.
    rewrite E, (A N). split; [reflexivity|]. rewrite <- (A N). exact N.
Qed.

(** Which words the system knows never changes, at any moment in between. *)
Theorem C76_words_stay_known :
  forall ord s w, clash_free s -> str_definitions s -> world_steps ord (start s) w ->
  forall k, unknown (fst (w_memory w)) k <-> unknown s k.
Proof.
  intros ord s w C T W k. destruct (reached_ok ord s C T _ _ W (start_ok ord s)) as ((N & _) & _).
  destruct N as (_ & _ & R & _). rewrite !unknown_iff. unfold known_opt, get_or.
  pose proof (R Names k) as R1. pose proof (R AliasNames k) as R2. pose proof (R Symbols k) as R3. pose proof (R AliasSymbols k) as R4.
  cbn [content] in *.
  destruct (dget k (s_names s)), (dget k (s_names (fst (w_memory w)))); try (now inversion R1); try (split; intro; discriminate).
  destruct (dget k (s_alias_names s)), (dget k (s_alias_names (fst (w_memory w)))); try (now inversion R2); try (split; intro; discriminate).
  destruct (dget k (s_symbols s)), (dget k (s_symbols (fst (w_memory w)))); try (now inversion R3); try (split; intro; discriminate).
  destruct (dget k (s_alias_symbols s)), (dget k (s_alias_symbols (fst (w_memory w)))); try (now inversion R4); (split; intro; try discriminate; auto).
Qed.

(** No thread ever waits for another ... *)
Theorem C76_threads_never_wait :
  forall ord s w, clash_free s -> str_definitions s -> world_steps ord (start s) w ->
  forall t, In t (w_threads w) ->
  (exists x, t_state t = Running (Done x)) \/ exists m' t', thread_step (w_memory w) t m' t'.
Proof. intros ord s w C T W t. now apply (thread_progress ord s C T). Qed.

(** ... and every thread ends after finitely many steps of its own. *)
Theorem C76_threads_end :
  forall ord s, clash_free s -> str_definitions s -> forall f : nat -> thread,
  ~ (forall n, exists w m', world_steps ord (start s) w /\ In (f n) (w_threads w) /\ thread_step (w_memory w) (f n) m' (f (S n))).
Proof.
  intros ord s C T f H.
  assert (X : forall t, Acc (thread_own ord s) t -> forall n, f n = t -> False).
  { intros t A. induction A as [t _ IH]. intros n E. subst t. apply (IH (f (S n)) (H n) (S n)). reflexivity. }
  exact (X (f 0%nat) (thread_ends ord s C T (f 0%nat)) 0%nat eq_refl).
Qed.

(** ** The shipped database *)
Definition text_b (t : str) : bool := forallb (fun c => N.leb c 1114111) t.
Lemma text_b_sound t : text_b t = true -> is_text t.
Proof. intro H. apply Forall_forall. intros c I. apply N.leb_le. unfold text_b in H. rewrite forallb_forall in H. auto. Qed.

Lemma shipped_texts : forallb (fun l => text_b (lz_def l)) (s_lazies shipped) = true.
Proof. vm_compute. reflexivity. Qed.

Theorem C76_shipped_database_can_be_shared :
  forall strict set_order s, rearranges set_order -> read_system strict set_order db = Ok s ->
  forall ord w, rearranges ord -> world_steps ord (start s) w ->
  forall r x, In (mkThread r (Running (Done x))) (w_threads w) -> (7 < stack_of r)%nat -> x = answer ord s r.
Proof.
  intros strict o s P E ord w Po W r x I L. destruct (Prop_Database.C36_shipped_database_loads strict o P) as (s' & E' & C & _ & rank & D).
  assert (E2 : Ok s' = Ok s) by (rewrite <- E'; exact E). injection E2 as E2. subst s'.
  assert (T : str_definitions s).
  { destruct (Prop_Database.read_any strict o P) as (s' & E3 & R). assert (E2 : Ok s' = Ok s) by (rewrite <- E3; exact E). injection E2 as E2. subst s'.
    intros i l N. rewrite <- (XmlPrefix.pa_lazies _ _ R) in N. apply nth_error_In in N. apply text_b_sound.
    exact (proj1 (forallb_forall _ _) shipped_texts l N). }
  exact (proj1 (C76_threads_get_the_answers_when_stack_suffices ord s w rank 7 Po C T D W r x I L)).
Qed.

(** ** A concrete case: two threads resolve the same definitions at the same time *)
Definition do_thread (m : memory) (t : thread) : option (memory * thread) :=
  match t_state t with
  | Running (Read q k) => Some (m, mkThread (t_asked t) (Parsing (new_call q) k))
  | Running p => match next p (fst m) with Some (p', s') => Some ((s', snd m), mkThread (t_asked t) (Running p')) | None => None end
  | Parsing j k =>
    match c_stage j with
    | Ended x => Some (m, mkThread (t_asked t) (Running (k x)))
    | _ => match Prop_GenParser.do_call (snd m) j with
           | Some (c', j') => Some ((fst m, c'), mkThread (t_asked t) (Parsing j' k))
           | None => None
           end
    end
  end.

Lemma do_thread_step m t m' t' : do_thread m t = Some (m', t') -> thread_step m t m' t'.
Proof.
  destruct m as [s c], t as [r [[x|B a k|q k]|[u g] k]]; unfold do_thread; cbn [t_state t_asked fst snd c_stage].
  - discriminate.
  - destruct (next (Act a k) s) as [[p' s']|] eqn:E; [|discriminate]. intro H. injection H as <- <-. now apply T_access.
  - intro H. injection H as <- <-. apply T_call.
  - assert (G : match Prop_GenParser.do_call c (mkCall u g) with Some (c', j') => Some ((s, c'), mkThread r (Parsing j' k)) | None => None end = Some (m', t') ->
      thread_step (s, c) (mkThread r (Parsing (mkCall u g) k)) m' t').
    { destruct (Prop_GenParser.do_call c (mkCall u g)) as [[c' j']|] eqn:E; [|discriminate]. intro H. injection H as <- <-.
      apply T_parse. now apply Prop_GenParser.do_call_step. }
    destruct g as [l|q|x]; [exact G|exact G|]. intro H. injection H as <- <-. apply T_return.
Qed.

Fixpoint play (sched : list nat) (w : world) : world :=
  match sched with
  | [] => w
  | i :: sched' =>
    match nth_error (w_threads w) i with
    | Some t => match do_thread (w_memory w) t with
                | Some (m', t') => play sched' (mkWorld m' (PShared.set_nth (w_threads w) i t') (w_parses w))
                | None => play sched' w
                end
    | None => play sched' w
    end
  end.

Lemma play_steps ord sched : forall w, world_steps ord w (play sched w).
Proof.
  induction sched as [|i sched IH]; intros [m ts js]; cbn [play w_memory w_threads w_parses]; [apply Ws_refl|].
  destruct (nth_error ts i) as [t|] eqn:E; [|apply IH]. destruct (do_thread m t) as [[m' t']|] eqn:E'; [|apply IH].
  eapply Ws_step; [|apply IH]. apply W_thread with t; [exact E|]. now apply do_thread_step.
Qed.

Fixpoint in_turns (n : nat) : list nat := match n with O => [] | S n' => 0%nat :: 1%nat :: 1%nat :: in_turns n' end.

Definition ended (w : world) : list (option (res anyunit)) :=
  map (fun t => match t_state t with Running (Done x) => Some x | _ => None end) (w_threads w).
Definition objects (w : world) : list bool :=
  map (fun l => match lz_resolved l with Some _ => true | None => false end) (s_lazies (fst (w_memory w))).

Definition asked : list request := [Lookup 9 (u "speed"); UnitOf 9 (u "km/hr")].
Definition two_threads : world :=
  mkWorld (Prop_System.demo, empty_caches) (map (new_thread Prop_System.same_order) asked) [].

Example C76_example :
  clash_free Prop_System.demo /\ str_definitions Prop_System.demo /\
  exists w, world_steps Prop_System.same_order (start Prop_System.demo) w /\
    ended w = map (fun r => Some (answer Prop_System.same_order Prop_System.demo r)) asked /\
    map (fun r => is_ok (answer Prop_System.same_order Prop_System.demo r)) asked = [true; true].
Proof.
  split; [apply clash_free_b_sound; vm_compute; reflexivity|]. split.
  { intros i l N. apply nth_error_In in N. apply text_b_sound. revert l N. apply forallb_forall. vm_compute. reflexivity. }
  exists (play (in_turns 700) two_threads). split; [|split].
  - eapply Ws_step; [apply (W_start _ _ _ _ (Lookup 9 (u "speed"))); apply text_b_sound; reflexivity|].
    eapply Ws_step; [apply (W_start _ _ _ _ (UnitOf 9 (u "km/hr"))); apply text_b_sound; reflexivity|]. apply play_steps.
  - vm_compute. reflexivity.
  - vm_compute. reflexivity.
Qed.

Print Assumptions C76_accesses_are_the_call.
Print Assumptions C76_threads_get_the_answers_of_one_thread.
Print Assumptions C76_threads_get_the_answers_when_stack_suffices.
Print Assumptions C76_words_stay_known.
Print Assumptions C76_threads_never_wait.
Print Assumptions C76_threads_end.
Print Assumptions C76_shipped_database_can_be_shared.
