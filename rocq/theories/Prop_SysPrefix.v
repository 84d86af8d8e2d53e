(** * C82, C83: prefixes registered by some threads while others look units up. *)
From Verif Require Import PyBase PyNum LexSpec Graph Visitor Expr Units UnitSystem SystemSpec SystemFacts SystemProofs SystemMore SystemKeep
  Process SysShared SysSharedFacts SysGrow SysPrefix SysGrowFacts SysGrowAnswers.
From Verif Require PShared PSharedFacts Prop_System Prop_Shared Prop_SysGrow.
Import Prop_Shared Prop_SysGrow.

(** The accesses of add_prefix, one after the other, are the call of UnitSystem.v. *)
Theorem C82_accesses_are_the_call :
  forall p s, fold_left (fun s x => put_prefix x s) (puts_of p) s = add_prefix p s.
Proof. exact add_puts. Qed.

(** C82.  [s]: the system before; [units]: units with new words; [new]: prefixes with new
    names and symbols; both are registered by any number of threads in any order and
    interleaving (each perhaps never, once or often, and each perhaps only half by now).
    A look-up that has ended gave the answer of the system in which everything is registered;
    or complained about a word it needed that could not be read when the call was made; or
    raised RuntimeError (dictionary changed size during iteration), and some prefix was not
    yet registered when the call was made. *)
Theorem C82_lookups_beside_prefixes :
  forall ord s units new w, let all := everything_and_prefixes units new s in
  rearranges ord -> new_words_and_prefixes units new s -> clash_free all -> str_definitions s ->
  q_steps ord units new (q_begin s) w ->
  forall before r x, In (before, mkThread r (Running (Done x))) (g_threads (fst w)) ->
  x <> Err ERecursion -> answer ord all r <> Err ERecursion ->
  x = answer ord all r \/
  (exists k, needed_for all r k /\ unreadable before k /\ ~ unreadable all k /\ x = Err (EUnresolvable k)) \/
  (x = Err ERuntime /\ exists t key p, In (key, p) (prefixes t all) /\ ~ In (key, p) (prefixes t before)).
Proof.
  intros ord s units new w all P NW C T W b r x I N1 N2. destruct (fair ord s units new P NW C T w b r x W I) as [_ F].
  destruct (fair_means ord s units new C b r x F N1 N2) as [E|(e & [(k & L1 & L2 & L3 & ->)|(-> & H)] & E)]; [now left|right; left; exists k; auto|right; right; now split].
Qed.

(** With definitions at most [n] deep in the end and stacks deeper than that *)
Theorem C82_lookups_beside_prefixes_when_stack_suffices :
  forall ord s units new w rank n, let all := everything_and_prefixes units new s in
  rearranges ord -> new_words_and_prefixes units new s -> clash_free all -> str_definitions s ->
  depth_at_most all rank n -> q_steps ord units new (q_begin s) w ->
  forall before r x, In (before, mkThread r (Running (Done x))) (g_threads (fst w)) -> (n < stack_of r)%nat ->
  x = answer ord all r \/
  (exists k, needed_for all r k /\ unreadable before k /\ ~ unreadable all k /\ x = Err (EUnresolvable k)) \/
  (x = Err ERuntime /\ exists t key p, In (key, p) (prefixes t all) /\ ~ In (key, p) (prefixes t before)).
Proof.
  intros ord s units new w rank n all P NW C T D W b r x I L. destruct (fair ord s units new P NW C T w b r x W I) as [_ F].
  destruct (fair_deep ord s units new P C rank n b r x D L F) as [E|(e & [(k & L1 & L2 & L3 & ->)|(-> & H)] & E)]; [now left|right; left; exists k; auto|right; right; now split].
Qed.

(** What had an answer before has that answer throughout, if it has one. *)
Theorem C82_old_answers_stay :
  forall ord s units new w, let all := everything_and_prefixes units new s in
  rearranges ord -> new_words_and_prefixes units new s -> clash_free s -> clash_free all -> str_definitions s ->
  q_steps ord units new (q_begin s) w ->
  forall before r x a, In (before, mkThread r (Running (Done x))) (g_threads (fst w)) -> answer ord s r = Ok a ->
  x = Ok a \/ x = Err ERecursion \/
  (x = Err ERuntime /\ exists t key p, In (key, p) (prefixes t all) /\ ~ In (key, p) (prefixes t before)).
Proof.
  intros ord s units new w all P NW Cs C T W b r x a I E. destruct (fair ord s units new P NW C T w b r x W I) as [Nb F].
  exact (old_answer ord s units new P NW r a Cs E b x Nb F).
Qed.

(** When add_unit and add_prefix have returned, what they registered is there from then on;
    words and prefixes never vanish. *)
Theorem C82_registered_is_there :
  forall ord s units new w1 w2, rearranges ord -> new_words_and_prefixes units new s -> clash_free (everything_and_prefixes units new s) -> str_definitions s ->
  q_steps ord units new (q_begin s) w1 -> q_steps ord units new w1 w2 ->
  let s1 := fst (g_memory (fst w1)) in let s2 := fst (g_memory (fst w2)) in
  (forall e r k, In (mkReg e r (Done (Ok tt))) (g_adds (fst w1)) -> a_word k r -> ~ unknown s2 k) /\
  (forall p t k, In (p, []) (snd w1) -> a_key t k p -> In (k, p) (prefixes t s2)) /\
  (forall k, ~ unknown s1 k -> ~ unknown s2 k) /\ (forall t x, In x (prefixes t s1) -> In x (prefixes t s2)).
Proof.
  intros ord s units new w1 w2 P NW C T W1 W2 s1 s2. destruct (known_later ord s units new P NW C T w1 w2 W1 W2) as [A B].
  destruct (prefixes_later ord s units new P NW C T w1 w2 W1 W2) as [A' B']. split; [exact A|]. split; [exact A'|]. split; [exact B|exact B'].
Qed.

(** add_unit returns, or raises ValueError because a word of the unit is in the system already. *)
Theorem C82_registrations_succeed_or_are_second :
  forall ord s units new w, rearranges ord -> new_words_and_prefixes units new s -> clash_free (everything_and_prefixes units new s) -> str_definitions s ->
  q_steps ord units new (q_begin s) w ->
  forall e r x, In (mkReg e r (Done x)) (g_adds (fst w)) ->
  x = Ok tt \/ exists v k, x = Err (EValue v) /\ a_word k r /\ ~ unknown (fst (g_memory (fst w))) k.
Proof. intros ord s units new w P NW C T W. intros e r x. exact (second_add ord s units new P NW C T w e r x W). Qed.

(** A look-up made after all the registrations returned (however many other look-ups and
    registrations of the same units and prefixes are still under way) answers as the full system. *)
Theorem C82_later_lookups_see_everything :
  forall ord s units new w1 w2, let all := everything_and_prefixes units new s in
  rearranges ord -> new_words_and_prefixes units new s -> clash_free all -> str_definitions s ->
  q_steps ord units new (q_begin s) w1 ->
  (forall e r, In (e, r) units -> In (mkReg e r (Done (Ok tt))) (g_adds (fst w1))) ->
  (forall p, In p new -> In (p, []) (snd w1)) ->
  q_steps ord units new w1 w2 ->
  forall i before r x, (List.length (g_threads (fst w1)) <= i)%nat -> nth_error (g_threads (fst w2)) i = Some (before, mkThread r (Running (Done x))) ->
  x <> Err ERecursion -> answer ord all r <> Err ERecursion ->
  x = answer ord all r.
Proof.
  intros ord s units new w1 w2 all P NW C T W1 A AP W2 i b r x L N N1 N2.
  destruct (fair ord s units new P NW C T w2 b r x (q_trans _ _ _ _ _ _ W1 W2) (nth_error_In _ _ N)) as [_ F].
  destruct (fair_means ord s units new C b r x F N1 N2) as [E|(e & Ea & _)]; [exact E|exfalso]. revert Ea.
  exact (later_lookups ord s units new P NW C T w1 w2 W1 A AP W2 i b r x L N e).
Qed.

(** No thread waits for another (one inside add_prefix can always go on: Q_put), and every
    thread ends after finitely many steps of its own. *)
Theorem C82_threads_never_wait :
  forall ord s units new w, rearranges ord -> new_words_and_prefixes units new s -> clash_free (everything_and_prefixes units new s) -> str_definitions s ->
  q_steps ord units new (q_begin s) w ->
  (forall before t, In (before, t) (g_threads (fst w)) ->
     (exists x, t_state t = Running (Done x)) \/ exists m' t', thread_step (g_memory (fst w)) t m' t') /\
  (forall e r p, In (mkReg e r p) (g_adds (fst w)) ->
     (exists x, p = Done x) \/ exists p' s', next p (fst (g_memory (fst w))) = Some (p', s')) /\
  (forall i p rest, nth_error (snd w) i = Some (p, rest) ->
     rest = [] \/ exists x rest' w', rest = x :: rest' /\ q_step ord units new w w' /\ nth_error (snd w') i = Some (p, rest')).
Proof.
  intros ord s units new w P NW C T W. destruct (threads_never_wait ord s units new P NW C T w W) as [A B]. split; [exact A|]. split; [exact B|].
  intros i p [|x rest] N; [now left|right]. destruct w as [[[s1 c] ts rs js] ps]. cbn [snd] in N. exists x, rest, (mkG (put_prefix x s1, c) ts rs js, PShared.set_nth ps i (p, rest)).
  split; [reflexivity|]. split; [now apply Q_put|]. cbn [snd]. rewrite PSharedFacts.nth_set_nth, Nat.eqb_refl, N. reflexivity.
Qed.

Theorem C82_threads_end :
  forall ord s units new, rearranges ord -> new_words_and_prefixes units new s -> clash_free (everything_and_prefixes units new s) -> str_definitions s ->
  (forall f : nat -> thread,
    ~ (forall n, exists w before m', q_steps ord units new (q_begin s) w /\ In (before, f n) (g_threads (fst w)) /\
                                     thread_step (g_memory (fst w)) (f n) m' (f (S n)))) /\
  (forall f : nat -> prog Datatypes.unit, ~ (forall n, exists s1 s2, next (f n) s1 = Some (f (S n), s2))).
Proof. intros ord s units new P NW C T. exact (threads_end ord s units new P NW C T). Qed.

(** ** A schedule *)
Inductive qmove := Old (v : move) | Px (p : prefix) | Pu (i : nat).
Definition do_qmove (ord : list str -> list str) (w : qworld) (v : qmove) : qworld :=
  match v with
  | Old v => (do_move ord (fst w) v, snd w)
  | Px p => (fst w, snd w ++ [(p, puts_of p)])
  | Pu i => match nth_error (snd w) i with
            | Some (p, x :: rest) => (mkG (put_prefix x (fst (g_memory (fst w))), snd (g_memory (fst w))) (g_threads (fst w)) (g_adds (fst w)) (g_parses (fst w)),
                                   PShared.set_nth (snd w) i (p, rest))
            | _ => w
            end
  end.
Definition fair_qmove (units : list (entry * reference)) (new : list prefix) (v : qmove) : Prop :=
  match v with Old v => fair_move units v | Px p => In p new | Pu _ => True end.
Lemma qmoves_steps ord units new vs : forall w, Forall (fair_qmove units new) vs -> q_steps ord units new w (fold_left (do_qmove ord) vs w).
Proof.
  induction vs as [|v vs IH]; intros w F; cbn [fold_left]; [apply Qs_refl|]. inversion F as [|? ? F1 F2]; subst.
  apply (q_trans ord units new w (do_qmove ord w v)); [|now apply IH]. destruct w as [w ps]. destruct v as [v|p|i]; cbn [do_qmove fst snd].
  - apply lift_steps. apply (moves_steps ord units [v] w). now constructor.
  - eapply Qs_step; [apply Q_prefix; exact F1|apply Qs_refl].
  - destruct (nth_error ps i) as [[p [|x rest]]|] eqn:N; try apply Qs_refl. destruct w as [[s c] ts rs js]. cbn [g_memory g_threads g_adds g_parses fst snd].
    eapply Qs_step; [apply Q_put; exact N|apply Qs_refl].
Qed.

(** ** Deciding whether units and prefixes are new *)
Definition prefix_dec (a b : prefix) : {a = b} + {a <> b}.
Proof. repeat decide equality. Defined.
Definition keys_of (p : prefix) : list (ptable * str) := (PNames, pf_name p) :: map (pair PSymbols) (pf_symbols p).
Lemma keys_of_iff t k p : a_key t k p <-> In (t, k) (keys_of p).
Proof.
  unfold keys_of. cbn [In]. rewrite in_map_iff. destruct t; cbn [a_key]; split.
  - intros ->. now left.
  - intros [H|(x & H & _)]; [now injection H as <-|discriminate].
  - intro I. right. eauto.
  - intros [H|(x & H & I)]; [discriminate|now injection H as <-].
Qed.
Definition all_words (s : system) : list str := flat_map (fun t => map fst (content t s)) [Symbols; Names; AliasNames; AliasSymbols].
Definition one_way_b (all : system) (q : str) : bool := Nat.eqb (List.length (filter (knownb all) (ways all q))) 1.
Definition new_all_b (units : list (entry * reference)) (new : list prefix) (s : system) : bool :=
  let all := everything_and_prefixes units new s in
  forallb (fun er => forallb (fun k =>
    isNone (known_opt s k) && negb (isNone (known_opt all k)) &&
    forallb (fun er' => negb (str_mem k (words_of (snd er'))) || entry_eqb (fst er) (fst er')) units &&
    forallb (one_way_b all) (askers all k)) (words_of (snd er))) units &&
  forallb (fun p => forallb (fun tk : ptable * str => let '(t, key) := tk in
    negb (str_mem key (map fst (prefixes t s))) &&
    forallb (fun p' => (if prefix_dec p p' then true else false) || negb (match t with PNames => str_eqb key (pf_name p') | PSymbols => str_mem key (pf_symbols p') end)) new &&
    forallb (fun k => one_way_b all (key ++ k)) (all_words all)) (keys_of p)) new.

Lemma one_way_only all q k : one_way_b all q = true -> In k (ways all q) -> known_opt all k <> None -> only (fun k' => ~ unknown all k') k (ways all q).
Proof.
  intros L W K. apply Nat.eqb_eq in L. assert (Kb : knownb all k = true) by (unfold knownb; now destruct (known_opt all k)).
  destruct (filter_one _ _ k L W Kb) as (be & af & E & N). exists be, af. split; [exact E|]. intros k' I' X. specialize (N k' I'). unfold knownb in N.
  apply X. apply unknown_iff. now destruct (known_opt all k').
Qed.
Lemma known_word all k : known_opt all k <> None -> In k (all_words all).
Proof.
  intro K. destruct (known_opt all k) as [e|] eqn:E; [|contradiction]. apply known_in_table in E as (t & E). unfold all_words. apply in_flat_map. exists t.
  split; [destruct t; cbn [In]; auto|]. destruct (in_dec (list_eq_dec N.eq_dec) k (map fst (content t all))) as [H|H]; [exact H|].
  apply absent_key in H. congruence.
Qed.
Lemma new_all_b_sound units new s : new_all_b units new s = true -> new_words_and_prefixes units new s.
Proof.
  unfold new_all_b, new_words_and_prefixes. set (all := everything_and_prefixes units new s). intro H0. apply andb_prop in H0 as [H HP]. rewrite forallb_forall in H, HP.
  assert (Each : forall e r k, In (e, r) units -> a_word k r -> known_opt s k = None /\ known_opt all k <> None /\
    (forall e' r', In (e', r') units -> a_word k r' -> e = e') /\ (forall q, In q (askers all k) -> one_way_b all q = true)).
  { intros e r k I J. specialize (H (e, r) I). cbn [fst snd] in H. rewrite forallb_forall in H. apply a_word_iff in J. specialize (H k J).
    apply andb_prop in H as [H H4]. apply andb_prop in H as [H H3]. apply andb_prop in H as [H1 H2]. split; [|split; [|split]].
    - destruct (known_opt s k); [discriminate|reflexivity].
    - destruct (known_opt all k); [discriminate|discriminate H2].
    - intros e' r' I' J'. rewrite forallb_forall in H3. specialize (H3 (e', r') I'). cbn [fst snd] in H3. apply a_word_iff in J'. apply str_mem_In in J'. rewrite J' in H3.
      cbn [negb orb] in H3. destruct e as [i|], e' as [j|]; try discriminate. cbn [entry_eqb] in H3. apply Nat.eqb_eq in H3. now subst.
    - intros q Q. rewrite forallb_forall in H4. now apply H4. }
  assert (EachP : forall p t k, In p new -> a_key t k p -> ~ In k (map fst (prefixes t s)) /\
    (forall p', In p' new -> a_key t k p' -> p = p') /\ (forall k', In k' (all_words all) -> one_way_b all (k ++ k') = true)).
  { intros p t k I J. specialize (HP p I). rewrite forallb_forall in HP. apply keys_of_iff in J. specialize (HP (t, k) J). cbn beta iota in HP.
    apply andb_prop in HP as [HP H3]. apply andb_prop in HP as [H1 H2]. split; [|split].
    - intro X. apply str_mem_In in X. rewrite X in H1. discriminate.
    - intros p' I' J'. rewrite forallb_forall in H2. specialize (H2 p' I'). destruct (prefix_dec p p') as [E|NE]; [exact E|]. exfalso. cbn [orb] in H2.
      destruct t; cbn [a_key] in J'; [subst k; rewrite (proj2 (eqb_spec _ _) eq_refl) in H2; discriminate|]. apply str_mem_In in J'. rewrite J' in H2. discriminate.
    - intros k' I'. rewrite forallb_forall in H3. now apply H3. }
  split; [|split; [|split; [|split; [|split]]]].
  - intros e r k I J. apply unknown_iff. apply (Each e r k I J).
  - intros e r e' r' k I I' J J'. destruct (Each e r k I J) as (_ & _ & U & _). now apply (U e' r').
  - intros p t k I J. apply (EachP p t k I J).
  - intros p p' t k I I' J J'. destruct (EachP p t k I J) as (_ & U & _). now apply U.
  - intros e r k q I J W. destruct (Each e r k I J) as (_ & K & _ & L). apply one_way_only; [|exact W|exact K]. apply L. now apply ways_askers.
  - intros p t key k q I J -> K. destruct (EachP p t key I J) as (_ & _ & L). rewrite unknown_iff in K. apply one_way_only; [|
      |exact K]; [apply L; now apply known_word|].
    assert (X : In (key, p) (prefixes t all)).
    { unfold all, everything_and_prefixes. rewrite with_puts. destruct (puts_tables (flat_map puts_of new) (everything units s)) as (A & _). rewrite A.
      assert (Y : In (t, key, p) (flat_map puts_of new)) by (apply new_put; now split).
      assert (E : prefixes t (everything units s) = prefixes t s) by (destruct t; apply everything_prefixes). rewrite E.
      rewrite <- (app_nil_r (prefixes t s)). rewrite puts_in_app.
      - apply in_or_app. right. pose proof (puts_in_has t (flat_map puts_of new) [] key p (or_introl Y)) as Z. apply in_map_iff in Z as ([k2 p2] & E2 & Z). cbn [fst] in E2. subst k2.
        pose proof (end_prefix_from new t key p2 Z) as [I2 K2]. destruct (EachP p t key I J) as (_ & U & _). now rewrite (U p2 I2 K2).
      - intros k2 p2 I2. apply new_put in I2 as [I2 K2]. apply absent_key. apply (EachP p2 t k2 I2 K2). }
    unfold ways. right. apply in_or_app. destruct t; [left|right]; (apply in_flat_map; exists (key, p); split; [exact X|]; cbn [fst];
      rewrite (proj2 (strip_prefix_iff key (key ++ k) k) eq_refl); now left).
Qed.

(** ** Example: "furlong", "stade" = "3 furlong" and the prefix "kibi" are being registered *)
Definition kibi : prefix := mkPrefix (u "kibi") (u "1024") [u "Ki"].
Definition q_results (w : qworld) : list (option (res anyunit)) := results (fst w).
Definition both_schedule : list qmove :=
  [Old (Ask (Lookup 9 (u "km"))); Px kibi; Old (Ask (Lookup 9 (u "Kistd"))); Pu 0; Old (Ask (UnitOf 9 (u "kibimeter")))] ++
  map Old (Re (ELazy 4) stade_r :: Re (ELazy 3) furlong_r :: many 20 [Ad 0; Ad 1] ++ many 40 [Th 0]) ++ map Old (many 100 [Th 1]) ++ [Pu 0] ++
  map Old (many 250 [Th 2] ++ Ask (Lookup 9 (u "Kistd")) :: many 250 [Th 3]).
Definition both_world : qworld := fold_left (do_qmove Prop_System.same_order) both_schedule (q_begin with_definitions).
Example C82_example :
  let ord := Prop_System.same_order in
  let all := everything_and_prefixes two_units [kibi] with_definitions in
  new_words_and_prefixes two_units [kibi] with_definitions /\ clash_free all /\ str_definitions with_definitions /\
  (exists ranks, depth_at_most all (query_rank all ranks) 3) /\
  q_steps ord two_units [kibi] (q_begin with_definitions) both_world /\
  add_results (fst both_world) = [Some (Ok tt); Some (Ok tt)] /\ snd both_world = [(kibi, [])] /\
  q_results both_world = [Some (answer ord with_definitions (Lookup 9 (u "km"))); Some (Err (EUnresolvable (u "Kistd")));
                 Some (answer ord all (UnitOf 9 (u "kibimeter"))); Some (answer ord all (Lookup 9 (u "Kistd")))] /\
  map is_ok [answer ord with_definitions (Lookup 9 (u "km")); answer ord all (UnitOf 9 (u "kibimeter")); answer ord all (Lookup 9 (u "Kistd"))] = [true; true; true].
Proof.
  split; [apply new_all_b_sound; vm_compute; reflexivity|]. split; [apply clash_free_b_sound; vm_compute; reflexivity|]. split.
  { intros i l N. apply nth_error_In in N. apply text_b_sound. revert l N. apply forallb_forall. vm_compute. reflexivity. }
  split. { exists [0; 1; 2; 0; 1]%nat. apply (ranked_b_sound _ [0; 1; 2; 0; 1]%nat). vm_compute. reflexivity. }
  split.
  { unfold both_world. apply qmoves_steps. apply Forall_forall. intros v I. unfold both_schedule in I. rewrite !in_app_iff in I.
    assert (M : forall l, (forall x, In x l -> fair_move two_units x) -> In v (map Old l) -> fair_qmove two_units [kibi] v).
    { intros l Hl J. apply in_map_iff in J as (x & <- & J). exact (Hl x J). }
    destruct I as [I|[I|[I|[I|I]]]].
    - destruct I as [<-|[<-|[<-|[<-|[<-|[]]]]]]; cbn [fair_qmove fair_move is_str]; try exact Logic.I; try (apply text_b_sound; reflexivity). now left.
    - revert I. apply M. intros x J. destruct J as [<-|[<-|J]]; [right; left; reflexivity|left; reflexivity|]. apply in_app_or in J.
      destruct J as [J|J]; apply in_many in J; [destruct J as [<-|[<-|[]]]|destruct J as [<-|[]]]; exact Logic.I.
    - revert I. apply M. intros x J. apply in_many in J. destruct J as [<-|[]]; exact Logic.I.
    - destruct I as [<-|[]]. exact Logic.I.
    - revert I. apply M. intros x J. apply in_app_or in J. destruct J as [J|[<-|J]]; [| |];
        [apply in_many in J; destruct J as [<-|[]]; exact Logic.I|cbn [fair_move is_str]; apply text_b_sound; reflexivity|apply in_many in J; destruct J as [<-|[]]; exact Logic.I]. }
  match goal with |- ?a = ?b /\ ?c = ?d /\ ?e = ?f /\ _ => assert (X : ((a, c), e) = ((b, d), f)) by (vm_compute; reflexivity) end.
  destruct (pair_both _ _ _ _ _ _ X) as [X1 X2]. destruct (pair_both _ _ _ _ _ _ X1) as [X3 X4].
  split; [exact X3|]. split; [exact X4|]. split; [exact X2|]. vm_compute. reflexivity.
Qed.

(** ** C83.  A prefix is registered while "km" is being looked up: the look-up fails, though
    "km" has the same answer before and after. *)
Definition kibi_schedule : list qmove :=
  [Old (Ask (Lookup 9 (u "km"))); Px kibi] ++ map Old (many 6 [Th 0]) ++ [Pu 0; Pu 0] ++ map Old (many 20 [Th 0]).
Definition kibi_world : qworld := fold_left (do_qmove Prop_System.same_order) kibi_schedule (q_begin Prop_System.demo).
Definition km_request : request := Lookup 9 (u "km").
Lemma kibi_reached : q_steps Prop_System.same_order [] [kibi] (q_begin Prop_System.demo) kibi_world.
Proof.
  unfold kibi_world. apply qmoves_steps. apply Forall_forall. intros v I. unfold kibi_schedule in I. rewrite ?in_app_iff, ?in_map_iff in I.
  destruct I as [I|[I|[I|I]]].
  - destruct I as [<-|[<-|[]]]; cbn [fair_qmove fair_move is_str]; [apply text_b_sound; reflexivity|now left].
  - destruct I as (x & <- & I). apply in_many in I. destruct I as [<-|[]]. exact Logic.I.
  - destruct I as [<-|[<-|[]]]; exact Logic.I.
  - destruct I as (x & <- & I). apply in_many in I. destruct I as [<-|[]]. exact Logic.I.
Qed.
Lemma kibi_result : q_results kibi_world = [Some (Err ERuntime)] /\ snd kibi_world = [(kibi, [])] /\
  map (fun bt => t_asked (snd bt)) (g_threads (fst kibi_world)) = [km_request].
Proof. vm_compute. auto. Qed.
Lemma kibi_answers : is_ok (answer Prop_System.same_order Prop_System.demo km_request) = true /\
  answer Prop_System.same_order (add_prefix kibi Prop_System.demo) km_request = answer Prop_System.same_order Prop_System.demo km_request.
Proof. split; vm_compute; reflexivity. Qed.

Theorem C83_lookup_fails_when_a_prefix_is_registered_refuted :
  exists s p w before r, clash_free s /\ clash_free (add_prefix p s) /\
    q_steps Prop_System.same_order [] [p] (q_begin s) w /\
    In (before, mkThread r (Running (Done (Err ERuntime)))) (g_threads (fst w)) /\
    is_ok (answer Prop_System.same_order s r) = true /\
    answer Prop_System.same_order (add_prefix p s) r = answer Prop_System.same_order s r.
Proof.
  pose proof kibi_reached as W. destruct kibi_result as (E & _ & Q). destruct kibi_answers as [A B].
  revert E Q W. unfold q_results, results. generalize kibi_world. intros w E Q W.
  destruct (g_threads (fst w)) as [|[b [r' st]] [|? ?]] eqn:G; cbn [map snd t_asked t_state] in E, Q; [discriminate E| |discriminate Q].
  destruct st as [[a|? ? ?|? ?]|? ?]; try discriminate E. injection Q as ->. injection E as ->.
  exists Prop_System.demo, kibi, w, b, km_request. split; [apply clash_free_b_sound; vm_compute; reflexivity|].
  split; [apply clash_free_b_sound; vm_compute; reflexivity|]. split; [exact W|]. split; [rewrite G; now left|]. split; [exact A|exact B].
Qed.

Print Assumptions C82_accesses_are_the_call.
Print Assumptions C82_lookups_beside_prefixes.
Print Assumptions C82_lookups_beside_prefixes_when_stack_suffices.
Print Assumptions C82_old_answers_stay.
Print Assumptions C82_registered_is_there.
Print Assumptions C82_registrations_succeed_or_are_second.
Print Assumptions C82_later_lookups_see_everything.
Print Assumptions C82_threads_never_wait.
Print Assumptions C82_threads_end.
Print Assumptions C83_lookup_fails_when_a_prefix_is_registered_refuted.
