(** * C79, C80, C81: units registered by some threads while others look units up. *)
From Verif Require Import PyBase PyNum LexSpec Graph Visitor Expr Units UnitSystem SystemSpec SystemFacts SystemProofs SystemMore SystemKeep SystemGrow
  Process ProcessFacts SysShared SysSharedFacts SysGrow SysPrefix SysGrowFacts SysGrowAnswers.
From Verif Require PShared Prop_System Prop_Shared.
Import Prop_Shared.

(** The accesses of add_unit, one after the other, are the call of UnitSystem.v. *)
Theorem C79_accesses_are_the_call :
  forall e r s, alone (t_add e r) s = match add_unit e r false s with Ok s' => (Ok tt, s') | Err x => (Err x, s) end.
Proof. exact alone_add. Qed.

(** no prefix is registered here *)
Definition NP units s (NW : new_words units s) : new_words_and_prefixes units [] s := new_words_no_prefixes units s NW.
Definition LS ord units w w' (S : g_steps ord units w w') : q_steps ord units [] (w, []) (w', []) := lift_steps ord units [] w w' S [].
Lemma no_late_prefix units s w ord : g_steps ord units (g_begin s) w -> forall b t, In (b, t) (g_threads w) -> new_words units s -> rearranges ord ->
  clash_free (everything units s) -> str_definitions s -> forall x, t_state t = Running (Done x) ->
  ~ exists tb key p, In (key, p) (prefixes tb (everything units s)) /\ ~ In (key, p) (prefixes tb b).
Proof.
  intros W b [r st] I NW P C T x E (tb & key & p & J & K). cbn [t_state] in E. subst st.
  destruct (fair ord s units [] P (NP units s NW) C T (w, []) b r x (LS _ _ _ _ W) I) as [(PX & _) _]. apply K.
  destruct (PX tb) as (ex & -> & _). apply in_or_app. left. destruct (everything_prefixes units s) as (E1 & E2 & _).
  destruct tb; cbn [prefixes] in *; [now rewrite <- E1|now rewrite <- E2].
Qed.

(** C79.  [s]: the system before; [units]: units with new words, registered by any number of
    threads in any order and interleaving (each perhaps never, once or often, and each
    perhaps only half by now).  A look-up that has ended gave the answer of the system in
    which all of them are registered, or complained about a word it needed that could not
    be read when the call was made. *)
Theorem C79_lookups_beside_registrations :
  forall ord s units w, rearranges ord -> new_words units s -> clash_free (everything units s) -> str_definitions s ->
  g_steps ord units (g_begin s) w ->
  forall before r x, In (before, mkThread r (Running (Done x))) (g_threads w) ->
  x <> Err ERecursion -> answer ord (everything units s) r <> Err ERecursion ->
  x = answer ord (everything units s) r \/
  exists k, needed_for (everything units s) r k /\ unreadable before k /\ ~ unreadable (everything units s) k /\ x = Err (EUnresolvable k).
Proof.
  intros ord s units w P NW C T W b r x I N1 N2.
  destruct (fair ord s units [] P (NP units s NW) C T (w, []) b r x (LS _ _ _ _ W) I) as [_ F].
  destruct (fair_means ord s units [] C b r x F N1 N2) as [E|(e & [(k & L1 & L2 & L3 & ->)|(_ & H)] & E)]; [now left|right; exists k; auto|].
  exfalso. exact (no_late_prefix units s w ord W b _ I NW P C T x eq_refl H).
Qed.

(** With definitions at most [n] deep in the end and stacks deeper than that *)
Theorem C79_lookups_beside_registrations_when_stack_suffices :
  forall ord s units w rank n, rearranges ord -> new_words units s -> clash_free (everything units s) -> str_definitions s ->
  depth_at_most (everything units s) rank n -> g_steps ord units (g_begin s) w ->
  forall before r x, In (before, mkThread r (Running (Done x))) (g_threads w) -> (n < stack_of r)%nat ->
  x = answer ord (everything units s) r \/
  exists k, needed_for (everything units s) r k /\ unreadable before k /\ ~ unreadable (everything units s) k /\ x = Err (EUnresolvable k).
Proof.
  intros ord s units w rank n P NW C T D W b r x I L.
  destruct (fair ord s units [] P (NP units s NW) C T (w, []) b r x (LS _ _ _ _ W) I) as [_ F].
  destruct (fair_deep ord s units [] P C rank n b r x D L F) as [E|(e & [(k & L1 & L2 & L3 & ->)|(_ & H)] & E)]; [now left|right; exists k; auto|].
  exfalso. exact (no_late_prefix units s w ord W b _ I NW P C T x eq_refl H).
Qed.

(** What had an answer before has that answer throughout. *)
Theorem C79_old_answers_stay :
  forall ord s units w, rearranges ord -> new_words units s -> clash_free s -> clash_free (everything units s) -> str_definitions s ->
  g_steps ord units (g_begin s) w ->
  forall before r x a, In (before, mkThread r (Running (Done x))) (g_threads w) -> answer ord s r = Ok a ->
  x = Ok a \/ x = Err ERecursion.
Proof.
  intros ord s units w P NW Cs C T W b r x a I E.
  destruct (fair ord s units [] P (NP units s NW) C T (w, []) b r x (LS _ _ _ _ W) I) as [Nb F].
  destruct (old_answer ord s units [] P (NP units s NW) r a Cs E b x Nb F) as [H|[H|(_ & H)]]; [now left|now right|].
  exfalso. exact (no_late_prefix units s w ord W b _ I NW P C T x eq_refl H).
Qed.

(** When add_unit has returned, the words of the unit are known from then on; words never vanish. *)
Theorem C79_registered_words_are_known :
  forall ord s units w1 w2, rearranges ord -> new_words units s -> clash_free (everything units s) -> str_definitions s ->
  g_steps ord units (g_begin s) w1 -> g_steps ord units w1 w2 ->
  (forall e r k, In (mkReg e r (Done (Ok tt))) (g_adds w1) -> a_word k r -> ~ unknown (fst (g_memory w2)) k) /\
  (forall k, ~ unknown (fst (g_memory w1)) k -> ~ unknown (fst (g_memory w2)) k).
Proof.
  intros ord s units w1 w2 P NW C T W1 W2.
  exact (known_later ord s units [] P (NP units s NW) C T (w1, []) (w2, []) (LS _ _ _ _ W1) (LS _ _ _ _ W2)).
Qed.

(** add_unit returns, or raises ValueError because a word of the unit is in the system already: another
    thread is registering the same unit. *)
Theorem C79_registrations_succeed_or_are_second :
  forall ord s units w, rearranges ord -> new_words units s -> clash_free (everything units s) -> str_definitions s ->
  g_steps ord units (g_begin s) w ->
  forall e r x, In (mkReg e r (Done x)) (g_adds w) ->
  x = Ok tt \/ exists v k, x = Err (EValue v) /\ a_word k r /\ ~ unknown (fst (g_memory w)) k.
Proof.
  intros ord s units w P NW C T W e r x I. exact (second_add ord s units [] P (NP units s NW) C T (w, []) e r x (LS _ _ _ _ W) I).
Qed.

(** A look-up made after all the registrations returned (however many other look-ups and
    registrations of the same units are still under way) answers as the full system. *)
Theorem C79_later_lookups_see_all_units :
  forall ord s units w1 w2, rearranges ord -> new_words units s -> clash_free (everything units s) -> str_definitions s ->
  g_steps ord units (g_begin s) w1 ->
  (forall e r, In (e, r) units -> In (mkReg e r (Done (Ok tt))) (g_adds w1)) ->
  g_steps ord units w1 w2 ->
  forall i before r x, (List.length (g_threads w1) <= i)%nat -> nth_error (g_threads w2) i = Some (before, mkThread r (Running (Done x))) ->
  x <> Err ERecursion -> answer ord (everything units s) r <> Err ERecursion ->
  x = answer ord (everything units s) r.
Proof.
  intros ord s units w1 w2 P NW C T W1 A W2 i b r x L N N1 N2.
  assert (W : g_steps ord units (g_begin s) w2).
  { clear - W1 W2. induction W1 as [w|a b c S _ IH]; [exact W2|]. eapply Gs_step; eauto. }
  destruct (fair ord s units [] P (NP units s NW) C T (w2, []) b r x (LS _ _ _ _ W) (nth_error_In _ _ N)) as [_ F].
  destruct (fair_means ord s units [] C b r x F N1 N2) as [E|(e & Ea & _)]; [exact E|exfalso]. revert Ea.
  exact (later_lookups ord s units [] P (NP units s NW) C T (w1, []) (w2, []) (LS _ _ _ _ W1) A (fun p (H : In p []) => match H with end)
    (LS _ _ _ _ W2) i b r x L N e).
Qed.

(** No thread waits for another, and every thread ends after finitely many steps of its own. *)
Theorem C79_threads_never_wait :
  forall ord s units w, rearranges ord -> new_words units s -> clash_free (everything units s) -> str_definitions s ->
  g_steps ord units (g_begin s) w ->
  (forall before t, In (before, t) (g_threads w) ->
     (exists x, t_state t = Running (Done x)) \/ exists m' t', thread_step (g_memory w) t m' t') /\
  (forall e r p, In (mkReg e r p) (g_adds w) ->
     (exists x, p = Done x) \/ exists p' s', next p (fst (g_memory w)) = Some (p', s')).
Proof.
  intros ord s units w P NW C T W. exact (threads_never_wait ord s units [] P (NP units s NW) C T (w, []) (LS _ _ _ _ W)).
Qed.

Theorem C79_threads_end :
  forall ord s units, rearranges ord -> new_words units s -> clash_free (everything units s) -> str_definitions s ->
  (forall f : nat -> thread,
    ~ (forall n, exists w before m', g_steps ord units (g_begin s) w /\ In (before, f n) (g_threads w) /\ thread_step (g_memory w) (f n) m' (f (S n)))) /\
  (forall f : nat -> prog Datatypes.unit, ~ (forall n, exists s1 s2, next (f n) s1 = Some (f (S n), s2))).
Proof.
  intros ord s units P NW C T. destruct (threads_end ord s units [] P (NP units s NW) C T) as [H1 H2]. split; [|exact H2].
  intros f H. apply (H1 f). intro n. destruct (H n) as (w & b & m' & W & I & S). exists (w, []), b, m'. split; [exact (LS _ _ _ _ W)|]. now split.
Qed.

(** ** Deciding whether units have new words *)
Definition words_of (r : reference) : list str := r_symbols r ++ ref_names r ++ ref_alias_names r ++ r_alias_symbols r.
Lemma a_word_iff k r : a_word k r <-> In k (words_of r).
Proof.
  unfold a_word, words_of. rewrite !in_app_iff. split.
  - intros ([] & I); cbn [words_in] in I; auto.
  - intros [I|[I|[I|I]]]; [exists Symbols|exists Names|exists AliasNames|exists AliasSymbols]; exact I.
Qed.
Definition entry_eqb (a b : entry) : bool := match a, b with ELazy i, ELazy j => Nat.eqb i j | _, _ => false end.
Definition isNone {A} (o : option A) : bool := match o with None => true | Some _ => false end.
Definition askers (s : system) (k : str) : list str := k :: map (fun kp : str * prefix => fst kp ++ k) (s_prefix_names s ++ s_prefix_symbols s).
Definition new_words_b (units : list (entry * reference)) (s : system) : bool :=
  let all := everything units s in
  forallb (fun er => forallb (fun k =>
    isNone (known_opt s k) && negb (isNone (known_opt all k)) &&
    forallb (fun er' => negb (str_mem k (words_of (snd er'))) || entry_eqb (fst er) (fst er')) units &&
    forallb (fun q => Nat.eqb (List.length (filter (knownb all) (ways s q))) 1) (askers s k)) (words_of (snd er))) units.

Lemma filter_one {A} (f : A -> bool) l k : List.length (filter f l) = 1%nat -> In k l -> f k = true ->
  exists before after, l = before ++ k :: after /\ forall k', In k' (before ++ after) -> f k' = false.
Proof.
  intros L I K. induction l as [|a l IH]; [destruct I|]. cbn [filter] in L. destruct (f a) eqn:E.
  - cbn [List.length] in L. assert (Z : filter f l = []) by (destruct (filter f l); [reflexivity|discriminate]).
    assert (NL : forall k', In k' l -> f k' = false).
    { intros k' I'. destruct (f k') eqn:F; [|reflexivity]. assert (X : In k' (filter f l)) by (apply filter_In; now split). rewrite Z in X. destruct X. }
    destruct I as [->|I]; [|rewrite (NL k I) in K; discriminate]. exists [], l. split; [reflexivity|exact NL].
  - destruct I as [->|I]; [congruence|]. destruct (IH L I) as (be & af & -> & N). exists (a :: be), af. split; [reflexivity|].
    intros k' [<-|I']; [exact E|]. now apply N.
Qed.
Lemma ways_askers s k q : In k (ways s q) -> In q (askers s k).
Proof.
  unfold ways, askers. intros [->|I]; [now left|]. right. apply in_map_iff.
  assert (R : forall ps, In k (rests q ps) -> exists kp : str * prefix, fst kp ++ k = q /\ In kp ps).
  { intros ps J. unfold rests in J. apply in_flat_map in J as ([key p] & J1 & J2). cbn [fst] in J2. destruct (strip_prefix key q) as [k'|] eqn:E; [|destruct J2].
    destruct J2 as [->|[]]. apply strip_prefix_iff in E. exists (key, p). split; [now symmetry|exact J1]. }
  apply in_app_or in I. destruct I as [I|I]; apply R in I as (kp & E & J); exists kp; (split; [exact E|]); apply in_or_app; auto.
Qed.
Lemma new_words_b_sound units s : new_words_b units s = true -> new_words units s.
Proof.
  unfold new_words_b. rewrite forallb_forall. intro H.
  assert (Each : forall e r k, In (e, r) units -> a_word k r -> known_opt s k = None /\ known_opt (everything units s) k <> None /\
    (forall e' r', In (e', r') units -> a_word k r' -> e = e') /\ (forall q, In q (askers s k) -> List.length (filter (knownb (everything units s)) (ways s q)) = 1%nat)).
  { intros e r k I J. specialize (H (e, r) I). cbn [fst snd] in H. rewrite forallb_forall in H. apply a_word_iff in J. specialize (H k J).
    apply andb_prop in H as [H H4]. apply andb_prop in H as [H H3]. apply andb_prop in H as [H1 H2]. split; [|split; [|split]].
    - destruct (known_opt s k); [discriminate|reflexivity].
    - destruct (known_opt (everything units s) k); [discriminate|discriminate H2].
    - intros e' r' I' J'. rewrite forallb_forall in H3. specialize (H3 (e', r') I'). cbn [fst snd] in H3. apply a_word_iff in J'. apply str_mem_In in J'. rewrite J' in H3.
      cbn [negb orb] in H3. destruct e as [i|], e' as [j|]; try discriminate. cbn [entry_eqb] in H3. apply Nat.eqb_eq in H3. now subst.
    - intros q Q. rewrite forallb_forall in H4. apply Nat.eqb_eq. now apply H4. }
  split; [|split].
  - intros e r k I J. apply unknown_iff. apply (Each e r k I J).
  - intros e r e' r' k I I' J J'. destruct (Each e r k I J) as (_ & _ & U & _). now apply (U e' r').
  - intros e r k q I J W. destruct (Each e r k I J) as (_ & K & _ & L). specialize (L q (ways_askers s k q W)).
    assert (Kb : knownb (everything units s) k = true) by (unfold knownb; now destruct (known_opt (everything units s) k)).
    destruct (filter_one _ _ k L W Kb) as (be & af & E & N). exists be, af. split; [exact E|]. intros k' I' X. specialize (N k' I'). unfold knownb in N.
    apply X. apply unknown_iff. now destruct (known_opt (everything units s) k').
Qed.

(** ** A schedule *)
Inductive move := Th (i : nat) | Ad (i : nat) | Ask (r : request) | Re (e : entry) (r : reference).
Definition do_move (ord : list str -> list str) (w : gworld) (v : move) : gworld :=
  match v with
  | Th i => match nth_error (g_threads w) i with
            | Some (b, t) => match do_thread (g_memory w) t with
                             | Some (m', t') => mkG m' (PShared.set_nth (g_threads w) i (b, t')) (g_adds w) (g_parses w)
                             | None => w
                             end
            | None => w
            end
  | Ad i => match nth_error (g_adds w) i with
            | Some (mkReg e r p) => match next p (fst (g_memory w)) with
                                    | Some (p', s') => mkG (s', snd (g_memory w)) (g_threads w) (PShared.set_nth (g_adds w) i (mkReg e r p')) (g_parses w)
                                    | None => w
                                    end
            | None => w
            end
  | Ask r => mkG (g_memory w) (g_threads w ++ [(fst (g_memory w), new_thread ord r)]) (g_adds w) (g_parses w)
  | Re e r => mkG (g_memory w) (g_threads w) (g_adds w ++ [mkReg e r (t_add e r)]) (g_parses w)
  end.
Definition fair_move (units : list (entry * reference)) (v : move) : Prop :=
  match v with Ask r => is_str r | Re e r => In (e, r) units | _ => True end.
Lemma moves_steps ord units vs : forall w, Forall (fair_move units) vs -> g_steps ord units w (fold_left (do_move ord) vs w).
Proof.
  induction vs as [|v vs IH]; intros w F; cbn [fold_left]; [apply Gs_refl|]. inversion F as [|? ? F1 F2]; subst. specialize (IH (do_move ord w v) F2).
  destruct w as [[s c] ts rs js]. destruct v as [i|i|r|e r]; cbn [do_move g_memory g_threads g_adds g_parses fst snd fair_move] in *.
  - destruct (nth_error ts i) as [[b t]|] eqn:N; [|exact IH]. destruct (do_thread (s, c) t) as [[m' t']|] eqn:D; [|exact IH].
    eapply Gs_step; [|exact IH]. apply G_thread with t; [exact N|]. now apply do_thread_step.
  - destruct (nth_error rs i) as [[e r p]|] eqn:N; [|exact IH]. destruct (next p s) as [[p' s']|] eqn:D; [|exact IH].
    eapply Gs_step; [|exact IH]. now apply G_add with p.
  - eapply Gs_step; [|exact IH]. now apply G_start.
  - eapply Gs_step; [|exact IH]. now apply G_register.
Qed.
Definition results (w : gworld) : list (option (res anyunit)) :=
  map (fun bt => match t_state (snd bt) with Running (Done x) => Some x | _ => None end) (g_threads w).
Definition add_results (w : gworld) : list (option (res Datatypes.unit)) :=
  map (fun g => match rg_rest g with Done x => Some x | _ => None end) (g_adds w).
Fixpoint many (n : nat) (v : list move) : list move := match n with O => [] | S n' => v ++ many n' v end.

Lemma in_many v : forall n l, In v (many n l) -> In v l.
Proof. induction n as [|n IH]; intros l J; [destruct J|]. cbn [many] in J. apply in_app_or in J. destruct J; auto. Qed.
Ltac schedule_ok :=
  apply moves_steps; apply Forall_forall; let v := fresh "v" in let I := fresh "I" in intros v I; rewrite ?in_app_iff in I;
  repeat (destruct I as [I|I]); try (apply in_many in I); try (destruct I; fail); repeat (destruct I as [I|I]); try subst v; try (destruct I; fail);
  cbn [fair_move is_str];
  try exact Logic.I; try (apply text_b_sound; reflexivity); cbn [In]; auto.

(** ** Example: "furlong" and "stade" = "3 furlong" are being registered *)
Definition furlong_r := Prop_System.ref1 "furlong" "furlongs" "fur".
Definition stade_r := Prop_System.ref1 "stade" "stades" "std".
Definition with_definitions : system :=
  let d := Prop_System.demo in
  mkSys (s_symbols d) (s_names d) (s_alias_names d) (s_alias_symbols d) (s_prefix_names d) (s_prefix_symbols d)
    (s_lazies d ++ [mkLazy (u "201 m") furlong_r None; mkLazy (u "3 furlong") stade_r None]).
Definition two_units : list (entry * reference) := [(ELazy 3, furlong_r); (ELazy 4, stade_r)].

(** "stade" is registered before "furlong"; a look-up made in between, and ones made before and after *)
Definition schedule : list move :=
  [Ask (UnitOf 9 (u "km")); Re (ELazy 4) stade_r] ++ many 20 [Th 0; Ad 0] ++
  [Ask (Lookup 9 (u "kilostade")); Re (ELazy 3) furlong_r] ++ many 250 [Th 0; Th 1] ++ many 20 [Ad 1] ++
  [Ask (Lookup 9 (u "kilostade"))] ++ many 250 [Th 2].

Lemma same_order_ok : rearranges Prop_System.same_order.
Proof. intro l. apply Permutation.Permutation_refl. Qed.

Lemma pair_both (A B : Type) (a b : A) (c d : B) : (a, c) = (b, d) -> a = b /\ c = d.
Proof. intro H. injection H as H1 H2. now split. Qed.
Example C79_example :
  let ord := Prop_System.same_order in
  let all := everything two_units with_definitions in
  new_words two_units with_definitions /\ clash_free all /\ str_definitions with_definitions /\
  (exists ranks, depth_at_most all (query_rank all ranks) 3) /\
  exists w, g_steps ord two_units (g_begin with_definitions) w /\ add_results w = [Some (Ok tt); Some (Ok tt)] /\
    results w = [Some (answer ord with_definitions (UnitOf 9 (u "km"))); Some (Err (EUnresolvable (u "furlong")));
                 Some (answer ord all (Lookup 9 (u "kilostade")))] /\
    is_ok (answer ord with_definitions (UnitOf 9 (u "km"))) = true /\ is_ok (answer ord all (Lookup 9 (u "kilostade"))) = true.
Proof.
  split; [apply new_words_b_sound; vm_compute; reflexivity|]. split; [apply clash_free_b_sound; vm_compute; reflexivity|]. split.
  { intros i l N. apply nth_error_In in N. apply text_b_sound. revert l N. apply forallb_forall. vm_compute. reflexivity. }
  split. { exists [0; 1; 2; 0; 1]%nat. apply (ranked_b_sound _ [0; 1; 2; 0; 1]%nat). vm_compute. reflexivity. }
  exists (fold_left (do_move Prop_System.same_order) schedule (g_begin with_definitions)). split.
  { unfold schedule, two_units. schedule_ok. }
  match goal with |- ?a = ?b /\ ?c = ?d /\ _ => assert (X : (a, c) = (b, d)) by (vm_compute; reflexivity) end.
  destruct (pair_both _ _ _ _ _ _ X) as [X1 X2]. split; [exact X1|]. split; [exact X2|]. split; vm_compute; reflexivity.
Qed.

(** ** C80.  add_unit(unit) looks whether the words are free and then registers them: two
    threads can both find them free.  Two different units with the same name are both
    accepted, though one after the other the second would be refused. *)
Definition ell_r := Prop_System.ref1 "ell" "ells" "ell".
Definition two_ells : list (entry * reference) :=
  [(EUnit (UBasis (u "english_ell") false false) ell_r, ell_r); (EUnit (UBasis (u "scottish_ell") false false) ell_r, ell_r)].
Theorem C80_names_can_be_registered_twice_refuted :
  exists s units w e1 e2 r, clash_free s /\ units = [(e1, r); (e2, r)] /\ e1 <> e2 /\ r_name r <> None /\
    g_steps Prop_System.same_order units (g_begin s) w /\
    g_adds w = [mkReg e1 r (Done (Ok tt)); mkReg e2 r (Done (Ok tt))] /\
    (forall s1, add_unit e1 r false s = Ok s1 -> is_ok (add_unit e2 r false s1) = false).
Proof.
  exists Prop_System.demo, two_ells, (fold_left (do_move Prop_System.same_order)
    ([Re (EUnit (UBasis (u "english_ell") false false) ell_r) ell_r; Re (EUnit (UBasis (u "scottish_ell") false false) ell_r) ell_r] ++ many 9 [Ad 0; Ad 1])
    (g_begin Prop_System.demo)).
  eexists. eexists. exists ell_r. split; [apply clash_free_b_sound; vm_compute; reflexivity|]. split; [reflexivity|]. split; [vm_compute; discriminate|].
  split; [discriminate|]. split.
  { unfold two_ells. schedule_ok. }
  split; [vm_compute; reflexivity|].
  assert (X : match add_unit (EUnit (UBasis (u "english_ell") false false) ell_r) ell_r false Prop_System.demo with
    | Ok s1 => is_ok (add_unit (EUnit (UBasis (u "scottish_ell") false false) ell_r) ell_r false s1) | Err _ => true end = false) by (vm_compute; reflexivity).
  intros s1 E. rewrite E in X. exact X.
Qed.

(** ** C81.  Where a new word can also be read in another way, a look-up made during the
    registration may use the old reading of one word and the new reading of another: it
    answers neither as before nor as after. *)
Definition clash_r := mkRef None [u "km"; u "ms"] [] [].
Definition clash_units : list (entry * reference) := [(EUnit (UBasis (u "foo") false false) clash_r, clash_r)].
Definition clash_schedule : list move :=
  [Ask (UnitOf 9 (u "km ms")); Re (EUnit (UBasis (u "foo") false false) clash_r) clash_r] ++ many 160 [Th 0] ++ many 9 [Ad 0] ++ many 500 [Th 0].
Definition has_base (n : string) (a : res anyunit) : bool :=
  match a with Ok (AUnit x) => match udims x with Ok d => existsb (fun e => str_eqb (fst (fst e)) (u n)) d | Err _ => false end | _ => false end.

Definition clash_world : gworld := fold_left (do_move Prop_System.same_order) clash_schedule (g_begin Prop_System.demo).
Definition clash_request : request := UnitOf 9 (u "km ms").
Lemma clash_reached : g_steps Prop_System.same_order clash_units (g_begin Prop_System.demo) clash_world.
Proof. unfold clash_world. apply moves_steps. unfold clash_schedule, clash_units. apply Forall_forall. intros v I. rewrite ?in_app_iff in I.
  repeat (destruct I as [I|I]); try (apply in_many in I); try (destruct I; fail); repeat (destruct I as [I|I]); try subst v; try (destruct I; fail);
  cbn [fair_move is_str]; try exact Logic.I; try (apply text_b_sound; reflexivity); cbn [In]; auto. Qed.
Lemma clash_result : match results clash_world with [Some x] => has_base "foo" x && has_base "meter" x | _ => false end = true.
Proof. vm_compute. reflexivity. Qed.
Lemma clash_asked : map (fun bt => t_asked (snd bt)) (g_threads clash_world) = [clash_request].
Proof. vm_compute. reflexivity. Qed.
Lemma clash_before : has_base "foo" (answer Prop_System.same_order Prop_System.demo clash_request) = false /\
  is_ok (answer Prop_System.same_order Prop_System.demo clash_request) = true.
Proof. vm_compute. split; reflexivity. Qed.
Lemma clash_after : has_base "meter" (answer Prop_System.same_order (everything clash_units Prop_System.demo) clash_request) = false /\
  is_ok (answer Prop_System.same_order (everything clash_units Prop_System.demo) clash_request) = true.
Proof. vm_compute. split; reflexivity. Qed.
Lemma clash_free_both : clash_free Prop_System.demo /\ clash_free (everything clash_units Prop_System.demo).
Proof. split; apply clash_free_b_sound; vm_compute; reflexivity. Qed.

Theorem C81_lookup_sees_half_a_registration_refuted :
  exists s units w before r x, clash_free s /\ clash_free (everything units s) /\ List.length units = 1%nat /\
    g_steps Prop_System.same_order units (g_begin s) w /\
    In (before, mkThread r (Running (Done (Ok x)))) (g_threads w) /\
    is_ok (answer Prop_System.same_order s r) = true /\ is_ok (answer Prop_System.same_order (everything units s) r) = true /\
    Ok x <> answer Prop_System.same_order s r /\ Ok x <> answer Prop_System.same_order (everything units s) r.
Proof.
  pose proof clash_result as E. pose proof clash_asked as Q. pose proof clash_reached as W. destruct clash_before as [B B1], clash_after as [A A1], clash_free_both as [C1 C2].
  revert E Q W. generalize clash_world. intros w E Q W. unfold results in E.
  destruct (g_threads w) as [|[b [r' st]] [|? ?]] eqn:G; cbn [map snd t_asked t_state] in E, Q; [discriminate E| |discriminate Q].
  destruct st as [[a|? ? ?|? ?]|? ?]; try discriminate E. injection Q as ->. destruct (has_base "foo" a) eqn:E2; [|discriminate E]. cbn [andb] in E.
  destruct a as [x|?]; [|discriminate E].
  exists Prop_System.demo, clash_units, w, b, clash_request, x. split; [exact C1|]. split; [exact C2|]. split; [reflexivity|]. split; [exact W|]. split; [rewrite G; now left|].
  split; [exact B1|]. split; [exact A1|]. split; intro X; [rewrite <- X, E2 in B; discriminate B|rewrite <- X, E in A; discriminate A].
Qed.

Print Assumptions C79_accesses_are_the_call.
Print Assumptions C79_lookups_beside_registrations.
Print Assumptions C79_lookups_beside_registrations_when_stack_suffices.
Print Assumptions C79_old_answers_stay.
Print Assumptions C79_registered_words_are_known.
Print Assumptions C79_registrations_succeed_or_are_second.
Print Assumptions C79_later_lookups_see_all_units.
Print Assumptions C79_threads_never_wait.
Print Assumptions C79_threads_end.
Print Assumptions C80_names_can_be_registered_twice_refuted.
Print Assumptions C81_lookup_sees_half_a_registration_refuted.
