(** * C36, C37, C56: the shipped database. *)
From Verif Require Import PyBase PyNum Graph Visitor Expr Units UnitSystem SystemSpec SystemFacts SystemProofs SystemMore SystemKeep SystemOrd
  Prop_System Xml XmlSpec XmlFacts XmlPrefix XmlStrict Prop_Xml XmlData Database.
From Coq Require Import Permutation.
Local Open Scope list_scope.

(** ** Reading the file with any storage order of the prefix symbols *)
Lemma reshuffled_refl doc : reshuffled doc doc.
Proof. unfold reshuffled. induction (t_children doc); constructor; auto. now left. Qed.

(* booleans for the two conditions of [clear_symbols] *)
Fixpoint disjoint_b (ls : list (list str)) : bool :=
  match ls with
  | [] => true
  | l :: r => forallb (fun w => forallb (fun l' => negb (str_mem w l')) r) l && disjoint_b r
  end.
Definition incomparable_b (l : list str) : bool :=
  forallb (fun v => forallb (fun w => str_eqb v w || negb (startswith v w)) l) l.

Lemma clear_symbols_b doc :
  disjoint_b (map (fun a => symbol_texts (t_children a)) (prefixes_of doc)) = true ->
  forallb (fun a => incomparable_b (symbol_texts (t_children a))) (prefixes_of doc) = true -> clear_symbols doc.
Proof.
  intros D I. split.
  - revert D. generalize (prefixes_of doc). clear I. intros l D before a mid b after w E. revert before E D.
    induction l as [|x l IH]; intros [|y before] E; cbn [app] in E; try discriminate; cbn [map disjoint_b]; intro D; apply andb_prop in D as [D1 D2].
    + injection E as -> ->. intros W W'. rewrite forallb_forall in D1. specialize (D1 w W). rewrite forallb_forall in D1.
      specialize (D1 (symbol_texts (t_children b))). apply str_mem_In in W'. rewrite W' in D1. discriminate D1.
      apply in_map_iff. exists b. split; auto. apply in_or_app. right. now left.
    + injection E as -> E. eapply IH; eauto.
  - intros a v w A V W [r ->]. rewrite forallb_forall in I. specialize (I a A). unfold incomparable_b in I.
    rewrite forallb_forall in I. specialize (I v V). rewrite forallb_forall in I. specialize (I (v ++ r) W).
    unfold startswith in I. rewrite (proj2 (strip_prefix_iff v (v ++ r) r) eq_refl) in I. cbn in I. rewrite orb_false_r in I.
    now apply eqb_spec in I.
Qed.

Lemma db_clear : clear_symbols db.
Proof. apply clear_symbols_b; vm_compute; reflexivity. Qed.

Lemma checks_sound s : db_checks s = true ->
  clash_free s /\ proper_system s /\ depth_at_most s (query_rank s ranks) db_depth.
Proof.
  unfold db_checks. intro H. apply andb_prop in H as [H H3]. apply andb_prop in H as [H1 H2].
  split; [now apply clash_free_b_sound|]. split; [now apply pristine_proper|]. exact (ranked_b_sound s ranks H3).
Qed.
Lemma shipped_checks : clash_free shipped /\ proper_system shipped /\ depth_at_most shipped (query_rank shipped ranks) db_depth.
Proof. exact (checks_sound shipped db_checked). Qed.

(** whatever the order, both readers give a system that cannot be told from [shipped] *)
Lemma read_any strict o : rearranges o -> exists s, read_system strict o db = Ok s /\ par shipped s.
Proof.
  intro P. assert (E : read_system strict in_order db = Ok shipped).
  { destruct strict; [exact shipped_ok|]. now destruct (proj1 (proj1 (C40_strict_reader in_order db) shipped) shipped_ok). }
  pose proof (read_reshuffled strict in_order o in_order_rearranges P db db (reshuffled_refl db) db_clear) as R.
  rewrite E in R. destruct (read_system strict o db) as [s|e]; cbn [parr] in R; [eauto|contradiction].
Qed.

Lemma par_clash_free a b : par a b -> clash_free a -> clash_free b.
Proof. intros [E1 E2 E3 E4 E5 _ _] C. unfold clash_free in *. rewrite <- E1, <- E2, <- E3, <- E4, <- E5. exact C. Qed.
Lemma par_proper a b : par a b -> proper_system a -> proper_system b.
Proof.
  intros R [C1 C2]. split.
  - intros k x r K. apply (C1 k x r). apply known_iff. apply known_iff in K. now rewrite (par_known a b k R).
  - rewrite <- (pa_lazies a b R). exact C2.
Qed.
Lemma par_refl a : par a a.
Proof. constructor; auto; intros P q; reflexivity. Qed.
Lemma par_sym a b : par a b -> par b a.
Proof. intros [E1 E2 E3 E4 E5 E6 E7]. constructor; auto; intros P q; symmetry; auto. Qed.

Lemma is_known_eq s k : is_known s k = match known_opt s k with Some _ => true | None => false end.
Proof. reflexivity. Qed.
Lemma fit_find s q ps : match fit_opt s q ps with
  | Some (key, p, k, e) => find_fit (is_known s) q ps = Some (key, pf_value p, k) /\ known_opt s k = Some e
  | None => find_fit (is_known s) q ps = None end.
Proof.
  induction ps as [|[key p] ps IH]; cbn [fit_opt find_fit]; [reflexivity|].
  destruct (strip_prefix key q) as [k|]; [|exact IH]. rewrite is_known_eq. destruct (known_opt s k) eqn:K; [auto|exact IH].
Qed.
Lemma find_known a b q ps : par a b -> find_fit (is_known a) q ps = find_fit (is_known b) q ps.
Proof.
  intro R. induction ps as [|[key p] ps IH]; cbn [find_fit]; [reflexivity|]. destruct (strip_prefix key q); auto.
  rewrite !is_known_eq, (par_known a b _ R), IH. reflexivity.
Qed.

(** the entry a query leads to is the same *)
Lemma par_reading a b q : par a b -> option_map snd (reading_opt a q) = option_map snd (reading_opt b q).
Proof.
  intro R. unfold reading_opt. rewrite (par_known a b q R). destruct (known_opt b q); [reflexivity|].
  pose proof (fit_find a q (s_prefix_names a)) as A1. pose proof (fit_find b q (s_prefix_names b)) as B1.
  rewrite (pa_pn a b R), (find_known a b q _ R) in A1.
  pose proof (fit_find a q (s_prefix_symbols a)) as A2. pose proof (fit_find b q (s_prefix_symbols b)) as B2.
  rewrite (pa_ps a b R), (find_known a b q _ R) in A2.
  destruct (fit_opt a q (s_prefix_names a)) as [[[[k1 p1] w1] e1]|], (fit_opt b q (s_prefix_names b)) as [[[[k2 p2] w2] e2]|].
  - destruct A1 as [A K], B1 as [B K']. rewrite A in B. injection B as -> V ->. rewrite (par_known a b w2 R) in K. cbn. congruence.
  - destruct A1 as [A K]. congruence.
  - destruct B1 as [B K]. congruence.
  - clear A1 B1. destruct (fit_opt a q (s_prefix_symbols a)) as [[[[k1 p1] w1] e1]|], (fit_opt b q (s_prefix_symbols b)) as [[[[k2 p2] w2] e2]|].
    + destruct A2 as [A K], B2 as [B K']. rewrite A in B. injection B as -> V ->. rewrite (par_known a b w2 R) in K. cbn. congruence.
    + destruct A2 as [A K]. congruence.
    + destruct B2 as [B K]. congruence.
    + reflexivity.
Qed.
Lemma par_depth a b rank n : par a b -> depth_at_most a rank n -> depth_at_most b rank n.
Proof.
  intros R [D1 D2]. split; auto. intros q k (l & g & [pre i Rd N Z] & P & I). apply D2. exists l, g. split; auto.
  apply reading_iff in Rd. pose proof (par_reading a b q R) as E. rewrite Rd in E. cbn in E.
  destruct (reading_opt a q) as [[pre' e]|] eqn:Q; [|discriminate]. cbn in E. injection E as ->.
  apply Db with pre' i; auto; [now apply reading_iff|]. now rewrite (pa_lazies a b R).
Qed.

(** ** C36.  The shipped file is accepted by both readers, whatever the order in which sets
    are stored; no word is claimed twice, definitions are acyclic and at most 7 deep. *)
Theorem C36_shipped_database_loads :
  forall strict set_order, rearranges set_order ->
  exists s, read_system strict set_order db = Ok s /\ clash_free s /\ proper_system s /\
    exists rank, depth_at_most s rank 7.
Proof.
  intros strict o P. destruct (read_any strict o P) as (s & E & R). destruct shipped_checks as (C & Pr & D).
  exists s. split; auto. split; [eapply par_clash_free; eauto|]. split; [eapply par_proper; eauto|].
  exists (query_rank shipped ranks). eapply par_depth; eauto.
Qed.

(** Hence every call on it returns, after any history, what it returns on the fresh system,
    as soon as the stack is 8 deep; and never for lack of stack. *)
Theorem C36_shipped_database_is_history_independent :
  forall strict set_order s, rearranges set_order -> read_system strict set_order db = Ok s ->
  forall ord history stack, rearranges ord -> (7 < stack)%nat ->
  (forall q, fst (lookup ord stack q (after ord s history)) = fst (lookup ord 8 q s) /\
     fst (lookup ord 8 q s) <> Err ERecursion) /\
  (forall text, fst (sys_unit ord stack text (after ord s history)) = fst (sys_unit ord 8 text s) /\
     fst (sys_unit ord 8 text s) <> Err ERecursion).
Proof.
  intros strict o s P E ord cs f Po L. destruct (C36_shipped_database_loads strict o P) as (s' & E' & C & _ & rank & D).
  assert (s' = s) by congruence. subst s'.
  split; intro t.
  - destruct (depth_lookup ord s rank 7 Po C D cs f t L) as [-> N].
    destruct (depth_lookup ord s rank 7 Po C D [] 8%nat t ltac:(lia)) as [A N']. cbn [after fold_left] in A. rewrite A.
    split; [|exact N']. now apply (mono_lookup ord s t 8%nat f ltac:(lia)).
  - destruct (depth_unit ord s rank 7 Po C D cs f t L) as [-> N].
    destruct (depth_unit ord s rank 7 Po C D [] 8%nat t ltac:(lia)) as [A N']. cbn [after fold_left] in A. rewrite A.
    split; [|exact N']. now apply (mono_unit ord s t 8%nat f ltac:(lia)).
Qed.

Example C36_example :
  (List.length (all_words shipped), List.length (s_lazies shipped), List.length (s_prefix_symbols shipped)) = (859, 268, 22)%nat /\
  is_ok (fst (sys_unit in_order 8 (u "microfurlongs per fortnight") shipped)) = true.
Proof. vm_compute. auto. Qed.

(** ** C37.  Which words of the database can be used. *)
Definition a_word (s : system) (w : str) : Prop := exists e, known s w e.

(** words that unit(...) refuses, and words that unit_by_name_or_symbol(...) refuses *)
Definition unusable_words : list str :=
  [u "arc_second"; u "arc_seconds"; u "angular_second"; u "angular_seconds"; u "arcsecond";
   u "arcseconds"; u "arcsec"; u "arcsecs"; u "astronomical_unit_BIPM_2006";
   u "astronomical_unit_BIPM_2006s"; u "perm_0C"; u "perms_0C"; u "perm_23C"; u "perms_23C";
   u "water_4C"; u "waters_4C"; u "water_39F"; u "waters_39F"; u "water_60F"; u "waters_60F";
   u "mercury_0C"; u "mercuries_0C"; u "mercury_32F"; u "mercuries_32F"; u "mercury_60F";
   u "mercuries_60F"; u "inch_H2O_39F"; u "inches_H2O_39F"; u "inch_H2O_60F"; u "inches_H2O_60F";
   u "foot_H2O"; u "feet_H2O"; u "footH2O"; u "feetH2O"; u "millimeter_Hg_0C";
   u "millimeters_Hg_0C"; u "inch_Hg_32F"; u "inches_Hg_32F"; u "inch_Hg_60F"; u "inches_Hg_60F";
   u "C12_faraday"; u "C12_faradays"; u "'"; u "′"; [34%N]; u "″"; u "Ω"; u "Å"; u "℃"; u "%";
   u "H2O"; u "h2o"; u "cm_H2O"; u "cmH2O"; u "ftH2O"; u "fth2o"; u "℉"].

Definition unresolvable_words : list str :=
  [u "arc_second"; u "arc_seconds"; u "angular_second"; u "angular_seconds"; u "arcsecond";
   u "arcseconds"; u "arcsec"; u "arcsecs"; u "inch_H2O_39F"; u "inches_H2O_39F"; u "inch_H2O_60F";
   u "inches_H2O_60F"; u "millimeter_Hg_0C"; u "millimeters_Hg_0C"; u "inch_Hg_32F";
   u "inches_Hg_32F"; u "inch_Hg_60F"; u "inches_Hg_60F"; [34%N]; u "″"; u "cm_H2O"; u "cmH2O"].

Lemma known_word s w : a_word s w <-> In w (all_words s).
Proof.
  unfold a_word, all_words. rewrite !in_app_iff, <- !dmem_In. split.
  - intros [e [A|_ A|_ _ A|_ _ _ A]]; unfold dmem; rewrite A; auto.
  - unfold dmem. destruct (dget w (s_names s)) as [e|] eqn:E1; [intros _; exists e; now apply Kn_name|].
    destruct (dget w (s_alias_names s)) as [e|] eqn:E2; [intros _; exists e; now apply Kn_alias_name|].
    destruct (dget w (s_symbols s)) as [e|] eqn:E3; [intros _; exists e; now apply Kn_symbol|].
    destruct (dget w (s_alias_symbols s)) as [e|] eqn:E4; [intros _; exists e; now apply Kn_alias_symbol|].
    intuition discriminate.
Qed.

Lemma word_by_mem s w : str_mem w (all_words s) = true -> a_word s w.
Proof. intro H. apply known_word. now apply str_mem_In. Qed.

Lemma checked_words :
  forallb (fun k => Bool.eqb (is_ok (p_unit in_order shipped 8 k)) (negb (str_mem k unusable_words))) (all_words shipped) = true /\
  forallb (fun k => Bool.eqb (is_ok (p_lookup in_order shipped 8 k)) (negb (str_mem k unresolvable_words))) (all_words shipped) = true.
Proof. split; vm_compute; reflexivity. Qed.

Lemma not_mem w l : negb (str_mem w l) = true <-> ~ In w l.
Proof. rewrite negb_true_iff, <- str_mem_In. destruct (str_mem w l); split; congruence. Qed.

Section General.
Variable sh s : system.
Variable rank : str -> nat.
Hypothesis C : clash_free sh.
Hypothesis Pr : proper_system sh.
Hypothesis D : depth_at_most sh rank 7.
Hypothesis R : par sh s.

Lemma unit_verdict ord history stack w : rearranges ord -> (7 < stack)%nat ->
  ((exists a, fst (sys_unit ord stack w (after ord s history)) = Ok a) <-> is_ok (p_unit in_order sh 8 w) = true).
Proof.
  intros Po L. pose proof (par_after ord history _ _ R) as Ra.
  rewrite <- (proj1 (parm_unit ord stack w _ _ Ra)), (proj1 (depth_unit ord sh _ _ Po C D history stack w L)).
  pose proof (proj2 (depth_unit in_order sh _ _ in_order_rearranges C D [] 8%nat w (le_n 8))) as N8.
  pose proof (mono_unit in_order sh w 8%nat stack L N8) as Eq. cbn beta in Eq. rewrite <- Eq.
  pose proof (unit_rel sh ord in_order Po in_order_rearranges Pr stack w) as Rl.
  destruct (p_unit ord sh stack w), (p_unit in_order sh stack w); cbn [is_ok rrel] in *; try contradiction; split; eauto; try discriminate.
  intros [a0 X]; discriminate.
Qed.

Lemma lookup_verdict ord history stack w : rearranges ord -> (7 < stack)%nat ->
  rrel same_unit (fst (lookup ord stack w (after ord s history))) (p_lookup in_order sh 8 w).
Proof.
  intros Po L. pose proof (par_after ord history _ _ R) as Ra.
  rewrite <- (proj1 (parm_lookup ord stack w _ _ Ra)), (proj1 (depth_lookup ord sh _ _ Po C D history stack w L)).
  pose proof (proj2 (depth_lookup in_order sh _ _ in_order_rearranges C D [] 8%nat w (le_n 8))) as N8.
  pose proof (mono_lookup in_order sh w 8%nat stack L N8) as Eq. cbn beta in Eq. rewrite <- Eq.
  exact (lookup_rel sh ord in_order Po in_order_rearranges Pr stack w).
Qed.

Lemma a_word_par w : a_word s w -> In w (all_words sh).
Proof.
  intros [e K]. apply (proj1 (known_word sh w)). exists e. apply (proj2 (known_iff sh w e)). apply (proj1 (known_iff s w e)) in K.
  now rewrite (par_known sh s w R).
Qed.
End General.

(** For every storage order, visiting order, history and sufficient stack: unit(w) works for
    exactly the words outside the first list, unit_by_name_or_symbol(w) for exactly those
    outside the second. *)
Theorem C37_usable_words_exactly :
  forall strict set_order s, rearranges set_order -> read_system strict set_order db = Ok s ->
  forall ord history stack w, rearranges ord -> (7 < stack)%nat -> a_word s w ->
  ((exists a, fst (sys_unit ord stack w (after ord s history)) = Ok a) <-> ~ In w unusable_words) /\
  ((exists x, fst (lookup ord stack w (after ord s history)) = Ok x) <-> ~ In w unresolvable_words).
Proof.
  intros strict o s P E ord cs f w Po L W.
  destruct (read_any strict o P) as (s' & E' & R). rewrite E in E'. injection E' as <-. clear E.
  destruct shipped_checks as (C & Pr & D). destruct checked_words as [K1 K2].
  revert R C Pr D K1 K2. generalize (query_rank shipped ranks). generalize shipped. intros sh rank R C Pr D K1 K2.
  pose proof (a_word_par sh s R w W) as W'. rewrite forallb_forall in K1, K2.
  specialize (K1 w W'). specialize (K2 w W'). apply Bool.eqb_prop in K1, K2. rewrite <- !not_mem, <- K1, <- K2.
  split; [exact (unit_verdict sh s rank C Pr D R ord cs f w Po L)|].
  pose proof (lookup_verdict sh s rank C Pr D R ord cs f w Po L) as V.
  destruct (fst (lookup ord f w (after ord s cs))), (p_lookup in_order sh 8 w); cbn [is_ok rrel] in *; try contradiction; split; eauto; try discriminate.
  intros [a0 X]; discriminate.
Qed.

Lemma words_here : str_mem (u "kelvins") (all_words shipped) = true /\ str_mem (u "arc_second") (all_words shipped) = true.
Proof. split; vm_compute; reflexivity. Qed.
Example C37_example : a_word shipped (u "kelvins") /\ a_word shipped (u "arc_second") /\
  (List.length unusable_words, List.length (filter (fun w => negb (str_mem w unusable_words)) (all_words shipped))) = (57, 802)%nat.
Proof.
  split; [exact (word_by_mem shipped _ (proj1 words_here))|]. split; [exact (word_by_mem shipped _ (proj2 words_here))|].
  vm_compute. reflexivity.
Qed.

(** ** C57.  "Every word of the database is usable" is false. *)
Theorem C57_unusable_words_refuted :
  exists w, a_word shipped w /\ forall ord history stack a, rearranges ord -> (7 < stack)%nat ->
    fst (sys_unit ord stack w (after ord shipped history)) <> Ok a.
Proof.
  pose proof (word_by_mem shipped _ (proj2 words_here)) as W. exists (u "arc_second"). split; [exact W|].
  intros ord cs f a Po L X.
  destruct (C37_usable_words_exactly true in_order shipped in_order_rearranges shipped_ok ord cs f _ Po L W) as [[H _] _].
  refine (H (ex_intro _ a X) _). now left.
Qed.

(** ** C56.  The queries in which prefix and unit are spelled the same (C50) in the database:
    exactly these, all read with a prefix symbol. *)
Definition doubled : list str :=
  [u "TT"; u "hh"; u "dd"; u "mm"; u "uu"; u "aa"].

Lemma doubled_reading s q key p e : reading s q (Some (key, p, key)) e ->
  q = key ++ key /\ In key (dkeys (s_prefix_names s) ++ dkeys (s_prefix_symbols s)).
Proof.
  intro Rd. assert (FF : forall ps, first_fit s q ps key p key e -> q = key ++ key /\ In key (dkeys ps)).
  { intros ps (b & a & -> & [F _] & _). split; auto. unfold dkeys. rewrite map_app. apply in_or_app. right. now left. }
  inversion Rd as [| ? ? ? ? _ F |? ? ? ? _ _ F]; subst; apply FF in F as [F1 F2]; split; auto; apply in_or_app; auto.
Qed.
Lemma doubled_forward s l : forallb (fun k => match reading_opt s (k ++ k) with
       | Some (Some (k1, _, k2), _) => negb (str_eqb k1 k && str_eqb k2 k) || str_mem (k ++ k) l
       | _ => true end) (dkeys (s_prefix_names s) ++ dkeys (s_prefix_symbols s)) = true ->
  forall q, (exists key p e, reading s q (Some (key, p, key)) e) -> In q l.
Proof.
  intros F q (key & p & e & Rd). destruct (doubled_reading s q key p e Rd) as [-> I].
  rewrite forallb_forall in F. specialize (F key I). apply reading_iff in Rd. rewrite Rd in F.
  rewrite !eqb_refl' in F. cbn in F. now apply str_mem_In.
Qed.
Lemma doubled_back s l : forallb (fun q => match reading_opt s q with
       | Some (Some (k1, _, k2), _) => str_eqb k1 k2
       | _ => false end) l = true ->
  forall q, In q l -> exists key p e, reading s q (Some (key, p, key)) e.
Proof.
  rewrite forallb_forall. intros F q I. specialize (F q I).
  destruct (reading_opt s q) as [[[[[k1 p] k2]|] e]|] eqn:E; try discriminate. apply eqb_spec in F. subst k2.
  exists k1, p, e. now apply reading_iff.
Qed.

Theorem C56_same_spelling_queries_exactly :
  forall q, (exists key p e, reading shipped q (Some (key, p, key)) e) <-> In q doubled.
Proof.
  intro q. split.
  - apply doubled_forward. vm_compute. reflexivity.
  - apply doubled_back. vm_compute. reflexivity.
Qed.

Definition twice (d : dims) : dims := map (fun e => (fst e, (2 * snd e)%Z)) d.
Fixpoint dims_same (a b : dims) : bool :=
  match a, b with
  | [], [] => true
  | ((k, f), z) :: a', ((k', f'), z') :: b' => str_eqb k k' && Bool.eqb f f' && Z.eqb z z' && dims_same a' b'
  | _, _ => false
  end.
Lemma dims_same_eq a : forall b, dims_same a b = true -> a = b.
Proof.
  induction a as [|[[k f] z] a IH]; intros [|[[k' f'] z'] b]; cbn [dims_same]; try discriminate; auto. intro H.
  apply andb_prop in H as [H H4]. apply andb_prop in H as [H H3]. apply andb_prop in H as [H1 H2].
  apply eqb_spec in H1. apply Bool.eqb_prop in H2. apply Z.eqb_eq in H3. apply IH in H4. congruence.
Qed.

Lemma letters key : In (key ++ key) doubled -> In key (map (firstn 1) doubled).
Proof.
  intro I. assert (E2 : List.length (key ++ key) = 2%nat) by (apply in_map with (f := @List.length N) in I; cbn in I; intuition congruence).
  rewrite app_length in E2. replace key with (firstn 1 (key ++ key)); [now apply in_map|].
  destruct key as [|c [|c' k]]; cbn in *; try lia; auto.
Qed.
Definition doubled_dims_b (sh : system) : bool :=
  forallb (fun k => match p_lookup in_order sh 8 k, p_lookup in_order sh 8 (k ++ k) with
               | Ok x, Ok y => match udims x, udims y with
                   | Ok dx, Ok dy => match dx with [] => false | _ => dims_same dy (twice dx) end
                   | _, _ => false end
               | _, _ => false end) (map (firstn 1) doubled).
Lemma doubled_dims : doubled_dims_b shipped = true.
Proof. vm_compute. reflexivity. Qed.

(** Each of them resolves, in every order, history and sufficient stack, to a unit with twice
    the exponents of the unit it should be a multiple of. *)
Theorem C56_same_spelling_doubles_exponents :
  forall ord history stack key, rearranges ord -> (7 < stack)%nat -> In (key ++ key) doubled ->
  exists x y dx, fst (lookup ord stack key (after ord shipped history)) = Ok x /\
    fst (lookup ord stack (key ++ key) (after ord shipped history)) = Ok y /\
    udims x = Ok dx /\ dx <> [] /\ udims y = Ok (twice dx).
Proof.
  intros ord cs f key Po L I. destruct shipped_checks as (C & Pr & D).
  pose proof (lookup_verdict shipped shipped _ C Pr D (par_refl shipped) ord cs f key Po L) as T1.
  pose proof (lookup_verdict shipped shipped _ C Pr D (par_refl shipped) ord cs f (key ++ key) Po L) as T2.
  pose proof (letters key I) as Lt. pose proof doubled_dims as F. unfold doubled_dims_b in F. rewrite forallb_forall in F. specialize (F key Lt).
  revert T1 T2 F. generalize shipped. intros sh T1 T2 F.
  destruct (fst (lookup ord f key (after ord sh cs))) as [x|], (p_lookup in_order sh 8 key) as [x'|]; try contradiction; try discriminate.
  destruct (fst (lookup ord f (key ++ key) (after ord sh cs))) as [y|], (p_lookup in_order sh 8 (key ++ key)) as [y'|]; try contradiction; try discriminate.
  rewrite <- (same_udims _ _ T1), <- (same_udims _ _ T2) in F.
  destruct (udims x) as [dx|] eqn:X; [|discriminate]. destruct (udims y) as [dy|] eqn:Y; [|discriminate].
  exists x, y, dx. split; [reflexivity|]. split; [reflexivity|]. split; [exact X|].
  destruct dx as [|e dx]; [discriminate|]. apply dims_same_eq in F. rewrite F in Y. split; [discriminate|exact Y].
Qed.

Print Assumptions C36_shipped_database_is_history_independent.
Print Assumptions C37_usable_words_exactly.
