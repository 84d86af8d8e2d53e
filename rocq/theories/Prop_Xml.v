(** * C38, C39, C40, C55: the XML reader. *)
From Verif Require Import PyBase PyNum Graph Visitor Expr Units UnitSystem SystemSpec SystemFacts SystemMore SystemKeep
  Xml XmlSpec XmlFacts XmlPrefix XmlStrict.
From Coq Require Import Permutation.

(** ** C38.  The default reader accepts a <name> exactly if it is well formed and has a
    singular, and takes from it exactly the singular and plural the rule says. *)
Theorem C38_plural_rule :
  forall t n, handle_name false t = Ok n <-> says t n /\ well_named t.
Proof.
  intros t n. split.
  - intro H. split; [eapply handle_name_says; eauto|]. rewrite lax_name in H. unfold name_of_parts in H.
    split; intros c F; apply first_child_pop in F; rewrite F in H.
    + destruct (t_children c); [reflexivity|discriminate].
    + destruct (fst (pop_first (u "singular") (t_children t))); [|discriminate].
      destruct (assert _); cbn [bind] in H; [|discriminate].
      destruct (pop_kind "plural" (t_children t)) as [(p & E & _)|[E Np]]; rewrite E in H; cbn [option_map assert bind] in H; [discriminate|].
      split; auto. destruct (t_text c), (t_children c); cbn in H; auto; discriminate.
  - intros [(c & F & E1 & P) [W1 W2]]. rewrite lax_name. unfold name_of_parts. rewrite (first_child_pop _ _ _ F), (W1 c F). cbn [nonempty negb assert bind].
    destruct n as [sg pl]. cbn [n_singular n_plural] in *. subst sg. destruct P as [x Fx|p Nn Fp|Nn Np Sb|Nn Np Sb].
    + rewrite (first_child_pop _ _ _ Fx). destruct (W2 x Fx) as (Np & T & C). rewrite (no_child_pop _ _ Np), T, C. reflexivity.
    + rewrite (no_child_pop _ _ Nn), (first_child_pop _ _ _ Fp). reflexivity.
    + rewrite (no_child_pop _ _ Nn), (no_child_pop _ _ Np). cbn [fst option_map bind]. rewrite (proj2 (takes_es_iff _) Sb). reflexivity.
    + rewrite (no_child_pop _ _ Nn), (no_child_pop _ _ Np). cbn [fst option_map bind].
      destruct (takes_es (t_text c)) eqn:T; [apply takes_es_iff in T; contradiction|reflexivity].
Qed.

Theorem C38_one_reading_of_a_name : forall t n n', says t n -> says t n' -> n = n'.
Proof. exact says_unique. Qed.

Definition leaf (n x : string) : tag := mkTag (u n) (u x) [].
Definition node_ (n : string) (cs : list tag) : tag := mkTag (u n) [] cs.
Example C38_example :
  handle_name false (node_ "name" [leaf "singular" "lux"]) = Ok (mkName (u "lux") (Some (u "luxes"))) /\
  handle_name false (node_ "name" [leaf "singular" "meter"; leaf "note" "x"]) = Ok (mkName (u "meter") (Some (u "meters"))) /\
  handle_name false (node_ "name" [leaf "plural" "feet"; leaf "singular" "foot"]) = Ok (mkName (u "foot") (Some (u "feet"))) /\
  handle_name false (node_ "name" [leaf "singular" "hertz"; leaf "noplural" ""]) = Ok (mkName (u "hertz") None) /\
  handle_name false (node_ "name" [leaf "plural" "feet"]) = Err (EValue VE_xml_missing).
Proof. vm_compute. auto. Qed.

(** ** C55.  A document is read faithfully: every <unit> is registered under its names and
    symbols (which nothing else takes) and its aliases, with the definition or basis unit it
    describes; and no word comes from anywhere else. *)
Theorem C55_documents_read_faithfully :
  forall strict set_order doc s, read_system strict set_order doc = Ok s ->
  (forall ut, unit_of doc ut -> exists r e, describes ut r /\ stands_for s ut r e /\
     (forall w, a_name r w -> dget w (s_names s) = Some e) /\
     (forall w, a_symbol r w -> dget w (s_symbols s) = Some e) /\
     (forall w, an_alias_name r w -> exists e', dget w (s_alias_names s) = Some e') /\
     (forall w, an_alias_symbol r w -> exists e', dget w (s_alias_symbols s) = Some e')) /\
  (forall w e, dget w (s_names s) = Some e ->
     exists ut r, unit_of doc ut /\ describes ut r /\ stands_for s ut r e /\ a_name r w) /\
  (forall w e, dget w (s_symbols s) = Some e ->
     exists ut r, unit_of doc ut /\ describes ut r /\ stands_for s ut r e /\ a_symbol r w) /\
  (forall w e, dget w (s_alias_names s) = Some e ->
     exists ut r, unit_of doc ut /\ describes ut r /\ stands_for s ut r e /\ an_alias_name r w) /\
  (forall w e, dget w (s_alias_symbols s) = Some e ->
     exists ut r, unit_of doc ut /\ describes ut r /\ stands_for s ut r e /\ an_alias_symbol r w).
Proof.
  intros strict o doc s H. apply read_faithful in H as (U0 & U1 & U2 & U3 & U4).
  assert (I : forall ut, In ut (filter (is_named "unit") (t_children doc)) <-> unit_of doc ut).
  { intro ut. rewrite filter_In, is_named_iff. reflexivity. }
  assert (Mem : forall (d : dict entry) w, dmem w d = true -> exists e', dget w d = Some e').
  { intros d w M. unfold dmem in M. destruct (dget w d); [eauto|discriminate]. }
  split; [|split; [|split; [|split]]].
  - intros ut J. apply I in J. destruct (U0 ut J) as (r & e & D & St & V1 & V2 & V3 & V4). exists r, e. split; auto. split; auto.
    split; [|split; [|split]]; intros w W.
    + now apply V1, a_name_iff.
    + now apply V2.
    + now apply Mem, V3, an_alias_name_iff.
    + now apply Mem, V4.
  - intros w e G. destruct (U1 w e G) as (ut & r & J & D & St & W). exists ut, r. rewrite <- I, <- a_name_iff. auto.
  - intros w e G. destruct (U2 w e G) as (ut & r & J & D & St & W). exists ut, r. rewrite <- I. auto.
  - intros w e G. destruct (U3 w e G) as (ut & r & J & D & St & W). exists ut, r. rewrite <- I, <- an_alias_name_iff. auto.
  - intros w e G. destruct (U4 w e G) as (ut & r & J & D & St & W). exists ut, r. rewrite <- I. auto.
Qed.

Definition small_doc (syms : list tag) (extra : list tag) : tag := node_ "unit-system"
  ([node_ "prefix" ([leaf "value" "1e-6"; leaf "name" "micro"] ++ syms)] ++ extra ++
   [node_ "unit" [leaf "base" ""; node_ "name" [leaf "singular" "meter"]; leaf "symbol" "m"];
    node_ "unit" ([leaf "def" "12 m"; node_ "aliases" [node_ "name" [leaf "singular" "box"]; leaf "symbol" "bx"]] ++ extra)]).
Definition as_is : list str -> list str := fun l => l.
Definition words (r : res system) : list str :=
  match r with Ok s => dkeys (s_names s) ++ dkeys (s_symbols s) ++ dkeys (s_alias_names s) ++ dkeys (s_alias_symbols s) ++ dkeys (s_prefix_symbols s) | Err _ => [] end.
Definition micros : list tag := [leaf "symbol" "µ"; leaf "symbol" "u"; leaf "symbol" "u"].
Example C55_example : words (read_system true as_is (small_doc micros [])) =
  [u "meter"; u "meters"; u "m"; u "box"; u "boxes"; u "bx"; u "µ"; u "u"].
Proof. vm_compute. reflexivity. Qed.

(** ** C39.  Order and repetition of the <symbol> tags of a prefix, and the order in which the
    set of symbols is stored, change neither whether the document is accepted nor any later
    look-up, after any history. *)
Theorem C39_prefix_symbol_order :
  forall strict set_order set_order' doc doc',
  rearranges set_order -> rearranges set_order' -> reshuffled doc doc' -> clear_symbols doc ->
  (forall e, read_system strict set_order doc = Err e <-> read_system strict set_order' doc' = Err e) /\
  (forall s s', read_system strict set_order doc = Ok s -> read_system strict set_order' doc' = Ok s' ->
   forall ord history stack,
   (forall q, fst (lookup ord stack q (after ord s history)) = fst (lookup ord stack q (after ord s' history))) /\
   (forall text, fst (sys_unit ord stack text (after ord s history)) = fst (sys_unit ord stack text (after ord s' history)))).
Proof.
  intros strict o o' doc doc' Po Po' R C. pose proof (read_reshuffled strict o o' Po Po' doc doc' R C) as P. split.
  - intro e. destruct (read_system strict o doc), (read_system strict o' doc'); cbn [parr] in P; try contradiction; [split; discriminate|].
    subst. tauto.
  - intros s s' E E' ord cs f. rewrite E, E' in P. cbn [parr] in P. apply (par_after ord cs) in P.
    split; intro t; [now apply parm_lookup|now apply parm_unit].
Qed.

Example C39_example :
  reshuffled (small_doc micros []) (small_doc (rev (tl micros) ++ [hd (leaf "" "") micros]) []) /\ clear_symbols (small_doc micros []) /\
  is_ok (read_system true (@rev str) (small_doc micros [])) = true.
Proof.
  split; [|split; [split|vm_compute; reflexivity]].
  - constructor; [|constructor; [now left|constructor; [now left|constructor]]]. right. repeat split; try reflexivity.
    + vm_compute. tauto.
    + vm_compute. tauto.
  - intros b a mid c r w E. exfalso.
    assert (L : List.length (prefixes_of (small_doc micros [])) = 1%nat) by (vm_compute; reflexivity).
    rewrite E, app_length in L. cbn [List.length] in L. rewrite app_length in L. cbn [List.length] in L. lia.
  - intros a v w I J K [x ->]. vm_compute in I. destruct I as [<-|[]]. vm_compute in J, K.
    destruct J as [<-|[<-|[<-|[]]]]; destruct K as [K|[K|[K|[]]]]; try discriminate; injection K as <-; reflexivity.
Qed.

(** ** C40.  The default reader sees only the content it knows. *)
Theorem C40_unknown_content_is_ignored :
  forall set_order doc, read_system false set_order doc = read_system false set_order (trim_system doc).
Proof. intros. symmetry. apply lax_trim_system. Qed.

(** The strict reader accepts exactly the documents without any other content, and then
    agrees; otherwise it raises ValueError. *)
Theorem C40_strict_reader :
  forall set_order doc,
  (forall s, read_system true set_order doc = Ok s <-> read_system false set_order doc = Ok s /\ clean_system doc) /\
  (forall s, read_system false set_order doc = Ok s -> ~ clean_system doc ->
     read_system true set_order doc = Err (EValue VE_xml_unhandled)) /\
  (forall e, read_system false set_order doc = Err e ->
     read_system true set_order doc = Err e \/ read_system true set_order doc = Err (EValue VE_xml_unhandled)).
Proof.
  intros o doc. pose proof (strict_system o doc) as R. unfold refines in R.
  destruct (read_system false o doc) as [s0|e0]; (split; [|split]).
  - intro s. destruct R as [[C ->]|[C ->]]; split; try (intuition congruence); try discriminate.
  - intros s _ N. destruct R as [[C _]|[_ ->]]; [contradiction|reflexivity].
  - discriminate.
  - intro s. destruct R as [-> | ->]; split; try discriminate; intros [X _]; discriminate.
  - discriminate.
  - intros e [= <-]. exact R.
Qed.

Example C40_example :
  words (read_system false as_is (small_doc micros [leaf "colour" "red"])) = words (read_system true as_is (small_doc micros [])) /\
  words (read_system true as_is (small_doc micros [])) <> [] /\
  read_system true as_is (small_doc micros [leaf "colour" "red"]) = Err (EValue VE_xml_unhandled).
Proof. vm_compute. repeat split; auto. discriminate. Qed.

Print Assumptions C38_plural_rule.
Print Assumptions C55_documents_read_faithfully.
Print Assumptions C39_prefix_symbol_order.
Print Assumptions C40_unknown_content_is_ignored.
Print Assumptions C40_strict_reader.
