(** * C117: ASCII texts mean the same in every locale. *)
From Verif Require Import PyBase PyNum Graph Expr Units UnitSpec UnitFacts UnitProofs Sympy Convert UnitSystem SystemSpec SystemFacts SystemProofs
  SystemMore SystemKeep SystemOrd Prop_System Xml XmlSpec XmlFacts XmlPrefix XmlStrict Prop_Xml XmlData Database Prop_Database XmlText XmlTextData Prop_XmlText
  Ascii LocaleFacts.
From Coq Require Import Permutation.
Open Scope list_scope.

(** ** Specification: what can be asked of a unit *)
Definition text_of_unit (a : anyunit) : option str * str :=
  match a with AUnit x => (None, unit_str x) | ADate x since => (Some since, unit_str x) end.
Record indistinguishable (a b : anyunit) : Prop := {
  in_text : text_of_unit a = text_of_unit b;
  in_dims : dimensionality a = dimensionality b;
  in_dimless : any_dimensionless a = any_dimensionless b;
  in_time : any_time_unit a = any_time_unit b;
  in_expanded : forall e, expanded (core a) = Ok e <-> expanded (core b) = Ok e }.

(** two calls both give indistinguishable units, or both raise *)
Definition like_answers (a b : res anyunit) : Prop :=
  match a, b with Ok x, Ok y => indistinguishable x y | Err _, Err _ => True | _, _ => False end.

(** ** Proofs: the relation *)
Lemma ind_sym a b : indistinguishable a b -> indistinguishable b a.
Proof. intros []. constructor; try congruence. intro e. symmetry. auto. Qed.
Lemma ind_trans a b c : indistinguishable a b -> indistinguishable b c -> indistinguishable a c.
Proof. intros [] []. constructor; try congruence. intro e. etransitivity; eauto. Qed.
Lemma like_sym a b : like_answers a b -> like_answers b a.
Proof. destruct a, b; cbn [like_answers]; auto. apply ind_sym. Qed.
Lemma like_trans a b c : like_answers a b -> like_answers b c -> like_answers a c.
Proof. destruct a, b, c; cbn [like_answers]; auto; try contradiction. apply ind_trans. Qed.

Lemma same_ind a b : same_any a b -> indistinguishable a b.
Proof.
  intro H. pose proof (same_dimensionality _ _ H) as D.
  destruct H as [x y H|x y r H]; pose proof (same_udims _ _ H) as U; pose proof (same_time _ _ H) as T; pose proof (same_str _ _ H) as St;
    constructor; auto; cbn [text_of_unit any_dimensionless any_time_unit core]; unfold is_dimensionless; try congruence.
  - intro e. apply (same_expanded _ _ H).
  - intro e. apply (same_expanded _ _ H).
Qed.
Lemma twin_ind a b : any_twin a b -> indistinguishable a b.
Proof.
  destruct a as [x|x r], b as [y|y r']; cbn [any_twin]; try contradiction.
  - intros [O St]. pose proof (obs_udims x y O) as U. unfold obs in O. injection O as D T E.
    constructor; cbn [text_of_unit any_dimensionless any_time_unit core]; auto; try congruence.
    + unfold is_dimensionless. now rewrite U.
    + intro e. now rewrite E.
  - intros (O & St & R). pose proof (obs_udims x y O) as U. unfold obs in O. injection O as D T E.
    constructor; cbn [text_of_unit dimensionality any_dimensionless any_time_unit core]; auto; try congruence.
    intro e. now rewrite E.
Qed.

Lemma ind_normal_form a b : indistinguishable a b -> forall v, normal_form (core a) = Ok v -> normal_form (core b) = Ok v.
Proof.
  intros I v. pose proof (in_expanded _ _ I) as E. unfold normal_form, symbolic.
  destruct (expanded (core a)) as [e|]; [|discriminate]. now rewrite (proj1 (E e) eq_refl).
Qed.
Lemma ind_converter a a' b b' c : indistinguishable a a' -> indistinguishable b b' -> mk_converter a b = Ok c -> mk_converter a' b' = Ok c.
Proof.
  intros A B. unfold mk_converter. rewrite (in_dims _ _ A), (in_dims _ _ B).
  destruct (dimensionality a') as [da|]; [|discriminate]. cbn [bind]. destruct (dimensionality b') as [db|]; [|discriminate]. cbn [bind].
  destruct (dimval_inv da) as [ia|]; [|discriminate]. cbn [bind]. destruct (negb _); [auto|].
  pose proof (ind_normal_form _ _ A) as NA. pose proof (ind_normal_form _ _ B) as NB.
  destruct (normal_form (core a)) as [n1|]; [|discriminate]. rewrite (NA n1 eq_refl). cbn [bind].
  destruct (normal_form (core b)) as [n2|]; [|discriminate]. now rewrite (NB n2 eq_refl).
Qed.

(** ** Proofs: the systems the three locales give *)
Definition tag_in (l : locale) : tag := match tag_of_text (decode l shipped_bytes) with Ok t => t | Err _ => mkTag [] [] [] end.
Definition latin_db : tag := Eval vm_compute in tag_in Latin_1.
Definition windows_db : tag := Eval vm_compute in tag_in Windows_1252.
Definition db_in (l : locale) : tag := match l with UTF_8 => db | Latin_1 => latin_db | Windows_1252 => windows_db end.

Lemma tags_of_bytes l : tag_of_text (decode l shipped_bytes) = Ok (db_in l).
Proof. destruct l; [exact shipped_tag| |]; apply tag_check; vm_compute; reflexivity. Qed.

Definition system_of (t : tag) : system := match read_system true in_order t with Ok s => s | Err _ => empty_system end.
Definition clear_b (t : tag) : bool :=
  disjoint_b (map (fun a => symbol_texts (t_children a)) (prefixes_of t)) &&
  forallb (fun a => incomparable_b (symbol_texts (t_children a))) (prefixes_of t).

Lemma system_of_ok t : is_ok (read_system true in_order t) = true -> read_system true in_order t = Ok (system_of t).
Proof. unfold system_of. destruct (read_system true in_order t); [reflexivity|discriminate]. Qed.

(** whatever the order, both readers give a system that cannot be told from [system_of t] *)
Lemma read_any_tag t strict o : is_ok (read_system true in_order t) = true -> clear_b t = true -> rearranges o ->
  exists s, read_system strict o t = Ok s /\ par (system_of t) s.
Proof.
  intros K Cl P. apply system_of_ok in K. apply andb_prop in Cl as [C1 C2].
  assert (E : read_system strict in_order t = Ok (system_of t)).
  { destruct strict; [exact K|]. now destruct (proj1 (proj1 (C40_strict_reader in_order t) (system_of t)) K). }
  pose proof (read_reshuffled strict in_order o in_order_rearranges P t t (reshuffled_refl t) (clear_symbols_b t C1 C2)) as R.
  rewrite E in R. destruct (read_system strict o t) as [s|e]; cbn [parr] in R; [eauto|contradiction].
Qed.

Lemma checked_in l : is_ok (read_system true in_order (db_in l)) = true /\ clear_b (db_in l) = true /\ db_checks (system_of (db_in l)) = true.
Proof. destruct l; split; [|split| |split| |split]; vm_compute; reflexivity. Qed.

(** the two definitions with a degree sign *)
Definition odd_ones : list nat := [27; 249]%nat.
Definition agree_b (a b : system) : bool :=
  words_agree a b && pairs_eqb (ascii_prefixes (s_prefix_names a)) (ascii_prefixes (s_prefix_names b)) &&
  pairs_eqb (ascii_prefixes (s_prefix_symbols a)) (ascii_prefixes (s_prefix_symbols b)).
Lemma agreed l : agree_b (system_of db) (system_of (db_in l)) = true.
Proof. destruct l; vm_compute; reflexivity. Qed.
Definition odd_b (a b : system) : bool :=
  match odd_lazies 0 (s_lazies a) (s_lazies b) with Some r => forallb (fun i => existsb (Nat.eqb i) odd_ones) r | None => false end.
Lemma odd_in l : odd_b (system_of db) (system_of (db_in l)) = true.
Proof. destruct l; vm_compute; reflexivity. Qed.
Lemma outcomes_in l : map (outcomes (system_of db) 8) odd_ones = map (outcomes (system_of (db_in l)) 8) odd_ones.
Proof. destruct l; vm_compute; reflexivity. Qed.

Lemma agree_general a b t : agree_b a b = true -> odd_b a b = true -> map (outcomes a 8) odd_ones = map (outcomes b 8) odd_ones ->
  ascii t -> both any_twin (p_unit in_order a 8 t) (p_unit in_order b 8 t).
Proof.
  intros G O M A. unfold agree_b in G. apply andb_prop in G as [G G3]. apply andb_prop in G as [G1 G2].
  unfold odd_b in O. destruct (odd_lazies 0 (s_lazies a) (s_lazies b)) as [r|] eqn:R; [|discriminate O].
  apply (systems_agree a b 8 r); auto.
  intros i I. rewrite forallb_forall in O. specialize (O i I).
  assert (M1 : outcomes a 8 27 = outcomes b 8 27) by (apply (f_equal (fun l => hd [] l)) in M; exact M).
  assert (M2 : outcomes a 8 249 = outcomes b 8 249) by (apply (f_equal (fun l => hd [] (tl l))) in M; exact M).
  clear M.
  cbn [odd_ones existsb] in O. apply orb_prop in O as [O|O]; [apply Nat.eqb_eq in O; subst i; exact M1|].
  apply orb_prop in O as [O|O]; [apply Nat.eqb_eq in O; subst i; exact M2|discriminate O].
Qed.

Lemma verdict sh s rank ord history stack t : clash_free sh -> proper_system sh -> depth_at_most sh rank 7 -> par sh s ->
  rearranges ord -> (7 < stack)%nat ->
  rrel same_any (fst (sys_unit ord stack t (after ord s history))) (p_unit in_order sh 8 t).
Proof.
  intros C Pr D R Po L. pose proof (par_after ord history _ _ R) as Ra.
  rewrite <- (proj1 (parm_unit ord stack t _ _ Ra)), (proj1 (depth_unit ord sh _ _ Po C D history stack t L)).
  pose proof (proj2 (depth_unit in_order sh _ _ in_order_rearranges C D [] 8%nat t (le_n 8))) as N8.
  pose proof (mono_unit in_order sh t 8%nat stack L N8) as Eq. cbn beta in Eq. rewrite <- Eq.
  exact (unit_rel sh ord in_order Po in_order_rearranges Pr stack t).
Qed.

Lemma rrel_like a b : rrel same_any a b -> like_answers a b.
Proof. destruct a, b; cbn [rrel like_answers]; auto. apply same_ind. Qed.
Lemma both_like a b : both any_twin a b -> like_answers a b.
Proof. destruct a, b; cbn [both like_answers]; auto. apply twin_ind. Qed.

(** any system of any locale against the pure reading in UTF-8 *)
Lemma like_utf8 l strict o s ord history stack t : rearranges o -> parse_path l strict o shipped_bytes = Ok s ->
  rearranges ord -> (7 < stack)%nat -> ascii t ->
  like_answers (fst (sys_unit ord stack t (after ord s history))) (p_unit in_order (system_of db) 8 t).
Proof.
  intros Po E P L A. unfold parse_path in E. rewrite parse_file_tag, tags_of_bytes in E. cbn [bind] in E.
  destruct (checked_in l) as (K1 & K2 & K3).
  destruct (read_any_tag _ strict o K1 K2 Po) as (s' & E' & R). rewrite E in E'. injection E' as <-.
  destruct (checks_sound _ K3) as (C & Pr & D).
  pose proof (agree_general _ _ t (agreed l) (odd_in l) (outcomes_in l) A) as G.
  revert R C Pr D G. generalize (query_rank (system_of (db_in l)) ranks). generalize (system_of (db_in l)). generalize (system_of db).
  intros u8 sh rank R C Pr D G.
  apply like_trans with (p_unit in_order sh 8 t).
  - apply rrel_like. exact (verdict sh s rank ord history stack t C Pr D R P L).
  - apply like_sym, both_like. exact G.
Qed.

(** ** C117.  The bytes of the shipped file, decoded in any of the three locales, give a unit system,
    and every text of ASCII characters gives in all of them, whatever the readers, storage orders,
    visiting orders, histories and sufficient stacks, indistinguishable units, or none. *)
Theorem C117_shipped_file_loads_everywhere :
  forall l strict set_order, rearranges set_order -> exists s, parse_path l strict set_order shipped_bytes = Ok s.
Proof.
  intros l st o P. unfold parse_path. rewrite parse_file_tag, tags_of_bytes. cbn [bind].
  destruct (checked_in l) as (K1 & K2 & _). destruct (read_any_tag _ st o K1 K2 P) as (s & E & _). eauto.
Qed.

Theorem C117_ascii_texts_mean_the_same :
  forall l l' strict strict' set_order set_order' s s',
  rearranges set_order -> rearranges set_order' ->
  parse_path l strict set_order shipped_bytes = Ok s -> parse_path l' strict' set_order' shipped_bytes = Ok s' ->
  forall ord ord' history history' stack stack' text,
  rearranges ord -> rearranges ord' -> (7 < stack)%nat -> (7 < stack')%nat -> Forall (fun c => (c < 128)%N) text ->
  like_answers (fst (sys_unit ord stack text (after ord s history)))
               (fst (sys_unit ord' stack' text (after ord' s' history'))).
Proof.
  intros l l' st st' o o' s s' Po Po' E E' ord ord' h h' f f' t P P' L L' A.
  apply like_trans with (p_unit in_order (system_of db) 8 t).
  - exact (like_utf8 l st o s ord h f t Po E P L A).
  - apply like_sym. exact (like_utf8 l' st' o' s' ord' h' f' t Po' E' P' L' A).
Qed.

(** ... and indistinguishable units convert alike. *)
Theorem C117_indistinguishable_units_convert_alike :
  forall a a' b b', indistinguishable a a' -> indistinguishable b b' ->
  is_convertible_to a b = is_convertible_to a' b' /\
  (forall c, mk_converter a b = Ok c <-> mk_converter a' b' = Ok c).
Proof.
  intros a a' b b' A B. split.
  - pose proof (in_text _ _ A) as TA. pose proof (in_text _ _ B) as TB. pose proof (in_dims _ _ A) as DA. pose proof (in_dims _ _ B) as DB.
    destruct a, a', b, b'; cbn [text_of_unit] in TA, TB; try discriminate TA; try discriminate TB; cbn [is_convertible_to]; auto.
    now rewrite DA, DB.
  - intro c. split; apply ind_converter; auto using ind_sym.
Qed.

(** No byte of the shipped file is one that Windows-1252 leaves undefined. *)
Theorem C117_shipped_bytes_defined :
  Forall (fun b => b <> 129 /\ b <> 141 /\ b <> 143 /\ b <> 144 /\ b <> 157)%N shipped_bytes.
Proof.
  apply Forall_forall. intros b I.
  assert (F : forallb (fun b => negb (N.eqb b 129 || N.eqb b 141 || N.eqb b 143 || N.eqb b 144 || N.eqb b 157)) shipped_bytes = true) by (vm_compute; reflexivity).
  rewrite forallb_forall in F. specialize (F b I). apply Bool.negb_true_iff in F.
  repeat match goal with H : (_ || _)%bool = false |- _ => apply Bool.orb_false_iff in H as [H ?] end.
  repeat match goal with H : N.eqb _ _ = false |- _ => apply N.eqb_neq in H end. auto.
Qed.

(* fahrenheit is defined with a degree sign: "°R @ 459.67" *)
Definition answer (s : system) (word : str) : option (res dims) :=
  match fst (sys_unit in_order 8 word s) with Ok x => Some (udims (core x)) | Err _ => None end.
Definition some_words : list str := [u "fahrenheit"; u "mile / hour"; u "days since 2000-01-01"; u "nosuch"].
Lemma some_answers l : map (answer (system_of (db_in l))) some_words =
  [Some (Ok [((u "kelvin", false), 1%Z)]); Some (Ok [((u "meter", false), 1%Z); ((u "second", true), (-1)%Z)]); Some (Ok [((u "second", true), 1%Z)]); None].
Proof. destruct l; vm_compute; reflexivity. Qed.
Example C117_example : forall l, exists s, parse_path l true in_order shipped_bytes = Ok s /\ map (answer s) some_words =
  [Some (Ok [((u "kelvin", false), 1%Z)]); Some (Ok [((u "meter", false), 1%Z); ((u "second", true), (-1)%Z)]); Some (Ok [((u "second", true), 1%Z)]); None].
Proof.
  intro l. exists (system_of (db_in l)). split; [|exact (some_answers l)].
  unfold parse_path. rewrite parse_file_tag, tags_of_bytes. cbn [bind]. exact (system_of_ok _ (proj1 (checked_in l))).
Qed.

Print Assumptions C117_ascii_texts_mean_the_same.
Print Assumptions C117_indistinguishable_units_convert_alike.
