(** * What the parser returns can be written; texts read back. *)
From Verif Require Import PyBase PyNum Graph Regex RegexFacts Lexer LexSpec LexerFacts Parser
  GrammarSpec Visitor VisitSpec VisitorFacts ParserFacts ParserComplete ParseFacts NumFacts NumText
  ReDisjoint PrintSpec PrintNum PrintLex PrintParse.
Local Open Scope N_scope.

(** ** Reading back a text *)
Lemma append_factor op a b : is_product b = false -> append op a b = op a b.
Proof. destruct b; auto; discriminate. Qed.

Lemma append_bf op a b : op = Multiply \/ op = Divide -> bracket_free a -> bracket_free b ->
  bracket_free (append op a b) /\ ends_in_power (append op a b) = ends_in_power b.
Proof.
  intros Ho Ha.
  assert (G : forall b, is_product b = false -> bracket_free b ->
    bracket_free (append op a b) /\ ends_in_power (append op a b) = ends_in_power b).
  { intros c Hc Bc. rewrite append_factor by exact Hc.
    destruct Ho as [-> | ->]; cbn [bracket_free ends_in_power]; auto. }
  induction b as [raw | v raw | x | a' IHa b' IHb | a' IHa b' IHb | a' IHa b' IHb | a' IHa b' IHb | f t IHt];
    intros Hb; try (apply G; [reflexivity | exact Hb]);
    cbn [append bracket_free ends_in_power] in *; destruct Hb as (H1 & H2 & H3);
    destruct (IHa H1) as [I _]; auto.
Qed.

Lemma ends_not_product b : is_product b = false -> ends_in_power b = is_power b.
Proof. destruct b; cbn; auto; discriminate. Qed.

Lemma raise_last_spec a n : bracket_free a ->
  match raise_last a n with
  | Some h => ends_in_power a = false /\ bracket_free h /\ ends_in_power h = true
  | None => ends_in_power a = true
  end.
Proof.
  intros Ha. destruct a; cbn [raise_last raise_factor option_map ends_in_power] in *; auto;
    try (cbn [bracket_free is_product is_power]; auto 6; fail).
  - cbn [bracket_free] in Ha. destruct Ha as (H1 & H2 & H3). rewrite ends_not_product by exact H2.
    destruct a2; try discriminate; cbn [raise_factor option_map is_power bracket_free is_product ends_in_power] in *; auto 10.
  - cbn [bracket_free] in Ha. destruct Ha as (H1 & H2 & H3). rewrite ends_not_product by exact H2.
    destruct a2; try discriminate; cbn [raise_factor option_map is_power bracket_free is_product ends_in_power] in *; auto 10.
Qed.

Lemma renumber_number v : exists v' r, renumber v = Number v' r.
Proof. destruct v as [z | d | s]; cbn; eauto. destruct (dexp d =? 0)%Z; eauto. Qed.

Theorem reread_cases g : forall sh, writable sh g ->
  match reread g with
  | Some h => double_exponent g = false /\ bracket_free h /\ ends_in_power h = ends_in_power g
  | None => double_exponent g = true
  end.
Proof.
  induction g as [raw | v raw | x | a IHa b IHb | a IHa b IHb | a IHa b IHb | a IHa b IHb | f t IHt];
    intros sh W; cbn [writable reread double_exponent ends_in_power] in *.
  - destruct W.
  - destruct (renumber_number v) as (v' & r & ->). cbn. auto.
  - cbn. auto.
  - destruct b as [| v r | | | | | |]; try contradiction. destruct W as [Wa We]. specialize (IHa _ Wa).
    destruct (reread a) as [a' |]; [| rewrite IHa; apply orb_true_r].
    destruct IHa as (D & B & E). pose proof (raise_last_spec a' (renumber v) B) as R.
    rewrite <- E, D, orb_false_r. destruct (raise_last a' (renumber v)); auto.
  - destruct W as [Wa Wb]. specialize (IHa _ Wa). specialize (IHb _ Wb).
    destruct (reread a) as [a' |]; cbn [both_then]; [| now rewrite IHa].
    destruct (reread b) as [b' |]; cbn [both_then]; [| rewrite IHb; apply orb_true_r].
    destruct IHa as (D & B & E), IHb as (D' & B' & E'). rewrite D, D'.
    destruct (append_bf Multiply a' b') as [P Q]; auto. rewrite Q. auto.
  - destruct W as [Wa Wb]. specialize (IHa _ Wa). specialize (IHb _ Wb).
    destruct (reread a) as [a' |]; cbn [both_then]; [| now rewrite IHa].
    destruct (reread b) as [b' |]; cbn [both_then]; [| rewrite IHb; apply orb_true_r].
    destruct IHa as (D & B & E), IHb as (D' & B' & E'). rewrite D, D'.
    destruct (append_bf Divide a' b') as [P Q]; auto. rewrite Q. auto.
  - destruct b as [raw | v r | | | | | |]; try contradiction; destruct W as [Wa Wb]; specialize (IHa _ Wa);
      (destruct (reread a) as [a' |]; cbn [option_map]; [| exact IHa]);
      destruct IHa as (D & B & E); cbn [bracket_free ends_in_power]; auto.
  - destruct W as [Hf Wt]. specialize (IHt _ Wt). destruct (reread t) as [t' |]; cbn [option_map]; [| exact IHt].
    destruct IHt as (D & B & E); cbn [bracket_free ends_in_power]; auto.
Qed.

Lemma renumber_text v : canonical v -> node_str (renumber v) = num_str v.
Proof.
  destruct v as [z | d | s]; cbn [renumber canonical]; auto.
  intros H. destruct (Z.eqb_spec (dexp d) 0) as [E |]; auto. cbn [node_str num_str].
  destruct (dec_str_shape d) as (ip & fp & dot & ex & e & -> & _ & _ & _ & _ & _ & _ & _ & _ & Z0 & _).
  destruct (Z0 E) as (-> & -> & ->). rewrite !app_nil_r.
  destruct d as [neg c e']; cbn [dexp dneg dcoef] in *.
  destruct neg, c as [| p]; cbn; auto. exfalso. auto.
Qed.

Lemma append_text op sep a b :
  (forall x y, node_str (op x y) = node_str x ++ sep ++ node_str y) ->
  node_str (append op a b) = node_str a ++ sep ++ node_str b.
Proof.
  intros H. induction b as [raw | v raw | x | a' IHa b' IHb | a' IHa b' IHb | a' IHa b' IHb | a' IHa b' IHb | f t IHt];
    cbn [append]; auto; cbn [node_str]; rewrite IHa, <- !app_assoc; reflexivity.
Qed.

Lemma raise_last_text a n h : raise_last a n = Some h -> node_str h = node_str a ++ u "^" ++ node_str n.
Proof.
  assert (F : forall a h, raise_factor a n = Some h -> node_str h = node_str a ++ u "^" ++ node_str n).
  { intros [] h' E; cbn [raise_factor] in E; try discriminate; injection E as E; subst h'; reflexivity. }
  destruct a; cbn [raise_last]; try apply F.
  - destruct (raise_factor a2 n) as [y |] eqn:E; [| discriminate]. cbn [option_map]. intros H.
    injection H as H; subst h. cbn [node_str]. rewrite (F _ _ E), <- !app_assoc. reflexivity.
  - destruct (raise_factor a2 n) as [y |] eqn:E; [| discriminate]. cbn [option_map]. intros H.
    injection H as H; subst h. cbn [node_str]. rewrite (F _ _ E), <- !app_assoc. reflexivity.
Qed.

Theorem reread_text g : forall h, canonical_numbers g -> reread g = Some h -> node_str h = node_str g.
Proof.
  induction g as [raw | v raw | x | a IHa b IHb | a IHa b IHb | a IHa b IHb | a IHa b IHb | f t IHt];
    intros h C E; cbn [canonical_numbers reread] in *.
  - discriminate.
  - injection E as E; subst h. now apply renumber_text.
  - injection E as E; subst h. reflexivity.
  - destruct C as [Ca Cb]. destruct b as [| v r | | | | | |]; try discriminate. cbn [canonical_numbers] in Cb.
    destruct (reread a) as [a' |]; [| discriminate].
    rewrite (raise_last_text _ _ _ E), (IHa a' Ca eq_refl), renumber_text by exact Cb. reflexivity.
  - destruct C as [Ca Cb]. destruct (reread a) as [a' |]; [| discriminate]. destruct (reread b) as [b' |]; [| discriminate].
    cbn [both_then] in E. injection E as E; subst h. rewrite (append_text Multiply (u "·")) by reflexivity.
    rewrite (IHa a'), (IHb b') by auto. reflexivity.
  - destruct C as [Ca Cb]. destruct (reread a) as [a' |]; [| discriminate]. destruct (reread b) as [b' |]; [| discriminate].
    cbn [both_then] in E. injection E as E; subst h. rewrite (append_text Divide (u "/")) by reflexivity.
    rewrite (IHa a'), (IHb b') by auto. reflexivity.
  - destruct C as [Ca Cb]. destruct b as [raw | v r | | | | | |]; try discriminate;
      (destruct (reread a) as [a' |]; [| discriminate]); cbn [option_map] in E; injection E as E; subst h;
      cbn [node_str canonical_numbers] in *; rewrite (IHa a') by auto; [reflexivity |].
    now rewrite renumber_text.
  - destruct (reread t) as [t' |]; [| discriminate]. cbn [option_map] in E. injection E as E; subst h.
    cbn [node_str]. now rewrite (IHt t').
Qed.

(** ** Graphs that need no brackets *)
Lemma renumbered_product g : is_product (renumbered g) = is_product g.
Proof. destruct g; auto. destruct (renumber_number v) as (v' & r & E). cbn [renumbered]. now rewrite E. Qed.
Lemma renumbered_power g : is_power (renumbered g) = is_power g.
Proof. destruct g; auto. destruct (renumber_number v) as (v' & r & E). cbn [renumbered]. now rewrite E. Qed.

Lemma raise_atom a n : is_product a = false -> is_power a = false -> raise_last a n = Some (Raise a n).
Proof. destruct a; auto; discriminate. Qed.

Theorem reread_bracket_free g : forall sh, writable sh g -> bracket_free g -> reread g = Some (renumbered g).
Proof.
  induction g as [raw | v raw | x | a IHa b IHb | a IHa b IHb | a IHa b IHb | a IHa b IHb | f t IHt];
    intros sh W B; cbn [writable bracket_free reread renumbered] in *; auto.
  - destruct W.
  - destruct b as [| v r | | | | | |]; try contradiction. destruct W as [Wa We]. destruct B as (B1 & B2 & B3).
    rewrite (IHa _ Wa B3), raise_atom; [reflexivity | now rewrite renumbered_product | now rewrite renumbered_power].
  - destruct W as [Wa Wb]. destruct B as (B1 & B2 & B3). rewrite (IHa _ Wa B1), (IHb _ Wb B3). cbn [both_then].
    rewrite append_factor; [reflexivity | now rewrite renumbered_product].
  - destruct W as [Wa Wb]. destruct B as (B1 & B2 & B3). rewrite (IHa _ Wa B1), (IHb _ Wb B3). cbn [both_then].
    rewrite append_factor; [reflexivity | now rewrite renumbered_product].
  - destruct b as [raw | v r | | | | | |]; try contradiction; destruct W as [Wa Wb]; rewrite (IHa _ Wa B); reflexivity.
  - destruct W as [Hf Wt]. rewrite (IHt _ Wt B). reflexivity.
Qed.

(** ** What the parser returns *)

(** the numbers of short texts *)
Lemma digits_value_bound ds : digits ds -> digits_value ds < 10 ^ N.of_nat (List.length ds).
Proof.
  intros D. induction ds as [| c ds IH] using rev_ind; [reflexivity |].
  apply digits_app in D. destruct D as [D Dc]. specialize (IH D).
  rewrite digits_value_app, app_length. cbn [List.length].
  replace (N.of_nat (List.length ds + 1)) with (N.succ (N.of_nat (List.length ds))) by lia.
  rewrite N.pow_succ_r'. inversion Dc as [| ? ? Hc]; subst. unfold is_digit in Hc.
  apply andb_true_iff in Hc. rewrite !N.leb_le in Hc.
  cbn [fold_left]. lia.
Qed.

Lemma N_str_short ds : digits ds -> ds <> [] ->
  (List.length (N_str (digits_value ds)) <= List.length ds)%nat.
Proof.
  intros D N. apply N_str_length; [now apply digits_value_bound |]. destruct ds; [contradiction | cbn; lia].
Qed.

Lemma short_N_str n : (N.of_nat (List.length (N_str n)) <= 4300) -> short (N_str n).
Proof. unfold short. now rewrite digit_count_digits by apply digits_N_str. Qed.
Lemma short_Z_str z : short (Z_str z) <-> short (N_str (Z.abs_N z)).
Proof. destruct z; cbn [Z_str Z.abs_N]; try reflexivity. Qed.

Lemma take_digits_spec s : exists ds rest, take_digits s = (ds, rest) /\ s = ds ++ rest /\ digits ds.
Proof.
  induction s as [| c s (ds & rest & E & -> & D)]; cbn [take_digits].
  - exists [], []. repeat constructor.
  - destruct (is_digit c) eqn:Hc.
    + rewrite E. exists (c :: ds), rest. repeat split; auto. now constructor.
    + exists [], (c :: ds ++ rest). repeat split. constructor.
Qed.
Lemma split_sign_spec s : exists b sg rest, split_sign s = (b, rest) /\ s = sg ++ rest.
Proof.
  destruct s as [| c s]; cbn [split_sign]; [exists false, [], []; auto |].
  destruct (c =? 45); [exists true, [c], s; auto |].
  destruct (c =? 43); [exists false, [c], s; auto |]. exists false, [], (c :: s). auto.
Qed.

Lemma py_int_short t z : py_int t = Ok z -> short (Z_str z).
Proof.
  unfold py_int. destruct (split_sign_spec t) as (b & sg & rest & -> & ->).
  destruct (take_digits_spec rest) as (ds & r2 & -> & -> & D).
  destruct ds as [| c ds]; [discriminate |]. destruct r2; [| discriminate].
  destruct (N.ltb_spec 4300 (N.of_nat (List.length (c :: ds)))) as [L | L]; [discriminate |].
  intros E. injection E as E; subst z. apply short_Z_str.
  replace (Z.abs_N _) with (digits_value (c :: ds)) by (destruct b; lia).
  apply short_N_str. pose proof (N_str_short (c :: ds) D ltac:(discriminate)). lia.
Qed.

Lemma py_decimal_ok t d : py_decimal t = Ok d ->
  dec_valid d /\ (List.length (N_str (dcoef d)) <= List.length t)%nat.
Proof.
  unfold py_decimal. destruct (split_sign_spec t) as (b & sg & rest & -> & ->).
  destruct (take_digits_spec rest) as (ip & r1 & -> & -> & Di).
  assert (F : exists fp r2 dot, (match r1 with
                  | c :: r' => if c =? 46 then take_digits r' else ([], r1)
                  | [] => ([], [])
                  end) = (fp, r2) /\ r1 = dot ++ fp ++ r2 /\ digits fp).
  { destruct r1 as [| c r']; [exists [], [], []; repeat constructor |].
    destruct (c =? 46); [| exists [], (c :: r'), []; repeat constructor].
    destruct (take_digits_spec r') as (fp & r2 & -> & -> & Df). exists fp, r2, [c]. auto. }
  destruct F as (fp & r2 & dot & -> & -> & Df).
  destruct (ip ++ fp) as [| x xs] eqn:Eif; [discriminate |]. rewrite <- Eif.
  destruct (parse_exp r2) as [e | e]; [| discriminate]. cbn [bind].
  match goal with |- (if ?c || ?d then _ else _) = _ -> _ => destruct c eqn:C1, d eqn:C2 end; cbn [orb]; try discriminate.
  intros E. injection E as E; subst d. cbn [dcoef dexp]. unfold dec_valid. cbn [dcoef dexp].
  apply Z.ltb_ge in C1, C2. split; [split; lia |].
  etransitivity; [apply N_str_short; [now apply digits_app | rewrite Eif; discriminate] |].
  rewrite !app_length. lia.
Qed.

(** tokens of short texts *)
Definition lexed (t : token) : Prop :=
  well_lexed t /\ (List.length (ttext t) <= 4300)%nat /\ (kinded ID t -> ~ In (ttext t) shift_words).

Definition rules_before (m : mode) : list (kind * re) :=
  (fix go (l : list (kind * re)) :=
     match l with [] => [] | kr :: l' => if kind_eqb (fst kr) ID then [] else kr :: go l' end) (rules m).

Lemma first_id_split (l before after : list (kind * re)) r :
  l = before ++ (ID, r) :: after ->
  forall x, In x ((fix go (l : list (kind * re)) :=
     match l with [] => [] | kr :: l' => if kind_eqb (fst kr) ID then [] else kr :: go l' end) l) -> In x before.
Proof.
  revert l. induction before as [| kr before IH]; intros l -> x.
  - cbn [app]. cbn [fst]. change (kind_eqb ID ID) with true. intros [].
  - cbn [app]. destruct (kind_eqb (fst kr) ID); [intros [] |]. intros [-> | H]; [left; auto | right].
    now apply (IH _ eq_refl).
Qed.

Lemma shift_op_before m : In (SHIFT_OP, r_shift_op) (rules_before m).
Proof. destruct m; unfold rules_before; cbn; auto 30. Qed.

Lemma shift_word_matches x : In x shift_words -> matches r_shift_op x.
Proof.
  unfold r_shift_op, shift_words, alts. intros H. rewrite !matches_alt, !matches_lit.
  cbn [In] in H. intuition auto.
Qed.

Lemma takes_lexed m k w rest : takes m k w rest -> (List.length w <= 4300)%nat -> lexed (mkTok k w).
Proof.
  intros [_ _ (before & r & after & E & M & F)] L. split; [| split; auto].
  - exists m, r. cbn [tkind ttext]. split; auto. rewrite E. apply in_or_app. right. left. reflexivity.
  - unfold kinded. cbn [tkind ttext]. intros -> Hin.
    apply (F SHIFT_OP r_shift_op); [| now apply shift_word_matches].
    apply (first_id_split _ _ _ _ E). apply shift_op_before.
Qed.

Lemma tokenises_lexed m s ts : tokenises m s ts -> (List.length s <= 4300)%nat -> Forall lexed ts.
Proof.
  induction 1 as [m | m k w rest ts Hk T IH]; intros L; [constructor |].
  rewrite app_length in L. constructor; [| apply IH; lia]. apply (takes_lexed m k w rest); auto. lia.
Qed.

(** what the parser guarantees of its graphs *)
Fixpoint parsed (g : node) : Prop :=
  match g with
  | Unhandled _ => False
  | Number v _ => number_ok v
  | Identifier x => word_ok false x
  | Raise a (Number v _) => parsed a /\
      match v with NInt z => short (Z_str z) | NDec _ => False | NStr s => short s end
  | Raise _ _ => False
  | Multiply a b | Divide a b => parsed a /\ parsed b
  | Shift a (Number v _) => parsed a /\ number_ok v
  | Shift a (Unhandled raw) => parsed a
  | Shift _ _ => False
  | Logarithm f t => In f log_names /\ parsed t
  end.

Lemma parsed_writable g : forall sh, parsed g -> printable sh g -> writable sh g.
Proof.
  induction g as [raw | v raw | x | a IHa b IHb | a IHa b IHb | a IHa b IHb | a IHa b IHb | f t IHt];
    intros sh P W; cbn [parsed printable writable] in *; auto.
  - destruct P as (P1 & P2 & P3 & _). unfold word_ok. auto.
  - destruct b as [| v r | | | | | |]; try contradiction. destruct P as [Pa Pv].
    destruct v as [z | d | s]; cbn [exponent_ok] in *; [auto | destruct Pv | destruct W; auto].
  - destruct P, W; auto.
  - destruct P, W; auto.
  - destruct b as [raw | v r | | | | | |]; try contradiction; [destruct W | destruct P]; auto.
  - destruct P; auto.
Qed.

(** ** Readings, inverted *)
Lemma app_last_inv {A} (a b : list A) x y : a ++ [x] = b ++ [y] -> a = b /\ x = y.
Proof. apply app_inj_tail. Qed.

Definition kids (t : ptree) : list ptree := match t with PNode _ cs => cs | _ => [] end.

Lemma reads_shift_inv p mid x g : mid <> [] -> reads (PNode Shift_spec ((p :: map PLeaf mid) ++ [x])) g ->
  exists a h, reads p a /\ reads x h /\ g = Shift a h.
Proof.
  intros N R. remember (PNode Shift_spec _) as t eqn:E. apply (f_equal kids) in E as E'.
  destruct R; try discriminate E; cbn [kids] in E'.
  - apply (f_equal (@List.length ptree)) in E'. rewrite app_length in E'. cbn in E'. rewrite map_length in E'.
    destruct mid; [contradiction | cbn in E'; lia].
  - apply app_inj_tail in E' as [E' <-]. injection E' as -> _. eauto.
Qed.

Lemma reads_product_inv p mid q g : reads (PNode Product (p :: map PLeaf mid ++ [q])) g ->
  exists a b, reads p a /\ reads q b /\ (g = Multiply a b \/ g = Divide a b).
Proof.
  intros R. remember (PNode Product _) as t eqn:E. apply (f_equal kids) in E as E'.
  destruct R; try discriminate E; cbn [kids] in E'; clear E.
  - destruct mid; discriminate E'.
  - destruct mid as [| m mid]; [| destruct mid; discriminate E']. cbn in E'. injection E' as -> ->. eauto 7.
  - destruct mid as [| m [| m' mid]]; [discriminate E' | | destruct mid; discriminate E']. cbn in E'.
    injection E' as -> _ ->. eauto 7.
  - destruct mid as [| m [| m' mid]]; [discriminate E' | | destruct mid; discriminate E']. cbn in E'.
    injection E' as -> _ ->. eauto 7.
  - change (p0 :: map PLeaf ws ++ [q0]) with ((p0 :: map PLeaf ws) ++ [q0]) in E'.
    change (p :: map PLeaf mid ++ [q]) with ((p :: map PLeaf mid) ++ [q]) in E'.
    apply app_inj_tail in E' as [E' ->]. injection E' as -> _. eauto 7.
Qed.

Lemma reads_integer_inv i g : reads (PNode Integer_r [PLeaf i]) g ->
  exists z, g = Number (NInt z) (Some (ttext i)) /\ py_int (ttext i) = Ok z.
Proof. intros R. inversion R; subst. eauto. Qed.

Definition reads_parsed (ts : list token) (t : ptree) : Prop :=
  Forall lexed ts -> forall g, reads t g -> parsed g.

Lemma word_lexed t : lexed t -> kinded ID t -> word_ok false (ttext t).
Proof.
  intros ((m & r & I & M) & _ & S) K. specialize (S K). unfold kinded in K. rewrite K in I.
  apply rule_of_kind in I. subst r. apply matches_plus_chr in M as [N F].
  unfold word_ok. repeat split; auto. discriminate.
Qed.

Lemma filter_le {A} (f : A -> bool) l : (List.length (filter f l) <= List.length l)%nat.
Proof. induction l as [| x l IH]; cbn; [lia |]. destruct (f x); cbn; lia. Qed.

Lemma superscript_short t : lexed t -> short (map superscript_digit (ttext t)).
Proof.
  intros (_ & L & _). unfold short, digit_count.
  pose proof (filter_le is_digit (map superscript_digit (ttext t))) as H. rewrite map_length in H. lia.
Qed.

Lemma number_parsed ts t g : derives Number_r ts t -> Forall lexed ts -> reads t g ->
  exists v r, g = Number v r /\ number_ok v.
Proof.
  intros D F R. inversion D; subst.
  - match goal with H : derives Integer_r _ _ |- _ => apply derives_integer_inv in H as (j & -> & Hi & ->) end.
    unfold mk_integer in R. inversion R; subst.
    match goal with H : reads (PNode Integer_r _) _ |- _ => apply reads_integer_inv in H as (z & -> & E) end. eexists _, _. split; [reflexivity |].
    cbn [number_ok]. now apply py_int_short in E.
  - inversion R; subst. eexists _, _. split; [reflexivity |]. cbn [number_ok].
    inversion F as [| ? ? (_ & L & _) _]; subst.
    match goal with H : py_decimal _ = Ok _ |- _ => apply py_decimal_ok in H as [V B] end.
    split; auto. intros _. apply short_N_str. lia.
Qed.

Theorem derives_parsed r ts t : derives r ts t -> r <> Unit_spec -> r <> Integer_r -> reads_parsed ts t.
Proof.
  unfold reads_parsed. intros D. induction D as
    [ | ts t D IH
    | ts p D IH | ts p w1 op w2 ns n D IH H1 Hop H2 Dn IHn | ts p w1 op w2 ns D IH H1 Hop H2 Hns
    | ts p D IH | ts1 p ts2 q D1 IH1 D2 IH2 | ts1 p o ts2 q D1 IH1 Ho D2 IH2 | ts1 p o ts2 q D1 IH1 Ho D2 IH2
    | ts1 p ws ts2 q D1 IH1 Hne Hws D2 IH2
    | ts l is i D1 IH1 D2 IH2 | ts l D IH | ts l r is i D1 IH1 Hr D2 IH2 | ts l e D IH He
    | ts b D IH | l ts s c Hl D IH Hc | i Hi | o ts s c Ho D IH Hc | ts n D IH
    | i Hi | ts i D IH | f Hf ]; intros NU NI F g R; try contradiction.
  - inversion R; subst; [apply IH; auto; discriminate |].
    destruct ws; discriminate.
  - apply Forall_app in F as [F1 F2]. apply Forall_app in F2 as [_ F2]. inversion F2 as [| ? ? _ F3]; subst.
    apply Forall_app in F3 as [_ F4].
    replace (p :: map PLeaf w1 ++ PLeaf op :: map PLeaf w2) with (p :: map PLeaf (w1 ++ op :: w2)) in R
      by (rewrite map_app; reflexivity).
    apply reads_shift_inv in R as (a & h & Ra & Rh & ->); [| destruct w1; discriminate].
    destruct (number_parsed _ _ _ Dn F4 Rh) as (v & r & -> & Hv). cbn [parsed]. split; auto.
    apply IH; auto; discriminate.
  - apply Forall_app in F as [F1 F2].
    replace (p :: map PLeaf w1 ++ PLeaf op :: map PLeaf w2) with (p :: map PLeaf (w1 ++ op :: w2)) in R
      by (rewrite map_app; reflexivity).
    apply reads_shift_inv in R as (a & h & Ra & Rh & ->); [| destruct w1; discriminate].
    inversion Rh; subst. cbn [parsed]. apply IH; auto; discriminate.
  - inversion R; subst; [apply IH; auto; discriminate |]. destruct ws; discriminate.
  - apply Forall_app in F as [F1 F2]. apply (reads_product_inv p [] q) in R as (a & b & Ra & Rb & [-> | ->]);
      cbn [parsed]; (split; [apply IH1 | apply IH2]; auto; discriminate).
  - apply Forall_app in F as [F1 F2]. inversion F2; subst.
    apply (reads_product_inv p [o] q) in R as (a & b & Ra & Rb & [-> | ->]);
      cbn [parsed]; (split; [apply IH1 | apply IH2]; auto; discriminate).
  - apply Forall_app in F as [F1 F2]. inversion F2; subst.
    apply (reads_product_inv p [o] q) in R as (a & b & Ra & Rb & [-> | ->]);
      cbn [parsed]; (split; [apply IH1 | apply IH2]; auto; discriminate).
  - apply Forall_app in F as [F1 F2]. apply Forall_app in F2 as [_ F2].
    apply (reads_product_inv p ws q) in R as (a & b & Ra & Rb & [-> | ->]);
      cbn [parsed]; (split; [apply IH1 | apply IH2]; auto; discriminate).
  - apply Forall_app in F as [F1 F2]. apply derives_integer_inv in D2 as (x & -> & Hx & ->). unfold mk_integer in R.
    inversion R; subst. match goal with H : reads (PNode Integer_r _) _ |- _ => apply reads_integer_inv in H as (z & -> & E) end.
    cbn [parsed]. split; [apply IH1; auto; discriminate | now apply py_int_short in E].
  - inversion R; subst. apply IH; auto; discriminate.
  - apply Forall_app in F as [F1 F2]. apply derives_integer_inv in D2 as (x & -> & Hx & ->). unfold mk_integer in R.
    inversion R; subst. match goal with H : reads (PNode Integer_r _) _ |- _ => apply reads_integer_inv in H as (z & -> & E) end.
    cbn [parsed]. split; [apply IH1; auto; discriminate | now apply py_int_short in E].
  - apply Forall_app in F as [F1 F2]. inversion F2; subst. inversion R; subst.
    cbn [parsed]. split; [apply IH; auto; discriminate | now apply superscript_short].
  - inversion R; subst. apply IH; auto; discriminate.
  - inversion F as [| ? ? _ F1]; subst. apply Forall_app in F1 as [F1 _]. inversion R; subst.
    cbn [parsed]. split; auto. apply IH; auto; discriminate.
  - inversion F; subst. inversion R; subst. cbn [parsed]. now apply word_lexed.
  - inversion F as [| ? ? _ F1]; subst. apply Forall_app in F1 as [F1 _]. inversion R; subst.
    apply IH; auto; discriminate.
  - inversion R; subst; try (inversion D; fail).
    destruct (number_parsed _ _ _ D F H0) as (v & r0 & -> & Hv). exact Hv.
  - destruct (number_parsed _ _ _ (D_number_integer _ _ D) F R) as (v & r0 & -> & Hv). exact Hv.
  - destruct (number_parsed _ _ _ (D_number_float _ Hf) F R) as (v & r0 & -> & Hv). exact Hv.
Qed.

Theorem parse_writable s g : is_text s -> (List.length s <= 4300)%nat ->
  parse s = Ok g -> printable false g -> writable false g.
Proof.
  intros H L E P. apply parse_reads in E as (ts & t & T & D & _ & R); auto.
  assert (Ls : (List.length (strip s) <= 4300)%nat).
  { destruct (strip_split s) as (w1 & w2 & _ & _ & E'). rewrite E', !app_length in L. lia. }
  pose proof (tokenises_lexed _ _ _ T Ls) as F.
  apply parsed_writable; auto. inversion D; subst.
  - inversion R; subst. destruct P.
  - inversion R; subst. apply (derives_parsed _ _ _ H0); auto; discriminate.
Qed.
