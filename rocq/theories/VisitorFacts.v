(** * The visitor computes the specified reading, and fails only on numeric literals. *)
From Verif Require Import PyBase PyNum Graph Regex RegexFacts Lexer LexSpec LexerFacts Parser
  GrammarSpec ParserFacts ParserComplete Visitor VisitSpec NumFacts.

(** the text of a token is one its rule can produce *)
Definition well_lexed (t : token) : Prop :=
  exists m r, In (tkind t, r) (rules m) /\ matches r (ttext t).

Lemma rule_of_kind m k r : In (k, r) (rules m) ->
  match k with
  | INT => r = r_int
  | SIGNED_INT => r = r_signed_int
  | FLOAT => r = r_float
  | LOG => r = r_log
  | ID => r = r_id
  | UNICODE_EXPONENT => r = r_unicode_exponent
  | _ => True
  end.
Proof.
  intro H. destruct k; auto;
    destruct m; simpl in H;
    repeat (destruct H as [H|H]; [first [injection H as _ <-; reflexivity | inversion H; auto] |]);
    try contradiction; auto.
Qed.

Lemma int_outcome t : well_lexed t -> integer_token t ->
  (exists z, py_int (ttext t) = Ok z) \/ py_int (ttext t) = Err (EValue VE_int_digits).
Proof.
  intros (m & r & I & M) [H|H]; unfold kinded in H; rewrite H in I; apply rule_of_kind in I; subst r;
    apply py_int_outcome; auto.
Qed.

Lemma float_outcome t : well_lexed t -> kinded FLOAT t -> dec_outcome (py_decimal (ttext t)).
Proof.
  intros (m & r & I & M) H; unfold kinded in H; rewrite H in I; apply rule_of_kind in I; subst r.
  now apply py_decimal_float.
Qed.

(** ** LOG tokens *)
Lemma matches_lit s w : matches (lit s) w <-> w = s.
Proof.
  revert w. induction s as [|c s IH]; intro w.
  - apply matches_eps.
  - destruct s as [|d s].
    + apply matches_ch.
    + change (lit (c :: d :: s)) with (Seq (ch c) (lit (d :: s))).
      rewrite matches_seq. setoid_rewrite matches_ch. setoid_rewrite IH. split.
      * intros (a & b & -> & -> & ->). reflexivity.
      * intros ->. exists [c], (d :: s). auto.
Qed.

Lemma before_paren_app a rest : Forall (fun c => c <> 40%N) a ->
  before_paren (a ++ 40%N :: rest) = a.
Proof.
  induction 1 as [|c a Hc Ha IH]; simpl; auto.
  apply N.eqb_neq in Hc. now rewrite Hc, IH.
Qed.

Lemma lstrip_head c s : is_space c = false -> lstrip (c :: s) = c :: s.
Proof. intro H. simpl. now rewrite H. Qed.

Lemma lstrip_spaces w s : Forall (fun c => is_space c = true) w -> lstrip (w ++ s) = lstrip s.
Proof. induction 1 as [|c w Hc Hw IH]; simpl; auto. now rewrite Hc. Qed.

Lemma strip_trailing f sp : In f log_names -> Forall (fun x => x = 32%N) sp ->
  strip (f ++ sp) = f.
Proof.
  intros Hf Hs. unfold strip.
  assert (Hs' : Forall (fun c => is_space c = true) (rev sp)).
  { apply Forall_rev. eapply Forall_impl; [|exact Hs]. intros a ->. reflexivity. }
  repeat (destruct Hf as [<-|Hf]; [|]); [| | | |destruct Hf]; simpl; rewrite <- !app_assoc || idtac;
    cbn [app]; rewrite ?rev_app_distr, ?app_nil_r;
    repeat match goal with |- context [lstrip (?x :: ?y)] => rewrite (lstrip_head x y) by reflexivity end;
    simpl; rewrite <- ?app_assoc; cbn [app]; rewrite lstrip_spaces by auto; reflexivity.
Qed.

Lemma log_text t : well_lexed t -> kinded LOG t ->
  exists f spaces rest, In f log_names /\ Forall (fun x => x = 32%N) spaces /\
    ttext t = f ++ spaces ++ 40%N :: rest /\ strip (before_paren (ttext t)) = f.
Proof.
  intros (m & r & I & M) H; unfold kinded in H; rewrite H in I; apply rule_of_kind in I; subst r.
  unfold r_log in M. cbn [seqs alts] in M.
  apply matches_seq in M as (f & w1 & Et & Hf & M).
  apply matches_seq in M as (sp & w2 & -> & Hs & M).
  apply matches_seq in M as (o & rest & -> & Ho & M).
  apply matches_ch in Ho as ->.
  rewrite !matches_alt, !matches_lit in Hf.
  unfold r_ws, ch in Hs. apply matches_star_chr in Hs.
  assert (Hsp : Forall (fun x => x = 32%N) sp).
  { eapply Forall_impl; [|exact Hs]. intros a Ha. apply in_range1 in Ha. lia. }
  assert (Hn : In f log_names) by (unfold log_names; simpl; intuition (subst; auto)).
  exists f, sp, rest. split; auto. split; auto. split; [now rewrite Et|].
  rewrite Et. change (f ++ sp ++ [40%N] ++ rest) with (f ++ sp ++ 40%N :: rest).
  rewrite app_assoc, before_paren_app.
  - now apply strip_trailing.
  - apply Forall_app. split.
    + repeat (destruct Hn as [<-|Hn]; [repeat constructor; discriminate|]). destruct Hn.
    + eapply Forall_impl; [|exact Hsp]. intros a ->. discriminate.
Qed.

(** ** superscripts *)
Lemma nfkc_superscript t : well_lexed t -> kinded UNICODE_EXPONENT t ->
  map nfkc_exponent (ttext t) = map superscript_digit (ttext t).
Proof.
  intros (m & r & I & M) H; unfold kinded in H; rewrite H in I; apply rule_of_kind in I; subst r.
  unfold r_unicode_exponent in M. apply matches_plus_chr in M as [_ M].
  apply map_ext_in. intros c Hc. rewrite Forall_forall in M. apply M in Hc. clear -Hc.
  unfold in_ranges in Hc. simpl in Hc.
  rewrite !orb_true_iff, !andb_true_iff, !N.leb_le in Hc.
  assert (K : In c [178; 179; 185; 8304; 8308; 8309; 8310; 8311; 8312; 8313; 8314; 8315]%N).
  { simpl. destruct Hc as [Hc|[Hc|[Hc|[Hc|Hc]]]]; [| | | |discriminate]; lia. }
  simpl in K. repeat (destruct K as [<-|K]; [reflexivity|]). destruct K.
Qed.

(** ** visit as a map over the children *)
Definition finish (r : rule) (v : vres) : res vres :=
  match r with
  | Product => visit_product v
  | Power => visit_power v
  | Logarithm_r => visit_logarithm v
  | Shift_spec => visit_shift_spec v
  | Unit_spec => visit_unit_spec v
  | _ => Ok v
  end.

Lemma visit_node r cs : r <> Timestamp_r ->
  visit (PNode r cs) = (do vs <- mapM visit cs ;; finish r (aggregate vs)).
Proof.
  intro H.
  assert (E : (fix go l := match l with
                          | [] => Ok []
                          | x :: l' => do v <- visit x ;; do vs <- go l' ;; Ok (v :: vs)
                          end) cs = mapM visit cs) by (induction cs; simpl; [|rewrite IHcs]; auto).
  destruct r; try contradiction; simpl; rewrite E; reflexivity.
Qed.

Lemma mapM_app {A B} (f : A -> res B) a b :
  mapM f (a ++ b) = (do x <- mapM f a ;; do y <- mapM f b ;; Ok (x ++ y)).
Proof.
  induction a as [|c a IH]; simpl.
  - destruct (mapM f b); reflexivity.
  - destruct (f c); simpl; auto. rewrite IH. destruct (mapM f a); simpl; auto.
    destruct (mapM f b); reflexivity.
Qed.

Definition silent (t : token) : Prop := visit_terminal t = Ok VNone.

Lemma silent_kind t : kinded WS t \/ kinded SHIFT_OP t \/ kinded MULTIPLY t \/ kinded RAISE t
  \/ kinded OPEN_PAREN t \/ kinded CLOSE_PAREN t -> silent t.
Proof.
  intro H. unfold silent, visit_terminal. unfold kinded in H.
  destruct H as [H|[H|[H|[H|[H|H]]]]]; rewrite H; reflexivity.
Qed.

Lemma mapM_silent ts : Forall silent ts ->
  mapM visit (map PLeaf ts) = Ok (repeat VNone (List.length ts)).
Proof. induction 1 as [|t ts Ht Hts IH]; simpl; auto. rewrite Ht. simpl. now rewrite IH. Qed.

Lemma filter_silent n l : filter not_none (repeat VNone n ++ l) = filter not_none l.
Proof. induction n; simpl; auto. Qed.

(** outcome of visiting a derivation of tokens [ts] *)
Definition outcome (ts : list token) (t : ptree) : Prop :=
  (exists g, visit t = Ok (VNode g) /\ reads t g) \/ (exists e, visit t = Err e /\ bad_number e ts).

Lemma bad_app_l e a b : bad_number e a -> bad_number e (a ++ b).
Proof. intros [[-> H]|[-> H]]; [left|right]; split; auto; apply Exists_app; auto. Qed.
Lemma bad_app_r e a b : bad_number e b -> bad_number e (a ++ b).
Proof. intros [[-> H]|[-> H]]; [left|right]; split; auto; apply Exists_app; auto. Qed.
Lemma bad_cons e x b : bad_number e b -> bad_number e (x :: b).
Proof. apply (bad_app_r e [x]). Qed.

Lemma visit_leaf t : visit (PLeaf t) = visit_terminal t. Proof. reflexivity. Qed.

Lemma tree_text_leaves ts : tree_text (PNode Timestamp_r (map PLeaf ts)) = text_of ts.
Proof.
  simpl. unfold text_of. induction ts as [|t ts IH]; simpl; auto. now rewrite IH.
Qed.

Lemma visit_timestamp ts : visit (PNode Timestamp_r (map PLeaf ts)) = Ok (VNode (Unhandled (text_of ts))).
Proof.
  change (visit (PNode Timestamp_r (map PLeaf ts)))
    with (Ok (VNode (Unhandled (tree_text (PNode Timestamp_r (map PLeaf ts)))))).
  now rewrite tree_text_leaves.
Qed.

Lemma shift_children p mid x vp vx : Forall silent mid ->
  visit p = Ok (VNode vp) -> visit x = Ok (VNode vx) ->
  visit (PNode Shift_spec ((p :: map PLeaf mid) ++ [x])) = Ok (VNode (Shift vp vx)).
Proof.
  intros Hm Hp Hx. rewrite visit_node by discriminate.
  rewrite mapM_app. cbn [mapM]. rewrite Hp, Hx. cbn [bind]. rewrite mapM_silent by auto. cbn [bind app].
  unfold aggregate. cbn [filter not_none]. rewrite filter_silent. reflexivity.
Qed.

Definition spacing (t : token) : Prop := kinded WS t \/ kinded SHIFT_OP t.
Lemma spacing_silent w : Forall spacing w -> Forall silent w.
Proof. apply Forall_impl. intros a [H|H]; apply silent_kind; auto. Qed.

Lemma outcome_shift p mid x tsp tsx : outcome tsp p -> outcome tsx x -> Forall spacing mid ->
  outcome (tsp ++ mid ++ tsx) (PNode Shift_spec ((p :: map PLeaf mid) ++ [x])).
Proof.
  intros Op Ox Hk. pose proof (spacing_silent _ Hk) as Hm. destruct Op as [(g & Vp & Rp)|(e & Vp & Bp)].
  - destruct Ox as [(h & Vx & Rx)|(e & Vx & Bx)].
    + left. exists (Shift g h). split; [now apply shift_children|now apply R_shift].
    + right. exists e. split; [|now apply bad_app_r, bad_app_r].
      rewrite visit_node by discriminate. rewrite mapM_app. cbn [mapM]. rewrite Vp.
      cbn [bind]. rewrite mapM_silent by auto. cbn [bind]. now rewrite Vx.
  - right. exists e. split; [|now apply bad_app_l].
    rewrite visit_node by discriminate. cbn [mapM app]. rewrite Vp. reflexivity.
Qed.

Lemma opt_space_silent w : opt_space w -> Forall spacing w.
Proof. intros [|x H]; repeat constructor; auto. Qed.

Definition unary_rule (r : rule) : Prop := r = Shift_spec \/ r = Product \/ r = Power \/ r = Logarithm_r
  \/ r = Basic_spec \/ r = Number_r.

Lemma outcome_single r p ts : unary_rule r -> (forall g, reads p g -> reads (PNode r [p]) g) ->
  outcome ts p -> outcome ts (PNode r [p]).
Proof.
  intros Hr HR O.
  assert (V : visit (PNode r [p]) = (do v <- visit p ;; finish r (unwrap (VList (filter not_none [v]))))).
  { rewrite visit_node by (destruct Hr as [->|[->|[->|[->|[->| ->]]]]]; discriminate).
    cbn [mapM]. destruct (visit p); reflexivity. }
  destruct O as [(g & Vp & Rp)|(e & Vp & Bp)].
  - left. exists g. split; auto. rewrite V, Vp. cbn.
    destruct Hr as [->|[->|[->|[->|[->| ->]]]]]; reflexivity.
  - right. exists e. split; auto. now rewrite V, Vp.
Qed.

Lemma outcome_product p mid q tp tq g2 :
  (forall g h, reads p g -> reads q h -> reads (PNode Product (p :: map PLeaf mid ++ [q])) (g2 g h)) ->
  (forall a b, (do vs <- mapM visit (map PLeaf mid) ;;
     finish Product (aggregate (VNode a :: vs ++ [VNode b]))) = Ok (VNode (g2 a b))) ->
  outcome tp p -> outcome tq q ->
  outcome (tp ++ mid ++ tq) (PNode Product (p :: map PLeaf mid ++ [q])).
Proof.
  intros HR HV Op Oq. destruct Op as [(g & Vp & Rp)|(e & Vp & Bp)].
  - assert (exists vs, mapM visit (map PLeaf mid) = Ok vs) as [vs Evs].
    { specialize (HV g g). destruct (mapM visit (map PLeaf mid)); [eauto|discriminate]. }
    destruct Oq as [(h & Vq & Rq)|(e & Vq & Bq)].
    + left. exists (g2 g h). split; auto. rewrite visit_node by discriminate.
      cbn [mapM]. rewrite Vp. cbn [bind]. rewrite mapM_app. cbn [mapM]. rewrite Vq, Evs. cbn [bind].
      specialize (HV g h). rewrite Evs in HV. exact HV.
    + right. exists e. split; [|now apply bad_app_r, bad_app_r].
      rewrite visit_node by discriminate. cbn [mapM]. rewrite Vp. cbn [bind]. rewrite mapM_app. cbn [mapM].
      rewrite Vq, Evs. reflexivity.
  - right. exists e. split; [|now apply bad_app_l].
    rewrite visit_node by discriminate. cbn [mapM]. now rewrite Vp.
Qed.

Lemma visit_outcome r ts t : derives r ts t -> Forall well_lexed ts -> outcome ts t.
Proof.
  intro D. induction D; intro W.
  - left. exists (Unhandled []). split; [reflexivity|constructor].
  - destruct (IHD W) as [(g & V & R)|(e & V & B)].
    + left. exists g. split; [|now constructor]. rewrite visit_node by discriminate.
      cbn [mapM]. rewrite V. reflexivity.
    + right. exists e. split; auto. rewrite visit_node by discriminate. cbn [mapM]. now rewrite V.
  - apply outcome_single; auto. + left; auto. + intros; now constructor.
  - apply Forall_app in W as [W1 W2]. apply Forall_app in W2 as [W2 W3].
    inversion W3 as [|? ? _ W4]; subst. apply Forall_app in W4 as [W4 W5].
    replace (ts ++ w1 ++ op :: w2 ++ ns) with (ts ++ (w1 ++ op :: w2) ++ ns)
      by (rewrite <- !app_assoc; reflexivity).
    replace (p :: map PLeaf w1 ++ PLeaf op :: map PLeaf w2) with (p :: map PLeaf (w1 ++ op :: w2))
      by (rewrite map_app; reflexivity).
    apply outcome_shift; auto. apply Forall_app; split; [now apply opt_space_silent|].
    constructor; [right; auto|now apply opt_space_silent].
  - apply Forall_app in W as [W1 _].
    replace (ts ++ w1 ++ op :: w2 ++ ns) with (ts ++ (w1 ++ op :: w2) ++ ns)
      by (rewrite <- !app_assoc; reflexivity).
    replace (p :: map PLeaf w1 ++ PLeaf op :: map PLeaf w2) with (p :: map PLeaf (w1 ++ op :: w2))
      by (rewrite map_app; reflexivity).
    apply outcome_shift; auto.
    + left. eexists. split; [apply visit_timestamp|constructor].
    + apply Forall_app; split; [now apply opt_space_silent|].
      constructor; [right; auto|now apply opt_space_silent].
  - apply outcome_single; auto. + unfold unary_rule; auto. + intros; now constructor.
  - apply Forall_app in W as [W1 W2].
    apply (outcome_product p [] q ts1 ts2 Multiply); auto.
    + intros; now constructor.
  - apply Forall_app in W as [W1 W2]. inversion W2; subst.
    apply (outcome_product p [o] q ts1 ts2 Multiply); auto.
    + intros; now apply R_product_multiply.
    + intros a b. cbn [map mapM]. rewrite visit_leaf, silent_kind by (auto 9). reflexivity.
  - apply Forall_app in W as [W1 W2]. inversion W2; subst.
    apply (outcome_product p [o] q ts1 ts2 Divide); auto.
    + intros; now apply R_product_divide.
    + intros a b. cbn [map mapM]. rewrite visit_leaf. unfold visit_terminal, kinded in *. rewrite H. reflexivity.
  - apply Forall_app in W as [W1 W2]. apply Forall_app in W2 as [W2 W3].
    apply (outcome_product p ws q ts1 ts2 Multiply); auto.
    + intros; now apply R_product_space.
    + intros a b. rewrite mapM_silent.
      * cbn [bind finish]. unfold aggregate. cbn [filter not_none]. rewrite filter_silent. reflexivity.
      * eapply Forall_impl; [|exact H0]. intros x Hx. apply silent_kind; auto.
  - apply Forall_app in W as [W1 W2]. specialize (IHD1 W1). specialize (IHD2 W2).
    inversion D2; subst.
    destruct IHD1 as [(g & V & R)|(e & V & B)].
    + destruct IHD2 as [(h & V2 & R2)|(e & V2 & B2)].
      * left. exists (Raise g h). split; [|now constructor].
        rewrite visit_node by discriminate. cbn [mapM]. rewrite V, V2. reflexivity.
      * right. exists e. split; [|now apply bad_app_r].
        rewrite visit_node by discriminate. cbn [mapM]. now rewrite V, V2.
    + right. exists e. split; [|now apply bad_app_l].
      rewrite visit_node by discriminate. cbn [mapM]. now rewrite V.
  - apply outcome_single; auto. + unfold unary_rule; auto. + intros; now constructor.
  - apply Forall_app in W as [W1 W2]. specialize (IHD1 W1). inversion W2 as [|? ? _ W3]; subst.
    specialize (IHD2 W3).
    destruct IHD1 as [(g & V & R)|(e & V & B)].
    + destruct IHD2 as [(h & V2 & R2)|(e & V2 & B2)].
      * left. exists (Raise g h). split; [|now constructor].
        rewrite visit_node by discriminate. cbn [mapM]. rewrite V, V2, visit_leaf, silent_kind by (auto 9). reflexivity.
      * right. exists e. split; [|now apply bad_app_r, bad_cons].
        rewrite visit_node by discriminate. cbn [mapM]. rewrite V, visit_leaf, silent_kind by (auto 9). cbn [bind]. now rewrite V2.
    + right. exists e. split; [|now apply bad_app_l].
      rewrite visit_node by discriminate. cbn [mapM]. now rewrite V.
  - apply Forall_app in W as [W1 W2]. specialize (IHD W1). inversion W2; subst.
    destruct IHD as [(g & V & R)|(e' & V & B)].
    + left. set (n := map superscript_digit (ttext e)).
      exists (Raise g (Number (NStr n) (Some n))). split; [|now apply (R_power_unicode l e g)].
      rewrite visit_node by discriminate. cbn [mapM]. rewrite V, visit_leaf.
      unfold visit_terminal. unfold kinded in H. rewrite H. cbn [bind].
      unfold handle_unicode_exponent. rewrite nfkc_superscript by auto. reflexivity.
    + right. exists e'. split; [|now apply bad_app_l].
      rewrite visit_node by discriminate. cbn [mapM]. now rewrite V.
  - apply outcome_single; auto. + unfold unary_rule; auto 6. + intros; now constructor.
  - inversion W as [|? ? Wl W1]; subst. apply Forall_app in W1 as [W1 _].
    destruct (log_text l Wl H) as (f & sp & rest & Hf & Hs & Et & Es).
    assert (Vl : visit (PLeaf l) = Ok (VStr f)).
    { rewrite visit_leaf. unfold visit_terminal. unfold kinded in H. rewrite H, Es. reflexivity. }
    destruct (IHD W1) as [(g & V & R)|(e & V & B)].
    + left. exists (Logarithm f g). split; [|now apply (R_log l s c g f sp rest)].
      rewrite visit_node by discriminate. cbn [mapM]. rewrite Vl, V. cbn [bind].
      rewrite visit_leaf, silent_kind by (auto 9). reflexivity.
    + right. exists e. split; [|now apply bad_cons, bad_app_l].
      rewrite visit_node by discriminate. cbn [mapM]. rewrite Vl. cbn [bind]. now rewrite V.
  - left. exists (Identifier (ttext i)). split; [|now constructor].
    rewrite visit_node by discriminate. cbn [mapM]. rewrite visit_leaf.
    unfold visit_terminal. unfold kinded in H. rewrite H. reflexivity.
  - inversion W as [|? ? Wl W1]; subst. apply Forall_app in W1 as [W1 _].
    destruct (IHD W1) as [(g & V & R)|(e & V & B)].
    + left. exists g. split; [|now constructor].
      rewrite visit_node by discriminate. cbn [mapM]. rewrite visit_leaf, silent_kind by (auto 9). cbn [bind].
      rewrite V. cbn [bind]. rewrite visit_leaf, silent_kind by (auto 9). reflexivity.
    + right. exists e. split; [|now apply bad_cons, bad_app_l].
      rewrite visit_node by discriminate. cbn [mapM]. rewrite visit_leaf, silent_kind by (auto 9). cbn [bind]. now rewrite V.
  - apply outcome_single; auto. + unfold unary_rule; auto 6.
    + intros g R. inversion D; subst; apply R_basic_number; exact R.
  - inversion W; subst. assert (V : visit (PLeaf i) = do z <- py_int (ttext i) ;; Ok (VNode (Number (NInt z) (Some (ttext i))))).
    { rewrite visit_leaf. unfold visit_terminal. destruct H as [H|H]; unfold kinded in H; rewrite H; reflexivity. }
    destruct (int_outcome i) as [[z E]|E]; auto.
    + left. exists (Number (NInt z) (Some (ttext i))). split; [|now apply R_integer].
      rewrite visit_node by discriminate. cbn [mapM]. rewrite V, E. reflexivity.
    + right. exists (EValue VE_int_digits). split.
      * rewrite visit_node by discriminate. cbn [mapM]. rewrite V, E. reflexivity.
      * left. split; auto. constructor. split; auto.
  - apply outcome_single; auto. + unfold unary_rule; auto 8.
    + intros g R. inversion D; subst; apply R_number_integer; exact R.
  - inversion W; subst. assert (V : visit (PLeaf f) = do z <- py_decimal (ttext f) ;; Ok (VNode (Number (NDec z) (Some (ttext f))))).
    { rewrite visit_leaf. unfold visit_terminal. unfold kinded in H; rewrite H; reflexivity. }
    destruct (float_outcome f) as [[z E]|E]; auto.
    + left. exists (Number (NDec z) (Some (ttext f))). split; [|now apply R_number_float].
      rewrite visit_node by discriminate. cbn [mapM]. rewrite V, E. reflexivity.
    + right. exists EInvalidOperation. split.
      * rewrite visit_node by discriminate. cbn [mapM]. rewrite V, E. reflexivity.
      * right. split; auto. constructor. split; auto.
Qed.

(** ** The specification determines what the visitor returns *)
Lemma nfkc_same c : nfkc_exponent c = superscript_digit c.
Proof.
  unfold nfkc_exponent.
  repeat match goal with |- context [(c =? ?k)%N] =>
    destruct (N.eqb_spec c k); [subst c; reflexivity|] end.
  destruct (N.leb_spec 8308 c); cbn [andb].
  - destruct (N.leb_spec c 8313); cbn [andb].
    + assert (K : In c [8308; 8309; 8310; 8311; 8312; 8313]%N) by (simpl; lia).
      simpl in K. repeat (destruct K as [<-|K]; [reflexivity|]). destruct K.
    + unfold superscript_digit.
      repeat match goal with |- _ = match ?x with _ => _ end => destruct x; try reflexivity; try lia end.
  - unfold superscript_digit.
    repeat match goal with |- _ = match ?x with _ => _ end => destruct x; try reflexivity; try lia end.
Qed.

Lemma single_ok r p g : unary_rule r \/ r = Integer_r -> visit p = Ok (VNode g) -> visit (PNode r [p]) = Ok (VNode g).
Proof.
  intros Hr Hp.
  rewrite visit_node by (destruct Hr as [[->|[->|[->|[->|[->| ->]]]]]| ->]; discriminate).
  cbn [mapM]. rewrite Hp. destruct Hr as [[->|[->|[->|[->|[->| ->]]]]]| ->]; reflexivity.
Qed.

Lemma reads_visit t g : reads t g -> visit t = Ok (VNode g).
Proof.
  intro R. induction R.
  - reflexivity.
  - rewrite visit_node by discriminate. cbn [mapM]. rewrite IHR. reflexivity.
  - apply single_ok; auto. left; left; auto.
  - apply shift_children; auto. now apply spacing_silent.
  - apply visit_timestamp.
  - apply single_ok; auto. left; unfold unary_rule; auto.
  - rewrite visit_node by discriminate. cbn [mapM]. rewrite IHR1, IHR2. reflexivity.
  - rewrite visit_node by discriminate. cbn [mapM]. rewrite IHR1, IHR2, visit_leaf, silent_kind by (auto 9). reflexivity.
  - rewrite visit_node by discriminate. cbn [mapM]. rewrite IHR1, IHR2, visit_leaf.
    unfold visit_terminal, kinded in *. rewrite H. reflexivity.
  - rewrite visit_node by discriminate. cbn [mapM]. rewrite IHR1. cbn [bind]. rewrite mapM_app. cbn [mapM].
    rewrite IHR2. rewrite mapM_silent.
    + cbn [bind finish]. unfold aggregate. cbn [filter not_none]. rewrite filter_silent. reflexivity.
    + eapply Forall_impl; [|exact H0]. intros x Hx. apply silent_kind; auto.
  - apply single_ok; auto. left; unfold unary_rule; auto 6.
  - rewrite visit_node by discriminate. cbn [mapM]. rewrite IHR1, IHR2. reflexivity.
  - rewrite visit_node by discriminate. cbn [mapM]. rewrite IHR1, IHR2, visit_leaf, silent_kind by (auto 9). reflexivity.
  - rewrite visit_node by discriminate. cbn [mapM]. rewrite IHR, visit_leaf.
    unfold visit_terminal. unfold kinded in H. rewrite H. cbn [bind].
    unfold handle_unicode_exponent. rewrite (map_ext _ _ nfkc_same). reflexivity.
  - apply single_ok; auto. left; unfold unary_rule; auto 6.
  - rewrite visit_node by discriminate. cbn [mapM]. rewrite IHR, !visit_leaf, (silent_kind c) by (auto 9).
    unfold visit_terminal. unfold kinded in H. rewrite H.
    replace (strip (before_paren (ttext l))) with f; [reflexivity|].
    rewrite H3, app_assoc, before_paren_app.
    + symmetry. now apply strip_trailing.
    + apply Forall_app. split.
      * clear -H1. repeat (destruct H1 as [<-|H1]; [repeat constructor; discriminate|]). destruct H1.
      * eapply Forall_impl; [|exact H2]. intros a ->. discriminate.
  - rewrite visit_node by discriminate. cbn [mapM]. rewrite visit_leaf.
    unfold visit_terminal. unfold kinded in H. rewrite H. reflexivity.
  - rewrite visit_node by discriminate. cbn [mapM]. rewrite IHR, !visit_leaf, !silent_kind by (auto 9). reflexivity.
  - apply single_ok; auto. left; unfold unary_rule; auto 8.
  - rewrite visit_node by discriminate. cbn [mapM]. rewrite visit_leaf. unfold visit_terminal.
    destruct H as [H|H]; unfold kinded in H; rewrite H, H0; reflexivity.
  - apply single_ok; auto. left; unfold unary_rule; auto 8.
  - rewrite visit_node by discriminate. cbn [mapM]. rewrite visit_leaf. unfold visit_terminal.
    unfold kinded in H; rewrite H, H0; reflexivity.
Qed.

Lemma reads_functional t g h : reads t g -> reads t h -> g = h.
Proof. intros A B. apply reads_visit in A, B. congruence. Qed.
