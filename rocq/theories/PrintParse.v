(** * Parsing the text of an expression. *)
From Verif Require Import PyBase PyNum Graph Regex RegexFacts Lexer LexSpec LexerFacts Parser
  GrammarSpec Visitor VisitSpec VisitorFacts ParserFacts ParserComplete ParseFacts NumFacts
  ReDisjoint PrintSpec PrintNum PrintLex.

(** ** Derivations with readings *)
Definition read_as (r : rule) (ts : list token) (h : node) : Prop :=
  exists t, derives r ts t /\ preferred t /\ reads t h.

Definition atom_reads (ts : list token) (h : node) : Prop :=
  read_as Logarithm_r ts h /\ is_product h = false /\ is_power h = false.

Definition int_tok_reads (i : token) (n : node) : Prop :=
  integer_token i /\ reads (PNode Integer_r [PLeaf i]) n.

Inductive factor_reads : list token -> node -> Prop :=
| F_atom ts h : atom_reads ts h -> factor_reads ts h
| F_raise ts h i n : atom_reads ts h -> int_tok_reads i n ->
    factor_reads (ts ++ [tk_raise; i]) (Raise h n).

Inductive chain_reads : list token -> node -> Prop :=
| C_one ts h : factor_reads ts h -> chain_reads ts h
| C_mul ts1 a ts2 b : chain_reads ts1 a -> factor_reads ts2 b ->
    chain_reads (ts1 ++ tk_mul :: ts2) (Multiply a b)
| C_div ts1 a ts2 b : chain_reads ts1 a -> factor_reads ts2 b ->
    chain_reads (ts1 ++ tk_div :: ts2) (Divide a b).

Ltac pref := first [exact I | assumption | apply leaf_pref | apply eof_pref].

Lemma preferred1 r t : preferred t -> (forall cs, r = Product -> cs = [t] -> True) ->
  r <> Shift_spec -> preferred (PNode r [t]).
Proof.
  intros H _ N. apply preferred_node. split; [| repeat constructor; auto].
  destruct r; cbn; auto. contradiction.
Qed.

Lemma factor_power ts h : factor_reads ts h -> read_as Power ts h /\ is_product h = false.
Proof.
  intros [ts' h' [(t & D & P & R) [Hp _]] | ts' h' i n [(t & D & P & R) _] [Hi Hn]].
  - split; auto. exists (PNode Power [t]). split; [now constructor |]. split.
    + apply preferred1; auto. discriminate.
    + now constructor.
  - split; auto. exists (PNode Power [t; PLeaf tk_raise; PNode Integer_r [PLeaf i]]).
    split; [| split].
    + change [tk_raise; i] with (tk_raise :: [i]). constructor; auto; [reflexivity | now constructor].
    + apply preferred_node. split; [exact I |]. repeat constructor; auto.
    + constructor; auto. reflexivity.
Qed.

Lemma chain_product ts h : chain_reads ts h -> read_as Product ts h.
Proof.
  induction 1 as [ts h F | ts1 a ts2 b C IH F | ts1 a ts2 b C IH F].
  - destruct (factor_power _ _ F) as [(t & D & P & R) _]. exists (PNode Product [t]).
    split; [now constructor |]. split; [apply preferred1; auto; discriminate | now constructor].
  - destruct IH as (t1 & D1 & P1 & R1). destruct (factor_power _ _ F) as [(t2 & D2 & P2 & R2) _].
    exists (PNode Product [t1; PLeaf tk_mul; t2]). split; [| split].
    + apply D_product_multiply; auto. reflexivity.
    + apply preferred_node. split; [exact I |]. repeat constructor; auto.
    + constructor; auto. reflexivity.
  - destruct IH as (t1 & D1 & P1 & R1). destruct (factor_power _ _ F) as [(t2 & D2 & P2 & R2) _].
    exists (PNode Product [t1; PLeaf tk_div; t2]). split; [| split].
    + apply D_product_divide; auto. reflexivity.
    + apply preferred_node. split; [exact I |]. repeat constructor; auto.
    + apply R_product_divide; auto. reflexivity.
Qed.

Lemma append_mul ts1 a ts2 b : chain_reads ts1 a -> chain_reads ts2 b ->
  chain_reads (ts1 ++ tk_mul :: ts2) (append Multiply a b).
Proof.
  intros A B. induction B as [ts h F | ts3 x ts4 y C IH F | ts3 x ts4 y C IH F].
  - replace (append Multiply a h) with (Multiply a h); [now constructor |].
    destruct (factor_power _ _ F) as [_ E]. destruct h; auto; discriminate.
  - cbn [append]. replace (ts1 ++ tk_mul :: ts3 ++ tk_mul :: ts4)
      with ((ts1 ++ tk_mul :: ts3) ++ tk_mul :: ts4) by (rewrite <- app_assoc; reflexivity).
    now constructor.
  - cbn [append]. replace (ts1 ++ tk_mul :: ts3 ++ tk_div :: ts4)
      with ((ts1 ++ tk_mul :: ts3) ++ tk_div :: ts4) by (rewrite <- app_assoc; reflexivity).
    now constructor.
Qed.

Lemma append_div ts1 a ts2 b : chain_reads ts1 a -> chain_reads ts2 b ->
  chain_reads (ts1 ++ tk_div :: ts2) (append Divide a b).
Proof.
  intros A B. induction B as [ts h F | ts3 x ts4 y C IH F | ts3 x ts4 y C IH F].
  - replace (append Divide a h) with (Divide a h); [now constructor |].
    destruct (factor_power _ _ F) as [_ E]. destruct h; auto; discriminate.
  - cbn [append]. replace (ts1 ++ tk_div :: ts3 ++ tk_mul :: ts4)
      with ((ts1 ++ tk_div :: ts3) ++ tk_mul :: ts4) by (rewrite <- app_assoc; reflexivity).
    now constructor.
  - cbn [append]. replace (ts1 ++ tk_div :: ts3 ++ tk_div :: ts4)
      with ((ts1 ++ tk_div :: ts3) ++ tk_div :: ts4) by (rewrite <- app_assoc; reflexivity).
    now constructor.
Qed.

(** ** Two exponents in a row *)
Definition is_raise (t : token) : bool := kind_eqb (tkind t) RAISE.
Fixpoint rr (ts : list token) : bool :=
  match ts with
  | [] => false
  | a :: rest =>
    is_raise a && match rest with _ :: b :: _ => is_raise b | _ => false end || rr rest
  end.

Lemma rr_app_l a b : rr a = true -> rr (a ++ b) = true.
Proof.
  induction a as [| x a IH]; [discriminate |]. cbn [rr app]. rewrite !orb_true_iff.
  intros [H | H]; [left | right; auto].
  apply andb_true_iff in H. destruct H as [H1 H2]. rewrite H1. cbn [andb].
  destruct a as [| y [| z a]]; cbn [app]; try discriminate. exact H2.
Qed.
Lemma rr_app_r a b : rr b = true -> rr (a ++ b) = true.
Proof.
  intros H. induction a as [| x a IH]; auto. cbn [rr app]. rewrite IH. apply orb_true_r.
Qed.
Lemma rr_cons x b : rr b = true -> rr (x :: b) = true.
Proof. exact (rr_app_r [x] b). Qed.

Definition head_raise (ts : list token) : bool := match ts with t :: _ => is_raise t | [] => false end.
Definition last_raise (ts : list token) : bool := head_raise (rev ts).
(** the last token but one *)
Definition last2_raise (ts : list token) : bool :=
  match rev ts with _ :: t :: _ => is_raise t | _ => false end.

Lemma rev_cons_head {A} (x : A) l y m : rev (x :: l) = y :: m -> m <> [] ->
  exists m', rev l = y :: m'.
Proof.
  cbn [rev]. intros E N. destruct (rev l) as [| z m'] eqn:R; cbn in E.
  - injection E as _ <-. contradiction.
  - injection E as <- _. eauto.
Qed.

Lemma last_raise_cons x y l : last_raise (x :: y :: l) = last_raise (y :: l).
Proof.
  unfold last_raise. cbn [rev]. destruct (rev l) as [| z m]; reflexivity.
Qed.
Lemma last_raise_app a b : b <> [] -> last_raise (a ++ b) = last_raise b.
Proof.
  intros N. unfold last_raise. rewrite rev_app_distr.
  destruct (rev b) as [| x l] eqn:E; [| reflexivity].
  apply (f_equal (@rev token)) in E. rewrite rev_involutive in E. contradiction.
Qed.

Lemma rr_app a b : rr a = false -> rr b = false -> last_raise a = false -> head_raise b = false ->
  rr (a ++ b) = false.
Proof.
  intros Ha Hb La Hh. induction a as [| x a IH]; [exact Hb |].
  cbn [rr app] in *. apply orb_false_iff in Ha. destruct Ha as [H1 H2].
  apply orb_false_iff. destruct a as [| y a].
  - cbn [app]. split; auto. unfold last_raise in La. cbn in La. rewrite La. reflexivity.
  - rewrite last_raise_cons in La. split; [| now apply IH].
    destruct a as [| z a]; cbn [app] in *; [| exact H1].
    destruct b as [| z b]; [apply andb_false_r |]. cbn in Hh. rewrite Hh. apply andb_false_r.
Qed.

(** a list followed by an exponent *)
Lemma rr_exponent a r i : rr a = false -> last2_raise a = false -> is_raise i = false ->
  rr (a ++ [r; i]) = false.
Proof.
  intros Ha L Hi. induction a as [| x a IH].
  - cbn [app rr]. now rewrite !andb_false_r.
  - cbn [rr app] in *. apply orb_false_iff in Ha. destruct Ha as [H1 H2].
    assert (L' : last2_raise a = false).
    { unfold last2_raise in *. cbn [rev] in L. destruct (rev a) as [| p [| q m]]; auto. }
    apply orb_false_iff. split; [| now apply IH].
    destruct a as [| y [| z a]]; cbn [app] in *.
    + rewrite Hi. apply andb_false_r.
    + unfold last2_raise in L. cbn in L. rewrite L. reflexivity.
    + exact H1.
Qed.

(** ** A derivable text has no two exponents in a row *)
Definition no_raise (ts : list token) : Prop := Forall (fun t => is_raise t = false) ts.
Lemma no_raise_rr ts : no_raise ts -> rr ts = false /\ head_raise ts = false /\ last_raise ts = false.
Proof.
  intros H. assert (G : forall l, no_raise l -> head_raise l = false) by (intros l [| t l' H0 _]; auto).
  split; [| split; [now apply G | apply G; now apply Forall_rev]].
  induction H as [| t l H0 H IH]; auto. cbn [rr]. now rewrite H0, IH.
Qed.

Definition clean (r : rule) (ts : list token) : Prop :=
  rr ts = false /\ head_raise ts = false /\ last_raise ts = false /\
  (r = Logarithm_r \/ r = Basic_spec \/ r = Number_r \/ r = Integer_r -> last2_raise ts = false).

Lemma kinded_not_raise k t : kinded k t -> kind_eqb k RAISE = false -> is_raise t = false.
Proof. unfold kinded, is_raise. intros ->. auto. Qed.
Lemma integer_not_raise t : integer_token t -> is_raise t = false.
Proof. intros [H | H]; apply (kinded_not_raise _ _ H); reflexivity. Qed.

Lemma opt_space_no_raise w : opt_space w -> no_raise w.
Proof. intros [| x H]; repeat constructor. now apply (kinded_not_raise WS). Qed.

Lemma timestamp_no_raise ts : timestamp ts -> no_raise ts.
Proof.
  assert (D : forall t, date_or_integer t -> is_raise t = false).
  { intros t [H | H]; [now apply (kinded_not_raise DATE) | now apply integer_not_raise]. }
  assert (Z : forall z, opt_zone z -> no_raise z).
  { intros z [| t [[H | H] | H]]; repeat constructor;
      [now apply (kinded_not_raise HOUR_MINUTE) | now apply integer_not_raise | now apply (kinded_not_raise TIMEZONE)]. }
  unfold no_raise.
  intros [d Hd|d w c w2 z Hd Hw Hc Hw2 Hz|i z Hi Hz|s w z Hs Hw Hz|d w z Hd Hw Hz].
  - repeat constructor; auto.
  - constructor; auto. apply Forall_app. split.
    + destruct Hw as [| t H | t H]; repeat constructor; [now apply (kinded_not_raise WS) | now apply (kinded_not_raise T)].
    + constructor.
      * destruct Hc as [H | [H | H]]; [now apply (kinded_not_raise HOUR_MINUTE_SECOND) | now apply (kinded_not_raise HOUR_MINUTE) | now apply integer_not_raise].
      * apply Forall_app. split; [now apply opt_space_no_raise | now apply Z].
  - constructor; [now apply integer_not_raise | now apply Z].
  - constructor; [now apply (kinded_not_raise TIMESTAMP) |].
    apply Forall_app. split; [now apply opt_space_no_raise | now apply Z].
  - constructor; auto. apply Forall_app. split; [now apply opt_space_no_raise |].
    repeat constructor. destruct Hz; [now apply (kinded_not_raise TIMEZONE) | now apply (kinded_not_raise TZ)].
Qed.

Lemma clean_join a b r : rr a = false -> head_raise a = false -> last_raise a = false ->
  rr b = false -> head_raise b = false -> last_raise b = false ->
  r = Unit_spec \/ r = Shift_spec \/ r = Product \/ r = Power -> clean r (a ++ b).
Proof.
  intros A1 A2 A3 B1 B2 B3 R. unfold clean. split; [now apply rr_app |]. split; [| split].
  - destruct a; auto.
  - destruct b; [now rewrite app_nil_r | now rewrite last_raise_app by discriminate].
  - intros H. exfalso. destruct R as [-> | [-> | [-> | ->]]]; intuition discriminate.
Qed.

Lemma wrapped o ts c : is_raise o = false -> is_raise c = false -> rr ts = false ->
  head_raise ts = false -> last_raise ts = false ->
  rr (o :: ts ++ [c]) = false /\ last_raise (o :: ts ++ [c]) = false /\ last2_raise (o :: ts ++ [c]) = false.
Proof.
  intros Ho Hc A1 A2 A3.
  assert (E : rr (ts ++ [c]) = false) by (apply rr_app; auto; cbn; rewrite Hc; reflexivity).
  split; [| split].
  - cbn [rr]. now rewrite Ho, E.
  - change (o :: ts ++ [c]) with ((o :: ts) ++ [c]). rewrite last_raise_app by discriminate. exact Hc.
  - unfold last2_raise. change (o :: ts ++ [c]) with ((o :: ts) ++ [c]).
    rewrite rev_app_distr. cbn [rev app]. unfold last_raise in A3.
    destruct (rev ts) as [| x l]; cbn [app]; [exact Ho | exact A3].
Qed.

Lemma derives_clean r ts t : derives r ts t -> clean r ts.
Proof.
  assert (Sg : forall r x, is_raise x = false -> clean r [x]).
  { intros r0 x H. unfold clean, last_raise, last2_raise. cbn. rewrite H. auto. }
  induction 1 as
    [ | ts t D IH
    | ts p D IH | ts p w1 op w2 ns n D IH H1 Hop H2 Dn IHn | ts p w1 op w2 ns D IH H1 Hop H2 Hns
    | ts p D IH | ts1 p ts2 q D1 IH1 D2 IH2 | ts1 p o ts2 q D1 IH1 Ho D2 IH2 | ts1 p o ts2 q D1 IH1 Ho D2 IH2
    | ts1 p ws ts2 q D1 IH1 Hne Hws D2 IH2
    | ts l is i D1 IH1 D2 IH2 | ts l D IH | ts l r is i D1 IH1 Hr D2 IH2 | ts l e D IH He
    | ts b D IH | l ts s c Hl D IH Hc | i Hi | o ts s c Ho D IH Hc | ts n D IH
    | i Hi | ts i D IH | f Hf ].
  - unfold clean. cbn. auto.
  - destruct IH as (A & B & C & _). unfold clean. intuition discriminate.
  - destruct IH as (A & B & C & _). unfold clean. intuition discriminate.
  - destruct IH as (A & B & C & _).
    assert (N : no_raise (w1 ++ op :: w2 ++ ns)).
    { unfold no_raise. rewrite Forall_app, Forall_cons_iff, Forall_app.
      split; [now apply opt_space_no_raise |]. split; [now apply (kinded_not_raise SHIFT_OP) |].
      split; [now apply opt_space_no_raise |].
      inversion Dn as [ | | | | | | | | | | | | | | | | | | | |? ? Di| f Hf]; subst.
      - apply derives_integer_inv in Di as (x & -> & Hx & _). repeat constructor. now apply integer_not_raise.
      - repeat constructor. now apply (kinded_not_raise FLOAT). }
    destruct (no_raise_rr _ N) as (N1 & N2 & N3). apply clean_join; auto.
  - destruct IH as (A & B & C & _).
    assert (N : no_raise (w1 ++ op :: w2 ++ ns)).
    { unfold no_raise. rewrite Forall_app, Forall_cons_iff, Forall_app.
      split; [now apply opt_space_no_raise |]. split; [now apply (kinded_not_raise SHIFT_OP) |].
      split; [now apply opt_space_no_raise | now apply timestamp_no_raise]. }
    destruct (no_raise_rr _ N) as (N1 & N2 & N3). apply clean_join; auto.
  - destruct IH as (A & B & C & _). unfold clean. intuition discriminate.
  - destruct IH1 as (A1 & A2 & A3 & _), IH2 as (B1 & B2 & B3 & _). apply clean_join; auto.
  - destruct IH1 as (A1 & A2 & A3 & _), IH2 as (B1 & B2 & B3 & _).
    assert (K : is_raise o = false) by now apply (kinded_not_raise MULTIPLY).
    apply clean_join; auto; [cbn [rr]; now rewrite K, B1 |].
    destruct ts2; [unfold last_raise; cbn; exact K | now rewrite last_raise_cons].
  - destruct IH1 as (A1 & A2 & A3 & _), IH2 as (B1 & B2 & B3 & _).
    assert (K : is_raise o = false) by now apply (kinded_not_raise DIVIDE).
    apply clean_join; auto; [cbn [rr]; now rewrite K, B1 |].
    destruct ts2; [unfold last_raise; cbn; exact K | now rewrite last_raise_cons].
  - destruct IH1 as (A1 & A2 & A3 & _), IH2 as (B1 & B2 & B3 & _).
    assert (N : no_raise ws).
    { eapply Forall_impl; [| exact Hws]. intros x Hx. now apply (kinded_not_raise WS). }
    destruct (no_raise_rr _ N) as (N1 & N2 & N3).
    apply clean_join; auto; [now apply rr_app | destruct ws; [contradiction | exact N2] |].
    destruct ts2; [now rewrite app_nil_r | now rewrite last_raise_app by discriminate].
  - destruct IH1 as (A1 & A2 & A3 & _), IH2 as (B1 & B2 & B3 & _). apply clean_join; auto.
  - destruct IH as (A & B & C & _). unfold clean. intuition discriminate.
  - destruct IH1 as (A1 & A2 & A3 & A4).
    apply derives_integer_inv in D2 as (x & -> & Hx & _).
    pose proof (integer_not_raise x Hx) as K.
    unfold clean. split; [apply rr_exponent; auto |].
    split; [| split].
    + destruct ts; [| exact A2].
      apply derives_log_inv in D1 as [(y & ys & E & _) | (y & E & _)]; discriminate E.
    + rewrite last_raise_app by discriminate. unfold last_raise. cbn. exact K.
    + intuition discriminate.
  - destruct IH as (A1 & A2 & A3 & _).
    assert (K : is_raise e = false) by now apply (kinded_not_raise UNICODE_EXPONENT).
    apply clean_join; auto; cbn; now rewrite K.
  - destruct IH as (A & B & C & E). unfold clean. auto 10.
  - destruct IH as (A & B & C & _).
    assert (K1 : is_raise l = false) by now apply (kinded_not_raise LOG).
    assert (K2 : is_raise c = false) by now apply (kinded_not_raise CLOSE_PAREN).
    destruct (wrapped l ts c) as (W1 & W2 & W3); auto. unfold clean. auto.
  - apply Sg. now apply (kinded_not_raise ID).
  - destruct IH as (A & B & C & _).
    assert (K1 : is_raise o = false) by now apply (kinded_not_raise OPEN_PAREN).
    assert (K2 : is_raise c = false) by now apply (kinded_not_raise CLOSE_PAREN).
    destruct (wrapped o ts c) as (W1 & W2 & W3); auto. unfold clean. auto.
  - destruct IH as (A & B & C & E). unfold clean. auto 10.
  - apply Sg. now apply integer_not_raise.
  - destruct IH as (A & B & C & E). unfold clean. auto 10.
  - apply Sg. now apply (kinded_not_raise FLOAT).
Qed.

(** ** The reading of the tokens *)
Lemma number_tree k t n : num_reads k t n -> read_as Number_r [mkTok k t] n.
Proof.
  intros [_ [[K (z & E & ->)] | [-> (d & E & ->)]]].
  - assert (Hi : integer_token (mkTok k t)) by (destruct K as [-> | ->]; [left | right]; reflexivity).
    exists (PNode Number_r [PNode Integer_r [PLeaf (mkTok k t)]]). split; [| split].
    + apply D_number_integer. now constructor.
    + apply preferred1; [apply preferred1; [exact I | auto | discriminate] | auto | discriminate].
    + apply R_number_integer. now constructor.
  - exists (PNode Number_r [PLeaf (mkTok FLOAT t)]). split; [| split].
    + apply D_number_float. reflexivity.
    + apply preferred1; [exact I | auto | discriminate].
    + now constructor.
Qed.

Lemma atom_basic ts h : read_as Basic_spec ts h -> is_product h = false -> is_power h = false ->
  atom_reads ts h.
Proof.
  intros (t & D & P & R) H1 H2. split; auto. exists (PNode Logarithm_r [t]). split; [now constructor |].
  split; [apply preferred1; auto; discriminate | now constructor].
Qed.

Lemma renumber_atom v : is_product (renumber v) = false /\ is_power (renumber v) = false.
Proof. destruct v as [z | d | s]; cbn; auto. destruct (dexp d =? 0)%Z; auto. Qed.

Lemma atom_number v : number_ok v -> atom_reads [num_tok v] (renumber v).
Proof.
  intros H. destruct (number_tree _ _ _ (num_token v (or_introl H))) as (t & D & P & R).
  destruct (renumber_atom v). apply atom_basic; auto.
  exists (PNode Basic_spec [t]). split; [now constructor |].
  split; [apply preferred1; auto; discriminate |].
  inversion D; subst; constructor; exact R.
Qed.

Lemma atom_paren ts h : read_as Shift_spec ts h -> is_product h = false -> is_power h = false ->
  atom_reads (tk_open :: ts ++ [tk_close]) h.
Proof.
  intros (t & D & P & R) H1 H2. apply atom_basic; auto.
  exists (PNode Basic_spec [PLeaf tk_open; t; PLeaf tk_close]). split; [| split].
  - apply (D_basic_paren tk_open ts t tk_close); auto; reflexivity.
  - apply preferred_node. split; [exact I |]. constructor; [exact I |]. constructor; auto. repeat constructor.
  - apply R_basic_paren; auto; reflexivity.
Qed.

Lemma shift_product ts h : read_as Product ts h -> read_as Shift_spec ts h.
Proof.
  intros (t & D & P & R). exists (PNode Shift_spec [t]). split; [now constructor |].
  split; [| now constructor]. apply preferred_node. split; [| repeat constructor; auto].
  cbn [local_ok last]. inversion D; subst; exact I.
Qed.

Lemma shift_log ts h f : In f log_names -> read_as Shift_spec ts h ->
  read_as Shift_spec (tk_log f :: ts ++ [tk_close]) (Logarithm f h).
Proof.
  intros Hf (t & D & P & R). apply shift_product, chain_product, C_one, F_atom.
  split; auto. exists (PNode Logarithm_r [PLeaf (tk_log f); t; PLeaf tk_close]). split; [| split].
  - constructor; auto; reflexivity.
  - apply preferred_node. split; [exact I |]. constructor; [exact I |]. constructor; auto. repeat constructor.
  - apply (R_log _ _ _ _ f [] (u "re ")); auto; try reflexivity.
Qed.

Lemma mid_leaves p x : (p :: map PLeaf [tk_space] ++ PLeaf tk_at :: map PLeaf [tk_space]) ++ [x]
  = (p :: map PLeaf [tk_space; tk_at; tk_space]) ++ [x].
Proof. reflexivity. Qed.

Lemma spacing_mid : Forall (fun t => kinded WS t \/ kinded SHIFT_OP t) [tk_space; tk_at; tk_space].
Proof.
  constructor; [left; reflexivity |]. constructor; [right; reflexivity |].
  constructor; [left; reflexivity | constructor].
Qed.

Lemma shift_number ts h v : read_as Product ts h -> number_ok v ->
  read_as Shift_spec (ts ++ tk_space :: tk_at :: tk_space :: [num_tok v]) (Shift h (renumber v)).
Proof.
  intros (t & D & P & R) H. destruct (number_tree _ _ _ (num_token v (or_introl H))) as (n & Dn & Pn & Rn).
  exists (PNode Shift_spec ((t :: map PLeaf [tk_space] ++ PLeaf tk_at :: map PLeaf [tk_space]) ++ [n])).
  split; [| split].
  - apply (D_shift_number ts t [tk_space] tk_at [tk_space] [num_tok v] n); auto;
      try (constructor; reflexivity); reflexivity.
  - rewrite mid_leaves. apply preferred_node. split; [| repeat constructor; auto].
    cbn [app map local_ok last]. inversion Dn; subst; exact I.
  - rewrite mid_leaves. apply R_shift; auto. apply spacing_mid.
Qed.

Lemma shift_date ts h raw : read_as Product ts h -> date_ok raw ->
  read_as Shift_spec (ts ++ tk_space :: tk_at :: tk_space :: date_toks raw) (Shift h (Unhandled raw)).
Proof.
  intros (t & D & P & R) (ns & T & Hts & Hn). rewrite (date_toks_ok raw ns T).
  exists (PNode Shift_spec ((t :: map PLeaf [tk_space] ++ PLeaf tk_at :: map PLeaf [tk_space])
    ++ [PNode Timestamp_r (map PLeaf ns)])). split; [| split].
  - apply (D_shift_timestamp ts t [tk_space] tk_at [tk_space] ns); auto;
      try (constructor; reflexivity); reflexivity.
  - rewrite mid_leaves. apply preferred_node. split.
    + cbn [app map local_ok last]. destruct ns as [| x [| y ns]]; cbn [map]; auto.
    + cbn [app map]. constructor; [exact P |]. do 3 (constructor; [exact I |]). constructor; [| constructor].
      apply preferred_node. split; [exact I |]. apply Forall_leaf.
  - rewrite mid_leaves. apply R_shift; auto; [apply spacing_mid |].
    rewrite <- (tokenises_concat _ _ _ T). constructor.
Qed.

Lemma exponent_reads v : exponent_ok v -> int_tok_reads (num_tok v) (renumber v).
Proof.
  intros H. pose proof (num_token v (or_intror H)) as R. pose proof (num_kind_exponent v H) as K.
  assert (Hi : integer_token (num_tok v)) by (destruct K as [E | E]; [left | right]; exact E).
  split; auto. destruct R as [_ [[_ (z & E & ->)] | [E _]]]; [now constructor |].
  rewrite E in K. destruct K; discriminate.
Qed.

Lemma raise_ok ts a i n : chain_reads ts a -> int_tok_reads i n ->
  match raise_last a n with
  | Some h => chain_reads (ts ++ [tk_raise; i]) h
  | None => rr (ts ++ [tk_raise; i]) = true
  end.
Proof.
  intros C I.
  assert (G : forall ts b, factor_reads ts b ->
    match raise_factor b n with
    | Some h => factor_reads (ts ++ [tk_raise; i]) h
    | None => rr (ts ++ [tk_raise; i]) = true
    end).
  { intros ts' b [ts2 h A | ts2 h i' n' A I'].
    - destruct A as (A & A1 & A2). destruct h; try discriminate;
        cbn [raise_factor]; apply F_raise; auto; split; auto.
    - cbn [raise_factor]. rewrite <- app_assoc. apply rr_app_r. reflexivity. }
  destruct C as [ts h F | ts1 x ts2 y C F | ts1 x ts2 y C F].
  - pose proof (G _ _ F) as Gh. destruct (factor_power _ _ F) as [_ E].
    destruct h; try discriminate; cbn [raise_last];
      (destruct (raise_factor _ _); [now constructor | exact Gh]).
  - cbn [raise_last]. pose proof (G _ _ F) as Gh. rewrite <- app_assoc.
    change ((tk_mul :: ts2) ++ [tk_raise; i]) with (tk_mul :: ts2 ++ [tk_raise; i]).
    destruct (raise_factor y n); cbn [option_map]; [now constructor |].
    apply rr_app_r, rr_cons. exact Gh.
  - cbn [raise_last]. pose proof (G _ _ F) as Gh. rewrite <- app_assoc.
    change ((tk_div :: ts2) ++ [tk_raise; i]) with (tk_div :: ts2 ++ [tk_raise; i]).
    destruct (raise_factor y n); cbn [option_map]; [now constructor |].
    apply rr_app_r, rr_cons. exact Gh.
Qed.

Theorem toks_read g : forall sh, writable sh g ->
  match reread g with
  | Some h => chain_reads (toks g) h
  | None => rr (toks g) = true
  end.
Proof.
  induction g as [raw | v raw | x | a IHa b IHb | a IHa b IHb | a IHa b IHb | a IHa b IHb | f t IHt];
    intros sh W; cbn [writable toks reread] in *.
  - destruct W.
  - apply C_one, F_atom, atom_number. exact W.
  - apply C_one, F_atom. apply atom_basic; auto.
    exists (PNode Basic_spec [PLeaf (mkTok ID x)]). split; [now constructor |].
    split; [apply preferred1; [exact I | auto | discriminate] |]. change (Identifier x) with (Identifier (ttext (mkTok ID x))).
    constructor. reflexivity.
  - destruct b as [| v r | | | | | |]; try contradiction. destruct W as [Wa We].
    specialize (IHa sh Wa). cbn [toks]. destruct (reread a) as [a' |].
    + apply raise_ok; [exact IHa | now apply exponent_reads].
    + now apply rr_app_l.
  - destruct W as [Wa Wb]. specialize (IHa _ Wa). specialize (IHb _ Wb).
    destruct (reread a) as [a' |]; cbn [both_then]; [| now apply rr_app_l].
    destruct (reread b) as [b' |]; cbn [both_then]; [| now apply rr_app_r, rr_cons].
    now apply append_mul.
  - destruct W as [Wa Wb]. specialize (IHa _ Wa). specialize (IHb _ Wb).
    destruct (reread a) as [a' |]; cbn [both_then]; [| now apply rr_app_l].
    destruct (reread b) as [b' |]; cbn [both_then]; [| now apply rr_app_r, rr_cons].
    now apply append_div.
  - destruct b as [raw | v r | | | | | |]; try contradiction; destruct W as [Wa Wb];
      specialize (IHa _ Wa); cbn [toks]; (destruct (reread a) as [a' |]; cbn [option_map];
      [| now apply rr_cons, rr_app_l]); apply C_one, F_atom.
    + replace (tk_open :: toks a ++ tk_space :: tk_at :: tk_space :: date_toks raw ++ [tk_close])
        with (tk_open :: (toks a ++ tk_space :: tk_at :: tk_space :: date_toks raw) ++ [tk_close])
        by (rewrite <- app_assoc; reflexivity).
      apply atom_paren; auto. apply shift_date; auto. now apply chain_product.
    + replace (tk_open :: toks a ++ tk_space :: tk_at :: tk_space :: [num_tok v] ++ [tk_close])
        with (tk_open :: (toks a ++ tk_space :: tk_at :: tk_space :: [num_tok v]) ++ [tk_close])
        by (rewrite <- app_assoc; reflexivity).
      apply atom_paren; auto. apply shift_number; auto. now apply chain_product.
  - destruct W as [Hf Wt]. specialize (IHt _ Wt). destruct (reread t) as [t' |]; cbn [option_map].
    + apply C_one, F_atom.
      replace (tk_open :: tk_log f :: toks t ++ [tk_close; tk_close])
        with (tk_open :: (tk_log f :: toks t ++ [tk_close]) ++ [tk_close])
        by (cbn [app]; rewrite <- app_assoc; reflexivity).
      apply atom_paren; auto. apply shift_log; auto. apply shift_product. now apply chain_product.
    + apply rr_cons, rr_cons. now apply rr_app_l.
Qed.

(** ** No surrounding white space *)
Lemma strip_same s c d s1 s2 : s = c :: s1 -> s = s2 ++ [d] -> is_space c = false ->
  is_space d = false -> strip s = s.
Proof.
  intros E1 E2 Hc Hd. unfold strip. rewrite E1 at 1. rewrite lstrip_head by exact Hc.
  rewrite <- E1, E2 at 1. rewrite rev_app_distr. cbn [rev app]. rewrite lstrip_head by exact Hd.
  rewrite E2. cbn [rev]. now rewrite rev_involutive.
Qed.

Definition blank_free (s : str) : Prop := Forall (fun c => is_space c = false) s.

Lemma range_not_space rs c :
  forallb (fun p => forallb (fun i => negb (is_space (fst p + N.of_nat i)%N))
                      (seq 0 (S (N.to_nat (snd p - fst p)%N)))) rs = true ->
  in_ranges rs c = true -> is_space c = false.
Proof.
  unfold in_ranges. intros H E. apply existsb_exists in E as ([lo hi] & Hin & E).
  rewrite forallb_forall in H. specialize (H _ Hin). cbn [fst snd] in *.
  apply andb_true_iff in E as [A B]. apply N.leb_le in A, B.
  rewrite forallb_forall in H. specialize (H (N.to_nat (c - lo)) ltac:(apply in_seq; lia)).
  rewrite N2Nat.id in H. replace (lo + (c - lo))%N with c in H by lia.
  now apply negb_true_iff in H.
Qed.

Lemma start_not_space c : in_ranges start_ranges c = true -> is_space c = false.
Proof. apply range_not_space; vm_compute; reflexivity. Qed.
Lemma id_not_space c : in_ranges id_ranges c = true -> is_space c = false.
Proof. apply range_not_space; vm_compute; reflexivity. Qed.

Fixpoint re_blank_free (r : re) : bool :=
  match r with
  | Eps => true
  | Chr rs => forallb (fun p => N.leb 33 (fst p) && N.leb (snd p) 126) rs
  | Alt a b | Seq a b => re_blank_free a && re_blank_free b
  | Star a => re_blank_free a
  end.
Lemma ascii_not_space c : (33 <= c <= 126)%N -> is_space c = false.
Proof.
  intros H. unfold is_space. cbn [existsb fst snd].
  repeat match goal with |- context [N.leb ?a ?b] => destruct (N.leb_spec a b); cbn [andb orb]; try lia end; reflexivity.
Qed.
Lemma re_blank_free_ok r w : re_blank_free r = true -> matches r w -> blank_free w.
Proof.
  unfold blank_free. intros H M. induction M as [| rs c Hc | | | | | ]; cbn [re_blank_free] in H.
  - constructor.
  - constructor; [| constructor]. apply ascii_not_space. unfold in_ranges in Hc.
    apply existsb_exists in Hc. destruct Hc as (p & Hp & Hc). rewrite forallb_forall in H.
    specialize (H p Hp). apply andb_true_iff in H, Hc. rewrite !N.leb_le in *. lia.
  - apply andb_true_iff in H. tauto.
  - apply andb_true_iff in H. tauto.
  - apply andb_true_iff in H. apply Forall_app. tauto.
  - constructor.
  - apply Forall_app. auto.
Qed.

Lemma nonempty_last (s : str) (P : N -> Prop) : s <> [] -> Forall P s -> exists s' c, s = s' ++ [c] /\ P c.
Proof.
  intros N H. destruct (exists_last N) as (s' & c & ->). exists s', c. split; auto.
  apply Forall_app in H. destruct H as [_ H]. now inversion H.
Qed.

Lemma num_last v : number_ok v \/ exponent_ok v ->
  exists s c, num_str v = s ++ [c] /\ is_space c = false.
Proof.
  intros H. pose proof (num_token v H) as R.
  destruct (num_start v _ R) as (c & s & E & _). pose proof (number_kind_in v _ R) as K.
  destruct R as [M _].
  apply (nonempty_last (num_str v) (fun c => is_space c = false)); [rewrite E; discriminate |].
  apply (re_blank_free_ok (kind_re (num_kind v))); auto.
  destruct K as [<- | [<- | [<- | []]]]; reflexivity.
Qed.

Lemma last_char sh g : writable sh g -> exists s c, node_str g = s ++ [c] /\ is_space c = false.
Proof.
  revert sh. induction g as [raw | v raw | x | a IHa b IHb | a IHa b IHb | a IHa b IHb | a IHa b IHb | f t IHt];
    intros sh W; cbn [writable node_str] in *.
  - destruct W.
  - apply num_last; auto.
  - destruct W as (Hn & Hw & _). apply (nonempty_last x (fun c => is_space c = false)); auto.
    eapply Forall_impl; [| exact Hw]. exact id_not_space.
  - destruct b as [| v r | | | | | |]; try contradiction. destruct W as [_ We].
    destruct (num_last v (or_intror We)) as (s & c & E & H). cbn [node_str]. rewrite E.
    exists (node_str a ++ u "^" ++ s), c. rewrite <- !app_assoc. auto.
  - destruct W as [_ Wb]. destruct (IHb _ Wb) as (s & c & -> & H).
    exists (node_str a ++ u "·" ++ s), c. rewrite <- !app_assoc. auto.
  - destruct W as [_ Wb]. destruct (IHb _ Wb) as (s & c & -> & H).
    exists (node_str a ++ u "/" ++ s), c. rewrite <- !app_assoc. auto.
  - exists (u "(" ++ node_str a ++ u " @ " ++ node_str b), 41%N. rewrite <- !app_assoc. auto.
  - exists (u "(" ++ f ++ u "(re " ++ node_str t ++ [41%N]), 41%N. rewrite <- !app_assoc. auto.
Qed.

Lemma strip_node sh g : writable sh g -> strip (node_str g) = node_str g.
Proof.
  intros W. destruct (first_char sh g W) as (c & s1 & E1 & Hc).
  destruct (last_char sh g W) as (s2 & d & E2 & Hd).
  apply (strip_same _ c d s1 s2); auto. now apply start_not_space.
Qed.

(** ** The text of an expression, parsed *)
Theorem parse_node_str g : writable false g ->
  parse (node_str g) = match reread g with Some h => Ok h | None => Err ESyntax end.
Proof.
  intros W. pose proof (node_tokens g W) as T. pose proof (toks_read g false W) as R.
  pose proof (strip_node false g W) as S. pose proof (node_text false g W) as Tx.
  destruct (reread g) as [h |].
  - apply parse_reads; auto. destruct (shift_product _ _ (chain_product _ _ R)) as (t & D & P & Rd).
    exists (toks g), (PNode Unit_spec [t; PEOF]). rewrite S. split; auto. split; [now constructor |].
    split; [| now constructor]. apply preferred_node. split; [exact I |]. repeat constructor; exact P.
  - destruct (parse_cases (node_str g) Tx) as (ts & T' & C). rewrite S in T'.
    rewrite (tokenises_unique _ _ _ _ T' T) in C. clear T'.
    assert (N : forall t, ~ derives Unit_spec (toks g) t).
    { intros t D. apply derives_clean in D. destruct D as (D & _). rewrite R in D. discriminate. }
    destruct C as [(t & g' & _ & D & _) | [[E _] | (t & e & _ & D & _)]];
      [destruct (N t D) | exact E | destruct (N t D)].
Qed.
