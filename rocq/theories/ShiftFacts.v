(** * The modes of the tokeniser compared. *)
From Verif Require Import PyBase PyNum Graph Regex RegexFacts Lexer LexSpec LexerFacts Parser
  GrammarSpec Visitor VisitSpec VisitorFacts ParserFacts ParserComplete ParseFacts NumFacts
  ReDisjoint PrintSpec PrintNum PrintLex PrintParse ShiftSpec.
Local Open Scope N_scope.

(** ** Moving a token from one mode to another *)
Fixpoint splits {A} (before l : list A) : list (list A * A) :=
  match l with [] => [] | x :: l' => (before, x) :: splits (before ++ [x]) l' end.

Lemma splits_in {A} (b : list A) x a p : In (p ++ b, x) (splits p (b ++ x :: a)).
Proof.
  revert p. induction b as [| y b IH]; intros p; cbn [app splits].
  - left. now rewrite app_nil_r.
  - right. specialize (IH (p ++ [y])). rewrite <- app_assoc in IH. exact IH.
Qed.
Lemma splits_out {A} (l p b : list A) x : In (b, x) (splits p l) -> exists a, p ++ l = b ++ x :: a.
Proof.
  revert p. induction l as [| y l IH]; intros p; cbn [splits]; [intros [] |]. intros [E | H].
  - injection E as -> ->. eauto.
  - destruct (IH _ H) as [a E]. exists a. rewrite <- app_assoc in E. exact E.
Qed.

Fixpoint covered (bs : list re) (r r' : re) : bool :=
  re_mem r' bs || disjoint r' r ||
  match r' with Alt a b => covered bs r a && covered bs r b | _ => false end.
Lemma covered_ok bs r r' w : covered bs r r' = true -> is_text w -> matches r w ->
  (forall x, In x bs -> ~ matches x w) -> ~ matches r' w.
Proof.
  intros C T M N. induction r' as [| rs | a IHa b IHb | a IHa b IHb | a IHa]; cbn [covered] in C;
    apply orb_true_iff in C; destruct C as [C | C]; try discriminate;
    try (apply orb_true_iff in C; destruct C as [C | C];
         [apply N; now apply re_mem_in | intros M'; exact (disjoint_ok _ _ C w T M' M)]).
  apply andb_true_iff in C. destruct C as [C1 C2]. intros M'. apply matches_alt in M'.
  destruct M'; [now apply IHa | now apply IHb].
Qed.

Fixpoint single (r : re) : bool :=
  match r with Chr _ => true | Alt a b => single a && single b | _ => false end.
Lemma single_ok r w : single r = true -> matches r w -> List.length w = 1%nat.
Proof.
  intros S M. induction M; cbn [single] in S; try discriminate; auto.
  - apply andb_true_iff in S. tauto.
  - apply andb_true_iff in S. tauto.
Qed.

Definition transfer (m m' : mode) (ok : kind -> bool) : bool :=
  forallb (fun kr => re_mem (snd kr) (map snd (rules m)) || single (snd kr)) (rules m') &&
  forallb (fun bx => negb (ok (fst (snd bx))) ||
    existsb (fun bx' => kind_eqb (fst (snd bx')) (fst (snd bx)) && re_eqb (snd (snd bx')) (snd (snd bx)) &&
                        forallb (fun kr => covered (map snd (fst bx)) (snd (snd bx)) (snd kr)) (fst bx'))
            (splits [] (rules m'))) (splits [] (rules m)).

Lemma transfer_ok m m' ok k w rest : transfer m m' ok = true -> is_text w -> takes m k w rest ->
  ok k = true -> takes m' k w rest.
Proof.
  unfold transfer. intros H T [N L (b & r & a & E & M & F)] K.
  apply andb_true_iff in H. destruct H as [H1 H2]. constructor; auto.
  - intros k' r' w' rest' Hin Ew M'. rewrite forallb_forall in H1. specialize (H1 _ Hin). cbn [snd] in H1.
    apply orb_true_iff in H1. destruct H1 as [H1 | H1].
    + apply re_mem_in, in_map_iff in H1. destruct H1 as ([k2 r2] & E2 & H1). cbn in E2. subst r2.
      exact (L k2 r' w' rest' H1 Ew M').
    + apply single_ok in M'; auto. rewrite M'. destruct w; [contradiction | cbn; lia].
  - rewrite forallb_forall in H2. specialize (H2 (b, (k, r))). rewrite E in H2.
    specialize (H2 (splits_in b (k, r) a [])). cbn [fst snd] in H2. rewrite K in H2. cbn [negb orb] in H2.
    apply existsb_exists in H2. destruct H2 as ([b' [k' r']] & Hin & H2). cbn [fst snd] in H2.
    apply andb_true_iff in H2. destruct H2 as [H2 H3]. apply andb_true_iff in H2. destruct H2 as [H2 H4].
    apply kind_eqb_eq in H2. apply re_eqb_eq in H4. subst k' r'.
    destruct (splits_out _ _ _ _ Hin) as [a' E']. cbn [app] in E'.
    exists b', r, a'. split; auto. split; auto. intros k' r' Hb. rewrite forallb_forall in H3.
    specialize (H3 _ Hb). cbn [snd] in H3. apply (covered_ok _ _ _ _ H3 T M).
    intros x Hx. apply in_map_iff in Hx. destruct Hx as ([k2 r2] & <- & Hx). exact (F k2 r2 Hx).
Qed.

Definition ok_default (k : kind) : bool := negb (date_kind k).
Definition ok_id (k : kind) : bool := negb (date_kind k) && negb (not_after_unit k).
Lemma transfer_default : transfer SHIFT_MODE DEFAULT_MODE ok_default = true. Proof. vm_compute. reflexivity. Qed.
Lemma transfer_id : transfer SHIFT_MODE ID_SEEN ok_id = true. Proof. vm_compute. reflexivity. Qed.

Lemma default_kinds k w rest : takes DEFAULT_MODE k w rest -> ok_default k = true.
Proof.
  intros [_ _ (b & r & a & E & _)]. assert (H : In (k, r) (rules DEFAULT_MODE)) by (rewrite E; apply in_elt).
  assert (C : forallb (fun kr => ok_default (fst kr)) (rules DEFAULT_MODE) = true) by (vm_compute; reflexivity).
  rewrite forallb_forall in C. exact (C _ H).
Qed.
Lemma id_kinds k w rest : takes ID_SEEN k w rest -> ok_id k = true.
Proof.
  intros [_ _ (b & r & a & E & M & F)]. assert (H : In (k, r) (rules ID_SEEN)) by (rewrite E; apply in_elt).
  assert (C : forallb (fun kr => ok_id (fst kr) || kind_eqb (fst kr) PERIOD && re_eqb (snd kr) (ch 46)) (rules ID_SEEN) = true)
    by (vm_compute; reflexivity).
  rewrite forallb_forall in C. specialize (C _ H). cbn [fst snd] in C. apply orb_true_iff in C.
  destruct C as [C | C]; auto. exfalso. apply andb_true_iff in C. destruct C as [C1 C2].
  apply kind_eqb_eq in C1. apply re_eqb_eq in C2. subst k r. apply matches_ch in M. subst w.
  apply (F MULTIPLY (Alt (ch 46) (ch 45))); [| apply matches_alt; left; now apply matches_ch].
  cbn [rules id_seen_rules app] in E.
  destruct b as [| x [| y b]]; cbn [app] in E; try discriminate E. injection E as _ <- _. right. left. reflexivity.
Qed.

Definition mode_of (after_unit : bool) : mode := if after_unit then ID_SEEN else DEFAULT_MODE.

Lemma takes_text m k w rest : takes m k w rest -> is_text w.
Proof.
  intros [_ _ (b & r & a & E & M & _)]. apply (matches_text r); auto.
  apply (rules_text m k). rewrite E. apply in_elt.
Qed.

Theorem modes_alike s ts : tokenises SHIFT_MODE s ts ->
  forall after_unit, tokenises (mode_of after_unit) s ts <-> unaffected after_unit ts.
Proof.
  intros H. remember SHIFT_MODE as m eqn:Em.
  induction H as [m | m k w rest ts Hk Hr IH]; intros au; subst m.
  - split; [intros _; exact I | intros _; constructor].
  - specialize (IH eq_refl). cbn [unaffected tkind]. split.
    + intros H. inversion H as [| ? k' w' rest' ts' Hk' Hr' Em Ew Et]; subst.
      apply app_inv_head in Ew. subst rest'.
      assert (K : date_kind k = false /\ (au = true -> not_after_unit k = false)).
      { destruct au.
        - apply id_kinds in Hk'. unfold ok_id in Hk'. apply andb_true_iff in Hk'.
          rewrite !negb_true_iff in Hk'. tauto.
        - apply default_kinds in Hk'. unfold ok_default in Hk'. rewrite negb_true_iff in Hk'.
          split; [auto | discriminate]. }
      destruct K as [K1 K2]. split; auto. split; auto.
      destruct au; cbn [mode_of next_mode negb] in Hr'.
      * apply (IH false) in Hr'. destruct k; auto.
      * destruct k; auto; try (now apply (IH false) in Hr'). now apply (IH true) in Hr'.
    + intros (K1 & K2 & K3). constructor.
      * pose proof (takes_text _ _ _ _ Hk) as T. destruct au.
        -- apply (transfer_ok _ _ ok_id _ _ _ transfer_id T Hk). unfold ok_id. now rewrite K1, K2.
        -- apply (transfer_ok _ _ ok_default _ _ _ transfer_default T Hk). unfold ok_default. now rewrite K1.
      * destruct au; cbn [mode_of next_mode negb] in *.
        -- apply (IH false). destruct k; auto.
        -- destruct k; try (apply (IH false); exact K3); [exact Hr | apply (IH true); exact K3].
Qed.

(** ** Text before a closing bracket *)
Lemma no_close_all m : no_close m = true. Proof. destruct m; vm_compute; reflexivity. Qed.

Lemma takes_extend_any m k w x rest : is_text (w ++ x ++ 41 :: rest) ->
  takes m k w x -> takes m k w (x ++ 41 :: rest).
Proof.
  intros Ht [N L F]. constructor; auto. intros k' r' w' rest' Hin E M.
  rewrite app_assoc in E. destruct (prefix_cases _ _ _ _ E) as [[y Ey] | (y & -> & Hy & z & Ez)].
  - symmetry in Ey. exact (L k' r' w' y Hin Ey M).
  - exfalso. pose proof (no_close_all m) as C. unfold no_close in C. rewrite forallb_forall in C.
    specialize (C _ Hin). cbn [snd] in C.
    destruct y as [| c y]; [contradiction |]. cbn in Ez. injection Ez as <- ->.
    destruct w as [| c w]; [contradiction |].
    apply is_text_app in Ht. destruct Ht as [T1 T2]. apply is_text_app in T2. destruct T2 as [T2 T3].
    apply is_text_cons in T1, T3. destruct T1 as [T0 T1], T3 as [T3 T4]. apply is_text_app in T4.
    apply (disjoint_ok _ _ C (((c :: w) ++ x) ++ 41 :: y)); auto.
    + repeat (rewrite is_text_app || rewrite is_text_cons). tauto.
    + replace (((c :: w) ++ x) ++ 41 :: y) with ([c] ++ (w ++ x) ++ [41] ++ y)
        by (cbn; now rewrite <- !app_assoc).
      apply M_seq.
      { constructor. unfold in_ranges. cbn [existsb fst snd]. rewrite orb_false_r.
        apply andb_true_iff. rewrite !N.leb_le. lia. }
      apply M_seq; [apply matches_any_text; apply is_text_app; tauto |].
      apply M_seq; [now apply matches_ch | apply matches_any_text; tauto].
Qed.

Definition mode_after (m : mode) (ts : list token) : mode := fold_left next_mode (map tkind ts) m.

Lemma tokenises_extend_any m raw ns rest ts : tokenises m raw ns ->
  tokenises (mode_after m ns) (41 :: rest) ts ->
  tokenises m (raw ++ 41 :: rest) (ns ++ ts).
Proof.
  induction 1 as [m | m k w x ns Hk Hr IH]; intros T; [exact T |].
  rewrite <- app_assoc. cbn [app]. constructor; [| apply IH; exact T].
  apply takes_extend_any; auto. apply is_text_app. split; [now apply takes_text in Hk |].
  apply is_text_app. split; [now apply tokenises_text in Hr | now apply tokenises_text in T].
Qed.

(** ** A product of two bracketed texts *)
Lemma next_punct m k : k <> ID -> k <> SHIFT_OP -> m <> SHIFT_MODE -> next_mode m k = DEFAULT_MODE.
Proof. intros A B C. destruct m; cbn; [destruct k; congruence | congruence | auto]. Qed.
Lemma next_shift k : next_mode SHIFT_MODE k = SHIFT_MODE. Proof. reflexivity. Qed.

Lemma after_punct m k : k <> ID -> k <> SHIFT_OP ->
  next_mode m k = DEFAULT_MODE \/ next_mode m k = SHIFT_MODE.
Proof. intros A B. destruct m; cbn; auto. destruct k; auto; congruence. Qed.

Lemma bracketed_tokens m a ta rest ts : is_text a -> is_text rest ->
  tokenises (next_mode m OPEN_PAREN) a ta ->
  tokenises (next_mode (mode_after (next_mode m OPEN_PAREN) ta) CLOSE_PAREN) rest ts ->
  tokenises m (40 :: a ++ 41 :: rest) (tk_open :: ta ++ tk_close :: ts).
Proof.
  intros Ha Hr Ta Tr. apply (tok_step m OPEN_PAREN [40] (a ++ 41 :: rest)).
  - apply takes_open. apply is_text_app. split; auto. apply is_text_cons. split; auto. lia.
  - apply tokenises_extend_any; auto. apply (tok_step _ CLOSE_PAREN [41] rest); auto. now apply takes_close.
Qed.

Lemma paren_power ts h : read_as Shift_spec ts h -> read_as Power (tk_open :: ts ++ [tk_close]) h.
Proof.
  intros (t & D & P & R).
  exists (PNode Power [PNode Logarithm_r [PNode Basic_spec [PLeaf tk_open; t; PLeaf tk_close]]]).
  split; [| split].
  - constructor. constructor. apply (D_basic_paren tk_open ts t tk_close); auto; reflexivity.
  - apply preferred1; auto; [| discriminate]. apply preferred1; auto; [| discriminate].
    apply preferred_node. split; [exact I |]. constructor; [exact I |]. constructor; auto. repeat constructor.
  - constructor. constructor. apply R_basic_paren; auto; reflexivity.
Qed.

Lemma power_product ts1 a ts2 b : read_as Power ts1 a -> read_as Power ts2 b ->
  read_as Product (ts1 ++ tk_mul :: ts2) (Multiply a b).
Proof.
  intros (t1 & D1 & P1 & R1) (t2 & D2 & P2 & R2).
  exists (PNode Product [PNode Product [t1]; PLeaf tk_mul; t2]). split; [| split].
  - apply D_product_multiply; auto; [| reflexivity]. now constructor.
  - apply preferred_node. split; [exact I |].
    constructor; [apply preferred1; auto; discriminate |]. repeat constructor; auto.
  - apply R_product_multiply; auto; [| reflexivity]. now constructor.
Qed.

Lemma unit_shift ts t g : ts <> [] -> derives Unit_spec ts t -> preferred t -> reads t g ->
  read_as Shift_spec ts g.
Proof.
  intros N D P R. assert (S : exists s, derives Shift_spec ts s /\ t = PNode Unit_spec [s; PEOF])
    by (inversion D; subst; [contradiction | eauto]).
  destruct S as (s & Ds & ->).
  apply preferred_node in P. destruct P as [_ P]. inversion P as [| ? ? Ps _]; subst.
  inversion R; subst. exists s. auto.
Qed.

Definition product_text (a b : str) : str := 40 :: a ++ 41 :: 183 :: 40 :: b ++ [41].

Theorem bracketed_product a b ga gb ta tb :
  is_text a -> is_text b -> a <> [] -> b <> [] -> strip a = a -> strip b = b ->
  parse a = Ok ga -> parse b = Ok gb ->
  tokenises DEFAULT_MODE a ta -> tokenises SHIFT_MODE b tb ->
  mode_after DEFAULT_MODE ta <> SHIFT_MODE \/ unaffected false tb ->
  parse (product_text a b) = Ok (Multiply ga gb).
Proof.
  intros Ha Hb Na Nb Sa Sb Pa Pb Ta Tb C.
  apply parse_reads in Pa as (ta' & xa & Ta' & Da & Fa & Ra); auto. rewrite Sa in Ta'.
  apply parse_reads in Pb as (tb' & xb & Tb' & Db & Fb & Rb); auto. rewrite Sb in Tb'.
  rewrite (tokenises_unique _ _ _ _ Ta' Ta) in *. clear ta' Ta'.
  assert (NA : ta <> []) by (intros ->; inversion Ta; subst; contradiction).
  assert (NB : tb' <> []) by (intros ->; inversion Tb'; subst; contradiction).
  pose proof (paren_power _ _ (unit_shift _ _ _ NA Da Fa Ra)) as Wa.
  pose proof (paren_power _ _ (unit_shift _ _ _ NB Db Fb Rb)) as Wb.
  destruct (shift_product _ _ (power_product _ _ _ _ Wa Wb)) as (x & Dx & Px & Rx).
  assert (Tx : is_text (product_text a b)).
  { unfold product_text. repeat (rewrite is_text_cons || rewrite is_text_app). repeat split; auto; try lia. constructor. }
  apply parse_reads; auto.
  exists ((tk_open :: ta ++ [tk_close]) ++ tk_mul :: tk_open :: tb' ++ [tk_close]), (PNode Unit_spec [x; PEOF]).
  split; [| split; [now constructor | split; [| now constructor]]].
  2:{ apply preferred_node. split; [exact I |]. repeat constructor; auto. }
  assert (Sx : strip (product_text a b) = product_text a b).
  { apply (strip_same _ 40 41 (a ++ 41 :: 183 :: 40 :: b ++ [41]) (40 :: a ++ 41 :: 183 :: 40 :: b)); try reflexivity.
    unfold product_text. cbn [app]. rewrite <- app_assoc. reflexivity. }
  rewrite Sx. unfold product_text.
  replace ((tk_open :: ta ++ [tk_close]) ++ tk_mul :: tk_open :: tb' ++ [tk_close])
    with (tk_open :: ta ++ tk_close :: tk_mul :: tk_open :: tb' ++ tk_close :: [])
    by (cbn [app]; rewrite <- app_assoc; reflexivity).
  assert (Tend : is_text (40 :: b ++ [41])).
  { repeat (rewrite is_text_cons || rewrite is_text_app). repeat split; auto; try lia. constructor. }
  apply bracketed_tokens; auto.
  { apply is_text_cons. split; auto. lia. }
  change (next_mode DEFAULT_MODE OPEN_PAREN) with DEFAULT_MODE.
  set (m := next_mode (mode_after DEFAULT_MODE ta) CLOSE_PAREN).
  apply (tok_step m MULTIPLY [183] (40 :: b ++ [41])); [now apply takes_mul |].
  apply bracketed_tokens; auto; [constructor | | constructor].
  assert (Em : m = DEFAULT_MODE \/ m = SHIFT_MODE) by (apply after_punct; discriminate).
  assert (Q : tokenises DEFAULT_MODE b tb' /\ (m = SHIFT_MODE -> tokenises SHIFT_MODE b tb')).
  { split; auto. intros E. destruct C as [C | C].
    - exfalso. unfold m in E. destruct (mode_after DEFAULT_MODE ta); cbn in E; congruence.
    - apply (modes_alike _ _ Tb false) in C. cbn [mode_of] in C.
      now rewrite (tokenises_unique _ _ _ _ Tb' C). }
  destruct Em as [E | E]; rewrite E; cbn; [exact (proj1 Q) | exact (proj2 Q E)].
Qed.
