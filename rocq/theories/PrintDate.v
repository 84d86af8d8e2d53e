(** * The text of a date unit, parsed *)
From Verif Require Import PyBase PyNum Graph Regex RegexFacts Lexer LexSpec LexerFacts Parser
  GrammarSpec VisitSpec VisitorFacts ParserFacts ParseFacts NumText NumFacts Atn AtnCheck AtnFacts ReDisjoint
  PrintSpec PrintNum PrintLex PrintParse Visitor.
Local Open Scope N_scope.

Definition since := [115; 105; 110; 99; 101].
Definition tk_since := mkTok SHIFT_OP since.

Lemma takes_since m rest : is_text rest -> takes m SHIFT_OP since (32 :: rest).
Proof.
  intros Ht. fixed all_modes (Seq (ch 32) r_rest); [apply in_all_modes | | ].
  - apply is_text_app. split; [repeat constructor; vm_compute; discriminate | apply is_text_cons; split; [lia | exact Ht]].
  - unfold ch. now apply follows_class.
Qed.
Lemma takes_space_since m rest : is_text rest -> takes m WS [32] (115 :: rest).
Proof.
  intros Ht. fixed all_modes (Seq (ch 115) r_rest); [apply in_all_modes | | ].
  - repeat constructor; auto; vm_compute; discriminate.
  - unfold ch. now apply follows_class.
Qed.

Lemma since_tokens g raw ns : writable false g -> has_shift g = false -> tokenises SHIFT_MODE raw ns -> timestamp ns ->
  tokenises DEFAULT_MODE (node_str g ++ u " since " ++ raw) (toks g ++ tk_space :: tk_since :: tk_space :: ns).
Proof.
  intros W S T Ts. change (u " since ") with ([32] ++ since ++ [32]). rewrite <- !app_assoc.
  pose proof (tokenises_text _ _ _ T) as Tx. destruct (date_start raw ns T Ts) as (c & s & -> & Hc).
  assert (T1 : is_text (32 :: c :: s)) by (apply is_text_cons; split; [lia | exact Tx]).
  assert (T2 : is_text (since ++ 32 :: c :: s)) by (apply is_text_app; split; [repeat constructor; vm_compute; discriminate | exact T1]).
  apply (toks_ok g false); auto.
  - cbn [app]. apply is_text_cons. split; [lia | exact T2].
  - cbn [app since]. apply bnd_shift; [now right |]. unfold since in T2. cbn [app] in T2. now apply is_text_cons in T2.
  - intros m Hm. rewrite S in Hm. cbn [orb] in Hm.
    apply (tok_step m WS [32] (since ++ 32 :: c :: s)).
    { apply takes_space_since. unfold since in T2. cbn [app] in T2. now apply is_text_cons in T2. }
    rewrite (end_next _ m _ Hm) by reflexivity.
    apply (tok_step _ SHIFT_OP since (32 :: c :: s)); [now apply takes_since |]. cbn [base next_mode].
    apply (tok_step _ WS [32] (c :: s)); [now apply takes_space_num | exact T].
Qed.

Lemma since_reads ts h raw : read_as Product ts h -> date_ok raw ->
  read_as Shift_spec (ts ++ tk_space :: tk_since :: tk_space :: date_toks raw) (Shift h (Unhandled raw)).
Proof.
  intros (t & D & P & R) (ns & T & Hts & Hn). rewrite (date_toks_ok raw ns T).
  exists (PNode Shift_spec ((t :: map PLeaf [tk_space] ++ PLeaf tk_since :: map PLeaf [tk_space])
    ++ [PNode Timestamp_r (map PLeaf ns)])).
  assert (Ml : forall x, (t :: map PLeaf [tk_space] ++ PLeaf tk_since :: map PLeaf [tk_space]) ++ [x]
    = (t :: map PLeaf [tk_space; tk_since; tk_space]) ++ [x]) by reflexivity.
  split; [| split].
  - apply (D_shift_timestamp ts t [tk_space] tk_since [tk_space] ns); auto;
      try (constructor; reflexivity); reflexivity.
  - rewrite Ml. apply preferred_node. split.
    + cbn [app map local_ok last]. destruct ns as [| x [| y ns]]; cbn [map]; auto.
    + cbn [app map]. constructor; [exact P |]. do 3 (constructor; [exact I |]). constructor; [| constructor].
      apply preferred_node. split; [exact I |]. apply Forall_leaf.
  - rewrite Ml. apply R_shift; auto.
    { constructor; [left; reflexivity |]. constructor; [right; reflexivity |]. constructor; [left; reflexivity | constructor]. }
    rewrite <- (tokenises_concat _ _ _ T). constructor.
Qed.

(** [raw] does not end in white space *)
Definition ends_clean (raw : str) : Prop := exists s c, raw = s ++ [c] /\ is_space c = false.

Theorem parse_since g h raw : writable false g -> has_shift g = false -> date_ok raw -> ends_clean raw -> reread g = Some h ->
  parse (node_str g ++ u " since " ++ raw) = Ok (Shift h (Unhandled raw)).
Proof.
  intros W S Dr (s2 & d & E2 & Hd) R. destruct Dr as (ns & T & Ts & Nt).
  pose proof (since_tokens g raw ns W S T Ts) as Tk.
  pose proof (toks_read g false W) as Rd. rewrite R in Rd.
  assert (Dr : date_ok raw) by (exists ns; auto).
  destruct (since_reads _ _ raw (chain_product _ _ Rd) Dr) as (t & D & P & Rt). rewrite (date_toks_ok raw ns T) in D.
  destruct (first_char false g W) as (c & s1 & E1 & Hc).
  assert (St : strip (node_str g ++ u " since " ++ raw) = node_str g ++ u " since " ++ raw).
  { apply (strip_same _ c d (s1 ++ u " since " ++ raw) (node_str g ++ u " since " ++ s2)); auto.
    - now rewrite E1.
    - rewrite E2, <- !app_assoc. reflexivity.
    - now apply start_not_space. }
  apply parse_reads; [now apply tokenises_text in Tk |].
  exists (toks g ++ tk_space :: tk_since :: tk_space :: ns), (PNode Unit_spec [t; PEOF]). rewrite St. split; [exact Tk |].
  split; [now constructor |]. split; [| now constructor].
  apply preferred_node. split; [exact I |]. repeat constructor; exact P.
Qed.
