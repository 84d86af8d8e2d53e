(** * Whatever the other lexers do, a lexer's tokens are those of [tokens] *)
From Verif Require Import PyBase Regex Lexer LexSpec LexerFacts Atn AtnCheck AtnFacts AtnShared.
Local Open Scope Z_scope.

(** ** Lists *)
Lemma set_nth_same {A} (l : list A) i x : (i < List.length l)%nat ->
  nth_error (set_nth l i x) i = Some x.
Proof.
  revert i. induction l as [| y l IH]; intros [| i] H; cbn in *; try lia; auto.
  apply IH. lia.
Qed.

Lemma set_nth_other {A} (l : list A) i j x : i <> j ->
  nth_error (set_nth l i x) j = nth_error l j.
Proof.
  revert i j. induction l as [| y l IH]; intros [| i] [| j] H; cbn; auto; try easy.
Qed.

Lemma set_nth_length {A} (l : list A) i x : List.length (set_nth l i x) = List.length l.
Proof. revert i. induction l as [| y l IH]; intros [| i]; cbn; auto. Qed.

Lemma nth_error_some_lt {A} (l : list A) i x : nth_error l i = Some x -> (i < List.length l)%nat.
Proof. intros H. apply nth_error_Some. congruence. Qed.

Lemma lookup_in {A} k (l : list (Z * A)) v : lookup k l = Some v -> In (k, v) l.
Proof.
  induction l as [| [k' v'] l IH]; cbn; [discriminate |].
  destruct (Z.eqb_spec k k'); [intros [= ->]; subst; auto | auto].
Qed.

Lemma skipn_cons_lt {A} n (l : list A) c r : skipn n l = c :: r ->
  (n < List.length l)%nat /\ skipn (S n) l = r.
Proof.
  revert l. induction n as [| n IH]; intros [| x l]; cbn; try discriminate.
  - intros [= -> ->]. split; [lia | reflexivity].
  - intros H. apply IH in H. destruct H. split; [lia | assumption].
Qed.

Section Facts.
  Variable A : atn.

  (** ** Fuel *)
  Lemma next_token_shorter mode stack s k w rest mode' stack' :
    next_token A mode stack s = TToken k w rest mode' stack' ->
    s = w ++ rest /\ (s <> [] -> (List.length rest < List.length s)%nat).
  Proof.
    unfold next_token. destruct (match_token A mode s) as [[[[[| n] ty] acts] |] |]; try discriminate.
    destruct (run_actions _ acts) as [r |]; [| discriminate].
    destruct (_ || _)%bool; [discriminate |]. intros H. injection H as _ <- <- _ _. split.
    - symmetry. exact (firstn_skipn (S n) s).
    - intros Hs. change (List.length (skipn (S n) s) < List.length s)%nat.
      rewrite skipn_length. destruct s; [contradiction | cbn; lia].
  Qed.

  Lemma tokens_fuel f mode stack s : (List.length s <= f)%nat ->
    tokens A f mode stack s = tokens A (List.length s) mode stack s.
  Proof.
    revert mode stack s. induction f as [f IH] using lt_wf_ind. intros mode stack s Hf.
    destruct s as [| c s]; [destruct f; reflexivity |].
    destruct f as [| f]; [cbn in Hf; lia |].
    change (List.length (c :: s)) with (S (List.length s)). cbn [tokens].
    destruct (next_token A mode stack (c :: s)) as [k w rest mode' stack' |] eqn:E; auto.
    destruct (next_token_shorter _ _ _ _ _ _ _ _ E) as [_ Hr].
    specialize (Hr ltac:(discriminate)). cbn [List.length] in Hr, Hf.
    rewrite (IH f) by lia. rewrite (IH (List.length s)) by lia. reflexivity.
  Qed.

  Definition rest_tokens (t : lexer) : option (list (Z * str)) :=
    option_map (app (t_out t)) (tokens A (List.length (t_text t)) (t_mode t) (t_stack t) (t_text t)).

  (** What a lexer between two tokens will have produced at the end. *)
  Definition between (t : lexer) : option (list (Z * str)) :=
    match t_pc t with
    | PDone => Some (t_out t)
    | PMatch => rest_tokens t
    | _ => None
    end.

  Lemma finish_between t prev : t_text t <> [] ->
    match_token A (t_mode t) (t_text t) = Some prev ->
    between (finish t prev) = rest_tokens t.
  Proof.
    intros Ht Hm. unfold rest_tokens.
    destruct (t_text t) as [| c s] eqn:Et; [contradiction |]. clear Ht.
    change (List.length (c :: s)) with (S (List.length s)). cbn [tokens].
    unfold next_token. rewrite Hm. unfold finish.
    destruct prev as [[[[| n] ty] acts] |]; try reflexivity.
    destruct (run_actions (mkRegs 0 (t_mode t) (t_stack t)) acts) as [r |]; [| reflexivity].
    rewrite Et. destruct (_ || _)%bool; [reflexivity |].
    assert (Hl : (List.length (skipn (S n) (c :: s)) <= List.length s)%nat)
      by (rewrite skipn_length; cbn; lia).
    rewrite (tokens_fuel (List.length s)) by exact Hl.
    set (rest := skipn (S n) (c :: s)) in *. clearbody rest.
    unfold between, rest_tokens. cbn [t_pc t_out t_text t_mode t_stack].
    destruct rest as [| x rest]; [reflexivity |].
    destruct (tokens A _ _ _ (x :: rest)) as [ts |]; cbn; [| reflexivity].
    now rewrite <- app_assoc.
  Qed.

  (** ** Invariants *)
  Definition in_heap (h : shared) (id : nat) : Prop := (id < List.length (h_objs h))%nat.

  Definition edge_ok (h : shared) (id : nat) (x : Z) (e : edge) : Prop :=
    match e with
    | EError => target A (obj_configs h id) x = Some []
    | ETo j => in_heap h j /\ target A (obj_configs h id) x = Some (obj_configs h j) /\
               obj_configs h j <> []
    end.

  Record cache_ok (h : shared) : Prop := {
    ok_edges : forall id es x e, obj_edges h id = Some es -> In (x, e) es -> edge_ok h id x e;
    ok_s0 : forall m id, In (m, id) (h_s0 h) ->
        in_heap h id /\ start_configs A m = Some (obj_configs h id);
    ok_states : forall m id, In (m, id) (h_states h) -> in_heap h id }.

  Record extends (h h' : shared) : Prop := {
    ext_heap : forall id, in_heap h id -> in_heap h' id;
    ext_configs : forall id, in_heap h id -> obj_configs h' id = obj_configs h id }.

  Definition at_char (t : lexer) (h : shared) (id n : nat)
      (prev : option (nat * Z * list action)) (x : Z) : Prop :=
    in_heap h id /\
    exec A n (obj_configs h id) prev (skipn n (t_text t)) = match_token A (t_mode t) (t_text t) /\
    exists c r, skipn n (t_text t) = c :: r /\ x = Z.of_N c.

  Definition cont_ok (t : lexer) (h : shared) (cs : list config) (k : cont) : Prop :=
    match k with
    | KStart => start_configs A (t_mode t) = Some cs
    | KEdge id n prev x => at_char t h id n prev x /\
        target A (obj_configs h id) x = Some cs /\ cs <> []
    end.

  Definition pc_ok (h : shared) (t : lexer) : Prop :=
    match t_pc t with
    | PMatch => True
    | PLookup cs k | PInsert cs k => cont_ok t h cs k
    | PSetS0 id => in_heap h id /\ start_configs A (t_mode t) = Some (obj_configs h id)
    | PLoop id n prev => in_heap h id /\ (n <= List.length (t_text t))%nat /\
        exec A n (obj_configs h id) prev (skipn n (t_text t))
        = match_token A (t_mode t) (t_text t)
    | PEdge id n prev x e | PAlloc id n prev x e | PStore id n prev x e =>
        at_char t h id n prev x /\ edge_ok h id x e
    | PDone | PFail => False
    end.

  (** A lexer is on its way to [want]. *)
  Definition lexer_ok (h : shared) (t : lexer) (want : option (list (Z * str))) : Prop :=
    match t_pc t with
    | PDone => want = Some (t_out t)
    | PFail => want = None
    | _ => t_text t <> [] /\ rest_tokens t = want /\ pc_ok h t
    end.

  (** ** Other lexers' steps do not matter *)
  Lemma edge_ok_extends h h' id x e : extends h h' -> in_heap h id ->
    edge_ok h id x e -> edge_ok h' id x e.
  Proof.
    intros [E1 E2] Hid. destruct e; cbn.
    - now rewrite E2.
    - intros (Hj & Ht & Hn). rewrite !E2 by auto. auto.
  Qed.

  Lemma at_char_extends t h h' id n prev x : extends h h' ->
    at_char t h id n prev x -> at_char t h' id n prev x.
  Proof. intros [E1 E2] (H1 & H2 & H3). unfold at_char. rewrite E2 by auto. auto. Qed.

  Lemma lexer_ok_extends h h' t w : extends h h' -> lexer_ok h t w -> lexer_ok h' t w.
  Proof.
    intros E. unfold lexer_ok, pc_ok.
    destruct (t_pc t); auto; intros (Ht & Hw & Hp); split; auto; split; auto.
    - destruct k; cbn [cont_ok] in *; auto. destruct Hp as (Hc & Hx).
      split; [now apply (at_char_extends t h) |]. destruct E as [E1 E2].
      rewrite E2; [assumption | apply Hc].
    - destruct k; cbn [cont_ok] in *; auto. destruct Hp as (Hc & Hx).
      split; [now apply (at_char_extends t h) |]. destruct E as [E1 E2].
      rewrite E2; [assumption | apply Hc].
    - destruct Hp. destruct E as [E1 E2]. rewrite E2 by auto. auto.
    - destruct Hp as (H1 & H2). destruct E as [E1 E2]. rewrite E2 by auto. auto.
    - destruct Hp as (Hc & He). split; [now apply (at_char_extends t h) |].
      apply (edge_ok_extends h); auto. apply Hc.
    - destruct Hp as (Hc & He). split; [now apply (at_char_extends t h) |].
      apply (edge_ok_extends h); auto. apply Hc.
    - destruct Hp as (Hc & He). split; [now apply (at_char_extends t h) |].
      apply (edge_ok_extends h); auto. apply Hc.
  Qed.

  Lemma extends_refl h : extends h h.
  Proof. split; auto. Qed.

  (** ** Writes keep the cache right *)
  Lemma set_edges_configs h id es j : obj_configs (set_edges h id es) j = obj_configs h j.
  Proof.
    unfold set_edges, obj_configs at 1. cbn [h_objs].
    destruct (Nat.eq_dec id j) as [<- | N].
    - destruct (nth_error (h_objs h) id) as [d |] eqn:E.
      + rewrite set_nth_same by now apply nth_error_some_lt in E. reflexivity.
      + assert (E' : nth_error (set_nth (h_objs h) id (mkDfa (obj_configs h id) es)) id = None).
        { apply nth_error_None. rewrite set_nth_length. now apply nth_error_None. }
        rewrite E'. unfold obj_configs. now rewrite E.
    - rewrite set_nth_other by auto. reflexivity.
  Qed.

  Lemma set_edges_heap h id es j : in_heap (set_edges h id es) j <-> in_heap h j.
  Proof. unfold in_heap, set_edges. cbn [h_objs]. now rewrite set_nth_length. Qed.

  Lemma set_edges_extends h id es : extends h (set_edges h id es).
  Proof.
    split; intros j Hj; [now apply set_edges_heap | apply set_edges_configs].
  Qed.

  Lemma set_edges_edges h id es j es' : obj_edges (set_edges h id (Some es)) j = Some es' ->
    (j = id /\ es' = es) \/ obj_edges h j = Some es'.
  Proof.
    unfold set_edges, obj_edges at 1. cbn [h_objs].
    destruct (Nat.eq_dec id j) as [<- | N].
    - destruct (nth_error (h_objs h) id) as [d |] eqn:E.
      + rewrite set_nth_same by now apply nth_error_some_lt in E. cbn. intros [= <-]. auto.
      + assert (E' : nth_error (set_nth (h_objs h) id (mkDfa (obj_configs h id) (Some es))) id = None).
        { apply nth_error_None. rewrite set_nth_length. now apply nth_error_None. }
        rewrite E'. discriminate.
    - rewrite set_nth_other by auto. auto.
  Qed.

  Lemma set_edges_ok h id es : cache_ok h ->
    (forall x e, In (x, e) es -> edge_ok h id x e) -> in_heap h id ->
    cache_ok (set_edges h id (Some es)).
  Proof.
    intros [H1 H2 H3] He Hid. pose proof (set_edges_extends h id (Some es)) as E. split.
    - intros j es' x e Hj Hin. apply set_edges_edges in Hj. destruct Hj as [[-> ->] | Hj].
      + apply (edge_ok_extends h); auto.
      + apply (edge_ok_extends h); [assumption | | now apply (H1 j es')].
        unfold in_heap. unfold obj_edges in Hj.
        destruct (nth_error (h_objs h) j) eqn:Ej; [| discriminate].
        now apply nth_error_some_lt in Ej.
    - intros m j Hj. rewrite set_edges_heap, set_edges_configs. now apply H2.
    - intros m j Hj. rewrite set_edges_heap. now apply (H3 m).
  Qed.

  Lemma insert_extends h m cs :
    extends h (mkShared (h_objs h ++ [mkDfa cs None]) (h_s0 h) (m :: h_states h)).
  Proof.
    split; intros id Hid; unfold in_heap in *; cbn [h_objs].
    - rewrite app_length. cbn. lia.
    - unfold obj_configs. cbn [h_objs]. now rewrite nth_error_app1.
  Qed.

  Lemma insert_configs h m cs :
    obj_configs (mkShared (h_objs h ++ [mkDfa cs None]) (h_s0 h) (m :: h_states h))
      (List.length (h_objs h)) = cs.
  Proof.
    unfold obj_configs. cbn [h_objs]. rewrite nth_error_app2 by lia.
    rewrite Nat.sub_diag. reflexivity.
  Qed.

  Lemma insert_ok h m cs : cache_ok h ->
    cache_ok (mkShared (h_objs h ++ [mkDfa cs None]) (h_s0 h)
                       ((m, List.length (h_objs h)) :: h_states h)).
  Proof.
    intros [H1 H2 H3].
    pose proof (insert_extends h (m, List.length (h_objs h)) cs) as E. split.
    - intros j es x e Hj Hin. unfold obj_edges in Hj. cbn [h_objs] in Hj.
      destruct (Nat.lt_ge_cases j (List.length (h_objs h))) as [L | L].
      + rewrite nth_error_app1 in Hj by exact L.
        apply (edge_ok_extends h); [exact E | exact L |]. now apply (H1 j es).
      + rewrite nth_error_app2 in Hj by exact L.
        destruct (j - List.length (h_objs h))%nat as [| [|]]; discriminate Hj.
    - intros m' j Hj. cbn [h_s0] in Hj. destruct (H2 m' j Hj) as [L C].
      destruct E as [E1 E2]. split; [now apply E1 | now rewrite E2].
    - intros m' j [Hj | Hj].
      + injection Hj as _ <-. unfold in_heap. cbn [h_objs]. rewrite app_length. cbn. lia.
      + destruct E as [E1 E2]. apply E1. now apply (H3 m').
  Qed.

  Lemma find_state_ok h mode cs l id :
    (forall m id, In (m, id) l -> in_heap h id) -> find_state h mode cs l = Some id ->
    in_heap h id /\ obj_configs h id = cs.
  Proof.
    intros H. induction l as [| [m j] l IH]; cbn [find_state]; [discriminate |].
    destruct ((m =? mode) && list_eqb config_eqb cs (obj_configs h j))%bool eqn:E.
    - intros [= ->]. split; [apply (H m); cbn; auto |].
      apply andb_true_iff in E. destruct E as [_ E].
      apply list_eqb_eq in E; [auto | exact config_eqb_eq].
    - apply IH. intros m' id' Hin. apply (H m'). cbn. auto.
  Qed.

  (** ** Own steps *)
  Lemma finish_ok h t prev w : t_text t <> [] -> rest_tokens t = w ->
    match_token A (t_mode t) (t_text t) = Some prev -> lexer_ok h (finish t prev) w.
  Proof.
    intros Ht Hw Hm. pose proof (finish_between t prev Ht Hm) as Hb. rewrite Hw in Hb.
    assert (Hpc : t_pc (finish t prev) = PDone \/ t_pc (finish t prev) = PFail \/
                  (t_pc (finish t prev) = PMatch /\ t_text (finish t prev) <> [])).
    { unfold finish. destruct prev as [[[[| n] ty] acts] |]; cbn [at_pc t_pc]; auto.
      destruct (run_actions _ acts) as [r |]; cbn [at_pc t_pc]; auto.
      destruct (_ || _)%bool; cbn [at_pc t_pc]; auto.
      generalize (skipn (S n) (t_text t)). intros [| c0 l0]; cbn [t_pc t_text]; auto.
      right. right. split; [reflexivity | discriminate]. }
    unfold lexer_ok, between, pc_ok in *.
    destruct Hpc as [E | [E | [E N]]]; rewrite E in *; auto.
  Qed.

  Lemma advance_ok h t n prev x e id w : t_text t <> [] -> rest_tokens t = w ->
    at_char t h id n prev x -> edge_ok h id x e -> lexer_ok h (advance A h t n prev e) w.
  Proof.
    intros Ht Hw (Hid & Hx & c & r & Hs & ->) He.
    destruct (skipn_cons_lt _ _ _ _ Hs) as [Hlt Hr].
    rewrite Hs in Hx. cbn [exec] in Hx. destruct e as [| j]; cbn [edge_ok advance] in *.
    - rewrite He in Hx. now apply finish_ok.
    - destruct He as (Hj & Hj' & Hn). rewrite Hj' in Hx.
      destruct (obj_configs h j) as [| c0 cs0] eqn:Ec; [contradiction |]. rewrite <- Ec in *.
      unfold lexer_ok, pc_ok. cbn [at_pc t_pc t_text t_mode].
      split; [exact Ht |]. split; [exact Hw |]. split; [exact Hj |]. split; [lia |].
      rewrite Hr. exact Hx.
  Qed.

  Lemma resume_ok h t id k cs w : t_text t <> [] -> rest_tokens t = w ->
    in_heap h id -> obj_configs h id = cs -> cont_ok t h cs k ->
    lexer_ok h (resume t id k) w.
  Proof.
    intros Ht Hw Hid Hc Hk. unfold lexer_ok, pc_ok.
    destruct k; cbn [resume at_pc t_pc t_text t_mode cont_ok] in *; split; auto; split; auto.
    - split; auto. now rewrite Hc.
    - destruct Hk as (Ha & Hx & Hn). split; [exact Ha |]. cbn. rewrite Hc. auto.
  Qed.

  Lemma loop_ok h t id w : t_text t <> [] -> rest_tokens t = w -> in_heap h id ->
    start_configs A (t_mode t) = Some (obj_configs h id) ->
    lexer_ok h (at_pc t (PLoop id 0 (update A 0 (obj_configs h id) None))) w.
  Proof.
    intros Ht Hw Hid Hs. unfold lexer_ok, pc_ok. cbn [at_pc t_pc t_text t_mode].
    split; [exact Ht |]. split; [exact Hw |]. split; [exact Hid |]. split; [lia |].
    cbn [skipn]. unfold match_token. now rewrite Hs.
  Qed.

  Lemma rest_tokens_none t : t_text t <> [] -> match_token A (t_mode t) (t_text t) = None ->
    rest_tokens t = None.
  Proof.
    intros Ht Hm. unfold rest_tokens. destruct (t_text t) as [| c s]; [contradiction |].
    change (List.length (c :: s)) with (S (List.length s)). cbn [tokens].
    unfold next_token. rewrite Hm. reflexivity.
  Qed.

  Lemma step_ok h t w h' t' : cache_ok h -> lexer_ok h t w ->
    lexer_step A h t = Some (h', t') ->
    cache_ok h' /\ extends h h' /\ lexer_ok h' t' w /\ t_src t' = t_src t.
  Proof.
    intros Hc Hl Hs. unfold lexer_ok, pc_ok in Hl. unfold lexer_step in Hs.
    assert (Hsrc : t_src t' = t_src t).
    { assert (F : forall p, t_src (finish t p) = t_src t).
      { intros p. unfold finish. destruct p as [[[[| n] ty] acts] |]; auto.
        destruct (run_actions _ acts); auto. now destruct (_ || _)%bool. }
      assert (G : forall h n p e, t_src (advance A h t n p e) = t_src t)
        by (intros h0 n0 p0 [|]; cbn; auto).
      assert (K : forall id k, t_src (resume t id k) = t_src t) by (intros id [|]; reflexivity).
      destruct (t_pc t);
        repeat match type of Hs with
               | context [match ?x with _ => _ end] => destruct x
               end; try discriminate Hs; injection Hs as _ <-;
        first [reflexivity | apply F | apply G | apply K]. }
    split; [| split; [| split; [| exact Hsrc]]]; clear Hsrc; revert Hs.
    (* the cache stays right *)
    - destruct (t_pc t); try (intros Hs; discriminate Hs).
      + destruct (lookup (t_mode t) (h_s0 h)); [| destruct (start_configs A (t_mode t))];
          intros Hs; injection Hs as <- _; exact Hc.
      + destruct (find_state _ _ _ _); intros Hs; injection Hs as <- _; exact Hc.
      + intros Hs; injection Hs as <- _. now apply insert_ok.
      + intros Hs; injection Hs as <- _. destruct Hl as (_ & _ & Hid & Hs0).
        destruct Hc as [H1 H2 H3]. split; auto.
        intros m j [Hj | Hj]; [injection Hj as <- <-; auto | now apply H2].
      + destruct (skipn n (t_text t)); [intros Hs; injection Hs as <- _; exact Hc |].
        destruct (cached_edge _ _ _); [intros Hs; injection Hs as <- _; exact Hc |].
        destruct (target A _ _) as [[|] |]; intros Hs; injection Hs as <- _; exact Hc.
      + destruct (_ && _)%bool; [destruct (obj_edges h id) |];
          intros Hs; injection Hs as <- _; exact Hc.
      + intros Hs; injection Hs as <- _. apply set_edges_ok; auto; [intros ? ? [] |].
        apply Hl.
      + intros Hs; injection Hs as <- _. destruct Hl as (_ & _ & Ha & He).
        apply set_edges_ok; auto; [| apply Ha].
        intros y e' [Hin | Hin]; [injection Hin as <- <-; exact He |].
        destruct (obj_edges h id) as [es |] eqn:E; [| destruct Hin].
        now apply (ok_edges h Hc id es).
    (* and only grows *)
    - destruct (t_pc t); try (intros Hs; discriminate Hs).
      + destruct (lookup (t_mode t) (h_s0 h)); [| destruct (start_configs A (t_mode t))];
          intros Hs; injection Hs as <- _; apply extends_refl.
      + destruct (find_state _ _ _ _); intros Hs; injection Hs as <- _; apply extends_refl.
      + intros Hs; injection Hs as <- _. apply insert_extends.
      + intros Hs; injection Hs as <- _. split; auto.
      + destruct (skipn n (t_text t)); [intros Hs; injection Hs as <- _; apply extends_refl |].
        destruct (cached_edge _ _ _); [intros Hs; injection Hs as <- _; apply extends_refl |].
        destruct (target A _ _) as [[|] |]; intros Hs; injection Hs as <- _; apply extends_refl.
      + destruct (_ && _)%bool; [destruct (obj_edges h id) |];
          intros Hs; injection Hs as <- _; apply extends_refl.
      + intros Hs; injection Hs as <- _. apply set_edges_extends.
      + intros Hs; injection Hs as <- _. apply set_edges_extends.
    (* the lexer is still on its way *)
    - destruct (t_pc t) eqn:Epc; try (intros Hs; discriminate Hs);
        destruct Hl as (Ht & Hw & Hp).
      + destruct (lookup (t_mode t) (h_s0 h)) as [id |] eqn:E.
        * intros Hs; injection Hs as <- <-. apply lookup_in in E.
          destruct (ok_s0 h Hc _ _ E) as [Hid Hs0]. now apply loop_ok.
        * destruct (start_configs A (t_mode t)) as [cs |] eqn:E';
            intros Hs; injection Hs as <- <-.
          -- unfold lexer_ok, pc_ok. cbn [at_pc t_pc t_text cont_ok t_mode]. auto.
          -- unfold lexer_ok. cbn [at_pc t_pc]. rewrite <- Hw. apply rest_tokens_none; auto.
             unfold match_token. now rewrite E'.
      + destruct (find_state h (t_mode t) cs (h_states h)) as [id |] eqn:E;
          intros Hs; injection Hs as <- <-.
        * apply find_state_ok in E; [| exact (ok_states h Hc)]. destruct E as [Hid Hcs].
          now apply (resume_ok h t id k cs).
        * unfold lexer_ok, pc_ok. cbn [at_pc t_pc t_text]. split; [exact Ht |].
          split; [exact Hw |]. destruct k; exact Hp.
      + intros Hs; injection Hs as <- <-.
        pose proof (insert_extends h (t_mode t, List.length (h_objs h)) cs) as E.
        apply (resume_ok _ t _ k cs); auto.
        * unfold in_heap. cbn [h_objs]. rewrite app_length. cbn. lia.
        * apply insert_configs.
        * destruct k; cbn [cont_ok] in *; auto. destruct Hp as (Ha & Hx & Hn).
          split; [now apply (at_char_extends t h) |]. destruct E as [E1 E2].
          rewrite E2 by apply Ha. auto.
      + intros Hs; injection Hs as <- <-. destruct Hp as [Hid Hs0].
        exact (loop_ok (mkShared (h_objs h) ((t_mode t, id) :: h_s0 h) (h_states h)) t id w
                 Ht Hw Hid Hs0).
      + destruct Hp as (Hid & Hle & Hx).
        destruct (skipn n (t_text t)) as [| c r] eqn:Hsk.
        { intros Hs; injection Hs as <- <-. cbn [exec] in Hx. now apply finish_ok. }
        assert (Ha : at_char t h id n prev (Z.of_N c)).
        { unfold at_char. rewrite Hsk. split; [exact Hid |]. split; [exact Hx |]. eauto. }
        destruct (cached_edge h id (Z.of_N c)) as [e |] eqn:Ee.
        * intros Hs; injection Hs as <- <-.
          assert (He : edge_ok h id (Z.of_N c) e).
          { unfold cached_edge in Ee. destruct (_ && _)%bool; [| discriminate].
            destruct (obj_edges h id) as [es |] eqn:Ees; [| discriminate].
            apply lookup_in in Ee. now apply (ok_edges h Hc id es). }
          exact (advance_ok h t n prev (Z.of_N c) e id w Ht Hw Ha He).
        * destruct (target A (obj_configs h id) (Z.of_N c)) as [[| c0 cs0] |] eqn:Et;
            intros Hs; injection Hs as <- <-.
          -- unfold lexer_ok, pc_ok. cbn [at_pc t_pc t_text]. auto.
          -- unfold lexer_ok, pc_ok. cbn [at_pc t_pc t_text cont_ok].
             split; [exact Ht |]. split; [exact Hw |]. split; [exact Ha |].
             split; [exact Et | discriminate].
          -- unfold lexer_ok. cbn [at_pc t_pc]. rewrite <- Hw. apply rest_tokens_none; auto.
             rewrite <- Hx. cbn [exec]. now rewrite Et.
      + destruct Hp as (Ha & He).
        destruct (_ && _)%bool; [destruct (obj_edges h id) |];
          intros Hs; injection Hs as <- <-.
        * unfold lexer_ok, pc_ok. cbn [at_pc t_pc t_text]. auto.
        * unfold lexer_ok, pc_ok. cbn [at_pc t_pc t_text]. auto.
        * exact (advance_ok h t n prev x e id w Ht Hw Ha He).
      + destruct Hp as (Ha & He). intros Hs; injection Hs as <- <-.
        pose proof (set_edges_extends h id (Some [])) as E.
        unfold lexer_ok, pc_ok. cbn [at_pc t_pc t_text]. split; [exact Ht |].
        split; [exact Hw |]. split.
        * exact (at_char_extends t h _ id n prev x E Ha).
        * apply (edge_ok_extends h); auto. apply Ha.
      + destruct Hp as (Ha & He). intros Hs; injection Hs as <- <-.
        pose proof (set_edges_extends h id
          (Some ((x, e) :: match obj_edges h id with Some es => es | None => [] end))) as E.
        apply (advance_ok _ t n prev x e id w Ht Hw).
        * exact (at_char_extends t h _ id n prev x E Ha).
        * apply (edge_ok_extends h); auto. apply Ha.
  Qed.

  (** ** Every step is progress *)
  Definition work (t : lexer) : nat :=
    let L := List.length (t_text t) in
    let base := (8 * L * (L + 1))%nat in
    match t_pc t with
    | PDone | PFail => O
    | PMatch => base + 8 * L + 8
    | PLookup _ KStart => base + 8 * L + 7
    | PInsert _ KStart => base + 8 * L + 6
    | PSetS0 _ => base + 8 * L + 5
    | PLoop _ n _ => base + 8 * (L - n)
    | PLookup _ (KEdge _ n _ _) => base + 8 * (L - n) - 1
    | PInsert _ (KEdge _ n _ _) => base + 8 * (L - n) - 2
    | PEdge _ n _ _ _ => base + 8 * (L - n) - 3
    | PAlloc _ n _ _ _ => base + 8 * (L - n) - 4
    | PStore _ n _ _ _ => base + 8 * (L - n) - 5
    end%nat.

  Lemma finish_work t prev b : t_text t <> [] ->
    (8 * List.length (t_text t) * (List.length (t_text t) + 1) <= b)%nat ->
    (work (finish t prev) < b)%nat.
  Proof.
    intros Ht Hb.
    assert (HL : (1 <= List.length (t_text t))%nat) by (destruct (t_text t); [contradiction | cbn; lia]).
    unfold finish. destruct prev as [[[[| n] ty] acts] |]; try (cbn; nia).
    destruct (run_actions _ acts) as [r |]; [| cbn; nia].
    destruct (_ || _)%bool; [cbn; nia |].
    assert (Hr : (List.length (skipn (S n) (t_text t)) < List.length (t_text t))%nat)
      by (rewrite skipn_length; lia).
    revert Hr. generalize (skipn (S n) (t_text t)). intros rest Hr.
    unfold work. cbn [t_pc t_text]. destruct rest as [| c rest]; [nia |].
    revert Hr Hb HL. generalize (List.length (c :: rest)) as L'.
    generalize (List.length (t_text t)) as L. intros. nia.
  Qed.

  Lemma advance_work h t n prev e b : t_text t <> [] -> (n < List.length (t_text t))%nat ->
    (8 * List.length (t_text t) * (List.length (t_text t) + 1)
     + 8 * (List.length (t_text t) - n) - 5 <= b)%nat ->
    (work (advance A h t n prev e) < b)%nat.
  Proof.
    intros Ht Hn Hb. destruct e as [| j]; cbn [advance].
    - apply finish_work; [exact Ht | lia].
    - unfold work. cbn [at_pc t_pc t_text]. lia.
  Qed.

  Lemma step_work h t w h' t' : lexer_ok h t w -> lexer_step A h t = Some (h', t') ->
    (work t' < work t)%nat.
  Proof.
    intros Hl Hs. unfold lexer_ok, pc_ok in Hl. unfold lexer_step in Hs.
    destruct (t_pc t) as [| cs k | cs k | id | id n prev | id n prev x e | id n prev x e
                          | id n prev x e | |] eqn:Epc; try discriminate Hs;
      destruct Hl as (Ht & _ & Hp);
      assert (HL : (1 <= List.length (t_text t))%nat)
        by (destruct (t_text t); [contradiction | cbn; lia]).
    - unfold work at 2. rewrite Epc.
      destruct (lookup (t_mode t) (h_s0 h)); [| destruct (start_configs A (t_mode t))];
        injection Hs as <- <-; unfold work; cbn [at_pc t_pc t_text]; nia.
    - unfold work at 2. rewrite Epc. destruct (find_state _ _ _ _); injection Hs as <- <-;
        destruct k; cbn [resume]; unfold work; cbn [at_pc t_pc t_text];
        try lia; cbn [cont_ok] in Hp; destruct Hp as ((_ & _ & c & r & Hsk & _) & _);
        apply skipn_cons_lt in Hsk; lia.
    - unfold work at 2. rewrite Epc. injection Hs as <- <-.
      destruct k; cbn [resume]; unfold work; cbn [at_pc t_pc t_text];
        try lia; cbn [cont_ok] in Hp; destruct Hp as ((_ & _ & c & r & Hsk & _) & _);
        apply skipn_cons_lt in Hsk; lia.
    - injection Hs as <- <-. unfold work. rewrite Epc. cbn [at_pc t_pc t_text]. lia.
    - destruct Hp as (_ & Hle & _).
      destruct (skipn n (t_text t)) as [| c r] eqn:Hsk.
      + injection Hs as <- <-. apply finish_work; [exact Ht |]. unfold work. rewrite Epc. lia.
      + apply skipn_cons_lt in Hsk. destruct Hsk as [Hn _].
        destruct (cached_edge _ _ _) as [e |].
        * injection Hs as <- <-. apply advance_work; auto. unfold work. rewrite Epc. lia.
        * unfold work at 2. rewrite Epc.
          destruct (target A _ _) as [[|] |]; injection Hs as <- <-;
            unfold work; cbn [at_pc t_pc t_text]; nia.
    - destruct Hp as ((_ & _ & c & r & Hsk & _) & _). apply skipn_cons_lt in Hsk.
      destruct Hsk as [Hn _].
      destruct (_ && _)%bool; [destruct (obj_edges h id) |]; injection Hs as <- <-.
      + unfold work. rewrite Epc. cbn [at_pc t_pc t_text]. lia.
      + unfold work. rewrite Epc. cbn [at_pc t_pc t_text]. lia.
      + apply advance_work; auto. unfold work. rewrite Epc. lia.
    - destruct Hp as ((_ & _ & c & r & Hsk & _) & _). apply skipn_cons_lt in Hsk.
      injection Hs as <- <-. unfold work. rewrite Epc. cbn [at_pc t_pc t_text]. lia.
    - destruct Hp as ((_ & _ & c & r & Hsk & _) & _). apply skipn_cons_lt in Hsk.
      injection Hs as <- <-. apply advance_work; try apply Hsk; auto.
      unfold work. rewrite Epc. lia.
  Qed.

  (** ** Whole processes *)
  Definition lex_of (s : str) : option (list (Z * str)) := tokens A (List.length s) 0 [] s.

  Definition world_ok (w : world) : Prop :=
    cache_ok (fst w) /\ forall t, In t (snd w) -> lexer_ok (fst w) t (lex_of (t_src t)).

  Lemma new_lexer_ok h s : lexer_ok h (new_lexer s) (lex_of s).
  Proof.
    unfold lexer_ok, new_lexer, lex_of. cbn [t_pc t_out]. destruct s as [| c s]; [reflexivity |].
    unfold pc_ok, rest_tokens. cbn [t_pc t_out t_text t_mode t_stack].
    split; [discriminate |]. split; [| exact I].
    destruct (tokens A _ _ _ _); reflexivity.
  Qed.

  Lemma in_set_nth {X} (l : list X) i x y : In y (set_nth l i x) -> y = x \/ In y l.
  Proof.
    revert i. induction l as [| z l IH]; intros [| i]; cbn; try tauto.
    - intros [-> | H]; auto.
    - intros [-> | H]; auto. apply IH in H. tauto.
  Qed.

  Lemma world_step_ok w w' : world_ok w -> world_step A w w' -> world_ok w'.
  Proof.
    intros [Hc Hl] Hs. destruct Hs as [h ts i t h' t' Hi Hs | h ts s]; cbn [fst snd] in *.
    - assert (Hin : In t ts) by now apply nth_error_In in Hi.
      destruct (step_ok h t _ h' t' Hc (Hl t Hin) Hs) as (Hc' & He & Hl' & Hsrc).
      split; [exact Hc' |]. cbn [fst snd]. intros t0 H0. apply in_set_nth in H0.
      destruct H0 as [-> | H0].
      + now rewrite Hsrc.
      + apply (lexer_ok_extends h); auto.
    - split; [exact Hc |]. cbn [fst snd]. intros t H. apply in_app_or in H.
      destruct H as [H | [<- | []]]; [now apply Hl |]. apply new_lexer_ok.
  Qed.

  Lemma world_steps_ok w w' : world_ok w -> world_steps A w w' -> world_ok w'.
  Proof. intros H Hs. induction Hs; auto. apply IHHs. eapply world_step_ok; eauto. Qed.

  Lemma empty_ok : world_ok (empty_shared, []).
  Proof.
    split; cbn [fst snd]; [| intros t []]. split.
    - intros id es x e H. unfold obj_edges in H. destruct id; discriminate.
    - intros m id [].
    - intros m id [].
  Qed.

  (** The output of a lexer that has ended, in any history. *)
  Lemma shared_output h ts t : world_steps A (empty_shared, []) (h, ts) -> In t ts ->
    (t_pc t = PDone -> lex_of (t_src t) = Some (t_out t)) /\
    (t_pc t = PFail -> lex_of (t_src t) = None).
  Proof.
    intros Hs Hin. apply world_steps_ok in Hs; [| exact empty_ok]. destruct Hs as [_ Hl].
    specialize (Hl t Hin). cbn [fst] in Hl. unfold lexer_ok in Hl.
    split; intros E; rewrite E in Hl; exact Hl.
  Qed.

  Lemma shared_progress h ts t : world_steps A (empty_shared, []) (h, ts) -> In t ts ->
    t_pc t = PDone \/ t_pc t = PFail \/
    exists h' t', lexer_step A h t = Some (h', t') /\ (work t' < work t)%nat.
  Proof.
    intros Hs Hin. apply world_steps_ok in Hs; [| exact empty_ok]. destruct Hs as [_ Hl].
    specialize (Hl t Hin). cbn [fst] in Hl.
    destruct (lexer_step A h t) as [[h' t'] |] eqn:E.
    - right. right. exists h', t'. split; auto. eapply step_work; eauto.
    - unfold lexer_step in E. destruct (t_pc t); auto; exfalso;
        repeat match type of E with
               | context [match ?x with _ => _ end] => destruct x
               end; discriminate E.
  Qed.
End Facts.
