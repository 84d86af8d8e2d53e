(** * The generated parser accepts whatever the grammar derives, with the preferred tree *)
From Verif Require Import PyBase Lexer Parser GrammarSpec ParserFacts ParserComplete PAtn PSpec
  PSim PSimFacts PSimMore PGen PGenSound PGenRun.
Local Open Scope Z_scope.

(** ** Steps of runs, backwards *)
Definition out1 (t : ptrans) (st w : list Z) : Prop :=
  match t with
  | PEps m | PAct m => accepts m st w
  | PCall s f => accepts s (f :: st) w
  | PAtom m k => match w with x :: w' => x = k /\ accepts m st w' | [] => False end
  | PSet m rs => match w with x :: w' => symbol_in rs x /\ accepts m st w' | [] => False end
  | PPrec m p => 0 <= p /\ accepts m st w
  end.

Fixpoint outs (ts : list ptrans) (st w : list Z) : Prop :=
  match ts with
  | [] => False
  | [t] => out1 t st w
  | t :: ts' => out1 t st w \/ outs ts' st w
  end.

Lemma outs_In : forall t ts st w, In t ts -> out1 t st w -> outs ts st w.
Proof.
  intros t. induction ts as [| t0 ts IH]; intros st w I O; [destruct I |].
  cbn [outs]. destruct ts as [| t1 ts].
  - destruct I as [I | []]. now subst.
  - destruct I as [I | I]; [left; now subst | right; now apply IH].
Qed.

Lemma accepts_outs : forall n st w, accepts n st w -> stop n = false -> outs (edges n) st w.
Proof.
  intros n st w A S. inversion A; subst; try congruence;
    (eapply outs_In; [eassumption |]); cbn [out1]; auto.
Qed.

Lemma accepts_back : forall n f st w, accepts n (f :: st) w -> stop n = true -> accepts f st w.
Proof.
  intros n f st w A S. inversion A; subst; try assumption;
    match goal with H : In _ (edges _) |- _ => rewrite (stop_no_edges n S) in H; destruct H end.
Qed.

Ltac inv A :=
  lazymatch type of A with
  | accepts ?n _ _ =>
    apply accepts_outs in A; [| reflexivity];
    let e := eval vm_compute in (edges n) in change (edges n) with e in A;
    cbn [outs out1] in A
  end.

Ltac back A := apply accepts_back in A; [| reflexivity].

(** ** The next token *)
Definition tok_syms (t : ptrans) : list Z :=
  match t with
  | PAtom _ k => [k]
  | PSet _ rs => flat_map (fun r => map (fun i => fst r + Z.of_nat i)
                                        (seq 0 (Z.to_nat (snd r - fst r + 1)))) rs
  | _ => []
  end.

Definition firsts (n : Z) : list Z :=
  match closure false (fuel_of []) n [] with
  | Some l => flat_map (fun p => flat_map tok_syms (edges (fst p))) l
  | None => []
  end.

Lemma tok_syms_In : forall t x m, tok_target t x = Some m -> In x (tok_syms t).
Proof.
  intros t x m H. destruct t as [n | s f | n k | n | n rs | n p]; cbn [tok_target tok_syms] in *;
    try discriminate H.
  - destruct (k =? x) eqn:E; [| discriminate H]. apply Z.eqb_eq in E. now left.
  - destruct (existsb _ rs) eqn:E; [| discriminate H]. apply existsb_exists in E.
    destruct E as [r [I E]]. apply in_flat_map. exists r. split; [exact I |].
    apply in_map_iff. exists (Z.to_nat (x - fst r)). apply andb_true_iff in E.
    split; [lia |]. apply in_seq. lia.
Qed.

Lemma la_syms : forall ts, exists w, syms ts = la ts :: w.
Proof. intros [| t r]; unfold syms; cbn [map app la]; now eexists. Qed.

Lemma head : forall n st ts, accepts n st (syms ts) -> wf true n st -> In (la ts) (firsts n).
Proof.
  intros n st ts A W. apply accepts_racc in A.
  pose proof (racc_forget true n st (syms ts) A (wf_weaken n st W) [] st eq_refl) as A'.
  destruct (closure_total false n []) as [l C]. unfold firsts. rewrite C.
  pose proof (closure_complete false n [] (syms ts) A' _ _ C) as K.
  destruct (la_syms ts) as [w E]. rewrite E in K.
  destruct K as [m [c [tr [t [K1 [K2 [K3 _]]]]]]].
  apply in_flat_map. exists (m, c). split; [exact K1 |].
  apply in_flat_map. exists tr. split; [exact K2 |]. eapply tok_syms_In. exact K3.
Qed.

(** ** sync *)
Lemma look_complete : forall n ctx w, racc true n ctx w -> forall x w', w = x :: w' ->
  forall c s, ctx = c ++ s -> forall fuel l, closure true fuel n c = Some l ->
  exists p, In p l /\ (stop (fst p) = true
                       \/ exists tr t, In tr (edges (fst p)) /\ tok_target tr x = Some t).
Proof.
  intros n ctx w H. induction H; intros x0 w' Ew c0 s Ec fuel l C.
  - discriminate Ew.
  - destruct fuel as [| fuel]; [discriminate C |]. cbn [closure] in C. rewrite H in C.
    destruct c0 as [| f0 c0].
    + injection C as C; subst l. exists (n, []). split; [now left | now left].
    + cbn [app] in Ec. injection Ec as E1 E2; subst. eapply IHracc; [reflexivity | reflexivity | exact C].
  - discriminate H.
  - destruct fuel as [| fuel]; [discriminate C |]. cbn [closure] in C.
    rewrite (edge_not_stop n tr H) in C.
    destruct (all_some _) as [l0 |] eqn:A; [| discriminate C].
    assert (T : exists m' c1, eps_target tr c0 = Some (m', c1) /\ m = m' /\ c = c1 ++ s).
    { subst st. destruct tr as [t | s0 f | t k | t | t rs | t p]; cbn [eps_target] in *;
        try discriminate H0.
      - injection H0 as E1 E2; subst. now exists m, c0.
      - injection H0 as E1 E2; subst. now exists m, (f :: c0).
      - injection H0 as E1 E2; subst. now exists m, c0.
      - destruct (0 <=? p); [| discriminate H0].
        injection H0 as E1 E2; subst. now exists m, c0. }
    destruct T as [m' [c1 [T1 [T2 T3]]]]. subst m'.
    destruct (all_some_in _ _ A (closure true fuel m c1)) as [y [E1 E2]].
    { apply in_map_iff. exists tr. split; [now rewrite T1 | exact H]. }
    destruct (IHracc x0 w' Ew c1 s T3 fuel y E1) as [p [P1 P2]].
    exists p. split; [| exact P2].
    injection C as C; subst l. destruct (eps_only n); [now apply E2 | right; now apply E2].
  - injection Ew as E1 E2; subst.
    destruct fuel as [| fuel]; [discriminate C |]. cbn [closure] in C.
    rewrite (edge_not_stop n tr H) in C.
    destruct (all_some _) as [l0 |] eqn:A; [| discriminate C].
    assert (N : eps_only n = false).
    { unfold eps_only. destruct (edges n) as [| e es] eqn:E; [destruct H |].
      destruct (forallb is_eps (e :: es)) eqn:F; [| reflexivity].
      rewrite forallb_forall in F. pose proof (F tr H) as F1.
      now rewrite (tok_not_eps tr x0 t H0) in F1. }
    rewrite N in C. injection C as C; subst l.
    exists (n, c0). split; [now left |]. right. exists tr, t. now split.
Qed.

Lemma sync_ok : forall n st ts, accepts n st (syms ts) -> sync n ts = true.
Proof.
  intros n st ts A. unfold sync. apply orb_true_iff. left. unfold next_has.
  destruct (closure_total true n []) as [l C]. rewrite C.
  apply accepts_racc in A. destruct (la_syms ts) as [w E]. rewrite E in A.
  destruct (look_complete n st _ A (la ts) w eq_refl [] st eq_refl _ _ C) as [p [P1 P2]].
  apply existsb_exists. exists p. split; [exact P1 |]. apply orb_true_iff.
  destruct P2 as [P2 | [tr [t [P2 P3]]]]; [now left |].
  right. apply existsb_exists. exists tr. split; [exact P2 |]. now rewrite P3.
Qed.

(** ** Tokens that are read *)
Lemma sym_nonneg : forall t, 0 < sym t.
Proof. intros t. unfold sym. destruct (tkind t); cbn [kind_id Z.of_N]; lia. Qed.

Lemma acc_take : forall n m k st ts, accepts n st (syms ts) -> stop n = false ->
  edges n = [PAtom m k] -> k <> -1 ->
  exists t r, ts = t :: r /\ sym t = k /\ take [k] ts = Some (t, r) /\ accepts m st (syms r).
Proof.
  intros n m k st ts A S E K. apply accepts_outs in A; [| exact S]. rewrite E in A.
  cbn [outs out1] in A. destruct ts as [| t r].
  - unfold syms in A. cbn [map app] in A. destruct A as [A _]. congruence.
  - rewrite syms_cons in A. destruct A as [A1 A2]. exists t, r.
    split; [reflexivity |]. split; [exact A1 |]. split; [| exact A2].
    cbn [take one_of existsb]. now rewrite A1, Z.eqb_refl.
Qed.

Lemma acc_take_set : forall n m rs ks st ts, accepts n st (syms ts) -> stop n = false ->
  edges n = [PSet m rs] -> tok_syms (PSet m rs) = ks -> ~ In (-1) ks ->
  exists t r, ts = t :: r /\ In (sym t) ks /\ take ks ts = Some (t, r) /\ accepts m st (syms r).
Proof.
  intros n m rs ks st ts A S E K N. apply accepts_outs in A; [| exact S]. rewrite E in A.
  cbn [outs out1] in A.
  assert (I : forall x, symbol_in rs x -> In x ks).
  { intros x Hx. subst ks. apply tok_syms_In with m. cbn [tok_target].
    apply symbol_in_iff in Hx. now rewrite Hx. }
  destruct ts as [| t r].
  - unfold syms in A. cbn [map app] in A. destruct A as [A _]. apply I in A. contradiction.
  - rewrite syms_cons in A. destruct A as [A1 A2]. exists t, r.
    split; [reflexivity |]. split; [now apply I |]. split; [| exact A2].
    cbn [take]. now rewrite (proj2 (one_of_In (sym t) ks) (I _ A1)).
Qed.

Lemma acc_integer : forall f st ts, accepts 12 (f :: st) (syms ts) ->
  exists i r, ts = i :: r /\ integer_token i /\ take [1; 9] ts = Some (i, r)
              /\ accepts f st (syms r).
Proof.
  intros f st ts A. inv A.
  destruct (acc_take_set 101 102 [(1, 1); (9, 9)] [1; 9] _ _ A) as [i [r [E [I [T A1]]]]];
    [reflexivity | reflexivity | reflexivity | |].
  - intros [H | [H | []]]; discriminate H.
  - exists i, r. split; [exact E |]. split; [now apply take_integer in T |].
    split; [exact T |]. inv A1. back A1. exact A1.
Qed.

Lemma acc_g_integer : forall f st ts, accepts 12 (f :: st) (syms ts) ->
  exists i r, ts = i :: r /\ integer_token i /\ g_integer ts = Some (mk_integer i, r)
              /\ accepts f st (syms r).
Proof.
  intros f st ts A. destruct (acc_integer f st ts A) as [i [r [E [I [T A1]]]]].
  exists i, r. split; [exact E |]. split; [exact I |]. split; [| exact A1].
  unfold g_integer. now rewrite T.
Qed.

(** the tests of the next token *)
Lemma one_of_not : forall x ks, ~ In x ks -> one_of x ks = false.
Proof.
  intros x ks H. destruct (one_of x ks) eqn:E; [| reflexivity].
  apply one_of_In in E. contradiction.
Qed.

(** [first A W]: the next token is one of the first tokens of the state of [A] *)
Ltac first_of A W H :=
  lazymatch type of A with
  | accepts ?n ?st (syms ?ts) =>
    assert (H : In (la ts) (firsts n)) by (apply (head n st ts A W));
    let e := eval vm_compute in (firsts n) in change (firsts n) with e in H
  end.

(** case analysis of such a membership *)
Ltac each H :=
  cbn [In] in H;
  repeat lazymatch type of H with
         | _ \/ _ => destruct H as [H | H]
         | False => destruct H
         end.

Ltac compute_tests H := rewrite <- H; cbn [one_of existsb Z.eqb Pos.eqb orb].

Lemma wf_call : forall n s f st, In (PCall s f) (edges n) -> wf true n st -> wf true s (f :: st).
Proof. intros n s f st I W. exact (wf_eps true n (PCall s f) st s (f :: st) I eq_refl W). Qed.

(** well-formedness of a state of the same rule *)
Ltac wfs W := lazymatch type of W with wf _ ?n _ => apply (wf_rule true n); [reflexivity | exact W] end.

Lemma zin_not : forall x l, zin x l = false -> ~ In x l.
Proof. intros x l H I. apply zin_In in I. congruence. Qed.

Lemma la_cons : forall t r, la (t :: r) = sym t.
Proof. reflexivity. Qed.

Lemma acc_g_number : forall f st ts, accepts 14 (f :: st) (syms ts) -> wf true 14 (f :: st) ->
  exists i t r, ts = i :: r /\ g_number ts = Some (t, r) /\ accepts f st (syms r).
Proof.
  intros f st ts A W. inv A. unfold g_number. rewrite (sync_ok _ _ _ A). inv A.
  destruct A as [A | A].
  - inv A. destruct (acc_g_integer _ _ _ A) as [i [r [E [I [G A1]]]]].
    exists i, (PNode Number_r [mk_integer i]), r. split; [exact E |]. split.
    + assert (H : one_of (la ts) [1; 9] = true).
      { subst ts. rewrite la_cons. unfold g_integer in G.
        destruct (take [1; 9] (i :: r)) as [[t0 r0] |] eqn:T; [| discriminate G].
        apply take_some in T. destruct T as [T1 T2]. injection T1 as T1 T3; subst.
        now apply one_of_In. }
      rewrite H, G. reflexivity.
    + inv A1. back A1. exact A1.
  - destruct (acc_take 104 106 11 _ _ A) as [t [r [E [K [T A1]]]]];
      [reflexivity | reflexivity | lia |].
    exists t, (PNode Number_r [PLeaf t]), r. split; [exact E |]. split.
    + subst ts. rewrite la_cons, K. cbn [one_of existsb Z.eqb Pos.eqb orb].
      now rewrite T.
    + inv A1. back A1. exact A1.
Qed.

Lemma acc_space : forall c a b st ts, accepts c st (syms ts) -> wf true c st ->
  stop c = false -> edges c = [PEps a; PEps b] -> stop a = false -> edges a = [PAtom b 18] ->
  rule_of b = rule_of c -> zin 18 (firsts b) = false ->
  exists w r, g_space c ts = Some (w, r) /\ accepts b st (syms r).
Proof.
  intros c a b st ts A W Sc Ec Sa Ea R F. unfold g_space. rewrite (sync_ok _ _ _ A).
  apply accepts_outs in A; [| exact Sc]. rewrite Ec in A. cbn [outs out1] in A.
  destruct A as [A | A].
  - destruct (acc_take a b 18 _ _ A Sa Ea) as [t [r [E [K [T A1]]]]]; [lia |].
    exists [t], r. split; [| exact A1]. subst ts. rewrite la_cons, K, T. reflexivity.
  - pose proof (head b st ts A (wf_rule true c b st R W)) as H.
    destruct (la ts =? 18) eqn:E.
    + apply Z.eqb_eq in E. rewrite E in H. apply zin_not in F. contradiction.
    + exists [], ts. now split.
Qed.

Lemma acc_date : forall n a b c st ts, accepts n st (syms ts) ->
  stop n = false -> edges n = [PEps a; PEps b] -> stop a = false -> edges a = [PAtom c 25] ->
  stop b = false -> edges b = [PCall 12 c] ->
  exists d r, g_date n ts = Some ([d], r) /\ accepts c st (syms r).
Proof.
  intros n a b c st ts A Sn En Sa Ea Sb Eb. unfold g_date. rewrite (sync_ok _ _ _ A).
  apply accepts_outs in A; [| exact Sn]. rewrite En in A. cbn [outs out1] in A.
  destruct A as [A | A].
  - destruct (acc_take a c 25 _ _ A Sa Ea) as [t [r [E [K [T A1]]]]]; [lia |].
    exists t, r. split; [| exact A1]. subst ts. rewrite la_cons, K.
    cbn [one_of existsb Z.eqb Pos.eqb orb]. now rewrite T.
  - apply accepts_outs in A; [| exact Sb]. rewrite Eb in A. cbn [outs out1] in A.
    destruct (acc_integer _ _ _ A) as [i [r [E [I [T A1]]]]].
    exists i, r. split; [| exact A1]. pose proof T as T0. apply take_some in T0.
    destruct T0 as [_ T0]. subst ts. rewrite la_cons.
    destruct T0 as [T0 | [T0 | []]]; rewrite <- T0; cbn [one_of existsb Z.eqb Pos.eqb orb];
      now rewrite T.
Qed.

Lemma acc_offset : forall f st ts, accepts 20 (f :: st) (syms ts) ->
  exists d r, g_offset ts = Some ([d], r) /\ In (la ts) [1; 9; 23] /\ accepts f st (syms r).
Proof.
  intros f st ts A. inv A. unfold g_offset. rewrite (sync_ok _ _ _ A). inv A.
  destruct A as [A | A].
  - destruct (acc_take 154 157 23 _ _ A) as [t [r [E [K [T A1]]]]];
      [reflexivity | reflexivity | lia |].
    exists t, r. subst ts. rewrite la_cons, K. split.
    + cbn [one_of existsb Z.eqb Pos.eqb orb]. now rewrite T.
    + split; [cbn [In]; tauto |]. inv A1. back A1. exact A1.
  - inv A. destruct (acc_integer _ _ _ A) as [i [r [E [I [T A1]]]]].
    exists i, r. pose proof T as T0. apply take_some in T0.
    destruct T0 as [_ T0]. subst ts. rewrite la_cons. split; [| split].
    + destruct T0 as [T0 | [T0 | []]]; rewrite <- T0; cbn [one_of existsb Z.eqb Pos.eqb orb];
        now rewrite T.
    + destruct T0 as [T0 | [T0 | []]]; rewrite <- T0; cbn [In]; tauto.
    + inv A1. back A1. exact A1.
Qed.

Lemma acc_clock : forall f st ts, accepts 18 (f :: st) (syms ts) ->
  exists d r, g_clock ts = Some ([d], r) /\ accepts f st (syms r).
Proof.
  intros f st ts A. inv A. unfold g_clock. rewrite (sync_ok _ _ _ A). inv A.
  destruct A as [A | [A | A]].
  - destruct (acc_take 149 153 22 _ _ A) as [t [r [E [K [T A1]]]]];
      [reflexivity | reflexivity | lia |].
    exists t, r. subst ts. rewrite la_cons, K. split.
    + cbn [one_of existsb Z.eqb Pos.eqb orb]. now rewrite T.
    + inv A1. back A1. exact A1.
  - destruct (acc_take 150 153 23 _ _ A) as [t [r [E [K [T A1]]]]];
      [reflexivity | reflexivity | lia |].
    exists t, r. subst ts. rewrite la_cons, K. split.
    + cbn [one_of existsb Z.eqb Pos.eqb orb]. now rewrite T.
    + inv A1. back A1. exact A1.
  - inv A. destruct (acc_integer _ _ _ A) as [i [r [E [I [T A1]]]]].
    exists i, r. pose proof T as T0. apply take_some in T0.
    destruct T0 as [_ T0]. subst ts. rewrite la_cons. split.
    + destruct T0 as [T0 | [T0 | []]]; rewrite <- T0; cbn [one_of existsb Z.eqb Pos.eqb orb];
        now rewrite T.
    + inv A1. back A1. exact A1.
Qed.

Lemma acc_zone : forall n a b c st ts, accepts n st (syms ts) -> wf true n st ->
  stop n = false -> edges n = [PEps a; PEps b; PEps c] ->
  stop a = false -> edges a = [PCall 20 c] -> stop b = false -> edges b = [PAtom c 20] ->
  rule_of c = rule_of n -> forallb (fun x => negb (zin x (firsts c))) [1; 9; 23; 20] = true ->
  exists z r, g_zone n ts = Some (z, r) /\ accepts c st (syms r).
Proof.
  intros n a b c st ts A W Sn En Sa Ea Sb Eb R F. unfold g_zone. rewrite (sync_ok _ _ _ A).
  apply accepts_outs in A; [| exact Sn]. rewrite En in A. cbn [outs out1] in A.
  destruct A as [A | [A | A]].
  - apply accepts_outs in A; [| exact Sa]. rewrite Ea in A. cbn [outs out1] in A.
    destruct (acc_offset _ _ _ A) as [d [r [G [H A1]]]].
    apply one_of_In in H. rewrite H. exists [d], r. now split.
  - destruct (acc_take b c 20 _ _ A Sb Eb) as [t [r [E [K [T A1]]]]]; [lia |].
    exists [t], r. split; [| exact A1]. subst ts. rewrite la_cons, K.
    cbn [one_of existsb Z.eqb Pos.eqb orb]. now rewrite T.
  - pose proof (head c st ts A (wf_rule true n c st R W)) as H.
    rewrite forallb_forall in F.
    assert (N : forall x, In x [1; 9; 23; 20] -> la ts <> x).
    { intros x Hx E. subst x. pose proof (F _ Hx) as K.
      rewrite (proj2 (zin_In _ _) H) in K. discriminate K. }
    rewrite (one_of_not (la ts) [1; 9; 23]).
    2:{ intros I. apply (N (la ts)); [| reflexivity]. cbn [In] in *. tauto. }
    rewrite (one_of_not (la ts) [20]).
    2:{ intros I. apply (N (la ts)); [| reflexivity]. cbn [In] in *. tauto. }
    exists [], ts. now split.
Qed.

Lemma acc_space_or_T : forall st ts, accepts 116 st (syms ts) -> wf true 116 st ->
  exists w r, g_space_or_T ts = Some (w, r) /\ accepts 117 st (syms r).
Proof.
  intros st ts A W. unfold g_space_or_T. rewrite (sync_ok _ _ _ A). inv A.
  destruct A as [A | A].
  - destruct (acc_take_set 115 117 [(18, 18); (26, 26)] [18; 26] _ _ A)
      as [t [r [E [I [T A1]]]]]; [reflexivity | reflexivity | reflexivity | |].
    + intros [H | [H | []]]; discriminate H.
    + exists [t], r. split; [| exact A1]. subst ts. rewrite la_cons.
      destruct I as [I | [I | []]]; rewrite <- I; cbn [Z.eqb Pos.eqb orb]; now rewrite T.
  - first_of A (wf_rule true 116 117 st eq_refl W) H.
    exists [], ts. split; [| exact A].
    each H; rewrite <- H; reflexivity.
Qed.

Lemma acc_spaces : forall ts st, accepts 63 st (syms ts) -> wf true 63 st ->
  exists ws r, g_spaces ts = Some (ws, r) /\ accepts 66 st (syms r).
Proof.
  induction ts as [| t ts IH]; intros st A W.
  - inv A. inv A. unfold syms in A. cbn [map app] in A. destruct A as [A _]. discriminate A.
  - inv A. inv A. rewrite syms_cons in A. destruct A as [K A]. inv A.
    cbn [g_spaces]. rewrite K. cbn [one_of existsb Z.eqb Pos.eqb orb].
    rewrite (sync_ok _ _ _ A). inv A.
    destruct A as [A | A].
    + destruct (IH st A W) as [ws [r [G A1]]].
      first_of A W H. each H. rewrite <- H. cbn [Z.eqb Pos.eqb]. rewrite G.
      exists (t :: ws), r. now split.
    + first_of A (wf_rule true 63 66 st eq_refl W) H.
      exists [t], ts. split; [| exact A]. each H; rewrite <- H; reflexivity.
Qed.

(** ** Predictions *)
Lemma decision_viable : forall d st w, stop (decision_state d) = false ->
  forallb (fun t => match t with PEps _ => true | _ => false end)
    (edges (decision_state d)) = true ->
  accepts (decision_state d) st w -> exists j, viable d j st w.
Proof.
  intros d st w Sn E A. apply accepts_outs in A; [| exact Sn].
  assert (K : forall l st w, outs l st w -> exists k t, nth_error l k = Some t /\ out1 t st w).
  { induction l as [| t l IH]; intros st0 w0 Q; [destruct Q |].
    cbn [outs] in Q. destruct l as [| t1 l]; [now exists 0%nat, t |].
    destruct Q as [Q | Q]; [now exists 0%nat, t |].
    destruct (IH _ _ Q) as [k [t' [K1 K2]]]. now exists (Datatypes.S k), t'. }
  destruct (K _ _ _ A) as [k [t [K1 K2]]].
  rewrite forallb_forall in E. pose proof (E t (nth_error_In _ _ K1)) as Et.
  destruct t as [m | | | | |]; try discriminate Et. cbn [out1] in K2.
  exists (Z.of_nat k + 1), m. split; [lia |]. split; [| exact K2].
  rewrite <- K1. f_equal. lia.
Qed.

Lemma syms_ended : forall ts, ended (syms ts).
Proof.
  intros ts. exists (map sym ts). split; [reflexivity |]. intros I. apply in_map_iff in I.
  destruct I as [t [E _]]. pose proof (sym_nonneg t). lia.
Qed.

Lemma predicted : forall pick d st ts, In d decisions -> wf true (decision_state d) st ->
  accepts (decision_state d) st (syms ts) ->
  exists m, predict pick d st (syms ts) = Some m /\ least_viable d st (syms ts) m.
Proof.
  intros pick d st ts D W A. apply predict_least; [exact D | exact W | apply syms_ended |].
  assert (C : forallb (fun d => negb (stop (decision_state d))
      && forallb (fun t => match t with PEps _ => true | _ => false end)
           (edges (decision_state d))) decisions = true) by (vm_compute; reflexivity).
  rewrite forallb_forall in C. pose proof (C d D) as K. apply andb_true_iff in K.
  destruct K as [K1 K2]. apply decision_viable; [| exact K2 | exact A].
  now apply negb_true_iff in K1.
Qed.

(** the alternative [m] is one of the [k] first ones *)
Ltac chosen V t A :=
  destruct V as [t [_ [V A]]]; vm_compute in V; injection V as V; subst t.

Lemma acc_timestamp : forall f st ts x, gives (g_timestamp (f :: st) ts) x ->
  accepts 16 (f :: st) (syms ts) -> wf true 16 (f :: st) ->
  exists b r, x = Some (b, r) /\ accepts f st (syms r).
Proof.
  intros f st ts x H A W. inv A. unfold g_timestamp in H. rewrite (sync_ok _ _ _ A) in H.
  apply gives_ask in H. destruct H as [pick [pick_ok H]].
  assert (W147 : wf true 147 (f :: st)) by (wfs W).
  destruct (predicted pick 23 (f :: st) ts) as [m [P [V _]]];
    [unfold decisions; cbn [In]; tauto | exact W147 | exact A |].
  rewrite P in H. clear A.
  assert (F148 : forall r, accepts 148 (f :: st) (syms r) -> accepts f st (syms r)).
  { intros r A. inv A. back A. exact A. }
  destruct (cases23 pick pick_ok _ _ _ P) as [M | [M | [M | [M | M]]]]; subst m; cbv beta iota in H.
  - chosen V t A.
    destruct (acc_date 109 107 108 110 _ _ A) as [d [r [G A1]]]; try reflexivity.
    rewrite G in H. apply gives_ret in H. subst x. exists [d], r. split; [reflexivity |]. inv A1. now apply F148.
  - chosen V t A.
    destruct (acc_date 113 111 112 114 _ _ A) as [d [r [G A1]]]; try reflexivity.
    rewrite G in H. inv A1.
    destruct (acc_space_or_T _ _ A1) as [w [r2 [G2 A2]]]; [wfs W |]. rewrite G2 in H. inv A2.
    inv A2. destruct (acc_clock _ _ _ A2) as [c [r3 [G3 A3]]]. rewrite G3 in H.
    destruct (acc_space 120 119 121 _ _ A3) as [w2 [r4 [G4 A4]]];
      [wfs W | reflexivity .. |]. rewrite G4 in H. inv A4.
    destruct (acc_zone 124 122 123 125 _ _ A4) as [z [r5 [G5 A5]]];
      [wfs W | reflexivity .. |]. rewrite G5 in H. inv A5.
    apply gives_ret in H. subst x. eexists _, r5. split; [reflexivity | now apply F148].
  - chosen V t A. inv A. destruct (acc_integer _ _ _ A) as [i [r [E [I [T A1]]]]].
    rewrite T in H. destruct (acc_zone 129 127 128 130 _ _ A1) as [z [r5 [G5 A5]]];
      [wfs W | reflexivity .. |]. rewrite G5 in H. inv A5.
    apply gives_ret in H. subst x. eexists _, r5. split; [reflexivity | now apply F148].
  - chosen V t A. destruct (acc_take 131 133 27 _ _ A) as [s [r [E [K [T A1]]]]];
      [reflexivity | reflexivity | lia |]. rewrite T in H.
    destruct (acc_space 133 132 134 _ _ A1) as [w2 [r4 [G4 A4]]];
      [wfs W | reflexivity .. |]. rewrite G4 in H. inv A4.
    destruct (acc_zone 137 135 136 138 _ _ A4) as [z [r5 [G5 A5]]];
      [wfs W | reflexivity .. |]. rewrite G5 in H. inv A5.
    apply gives_ret in H. subst x. eexists _, r5. split; [reflexivity | now apply F148].
  - chosen V t A.
    destruct (acc_date 141 139 140 142 _ _ A) as [d [r [G A1]]]; try reflexivity.
    rewrite G in H. inv A1.
    destruct (acc_space 144 143 145 _ _ A1) as [w2 [r4 [G4 A4]]];
      [wfs W | reflexivity .. |]. rewrite G4 in H. inv A4.
    destruct (acc_take_set 146 148 [(20, 21)] [20; 21] _ _ A4)
      as [t [r5 [E [I [T A5]]]]]; [reflexivity | reflexivity | reflexivity | |].
    + intros [X | [X | []]]; discriminate X.
    + rewrite T in H. apply gives_ret in H. subst x. eexists _, r5. split; [reflexivity | now apply F148].
Qed.
