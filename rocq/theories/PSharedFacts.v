(** * Parsers that share a cache: every prediction is what it would be without the cache *)
From Verif Require Import PyBase Lexer Parser PAtn PSpec PSim PSimFacts PSimMore PGen PGenSound
  PGenExact PShared.
Local Open Scope Z_scope.

(** ** Equality tests *)
Lemma cfg_eqb_eq : forall c d, cfg_eqb c d = true -> c = d.
Proof.
  intros c d H. unfold cfg_eqb in H. apply andb_true_iff in H. destruct H as [H1 H2].
  apply same_node_eq in H1. apply zlist_eqb_eq in H2. destruct c, d. cbn in *.
  destruct H1. now subst.
Qed.

Lemma cfgs_eqb_eq : forall a b, cfgs_eqb a b = true -> a = b.
Proof.
  induction a as [| x a IH]; intros [| y b] H; cbn [cfgs_eqb] in H;
    try discriminate H; [reflexivity |].
  apply andb_true_iff in H. destruct H as [H1 H2]. apply cfg_eqb_eq in H1. subst y.
  now rewrite (IH b H2).
Qed.

Lemma cfgs_eqb_refl : forall a, cfgs_eqb a a = true.
Proof.
  induction a as [| x a IH]; [reflexivity |]. cbn [cfgs_eqb]. rewrite IH.
  unfold cfg_eqb, same_node. rewrite !Z.eqb_refl. rewrite (proj2 (zlist_eqb_eq _ _) eq_refl).
  reflexivity.
Qed.

Lemma verdict_eqb_eq : forall a b, verdict_eqb a b = true -> a = b.
Proof.
  intros [| m |] [| n |] H; cbn [verdict_eqb] in H; try discriminate H; try reflexivity.
  apply Z.eqb_eq in H. now subst.
Qed.

(** ** The memory only grows, and what it holds is right *)
Definition holds (h : memory) (id : nat) (cs : list pcfg) (v : verdict) : Prop :=
  exists o, nth_error (m_objs h) id = Some o /\ s_configs o = cs /\ s_verdict o = v.

Definition allocated (h : memory) (id : nat) : Prop :=
  exists o es, nth_error (m_objs h) id = Some o /\ s_edges o = Some es.

Definition grows (h h' : memory) : Prop :=
  (forall id cs v, holds h id cs v -> holds h' id cs v)
  /\ (forall id, allocated h id -> allocated h' id).

Definition edge_ok (h : memory) (cs : list pcfg) (x : Z) (e : target) : Prop :=
  match e with
  | TError => reach false cs x = Some []
  | TState id => exists cs', reach false cs x = Some cs' /\ cs' <> []
                             /\ holds h id cs' (verdict_of cs')
  end.

Definition start_of (d : Z) : option (list pcfg) :=
  option_map (fun cs => if precedence_decision d then precedence_filter cs else cs)
    (start_set false d []).

Definition right (h : memory) : Prop :=
  (forall d id, find d (m_s0 h) = Some id -> exists cs, start_of d = Some cs /\ holds h id cs VGo)
  /\ (forall id o es x e, nth_error (m_objs h) id = Some o -> s_edges o = Some es ->
        find x es = Some e -> edge_ok h (s_configs o) x e).

Lemma grows_refl : forall h, grows h h.
Proof. intros h. now split. Qed.

Lemma grows_trans : forall a b c, grows a b -> grows b c -> grows a c.
Proof.
  intros a b c [H1 K1] [H2 K2]. split.
  - intros id cs v H. now apply H2, H1.
  - intros id H. now apply K2, K1.
Qed.

Lemma edge_ok_grows : forall h h' cs x e, grows h h' -> edge_ok h cs x e -> edge_ok h' cs x e.
Proof.
  intros h h' cs x [| id] G H; cbn [edge_ok] in *; [exact H |].
  destruct H as [cs' [H1 [H2 H3]]]. exists cs'. split; [exact H1 |]. split; [exact H2 |].
  now apply G.
Qed.

Lemma holds_same : forall h id cs v cs' v', holds h id cs v -> holds h id cs' v' ->
  cs = cs' /\ v = v'.
Proof.
  intros h id cs v cs' v' [o [E [A B]]] [o' [E' [A' B']]]. rewrite E in E'.
  injection E' as E'. subst. now split.
Qed.

Lemma nth_set_nth : forall {A} (l : list A) i j x, nth_error (set_nth l i x) j =
  if Nat.eqb i j then (match nth_error l i with Some _ => Some x | None => None end)
  else nth_error l j.
Proof.
  induction l as [| y l IH]; intros [| i] [| j] x; cbn [set_nth nth_error Nat.eqb];
    try reflexivity.
  - now destruct (Nat.eqb i j).
  - apply IH.
Qed.

Lemma set_edges_grows : forall h id es, grows h (set_edges h id es).
Proof.
  intros h id es. unfold set_edges.
  destruct (nth_error (m_objs h) id) as [o0 |] eqn:E0; [| now split].
  split.
  - intros i cs v [o [E [A B]]]. unfold holds. cbn [m_objs]. rewrite nth_set_nth.
    destruct (Nat.eqb id i) eqn:X; [| now exists o].
    apply Nat.eqb_eq in X. subst i. rewrite E0. rewrite E in E0. injection E0 as E0. subst o0.
    eexists. split; [reflexivity |]. now split.
  - intros i [o [es' [E A]]]. unfold allocated. cbn [m_objs]. rewrite nth_set_nth.
    destruct (Nat.eqb id i) eqn:X; [| now exists o, es'].
    rewrite E0. eexists _, _. now split.
Qed.

Lemma set_edges_right : forall h id cs v es, right h -> holds h id cs v ->
  (forall x e, find x es = Some e -> edge_ok h cs x e) -> right (set_edges h id es).
Proof.
  intros h id cs v es [R1 R2] [o [E [A B]]] F.
  pose proof (set_edges_grows h id es) as G. split.
  - intros d i H. assert (X : m_s0 (set_edges h id es) = m_s0 h).
    { unfold set_edges. now rewrite E. }
    rewrite X in H. destruct (R1 d i H) as [c [H1 H2]]. exists c. split; [exact H1 |].
    now apply G.
  - intros i o' es' x e H1 H2 H3. apply (edge_ok_grows h _ _ _ _ G).
    unfold set_edges in H1. rewrite E in H1. cbn [m_objs] in H1. rewrite nth_set_nth in H1.
    destruct (Nat.eqb id i) eqn:X.
    + rewrite E in H1. injection H1 as H1. subst o'. cbn [s_edges s_configs] in *.
      injection H2 as H2. subst es' cs. now apply F.
    + now apply (R2 i o' es' x e).
Qed.

(** ** Sound programs: [good h p Q] if, whatever the others do to the memory meanwhile,
    every access of [p] is allowed, and the result has the property [Q] *)
Definition allowed {B} (o : access B) (h : memory) : Prop :=
  match o with
  | ReadStart _ | Find _ _ _ | Insert _ _ _ | Choose _ => True
  | WriteStart d id => exists cs, start_of d = Some cs /\ holds h id cs VGo
  | Load id | ReadEdge id _ | HasEdges id | Alloc id => exists cs v, holds h id cs v
  | Store id x e => allocated h id /\ exists cs v, holds h id cs v /\ edge_ok h cs x e
  end.

Fixpoint good {A} (h : memory) (p : prog A) (Q : A -> Prop) : Prop :=
  match p with
  | Done a => Q a
  | Act o k =>
    allowed o h /\
    forall h' b h'', grows h h' -> right h' -> does o h' b h'' -> good h'' (k b) Q
  end.

Lemma allowed_grows : forall {B} (o : access B) h h', grows h h' -> allowed o h -> allowed o h'.
Proof.
  intros B o h h' G H. destruct o; cbn [allowed] in *; try exact H.
  - destruct H as [cs [H1 H2]]. exists cs. split; [exact H1 | now apply G].
  - destruct H as [cs [v H]]. exists cs, v. now apply G.
  - destruct H as [cs [v H]]. exists cs, v. now apply G.
  - destruct H as [cs [v H]]. exists cs, v. now apply G.
  - destruct H as [cs [v H]]. exists cs, v. now apply G.
  - destruct H as [H0 [cs [v [H1 H2]]]]. split; [now apply G |]. exists cs, v.
    split; [now apply G |]. now apply (edge_ok_grows h).
Qed.

Lemma good_grows : forall {A} (p : prog A) h h' Q, grows h h' -> good h p Q -> good h' p Q.
Proof.
  intros A [a | B o k] h h' Q G H; cbn [good] in *; [exact H |].
  destruct H as [H1 H2]. split; [now apply (allowed_grows o h) |].
  intros h1 b h2 G1 R D. apply (H2 h1 b h2); [| exact R | exact D].
  now apply (grows_trans h h').
Qed.

Lemma find_cons : forall {A} (k k' : Z) (v : A) l, find k ((k', v) :: l) =
  if k =? k' then Some v else find k l.
Proof. reflexivity. Qed.

(** an allowed access keeps the memory right *)
Lemma does_right : forall {B} (o : access B) h b h', right h -> allowed o h -> does o h b h' ->
  grows h h' /\ right h'.
Proof.
  intros B o h b h' R W D. destruct o; cbn [allowed does] in *.
  - destruct D as [D _]. subst h'. split; [apply grows_refl | exact R].
  - subst h'. destruct W as [cs [W1 W2]]. split; [now split |].
    destruct R as [R1 R2]. split.
    + intros d' i H. cbn [m_s0] in H. rewrite find_cons in H.
      destruct (d' =? d) eqn:X.
      * apply Z.eqb_eq in X. injection H as H. subst. now exists cs.
      * now apply R1.
    + intros i o es x e H1 H2 H3. exact (R2 i o es x e H1 H2 H3).
  - destruct D as [D _]. subst h'. split; [apply grows_refl | exact R].
  - destruct D as [D1 D2]. subst b h'.
    assert (G : grows h (mkM (m_objs h ++ [mkD cs v None]) (m_s0 h)
                  ((d, List.length (m_objs h)) :: m_states h))).
    { split.
      - intros i c w [o [E H]]. exists o. split; [| exact H]. cbn [m_objs].
        rewrite nth_error_app1; [exact E |]. apply nth_error_Some. congruence.
      - intros i [o [es [E H]]]. exists o, es. split; [| exact H]. cbn [m_objs].
        rewrite nth_error_app1; [exact E |]. apply nth_error_Some. congruence. }
    split; [exact G |]. destruct R as [R1 R2]. split.
    + intros d' i H. cbn [m_s0] in H. destruct (R1 d' i H) as [c [H1 H2]]. exists c.
      split; [exact H1 | now apply G].
    + intros i o es x e H1 H2 H3. cbn [m_objs] in H1. apply (edge_ok_grows h _ _ _ _ G).
      destruct (Nat.lt_ge_cases i (List.length (m_objs h))) as [L | L].
      * rewrite nth_error_app1 in H1 by exact L. exact (R2 i o es x e H1 H2 H3).
      * rewrite nth_error_app2 in H1 by exact L.
        destruct (i - List.length (m_objs h))%nat as [| [| n]]; cbn in H1; try discriminate H1.
        injection H1 as H1. subst o. discriminate H2.
  - destruct D as [D _]. subst h'. split; [apply grows_refl | exact R].
  - destruct D as [D _]. subst h'. split; [apply grows_refl | exact R].
  - destruct D as [D _]. subst h'. split; [apply grows_refl | exact R].
  - subst h'. destruct W as [cs [v W]]. split; [apply set_edges_grows |].
    apply (set_edges_right h id cs v); [exact R | exact W |]. intros x e H. discriminate H.
  - destruct W as [_ [cs [v [W1 W2]]]]. destruct D as [o [es [D1 [Es D2]]]]. subst h'.
    split; [apply set_edges_grows |]. apply (set_edges_right h id cs v); [exact R | exact W1 |].
    intros y f H. rewrite find_cons in H. destruct (y =? x) eqn:X.
    + apply Z.eqb_eq in X. injection H as H. subst. exact W2.
    + destruct W1 as [o' [E [A _]]]. rewrite D1 in E. injection E as E. subst o' cs.
      destruct R as [_ R2]. exact (R2 id o es y f D1 Es H).
  - destruct D as [D _]. subst h'. split; [apply grows_refl | exact R].
Qed.

(** one access, in terms of a memory that is right *)
Lemma good_act : forall {A B} (o : access B) (k : B -> prog A) h Q, allowed o h ->
  (forall h' b h'', grows h h' -> right h' -> does o h' b h'' ->
     grows h' h'' -> right h'' -> good h'' (k b) Q) ->
  good h (Act o k) Q.
Proof.
  intros A B o k h Q W H. split; [exact W |]. intros h' b h'' G R D.
  destruct (does_right o h' b h'' R (allowed_grows o h h' G W) D) as [G' R'].
  now apply (H h' b h'').
Qed.

Lemma good_bind : forall {A B} (p : prog A) (f : A -> prog B) h (P : A -> Prop) Q,
  right h -> good h p P ->
  (forall a h', grows h h' -> right h' -> P a -> good h' (f a) Q) -> good h (pbind p f) Q.
Proof.
  intros A B p f. induction p as [a | C o k IH]; intros h P Q R H F; cbn [pbind].
  - apply F; [apply grows_refl | exact R | exact H].
  - destruct H as [W H]. apply good_act; [exact W |].
    intros h' b h'' G R' D G' R''. apply (IH b h'' P Q R'').
    + exact (H h' b h'' G R' D).
    + intros a h3 G3 R3 Pa. apply F; [| exact R3 | exact Pa].
      apply (grows_trans h h'); [exact G |]. now apply (grows_trans h' h'').
Qed.

Lemma good_weaken : forall {A} (p : prog A) h (P Q : A -> Prop), (forall a, P a -> Q a) ->
  good h p P -> good h p Q.
Proof.
  intros A p. induction p as [a | C o k IH]; intros h P Q W H; cbn [good] in *.
  - now apply W.
  - destruct H as [H1 H2]. split; [exact H1 |]. intros h' b h'' G R D.
    apply (IH b h'' P Q W). now apply (H2 h' b h'').
Qed.

(** ** The parts of a prediction *)
Lemma load_good : forall {A} id cs v (k : list pcfg * verdict -> prog A) h Q,
  holds h id cs v -> (forall h', grows h h' -> right h' -> good h' (k (cs, v)) Q) ->
  good h (Act (Load id) k) Q.
Proof.
  intros A id cs v k h Q H F. apply good_act; [now exists cs, v |].
  intros h' b h'' G R D _ R''. cbn [does] in D. destruct D as [D [o [E Eb]]]. subst h'' b.
  destruct (proj1 G id cs v H) as [o' [E' [H1 H2]]]. rewrite E in E'. injection E' as E'. subst.
  apply F; assumption.
Qed.

Lemma find_state_holds : forall h d cs v l id, find_state h d cs v l = Some id ->
  holds h id cs v.
Proof.
  intros h d cs v l. induction l as [| [d' i] l IH]; intros id H; cbn [find_state] in H;
    [discriminate H |].
  destruct (nth_error (m_objs h) i) as [o |] eqn:E; [| now apply IH].
  destruct ((d =? d') && cfgs_eqb cs (s_configs o) && verdict_eqb v (s_verdict o)) eqn:X;
    [| now apply IH].
  injection H as H. subst i. apply andb_true_iff in X. destruct X as [X1 X2].
  apply andb_true_iff in X1. destruct X1 as [_ X1].
  apply cfgs_eqb_eq in X1. apply verdict_eqb_eq in X2. exists o. now subst.
Qed.

Lemma add_state_good : forall {A} d cs v (k : nat -> prog A) h Q,
  (forall id h', grows h h' -> right h' -> holds h' id cs v -> good h' (k id) Q) ->
  good h (add_state d cs v k) Q.
Proof.
  intros A d cs v k h Q F. unfold add_state. apply good_act; [exact I |].
  intros h' b h'' G R D _ R''. cbn [does] in D. destruct D as [D Eb]. subst h'' b.
  destruct (find_state h' d cs v (m_states h')) as [id |] eqn:E.
  - apply F; [exact G | exact R | now apply find_state_holds in E].
  - apply good_act; [exact I |]. intros h1 id h2 G1 R1 D1 G2 R2. cbn [does] in D1.
    destruct D1 as [D1 D2]. apply F; [| exact R2 |].
    + apply (grows_trans h h' h2); [exact G |]. now apply (grows_trans h' h1 h2).
    + subst h2. exists (mkD cs v None). split; [| now split]. cbn [m_objs]. subst id.
      rewrite nth_error_app2 by lia. now rewrite Nat.sub_diag.
Qed.

Lemma add_edge_good : forall {A} id cs v x e (k : prog A) h Q,
  holds h id cs v -> edge_ok h cs x e ->
  (forall h', grows h h' -> right h' -> good h' k Q) -> good h (add_edge id x e k) Q.
Proof.
  intros A id cs v x e k h Q H E F. unfold add_edge. apply good_act; [now exists cs, v |].
  intros h' b h'' G R D _ R''. cbn [does] in D. destruct D as [D [o [Eo Eb]]]. subst h''.
  destruct b.
  - apply good_act.
    + split.
      * destruct (s_edges o) as [es |] eqn:Es; [| discriminate Eb]. now exists o, es.
      * exists cs, v. split; [now apply G | now apply (edge_ok_grows h)].
    + intros h1 u h2 G1 R1 _ G2 R2. apply F; [| exact R2].
      apply (grows_trans h h' h2); [exact G |]. now apply (grows_trans h' h1 h2).
  - apply good_act.
    + exists cs, v. now apply G.
    + intros h1 u h2 G1 R1 D1 G2 R2. apply good_act.
      * pose proof (grows_trans h h' h1 G G1) as Ga.
        pose proof (grows_trans h h1 h2 Ga G2) as Gb. split.
        -- cbn [does] in D1. subst h2. unfold set_edges.
           assert (H1 : holds h1 id cs v) by (now apply Ga). destruct H1 as [o1 [E1 _]].
           rewrite E1. unfold allocated. cbn [m_objs]. rewrite nth_set_nth, Nat.eqb_refl, E1.
           eexists _, _. now split.
        -- exists cs, v. split; [now apply Gb | now apply (edge_ok_grows h)].
      * intros h3 u' h4 G3 R3 _ G4 R4. apply F; [| exact R4].
        apply (grows_trans h h' h4); [exact G |]. apply (grows_trans h' h1 h4); [exact G1 |].
        apply (grows_trans h1 h2 h4); [exact G2 |]. now apply (grows_trans h2 h3 h4).
Qed.

(** ** [pick] is used at most once in a prediction *)
Definition at_set (cs : list pcfg) (b : option Z) : list pcfg -> option Z :=
  fun cs' => if cfgs_eqb cs' cs then b else None.

Lemma at_set_ok : forall cs b, (forall m, b = Some m -> exists c, In c cs /\ pc_alt c = m) ->
  picks_from_set (at_set cs b).
Proof.
  intros cs b H cs' m E. unfold at_set in E. destruct (cfgs_eqb cs' cs) eqn:X; [| discriminate E].
  apply cfgs_eqb_eq in X. subst cs'. now apply H.
Qed.

Lemma at_set_same : forall cs b, at_set cs b cs = b.
Proof. intros cs b. unfold at_set. now rewrite cfgs_eqb_refl. Qed.

Lemma no_pick : picks_from_set (fun _ => None).
Proof. intros cs m H. discriminate H. Qed.

Lemma choose_good : forall cs h (Q : option Z -> Prop),
  (forall pick, picks_from_set pick -> Q (pick cs)) -> good h (Act (Choose cs) Done) Q.
Proof.
  intros cs h Q F. apply good_act; [exact I |]. intros h' b h'' G R D _ _. cbn [does] in D.
  destruct D as [_ D]. cbn [good]. rewrite <- (at_set_same cs b). apply F. now apply at_set_ok.
Qed.

Lemma full_good : forall w cs h, good h (full_prog cs w)
  (fun r => exists pick, picks_from_set pick /\ r = exec_full pick cs w).
Proof.
  induction w as [| x w IH]; intros cs h; cbn [full_prog exec_full].
  - exists (fun _ => None). split; [exact no_pick | reflexivity].
  - destruct (reach true cs x) as [[| c r] |].
    + apply choose_good. intros pick P. now exists pick.
    + destruct (unique_alt (c :: r)) as [m |].
      * exists (fun _ => None). split; [exact no_pick | reflexivity].
      * destruct (single_viable (c :: r)) as [m |].
        -- exists (fun _ => None). split; [exact no_pick | reflexivity].
        -- apply IH.
    + exists (fun _ => None). split; [exact no_pick | reflexivity].
Qed.

Lemma sll_good : forall d again f w,
  (forall h, good h again (fun r => exists pick, picks_from_set pick /\ r = f pick)) ->
  forall id cs v h, holds h id cs v ->
  good h (sll_prog d again id w)
    (fun r => exists pick, picks_from_set pick /\ r = exec_sll pick (f pick) cs w).
Proof.
  intros d again f w HA. induction w as [| x w IH]; intros id cs v h H; cbn [sll_prog exec_sll].
  - exists (fun _ => None). split; [exact no_pick | reflexivity].
  - cbv zeta.
    (* once the target is known *)
    assert (Fo : forall e h', holds h' id cs v -> edge_ok h' cs x e ->
      good h' (match e with
               | TError => Act (Load id) (fun o => Act (Choose (fst o)) Done)
               | TState id' => Act (Load id') (fun o =>
                   match snd o with
                   | VFull => again
                   | VAlt m => Done (Some m)
                   | VGo => sll_prog d again id' w
                   end)
               end)
        (fun r => exists pick, picks_from_set pick /\
           r = match reach false cs x with
               | Some [] => pick cs
               | Some cs' =>
                 match unique_alt cs' with
                 | Some m => Some m
                 | None => if sll_conflict cs' then f pick
                           else exec_sll pick (f pick) cs' w
                 end
               | None => None
               end)).
    { intros [| id'] h' Hh He; cbn [edge_ok] in He.
      - apply (load_good id cs v); [exact Hh |]. intros h2 G2 R2. cbn [fst].
        rewrite He. apply choose_good. intros pick P. now exists pick.
      - destruct He as [cs' [E1 [E2 E3]]]. apply (load_good id' cs' (verdict_of cs')); [exact E3 |].
        intros h2 G2 R2. cbn [snd]. rewrite E1. destruct cs' as [| c l]; [congruence |].
        unfold verdict_of in E3 |- *. destruct (unique_alt (c :: l)) as [m |].
        + exists (fun _ => None). split; [exact no_pick | reflexivity].
        + destruct (sll_conflict (c :: l)).
          * apply HA.
          * apply (IH id' (c :: l) VGo). now apply G2. }
    apply good_act; [now exists cs, v |]. intros h' b h'' G R D _ _. cbn [does] in D.
    destruct D as [D [o [Eo Eb]]]. subst h''.
    pose proof (proj1 G id cs v H) as Hh. destruct Hh as [o' [Eo' [Ec Ev]]].
    rewrite Eo in Eo'. injection Eo' as Eo'. subst o'.
    destruct b as [e |].
    + apply Fo; [now apply G |]. destruct (s_edges o) as [es |] eqn:Es; [| discriminate Eb].
      destruct R as [_ R2]. rewrite <- Ec. exact (R2 id o es x e Eo Es (eq_sym Eb)).
    + apply (load_good id cs v); [now apply G |]. intros h2 G2 R2. cbn [fst].
      pose proof (grows_trans h h' h2 G G2) as Gh.
      destruct (reach false cs x) as [[| c l] |] eqn:Er.
      * apply (add_edge_good id cs v); [now apply Gh | exact Er |].
        intros h3 G3 R3. apply (Fo TError h3); [| exact Er]. now apply G3, Gh.
      * apply add_state_good. intros id' h3 G3 R3 H3.
        apply (add_edge_good id cs v); [now apply G3, Gh | |].
        -- exists (c :: l). split; [exact Er |]. split; [discriminate | exact H3].
        -- intros h4 G4 R4. apply (Fo (TState id') h4); [now apply G4, G3, Gh |].
           exists (c :: l). split; [exact Er |]. split; [discriminate | now apply G4].
      * exists (fun _ => None). split; [exact no_pick | reflexivity].
Qed.

Theorem predict_good : forall d st w h, right h -> good h (predict_prog d st w)
  (fun r => exists pick, picks_from_set pick /\ r = predict pick d st w).
Proof.
  intros d st w h Rh. unfold predict_prog. cbv zeta.
  set (f := fun pick => match start_set true d st with
                        | Some fs => exec_full pick fs w
                        | None => None
                        end).
  assert (HA : forall h, good h (match start_set true d st with
                                 | Some fs => full_prog fs w
                                 | None => Done None
                                 end)
                 (fun r => exists pick, picks_from_set pick /\ r = f pick)).
  { intros h0. unfold f. destruct (start_set true d st) as [fs |].
    - apply full_good.
    - exists (fun _ => None). split; [exact no_pick | reflexivity]. }
  apply good_act; [exact I |]. intros h' b h'' G R D _ _. cbn [does] in D.
  destruct D as [D Eb]. subst h''. destruct b as [id |].
  - destruct R as [R1 _]. destruct (R1 d id (eq_sym Eb)) as [cs [E H]].
    unfold start_of in E. unfold predict.
    destruct (start_set false d []) as [cs0 |]; [| discriminate E].
    cbn [option_map] in E. injection E as E. subst cs. cbv zeta.
    apply (sll_good d _ f w HA id _ VGo). exact H.
  - unfold predict. destruct (start_set false d []) as [cs0 |] eqn:E.
    + cbv zeta. apply add_state_good. intros id h2 G2 R2 H2. apply good_act.
      * eexists. split; [| exact H2]. unfold start_of. rewrite E. reflexivity.
      * intros h3 u h4 G3 R3 _ G4 R4. apply (sll_good d _ f w HA id _ VGo). now apply G4, G3.
    + exists (fun _ => None). split; [exact no_pick | reflexivity].
Qed.

(** ** Whole parsers *)
Theorem interp_good : forall {A} (c : code A) h, right h -> good h (interp c) (gives c).
Proof.
  intros A c. induction c as [a | d st w k IH]; intros h R; cbn [interp].
  - apply Gives_ret.
  - apply (good_bind _ _ h _ _ R (predict_good d st w h R)).
    intros m h' G R' [pick [P E]]. apply (good_weaken _ _ (gives (k m))).
    + intros a Ha. apply (Gives_ask d st w k pick); [exact P |]. now rewrite <- E.
    + apply IH. exact R'.
Qed.

Definition sane (w : world) : Prop :=
  right (fst w) /\
  Forall (fun q => good (fst w) (q_prog q) (fun x => x = p_unit (q_tokens q))) (snd w).

Lemma new_parser_good : forall h ts, right h ->
  good h (q_prog (new_parser ts)) (fun x => x = p_unit (q_tokens (new_parser ts))).
Proof.
  intros h ts R. apply (good_weaken _ _ (gives (g_unit ts))).
  - intros x H. now apply gives_exact.
  - now apply interp_good.
Qed.

Lemma Forall_set_nth : forall {A} (P : A -> Prop) l i x, Forall P l -> P x ->
  Forall P (set_nth l i x).
Proof.
  intros A P l. induction l as [| y l IH]; intros [| i] x F H; cbn [set_nth];
    [constructor | constructor | |]; inversion F; subst; constructor; auto.
Qed.

Lemma step_sane : forall w w', world_step w w' -> sane w -> sane w'.
Proof.
  intros w w' S [R F]. destruct S as [h qs i q h' q' N S | h qs ts]; cbn [fst snd] in *.
  - unfold parser_step in S. destruct (q_prog q) as [a | B o k] eqn:Eq; [destruct S |].
    destruct S as [b [D Eq']]. subst q'.
    pose proof (proj1 (Forall_forall _ _) F q (nth_error_In _ _ N)) as Hq. cbv beta in Hq.
    rewrite Eq in Hq.
    cbn [good] in Hq. destruct Hq as [W Hq].
    destruct (does_right o h b h' R W D) as [G R']. split; [exact R' |]. cbn [fst snd].
    apply Forall_set_nth.
    + apply (Forall_impl _) with (2 := F). intros q0 H0. now apply (good_grows _ h).
    + cbn [q_prog q_tokens]. apply (Hq h b h'); [apply grows_refl | exact R | exact D].
  - split; [exact R |]. cbn [fst snd]. apply Forall_app. split; [exact F |].
    constructor; [| constructor]. now apply new_parser_good.
Qed.

Lemma empty_sane : sane (empty_memory, []).
Proof.
  split; [| constructor]. split.
  - intros d id H. discriminate H.
  - intros id o es x e H. destruct id; discriminate H.
Qed.

Lemma steps_sane : forall w w', world_steps w w' -> sane w -> sane w'.
Proof.
  intros w w' S. induction S as [w | w1 w2 w3 S1 S2 IH]; intros H; [exact H |].
  apply IH. now apply (step_sane w1).
Qed.

Theorem shared_result : forall h qs q x, world_steps (empty_memory, []) (h, qs) -> In q qs ->
  q_prog q = Done x -> x = p_unit (q_tokens q).
Proof.
  intros h qs q x S I E. destruct (steps_sane _ _ S empty_sane) as [_ F]. cbn [fst snd] in F.
  pose proof (proj1 (Forall_forall _ _) F q I) as H. cbv beta in H. rewrite E in H. exact H.
Qed.

(** ** Progress *)
Lemma allowed_does : forall {B} (o : access B) h, allowed o h -> exists b h', does o h b h'.
Proof.
  intros B o h W. destruct o; cbn [allowed does] in *.
  - now eexists _, _.
  - now eexists tt, _.
  - now eexists _, _.
  - now eexists _, _.
  - destruct W as [cs [v [o [E _]]]]. eexists _, h. split; [reflexivity |]. now exists o.
  - destruct W as [cs [v [o [E _]]]]. eexists _, h. split; [reflexivity |]. now exists o.
  - destruct W as [cs [v [o [E _]]]]. eexists _, h. split; [reflexivity |]. now exists o.
  - now eexists tt, _.
  - destruct W as [[o [es [E1 E2]]] _]. eexists tt, _. now exists o, es.
  - exists None, h. split; [reflexivity |]. intros m H. discriminate H.
Qed.

Theorem shared_progress : forall h qs q, world_steps (empty_memory, []) (h, qs) -> In q qs ->
  (exists x, q_prog q = Done x) \/ (exists h' q', parser_step h q h' q').
Proof.
  intros h qs q S I. destruct (steps_sane _ _ S empty_sane) as [R F]. cbn [fst snd] in *.
  pose proof (proj1 (Forall_forall _ _) F q I) as H. cbv beta in H. unfold parser_step.
  destruct (q_prog q) as [x | B o k]; [left; now exists x | right].
  destruct H as [W _]. destruct (allowed_does o h W) as [b [h' D]].
  exists h', (mkParser (q_tokens q) (k b)). now exists b.
Qed.

(** no parser takes infinitely many steps, whatever the memory is in between *)
Theorem steps_end : forall q, Acc (fun q' q => exists h h', parser_step h q h' q') q.
Proof.
  intros [ts p]. revert ts. induction p as [a | B o k IH]; intros ts; constructor;
    intros q' [h [h' H]]; unfold parser_step in H; cbn [q_prog q_tokens] in H; [destruct H |].
  destruct H as [b [_ E]]. subst q'. apply IH.
Qed.
