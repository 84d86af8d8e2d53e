(** * Deciding that two regular expressions share no text

    Product of the partial derivatives, explored over the character classes of AtnCheck.v.
    [disjoint] is used by computation; [disjoint_ok] is what it means. *)
From Verif Require Import PyBase Regex RegexFacts Lexer LexSpec Atn AtnCheck AtnFacts.
Local Open Scope Z_scope.

Definition repair := (re * re)%type.
Definition repair_eqb (p q : repair) : bool := re_eqb (fst p) (fst q) && re_eqb (snd p) (snd q).
Definition repair_mem (p : repair) (l : list repair) : bool := existsb (repair_eqb p) l.

Definition both (c : N) (p : repair) : list repair :=
  let qs := pderiv c (snd p) in
  match qs with
  | [] => []
  | _ => flat_map (fun a => map (pair a) qs) (pderiv c (fst p))
  end.
Definition nexts (B : list Z) (p : repair) : list repair :=
  flat_map (fun b => both (Z.to_N b) p) (reps B).

Fixpoint add_new (l : list repair) (todo seen : list repair) : list repair * list repair :=
  match l with
  | [] => (todo, seen)
  | p :: l' => if repair_mem p seen then add_new l' todo seen
               else add_new l' (p :: todo) (p :: seen)
  end.
Fixpoint reachable (fuel : nat) (B : list Z) (todo seen : list repair) : list repair :=
  match fuel, todo with
  | S f, p :: todo' =>
    let (todo2, seen2) := add_new (nexts B p) todo' seen in reachable f B todo2 seen2
  | _, _ => seen
  end.

Definition closed_pair (B : list Z) (R : list repair) (p : repair) : bool :=
  negb (nullable (fst p) && nullable (snd p))
  && re_respects B (fst p) && re_respects B (snd p)
  && forallb (fun q => repair_mem q R) (nexts B p).

Definition disjoint (r1 r2 : re) : bool :=
  let B := znub (0 :: re_ends r1 ++ re_ends r2) in
  let R := reachable 1000 B [(r1, r2)] [(r1, r2)] in
  zmem 0 B && repair_mem (r1, r2) R && forallb (closed_pair B R) R.

Lemma repair_mem_in p l : repair_mem p l = true -> In p l.
Proof.
  unfold repair_mem. intros H. apply existsb_exists in H. destruct H as (q & Hq & E).
  unfold repair_eqb in E. apply andb_true_iff in E. destruct E as [E1 E2].
  apply re_eqb_eq in E1, E2. destruct p, q; cbn in *; subst. exact Hq.
Qed.

Lemma closed_disjoint B R : In 0 B -> forallb (closed_pair B R) R = true ->
  forall w r1 r2, is_text w -> In (r1, r2) R -> matches r1 w -> matches r2 w -> False.
Proof.
  intros H0 HR. rewrite forallb_forall in HR.
  induction w as [| c w IH]; intros r1 r2 Ht Hin M1 M2; pose proof (HR _ Hin) as C;
    unfold closed_pair in C; cbn [fst snd] in C; rewrite !andb_true_iff in C;
    destruct C as [[[C1 C2] C3] C4].
  - apply nullable_ok in M1, M2. now rewrite M1, M2 in C1.
  - inversion Ht as [| ? ? Hc Hw]; subst.
    destruct (class_rep B (Z.of_N c) H0 ltac:(lia)) as (b & Hb & Hs).
    assert (E : b = Z.of_N (Z.to_N b)).
    { apply filter_In in Hb. destruct Hb as [_ Hb]. apply andb_true_iff in Hb.
      rewrite !Z.leb_le in Hb. lia. }
    rewrite E in Hs.
    apply pderiv_ok in M1, M2. destruct M1 as (a1 & A1 & M1). destruct M2 as (a2 & A2 & M2).
    rewrite (pderiv_class B c (Z.to_N b)) in A1, A2 by assumption.
    apply (IH a1 a2 Hw); auto. rewrite forallb_forall in C4. apply repair_mem_in. apply C4.
    apply in_flat_map. exists b. split; [exact Hb |]. unfold both. cbn [fst snd].
    destruct (pderiv (Z.to_N b) r2) as [| q qs]; [destruct A2 |].
    apply in_flat_map. exists a1. split; [exact A1 |]. apply in_map. exact A2.
Qed.

Lemma disjoint_ok r1 r2 : disjoint r1 r2 = true ->
  forall w, is_text w -> matches r1 w -> matches r2 w -> False.
Proof.
  unfold disjoint. cbv zeta.
  generalize (znub (0 :: re_ends r1 ++ re_ends r2)). intros B.
  generalize (reachable 1000 B [(r1, r2)] [(r1, r2)]). intros R.
  rewrite !andb_true_iff, zmem_in. intros [[H0 Hm] HR] w Ht M1 M2.
  exact (closed_disjoint B R H0 HR w r1 r2 Ht (repair_mem_in _ _ Hm) M1 M2).
Qed.

(** ** Which token comes next, for a family of texts *)

(** every character *)
Definition r_rest := Star r_any.

(** [follows G rest]: each non-empty beginning of [rest] is in [G]. *)
Definition follows (G : re) (rest : str) : Prop :=
  forall x y, rest = x ++ y -> x <> [] -> matches G x.

Fixpoint before_kind (k : kind) (rs : list (kind * re)) : list re :=
  match rs with
  | [] => []
  | (k', r) :: rs' => if kind_eqb k' k then [] else r :: before_kind k rs'
  end.
Fixpoint rule_of (k : kind) (rs : list (kind * re)) : option re :=
  match rs with
  | [] => None
  | (k', r) :: rs' => if kind_eqb k' k then Some r else rule_of k rs'
  end.

(** No rule of mode [m] can read a text of [A] and go on into [G]. *)
Definition stops (m : mode) (A G : re) : bool :=
  forallb (fun kr => disjoint (snd kr) (Seq A G)) (rules m).
(** No rule of mode [m] listed before [k] reads a text of [A]. *)
Definition first_for (m : mode) (k : kind) (A : re) : bool :=
  forallb (fun r => disjoint r A) (before_kind k (rules m)).

Lemma rule_split k rs r : rule_of k rs = Some r ->
  exists before after, rs = before ++ (k, r) :: after /\
    forall k' r', In (k', r') before -> In r' (before_kind k rs).
Proof.
  induction rs as [| [k' r'] rs IH]; cbn [rule_of before_kind]; [discriminate |].
  destruct (kind_eqb k' k) eqn:E.
  - intros [= ->]. apply kind_eqb_eq in E. subst k'. exists [], rs. split; [reflexivity | intros ? ? []].
  - intros H. destruct (IH H) as (b & a & -> & Hb). exists ((k', r') :: b), a.
    split; auto. intros k2 r2 [[= <- <-] | Hin]; cbn; eauto.
Qed.

Lemma takes_family m k r A G w rest : is_text (w ++ rest) -> w <> [] ->
  rule_of k (rules m) = Some r -> matches r w -> matches A w ->
  stops m A G = true -> follows G rest ->
  (forall r', In r' (before_kind k (rules m)) -> ~ matches r' w) ->
  takes m k w rest.
Proof.
  intros Ht Hw Hr Mr MA Hs Hf Hb. constructor; auto.
  - intros k' r' w' rest' Hin E M.
    destruct (Nat.le_gt_cases (List.length w') (List.length w)) as [L | L]; auto. exfalso.
    assert (W : exists x, w' = w ++ x /\ x <> [] /\ exists y, rest = x ++ y).
    { clear - E L. revert w' E L. induction w as [| c w IH]; intros w' E L; cbn in *.
      - exists w'. split; auto. split; [intros ->; cbn in L; lia | eauto].
      - destruct w' as [| c' w']; [cbn in L; lia |]. cbn in E. injection E as -> E.
        destruct (IH w' E) as (x & -> & Hx & y & Hy); [cbn in L; lia |].
        exists x. cbn. eauto. }
    destruct W as (x & -> & Hx & y & ->).
    unfold stops in Hs. rewrite forallb_forall in Hs. specialize (Hs _ Hin). cbn [snd] in Hs.
    apply (disjoint_ok _ _ Hs (w ++ x)); auto.
    + unfold is_text in *. rewrite app_assoc, !Forall_app in Ht. rewrite Forall_app. tauto.
    + constructor; auto. apply (Hf x y); auto.
  - destruct (rule_split k (rules m) r Hr) as (b & a & E & Hb').
    exists b, r, a. repeat split; auto. intros k' r' Hin. apply Hb. eauto.
Qed.

Lemma first_for_ok m k A w : first_for m k A = true -> is_text w -> matches A w ->
  forall r', In r' (before_kind k (rules m)) -> ~ matches r' w.
Proof.
  unfold first_for. rewrite forallb_forall. intros H Ht M r' Hin M'.
  exact (disjoint_ok _ _ (H r' Hin) w Ht M' M).
Qed.

(** the usual shape of a check: everything by computation *)
Definition token_check (m : mode) (k : kind) (A G : re) : bool :=
  match rule_of k (rules m) with
  | Some _ => stops m A G && first_for m k A
  | None => false
  end.

Lemma takes_check m k A G w rest r : token_check m k A G = true -> is_text (w ++ rest) ->
  w <> [] -> rule_of k (rules m) = Some r -> matches r w -> matches A w -> follows G rest ->
  takes m k w rest.
Proof.
  unfold token_check. intros H Ht Hw Hr Mr MA Hf. rewrite Hr in H.
  apply andb_true_iff in H. destruct H as [H1 H2].
  apply (takes_family m k r A G); auto.
  apply (first_for_ok m k A w H2); auto. unfold is_text in *. rewrite Forall_app in Ht. tauto.
Qed.

(** ** Following texts *)
Lemma matches_any_text w : is_text w -> matches r_rest w.
Proof.
  induction w as [| c w IH]; intros H; [constructor |]. inversion H as [| ? ? Hc Hw]; subst.
  change (c :: w) with ([c] ++ w). constructor; [| auto]. constructor.
  unfold in_ranges. cbn [existsb fst snd]. rewrite orb_false_r. apply andb_true_iff.
  rewrite !N.leb_le. lia.
Qed.

Lemma follows_nil G : follows G [].
Proof. intros x y E H. destruct x; [contradiction | discriminate]. Qed.

Lemma follows_class rs c rest : is_text rest -> in_ranges rs c = true ->
  follows (Seq (Chr rs) r_rest) (c :: rest).
Proof.
  intros Ht Hc x y E Hx. destruct x as [| c' x]; [contradiction |]. cbn in E.
  injection E as <- ->. change (c :: x) with ([c] ++ x). constructor; [now constructor |].
  apply matches_any_text. unfold is_text in *. rewrite Forall_app in Ht. tauto.
Qed.

Lemma follows_alt_l G H rest : follows G rest -> follows (Alt G H) rest.
Proof. intros F x y E N. constructor. eauto. Qed.
Lemma follows_alt_r G H rest : follows H rest -> follows (Alt G H) rest.
Proof. intros F x y E N. apply M_alt_r. eauto. Qed.
