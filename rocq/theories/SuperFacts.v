(** * C09: a superscript is parsed like "^". *)
From Verif Require Import PyBase PyNum Graph RegexFacts Lexer LexSpec LexerFacts Parser GrammarSpec
  ParserFacts ParserComplete Visitor VisitSpec NumFacts VisitorFacts ParseFacts Respell PrintSpec SuperSpec.

Definition super (t : token) : bool := match tkind t with UNICODE_EXPONENT => true | _ => false end.
Definition hat : token := mkTok RAISE (u "^").
Definition int_token (e : token) : token :=
  let n := map superscript_digit (ttext e) in
  mkTok (match n with 43 :: _ | 45 :: _ => SIGNED_INT | _ => INT end)%N n.

Lemma caret_super e : super e = true -> caret_token e = [hat; int_token e].
Proof. unfold super, caret_token. now destruct (tkind e). Qed.
Lemma caret_other t : super t = false -> caret_token t = [t].
Proof. unfold super, caret_token. now destruct (tkind t). Qed.
Lemma int_token_integer e : integer_token (int_token e).
Proof.
  unfold int_token, integer_token, kinded. cbn [tkind].
  destruct (map superscript_digit (ttext e)) as [|c l]; auto.
  destruct c as [|p]; auto. do 6 (destruct p as [p|p|]; auto).
Qed.

Inductive crel : ptree -> ptree -> Prop :=
| C_leaf t : super t = false -> crel (PLeaf t) (PLeaf t)
| C_eof : crel PEOF PEOF
| C_node r cs cs' : r <> Timestamp_r -> Forall2 crel cs cs' -> crel (PNode r cs) (PNode r cs')
| C_stamp cs : crel (PNode Timestamp_r cs) (PNode Timestamp_r cs)
| C_super l l' e : super e = true -> superscript_ok e -> crel l l' ->
    crel (PNode Power [l; PLeaf e]) (PNode Power [l'; PLeaf hat; PNode Integer_r [PLeaf (int_token e)]]).

Lemma carets_app a b : carets (a ++ b) = carets a ++ carets b.
Proof. apply flat_map_app. Qed.
Lemma carets_id ts : Forall (fun t => super t = false) ts -> carets ts = ts.
Proof. unfold carets. induction 1; auto. cbn [flat_map]. rewrite caret_other, IHForall by auto. reflexivity. Qed.
Lemma kinded_super k t : kinded k t -> k <> UNICODE_EXPONENT -> super t = false.
Proof. unfold kinded, super. intros -> H. destruct k; try reflexivity. now destruct H. Qed.

Lemma leaves_crel ts : Forall (fun t => super t = false) ts -> Forall2 crel (map PLeaf ts) (map PLeaf ts).
Proof. induction 1; constructor; auto. now constructor. Qed.

Lemma integer_super t : integer_token t -> super t = false.
Proof. intros [H|H]; eapply kinded_super; eauto; discriminate. Qed.
Lemma stamp_super ts : timestamp ts -> Forall (fun t => super t = false) ts.
Proof.
  intro H. apply timestamp_in_kinds in H. eapply Forall_impl; [|exact H]. intros t I. unfold super.
  cbv beta in I. revert I. destruct (tkind t); intro I; auto. exfalso. simpl in I. intuition discriminate.
Qed.
Lemma space_super w : opt_space w -> Forall (fun t => super t = false) w.
Proof. intros [|t H]; constructor; auto. eapply kinded_super; eauto; discriminate. Qed.
Lemma spaces_super w : Forall (kinded WS) w -> Forall (fun t => super t = false) w.
Proof. apply Forall_impl. intros t H. eapply kinded_super; eauto; discriminate. Qed.

Ltac ks := match goal with
  | H : kinded ?k ?t |- super ?t = false => apply (kinded_super k t H); discriminate
  | H : integer_token ?t |- super ?t = false => apply (integer_super t H)
  end.
Ltac c1 := match goal with
  | |- context [caret_token ?t] => rewrite (caret_other t) by ks
  end.

Lemma derives_carets r ts t : derives r ts t -> Forall superscript_ok ts ->
  exists t', derives r (carets ts) t' /\ crel t t'.
Proof.
  assert (C1 : forall t l, super t = false -> carets (t :: l) = t :: carets l).
  { intros x l H. unfold carets. cbn [flat_map]. now rewrite caret_other. }
  intro D. induction D; intro OK; rewrite ?Forall_app, ?Forall_cons_iff, ?Forall_app in OK; 
    repeat match goal with H : _ -> exists t', _ /\ _ |- _ => specialize (H ltac:(tauto)) end;
    repeat match goal with H : exists t', _ /\ _ |- _ => let a := fresh "t'" in destruct H as (a & ? & ?) end;
    rewrite ?carets_app;
    repeat match goal with
           | |- context [carets (?t :: ?l)] => rewrite (C1 t l) by ks
           | |- context [carets (_ ++ _)] => rewrite carets_app
           | H : opt_space ?w |- context [carets ?w] => rewrite (carets_id w (space_super w H))
           | H : Forall (kinded WS) ?w |- context [carets ?w] => rewrite (carets_id w (spaces_super w H))
           | H : timestamp ?w |- context [carets ?w] => rewrite (carets_id w (stamp_super w H))
           end;
    try (eexists; split; [constructor; eauto; fail|]; apply C_node; [discriminate|];
         repeat (constructor; auto; try ks; try (now constructor)); fail).
  - eexists. split; [eapply D_shift_number; eauto|]. apply C_node; [discriminate|]; apply Forall2_app; [|repeat constructor; auto].
    constructor; auto. apply Forall2_app; [now apply leaves_crel, space_super|].
    constructor; [constructor; ks|now apply leaves_crel, space_super].
  - eexists. split; [eapply D_shift_timestamp; eauto|]. apply C_node; [discriminate|]; apply Forall2_app.
    + constructor; auto. apply Forall2_app; [now apply leaves_crel, space_super|].
      constructor; [constructor; ks|now apply leaves_crel, space_super].
    + constructor; [apply C_stamp|constructor].
  - eexists. split; [eapply D_product_space; eauto|]. apply C_node; [discriminate|]. constructor; auto.
    apply Forall2_app; [now apply leaves_crel, spaces_super|repeat constructor; auto].
  - assert (super e = true) by (unfold super; now rewrite H). unfold carets at 2. cbn [flat_map].
    rewrite caret_super, app_nil_r by auto. eexists. split.
    + apply D_power_raise; [eauto|reflexivity|]. apply D_integer, int_token_integer.
    + apply C_super; tauto.
Qed.

(** ** back *)
Definition ends_well (ts : list token) : Prop := forall l t, ts = l ++ [t] -> tkind t <> RAISE.

Lemma ends_well_nil : ends_well [].
Proof. intros l t H. now destruct l. Qed.
Lemma ends_well_app a b : b <> [] -> ends_well b -> ends_well (a ++ b).
Proof.
  intros N H l t E. destruct (exists_last N) as (b' & x & ->).
  rewrite app_assoc in E. apply app_inj_tail in E as [_ <-]. now apply (H b').
Qed.
Lemma ends_well_cons t b : b <> [] -> ends_well b -> ends_well (t :: b).
Proof. apply (ends_well_app [t]). Qed.
Lemma ends_well_one t : tkind t <> RAISE -> ends_well [t].
Proof. intros H l x E. apply (app_inj_tail [] l) in E as [_ <-]. exact H. Qed.
Lemma ends_well_all ts : Forall (fun t => tkind t <> RAISE) ts -> ends_well ts.
Proof. intros H l t ->. apply Forall_app in H as [_ H]. now inversion H. Qed.

Lemma derives_ends r ts t : derives r ts t -> (r = Unit_spec \/ ts <> []) /\ ends_well ts.
Proof.
  assert (NE : forall (a b : list token), b <> [] -> a ++ b <> []) by (intros [|x a] b; simpl; congruence).
  assert (L : forall r (ts : list token), r <> Unit_spec -> (r = Unit_spec \/ ts <> []) -> ts <> []) by (intros ? ? ? []; congruence).
  intro D. induction D;
    repeat match goal with H : (_ = _ \/ _) /\ ends_well _ |- _ => destruct H as [[?|?] ?]; try discriminate end;
    (split; [first [now left | right; auto; try discriminate | idtac] |]);
    auto using ends_well_nil.
  all: try (apply ends_well_one; match goal with
              | H : kinded _ _ |- _ => unfold kinded in H; congruence
              | H : integer_token _ |- _ => destruct H as [H|H]; unfold kinded in H; congruence end).
  all: try (repeat first [apply NE|discriminate|assumption]; fail).
  all: try (repeat first [assumption | apply ends_well_app | apply ends_well_cons | apply NE | discriminate]; fail).
  - assert (ns <> [] /\ ends_well ns) as [N E].
    { split; [now destruct H2|]. apply ends_well_all. apply timestamp_in_kinds in H2.
      eapply Forall_impl; [|exact H2]. cbv beta. intros t I E. rewrite E in I. simpl in I. intuition discriminate. }
    apply ends_well_app; [apply NE; discriminate|]. apply ends_well_app; [discriminate|].
    apply ends_well_cons; [now apply NE|]. now apply ends_well_app.
  - apply ends_well_app; [discriminate|]. apply ends_well_one. unfold kinded in H. congruence.
  - apply (ends_well_app (l :: ts)); [discriminate|]. apply ends_well_one. unfold kinded in H0. congruence.
  - apply (ends_well_app (o :: ts)); [discriminate|]. apply ends_well_one. unfold kinded in H0. congruence.
Qed.

(** [carets ts] can be cut only where [ts] can, or behind a "^" *)
Lemma carets_cut ts : forall l1 l2, carets ts = l1 ++ l2 -> ends_well l1 ->
  exists a b, ts = a ++ b /\ carets a = l1 /\ carets b = l2.
Proof.
  induction ts as [|t ts IH]; intros l1 l2 E W.
  - symmetry in E. apply app_eq_nil in E as [-> ->]. now exists [], [].
  - destruct l1 as [|x l1]; [now exists [], (t :: ts)|].
    unfold carets in E. cbn [flat_map] in E. fold (carets ts) in E. destruct (super t) eqn:S.
    + rewrite caret_super in E by auto. cbn [app] in E. injection E as <- E.
      destruct l1 as [|y l1]; [exfalso; now apply (W [] hat eq_refl)|].
      cbn [app] in E. injection E as <- E.
      destruct (IH l1 l2 E) as (a & b & -> & <- & <-).
      { intros l z Z. apply (W (hat :: int_token t :: l)). now rewrite Z. }
      exists (t :: a), b. split; auto. split; auto. unfold carets. cbn [flat_map]. now rewrite caret_super.
    + rewrite caret_other in E by auto. cbn [app] in E. injection E as <- E.
      destruct (IH l1 l2 E) as (a & b & -> & <- & <-).
      { intros l z Z. apply (W (t :: l)). now rewrite Z. }
      exists (t :: a), b. split; auto. split; auto. unfold carets. cbn [flat_map]. now rewrite caret_other.
Qed.

Lemma carets_cons ts x l : carets ts = x :: l -> tkind x <> RAISE ->
  exists b, ts = x :: b /\ super x = false /\ carets b = l.
Proof.
  intros E K. destruct (carets_cut ts [x] l E (ends_well_one x K)) as (a & b & -> & Ea & <-).
  destruct a as [|t a]; [discriminate|]. unfold carets in Ea. cbn [flat_map] in Ea. fold (carets a) in Ea.
  destruct (super t) eqn:S; [rewrite caret_super in Ea by auto; discriminate|].
  rewrite caret_other in Ea by auto. cbn [app] in Ea. injection Ea as <- Ea. exists b. split; auto.
  destruct a as [|t' a]; auto. exfalso. unfold carets in Ea. cbn [flat_map] in Ea.
  destruct (super t') eqn:S'; [rewrite caret_super in Ea by auto|rewrite caret_other in Ea by auto]; discriminate.
Qed.

Lemma carets_nil ts : carets ts = [] -> ts = [].
Proof.
  destruct ts as [|t ts]; auto. unfold carets. cbn [flat_map].
  destruct (super t) eqn:S; [rewrite caret_super by auto|rewrite caret_other by auto]; discriminate.
Qed.

Lemma carets_same ts us : carets ts = us -> Forall (fun t => tkind t <> RAISE) us -> ts = us.
Proof.
  revert ts. induction us as [|x us IH]; intros ts E F; [now apply carets_nil|].
  inversion F; subst. destruct (carets_cons ts x us E H1) as (b & -> & _ & Eb). f_equal; auto.
Qed.

Definition no_raise (ts : list token) : Prop := Forall (fun t => tkind t <> RAISE) ts.
Lemma space_no_raise w : opt_space w -> no_raise w.
Proof. intros [|t H]; constructor; [|constructor]. unfold kinded in H. congruence. Qed.
Lemma spaces_no_raise w : Forall (kinded WS) w -> no_raise w.
Proof. apply Forall_impl. unfold kinded. congruence. Qed.
Lemma stamp_no_raise w : timestamp w -> no_raise w.
Proof.
  intro H. apply timestamp_in_kinds in H. eapply Forall_impl; [|exact H]. cbv beta.
  intros t I E. rewrite E in I. simpl in I. intuition discriminate.
Qed.

Ltac nr := match goal with
  | H : kinded ?k ?t |- tkind ?t <> RAISE => unfold kinded in H; congruence
  | H : integer_token ?t |- tkind ?t <> RAISE => destruct H as [H|H]; unfold kinded in H; congruence
  end.
Ltac ew := match goal with
  | H : opt_space ?w |- ends_well ?w => apply ends_well_all; exact (space_no_raise w H)
  | H : Forall (kinded WS) ?w |- ends_well ?w => apply ends_well_all; exact (spaces_no_raise w H)
  | H : timestamp ?w |- ends_well ?w => apply ends_well_all; exact (stamp_no_raise w H)
  | D : derives _ ?w _ |- ends_well ?w => exact (proj2 (derives_ends _ _ _ D))
  end.
Ltac same := match goal with
  | H : opt_space ?w, E : carets ?a = ?w |- _ => apply carets_same in E; [subst a|exact (space_no_raise w H)]
  | H : Forall (kinded WS) ?w, E : carets ?a = ?w |- _ => apply carets_same in E; [subst a|exact (spaces_no_raise w H)]
  | H : timestamp ?w, E : carets ?a = ?w |- _ => apply carets_same in E; [subst a|exact (stamp_no_raise w H)]
  end.
Ltac cut1 := match goal with
  | E : carets ?ts = ?l ++ _ |- _ =>
    let a := fresh "a" in let b := fresh "b" in let Ea := fresh "Ea" in let Eb := fresh "Eb" in
    destruct (carets_cut ts l _ E ltac:(ew)) as (a & b & ? & Ea & Eb); subst ts; clear E
  | E : carets ?ts = ?x :: _ |- _ =>
    let b := fresh "b" in let Eb := fresh "Eb" in
    destruct (carets_cons ts x _ E ltac:(nr)) as (b & ? & ? & Eb); subst ts; clear E
  | E : carets ?ts = [] |- _ => apply carets_nil in E; subst ts
  end.

Lemma carets_derives r us t' : derives r us t' -> forall ts, carets ts = us -> exists t, derives r ts t.
Proof.
  intro D. induction D; intros us E; repeat first [same | cut1];
    repeat match goal with
           | IH : forall ts, carets ts = ?us -> _, E : carets ?a = ?us |- _ =>
             let t := fresh "t'" in destruct (IH a E) as (t & ?); clear IH
           end;
    try (eexists; constructor; eauto; fail).
  - destruct b as [|x b]; [discriminate|]. unfold carets in Eb. cbn [flat_map] in Eb. fold (carets b) in Eb.
    destruct (super x) eqn:S.
    + rewrite caret_super in Eb by auto. cbn [app] in Eb. injection Eb as <- Eb.
      assert (exists j, is = [j] /\ i = PNode Integer_r [PLeaf j]) as (j & -> & ->) by (inversion D2; eauto).
      injection Eb as <- Eb. apply carets_nil in Eb. subst b. eexists.
      apply D_power_unicode; [eauto|]. unfold super in S. unfold kinded. now destruct (tkind x).
    + rewrite caret_other in Eb by auto. cbn [app] in Eb. injection Eb as <- Eb.
      destruct (IHD2 b Eb) as (i' & Di). eexists. apply D_power_raise; eauto.
Qed.

(** ** the preferred derivation *)
Definition under_log (t : ptree) := match t with PNode Logarithm_r [c] => Some c | _ => None end.
Definition under_basic (t : ptree) := match t with PNode Basic_spec [c] => Some c | _ => None end.
Definition under_number (t : ptree) := match t with PNode Number_r [c] => Some c | _ => None end.
Definition is_integer (t : ptree) : bool := match t with PNode Integer_r _ => true | _ => false end.
Definition at_ {A} (f : ptree -> A) (d : A) (o : option ptree) : A := match o with Some x => f x | None => d end.

Lemma integer_power_steps t : integer_power t =
  at_ (fun a => at_ (fun b => at_ is_integer false (under_number b)) false (under_basic a)) false (under_log t).
Proof. destruct t; try reflexivity. unfold integer_power, under_log, under_basic, under_number, is_integer, at_. crack. Qed.

Definition opt_crel (a b : option ptree) : Prop :=
  match a, b with Some x, Some y => crel x y | None, None => True | _, _ => False end.
Ltac one := let r := fresh "r" in
  intros [? ?| |r cs cs' Nt F|ts|? ? ? ? ? ?]; try exact I; destruct r; try exact I;
  destruct F as [|x y cs cs' Cx [|? ? ? ? ? ?]]; try exact I; exact Cx.
Lemma crel_log t t' : crel t t' -> opt_crel (under_log t) (under_log t'). Proof. one. Qed.
Lemma crel_basic t t' : crel t t' -> opt_crel (under_basic t) (under_basic t'). Proof. one. Qed.
Lemma crel_number t t' : crel t t' -> opt_crel (under_number t) (under_number t'). Proof. one. Qed.
Lemma crel_int t t' : crel t t' -> is_integer t = is_integer t'.
Proof. intros []; reflexivity. Qed.
Lemma at_crel {A} (f : ptree -> A) d o o' : opt_crel o o' -> (forall x y, crel x y -> f x = f y) -> at_ f d o = at_ f d o'.
Proof. destruct o, o'; simpl; intros H F; auto; contradiction. Qed.
Lemma crel_integer_power t t' : crel t t' -> integer_power t = integer_power t'.
Proof.
  intro C. rewrite !integer_power_steps. apply at_crel; [now apply crel_log|]. intros a a' Ca.
  apply at_crel; [now apply crel_basic|]. intros b b' Cb.
  apply at_crel; [now apply crel_number|]. apply crel_int.
Qed.

Lemma crel_has_exponent t t' : crel t t' -> has_exponent t = has_exponent t'.
Proof.
  intros [? ?| |r cs cs' Nt F|ts|? ? ? ? ? ?]; auto. destruct r; auto. destruct F as [|? ? ? ? ? [|? ? ? ? ? ?]]; auto.
Qed.
Lemma crel_bare_integer t t' : crel t t' -> bare_integer t = bare_integer t'.
Proof.
  intros [? ?| |r cs cs' Nt F|ts|? ? ? ? ? ?]; auto. destruct r; auto.
  destruct F as [|a a' ? ? Ca [|b b' ? ? Cb [|c c' ? ? Cc F]]]; auto; cbn [bare_integer].
  - now apply crel_integer_power.
  - destruct Cb as [? ?| |r ? ? ? ?|ts|? ? ? ? ? ?]; auto. destruct r; auto. now apply crel_integer_power.
  - destruct Cb as [? ?| |r ? ? ? ?|ts|? ? ? ? ? ?]; auto; destruct r; auto.
Qed.
Lemma crel_last cs cs' : Forall2 crel cs cs' -> crel (last cs PEOF) (last cs' PEOF).
Proof.
  induction 1 as [|a a' cs cs' Ca F IH]; [constructor|]. destruct F as [|b b' cs cs' Cb F]; [exact Ca|exact IH].
Qed.
Lemma crel_stamp cs cs' : Forall2 crel cs cs' ->
  match last cs PEOF with PNode Timestamp_r [PLeaf t] => ~ integer_token t | _ => True end ->
  match last cs' PEOF with PNode Timestamp_r [PLeaf t] => ~ integer_token t | _ => True end.
Proof.
  intro F. apply crel_last in F. destruct F as [? ?| |r ds ds' Nt F|ts|? ? ? ? ? ?]; auto. destruct r; auto.
  destruct F as [|a a' ? ? Ca [|b b' ? ? Cb F]]; auto; destruct Ca; auto.
Qed.
Lemma crel_last_power r cs cs' : Forall2 crel cs cs' ->
  has_exponent (last_power (PNode r cs)) = has_exponent (last_power (PNode r cs')).
Proof. intro F. cbn [last_power]. now apply crel_has_exponent, crel_last. Qed.

Lemma crel_local r cs cs' : Forall2 crel cs cs' -> local_ok r cs -> local_ok r cs'.
Proof.
  intros F. destruct r; auto.
  - now apply crel_stamp.
  - destruct F as [|a a' ? ? Ca [|b b' ? ? Cb [|c c' ? ? Cc F]]]; auto. cbn [local_ok].
    rewrite (crel_bare_integer b b' Cb). intros H B. specialize (H B). rewrite <- H.
    destruct Ca as [? ?| |r ? ? ? ?|ts|? ? ? ? ? ?]; auto. symmetry. now apply crel_last_power.
Qed.

Lemma crel_preferred t : forall t', crel t t' -> preferred t -> preferred t'.
Proof.
  induction t as [x| |r cs IH] using ptree_ind'; intros t' C.
  - inversion C; subst; auto.
  - inversion C; subst; auto.
  - intro P. apply preferred_node in P as [L P]. inversion C as [| |r0 cs0 cs' Nt F|ts|l l' e S O Cl]; subst.
    + apply preferred_node. split; [now apply (crel_local r cs)|].
      clear -F IH P. induction F; [constructor|]. inversion IH; inversion P; subst. constructor; auto.
    + apply preferred_node. auto.
    + inversion IH; inversion P; subst. apply preferred_node. split; [exact I|].
      repeat constructor. now apply H1.
Qed.

(** ** the visitor *)
Fixpoint wi (v : vres) : vres :=
  match v with
  | VNode g => VNode (with_ints g)
  | VList l => VList (map wi l)
  | v => v
  end.
Definition rmap {A B} (f : A -> B) (r : res A) : res B := match r with Ok x => Ok (f x) | Err e => Err e end.

Lemma wi_unwrap v : wi (unwrap v) = unwrap (wi v).
Proof.
  revert v. fix IH 1. intros [|g|s|[|x [|y l]]]; try reflexivity. cbn. apply IH.
Qed.
Lemma wi_filter vs : filter not_none (map wi vs) = map wi (filter not_none vs).
Proof. induction vs as [|v vs IH]; auto. cbn. destruct v; cbn; rewrite IH; reflexivity. Qed.
Lemma wi_aggregate vs : aggregate (map wi vs) = wi (aggregate vs).
Proof. unfold aggregate. rewrite wi_filter, wi_unwrap. reflexivity. Qed.
Lemma wi_node2 f a b : (forall x y, with_ints (f x y) = f (with_ints x) (with_ints y)) ->
  node2 f (wi a) (wi b) = rmap wi (node2 f a b).
Proof. intro H. destruct a, b; cbn; try reflexivity. now rewrite H. Qed.
Lemma wi_product v : visit_product (wi v) = rmap wi (visit_product v).
Proof.
  destruct v as [|g|s|l]; try reflexivity. destruct l as [|a [|b [|c [|d l]]]]; try reflexivity.
  - cbn -[node2]. destruct b; now apply wi_node2.
  - cbn -[node2 str_eqb u]. destruct b; try reflexivity. cbn -[node2 str_eqb u].
    destruct (str_eqb s (u "/")); [now apply wi_node2|reflexivity].
  - cbn -[str_eqb u]. destruct b; reflexivity.
Qed.
Lemma wi_power v : visit_power (wi v) = rmap wi (visit_power v).
Proof.
  destruct v as [|g|s|l]; try reflexivity.
  destruct l as [|a [|b [|c [|d l]]]]; try reflexivity; cbn -[node2]; now apply wi_node2.
Qed.
Lemma wi_logarithm v : visit_logarithm (wi v) = rmap wi (visit_logarithm v).
Proof.
  destruct v as [|g|s|l]; try reflexivity.
  destruct l as [|a [|b [|c l]]]; try reflexivity; destruct a; try reflexivity. destruct b; reflexivity.
Qed.
Lemma wi_shift v : visit_shift_spec (wi v) = rmap wi (visit_shift_spec v).
Proof.
  destruct v as [|g|s|l]; try reflexivity.
  destruct l as [|a [|b [|c l]]]; try reflexivity. now apply wi_node2.
Qed.
Lemma wi_unit v : visit_unit_spec (wi v) = rmap wi (visit_unit_spec v).
Proof. destruct v as [|g|[|c s]|[|x l]]; reflexivity. Qed.

Lemma wi_terminal t : super t = false -> visit_terminal t = rmap wi (visit_terminal t).
Proof.
  unfold super, visit_terminal. destruct (tkind t); try reflexivity; try discriminate.
  - intros _. destruct (py_int (ttext t)); reflexivity.
  - intros _. destruct (py_int (ttext t)); reflexivity.
  - intros _. destruct (py_decimal (ttext t)); reflexivity.
Qed.

Lemma int_of_super e : superscript_ok e -> super e = true ->
  visit (PNode Integer_r [PLeaf (int_token e)]) = rmap wi (visit_terminal e).
Proof.
  intros Ok S. assert (K : tkind e = UNICODE_EXPONENT) by (unfold super in S; now destruct (tkind e)).
  destruct (Ok K) as ((sign & ds & E & Hs & N & D) & Sh). clear Ok.
  rewrite visit_node by discriminate. cbn [mapM visit]. unfold visit_terminal at 2. rewrite K.
  unfold handle_unicode_exponent. cbn [rmap wi with_ints].
  rewrite (map_ext _ _ nfkc_same).
  assert (V : visit_terminal (int_token e) = (do z <- py_int (ttext (int_token e)) ;; PyBase.Ok (VNode (Number (NInt z) (Some (ttext (int_token e))))))).
  { unfold visit_terminal. destruct (int_token_integer e) as [I|I]; unfold kinded in I; rewrite I; reflexivity. }
  rewrite V. clear V. change (ttext (int_token e)) with (map superscript_digit (ttext e)).
  set (n := map superscript_digit (ttext e)) in *. rewrite E at 1.
  assert (Dg : digits ds).
  { eapply Forall_impl; [|exact D]. cbv beta. intros c Hc. unfold is_digit. rewrite andb_true_iff, !N.leb_le. exact Hc. }
  assert (Fs : filter is_digit ds = ds).
  { clear -Dg. induction Dg as [|c l H _ IH]; auto. cbn. rewrite H. now f_equal. }
  assert (L : (4300 <? N.of_nat (List.length ds))%N = false).
  { apply N.ltb_ge. unfold short, digit_count in Sh. rewrite E, filter_app in Sh.
    rewrite Fs, app_length in Sh. lia. }
  assert (exists neg, sign_text neg sign /\
    (if neg then (- Z.of_N (digits_value ds))%Z else Z.of_N (digits_value ds)) = text_value n) as (neg & ST & TV).
  { rewrite E. destruct Hs as [<-|[<-|[<-|[]]]].
    - exists false. split; [left; auto|]. cbn [app]. destruct ds as [|c ds]; [congruence|].
      apply Forall_inv in D. unfold text_value. repeat (destruct c as [|c]; try reflexivity; try lia).
      all: repeat (destruct c as [c|c|]; try reflexivity; try lia).
    - exists false. split; [right; left; auto|reflexivity].
    - exists true. split; [right; right; auto|reflexivity]. }
  rewrite (py_int_value neg sign ds ST N Dg), L. cbn [bind]. rewrite TV. reflexivity.
Qed.

Lemma crel_visit t : forall t', crel t t' -> visit t' = rmap wi (visit t).
Proof.
  induction t as [x| |r cs IH] using ptree_ind'; intros t' C.
  - inversion C; subst. now apply wi_terminal.
  - inversion C; subst. reflexivity.
  - inversion C as [| |r0 cs0 cs' Nt F|ts|l l' e S O Cl]; subst.
    + rewrite !visit_node by auto.
      assert (M : mapM visit cs' = rmap (map wi) (mapM visit cs)).
      { clear -F IH. induction F as [|a a' cs cs' Ca F IHF]; auto. inversion IH; subst. cbn [mapM].
        rewrite (H1 _ Ca), (IHF H2). destruct (visit a); auto. cbn [rmap bind].
        destruct (mapM visit cs); reflexivity. }
      rewrite M. destruct (mapM visit cs) as [vs|e]; auto. cbn [rmap bind].
      rewrite wi_aggregate. unfold finish.
      destruct r; auto using wi_product, wi_power, wi_logarithm, wi_shift, wi_unit.
    + reflexivity.
    + inversion IH as [|? ? Hl _]; subst. rewrite !visit_node by discriminate. cbn [mapM].
      rewrite (int_of_super e O S), (Hl _ Cl). cbn [visit].
      assert (visit_terminal hat = Ok VNone) as -> by reflexivity.
      destruct (visit l) as [v|ex]; auto. cbn [rmap bind].
      destruct (visit_terminal e) as [w|ex]; auto. cbn [rmap bind].
      unfold finish. rewrite <- wi_power, <- wi_aggregate. unfold aggregate. cbn [map filter not_none wi]. reflexivity.
Qed.

Lemma as_node_wi v : as_node (wi v) = rmap with_ints (as_node v).
Proof. destruct v; reflexivity. Qed.

Lemma parse_carets s s' ts : is_text s -> is_text s' ->
  tokenises DEFAULT_MODE (strip s) ts -> tokenises DEFAULT_MODE (strip s') (carets ts) ->
  Forall superscript_ok ts -> parse s' = rmap with_ints (parse s).
Proof.
  intros H H' T T' OK. unfold parse.
  rewrite (proj2 (lex_spec _ ts (is_text_strip s H)) T).
  rewrite (proj2 (lex_spec _ (carets ts) (is_text_strip s' H')) T').
  destruct (p_unit ts) as [t|] eqn:E.
  - apply p_unit_exact in E as [D P]. destruct (derives_carets _ _ _ D OK) as (t' & D' & C).
    rewrite (proj2 (p_unit_exact (carets ts) t')) by (split; auto; now apply (crel_preferred t)).
    rewrite (crel_visit t t' C). destruct (visit t) as [v|e]; auto. cbn [rmap bind]. apply as_node_wi.
  - destruct (p_unit (carets ts)) as [t'|] eqn:E'; auto. exfalso.
    apply p_unit_exact in E' as [D _]. destruct (carets_derives _ _ _ D ts eq_refl) as (t & Dt).
    assert (exists t, p_unit ts = Some t) as [x Ex] by (apply p_unit_accepts; eauto). congruence.
Qed.
