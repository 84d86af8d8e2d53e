From Coq Require Import Sorted.
From Verif Require Import PyBase PyNum Graph Expr Units UnitSpec ExpanderSpec Expander SystemFacts.
From Coq Require Import QArith Qpower Permutation Lia.
Open Scope Z_scope.

(** ** sorting *)
Lemma insert_perm e l : Permutation (insert e l) (e :: l).
Proof.
  induction l as [|x l IH]; cbn [insert]; auto. destruct (key_le _ _); auto.
  transitivity (x :: e :: l); [now constructor|apply perm_swap].
Qed.
Lemma sort_perm l : Permutation (sort l) l.
Proof. induction l as [|x l IH]; cbn [sort fold_right]; auto. fold (sort l). rewrite insert_perm. now constructor. Qed.
Lemma in_turn_perm c : Permutation (in_turn c) c.
Proof. unfold in_turn. rewrite sort_perm. symmetry. apply Permutation_rev. Qed.

(** ** the chain of a plain graph *)
Lemma chains_plain n : plain n -> exists c, chains n = Ok (c, []) /\ Forall (fun e => is_terminal (fst e) = true /\ forall r, fst e <> Unhandled r) c.
Proof.
  assert (S : forall k c, Forall (fun e : node * Z => is_terminal (fst e) = true /\ forall r, fst e <> Unhandled r) c ->
    Forall (fun e => is_terminal (fst e) = true /\ forall r, fst e <> Unhandled r) (scaled k c)).
  { intros k c F. unfold scaled. rewrite Forall_map. eapply Forall_impl; [|exact F]. cbn. auto. }
  induction n as [r|v r|s|x IHx y _|x IHx y IHy|x IHx y IHy|x _ y _|f x _]; cbn [plain chains]; try contradiction; intro P.
  - eexists. split; [reflexivity|]. repeat constructor. discriminate.
  - eexists. split; [reflexivity|]. repeat constructor. discriminate.
  - destruct P as [P (z & r & ->)]. destruct (IHx P) as (c & -> & F). cbn [bind fst snd]. exists (scaled z c). split; auto.
  - destruct P as [P Q]. destruct (IHx P) as (c & -> & F). destruct (IHy Q) as (c' & -> & F'). cbn [bind fst snd app].
    eexists. split; [reflexivity|]. apply Forall_app. auto.
  - destruct P as [P Q]. destruct (IHx P) as (c & -> & F). destruct (IHy Q) as (c' & -> & F'). cbn [bind fst snd app].
    eexists. split; [reflexivity|]. apply Forall_app. auto.
Qed.

(** ** values *)
Open Scope Q_scope.
Section Values.
Variable rho : str -> Q.

Fixpoint chain_value (c : chain) : Q :=
  match c with [] => 1 | (n, k) :: c' => Qpower (value rho n) k * chain_value c' end.

Lemma chain_value_app a b : chain_value (a ++ b)%list == chain_value a * chain_value b.
Proof. induction a as [|[n k] a IH]; cbn [app chain_value]; [ring|]. rewrite IH. ring. Qed.
Lemma chain_value_perm a b : Permutation a b -> chain_value a == chain_value b.
Proof.
  induction 1 as [|[n k] a b _ IH|[n k] [n' k'] a|a b c _ IH1 _ IH2]; cbn [chain_value]; try ring.
  - now rewrite IH.
  - now rewrite IH1.
Qed.
Lemma chain_value_scaled z c : chain_value (scaled z c) == Qpower (chain_value c) z.
Proof.
  induction c as [|[n k] c IH]; cbn [scaled map chain_value fst snd].
  - now rewrite Qpower_1.
  - fold (scaled z c). rewrite IH, Qmult_power, Qpower_mult. reflexivity.
Qed.
Lemma Qpower_m1 q : Qpower q (-1) == / q.
Proof. cbn. reflexivity. Qed.

Lemma chains_value n : plain n -> forall c, chains n = Ok (c, []) -> chain_value c == value rho n.
Proof.
  induction n as [r|v r|s|x IHx y _|x IHx y IHy|x IHx y IHy|x _ y _|f x _]; cbn [plain]; try contradiction; intros P c E; cbn [chains] in E.
  - injection E as <-. cbn [chain_value]. rewrite Qpower_1_r. ring.
  - injection E as <-. cbn [chain_value]. rewrite Qpower_1_r. ring.
  - destruct P as [P (z & r & ->)]. destruct (chains_plain x P) as (cx & Ex & _). rewrite Ex in E. cbn [bind fst snd] in E. injection E as <-.
    cbn [value]. now rewrite chain_value_scaled, (IHx P cx Ex).
  - destruct P as [P Q]. destruct (chains_plain x P) as (cx & Ex & _). destruct (chains_plain y Q) as (cy & Ey & _). rewrite Ex, Ey in E.
    cbn [bind fst snd] in E. injection E as <-. cbn [value]. now rewrite chain_value_app, (IHx P cx Ex), (IHy Q cy Ey).
  - destruct P as [P Q]. destruct (chains_plain x P) as (cx & Ex & _). destruct (chains_plain y Q) as (cy & Ey & _). rewrite Ex, Ey in E.
    cbn [bind fst snd] in E. injection E as <-. cbn [value]. now rewrite chain_value_app, chain_value_scaled, Qpower_m1, (IHx P cx Ex), (IHy Q cy Ey).
Qed.

(** ** the loop *)
Hypothesis rho_nz : forall s, ~ rho s == 0.

Definition base_ok (n : node) : Prop := is_terminal n = true /\ ~ value rho n == 0.
Inductive good : node -> Prop :=
| Go_base n : base_ok n -> good n
| Go_power n k : base_ok n -> k <> 0%Z -> k <> 1%Z -> good (raised n k).

Fixpoint terms_value (t : list node) : Q := match t with [] => 1 | n :: t' => value rho n * terms_value t' end.

Lemma build_value t : value rho (build t) == terms_value t.
Proof.
  destruct t as [|l t]; [reflexivity|]. cbn [build terms_value]. revert l. induction t as [|x t IH]; intro l; cbn [fold_left terms_value].
  - ring.
  - rewrite IH. cbn [value]. ring.
Qed.

Lemma numv_eqb_value v w : numv_eqb v w = true -> num_Q v == num_Q w.
Proof.
  destruct v, w; cbn [numv_eqb num_Q]; try discriminate; try reflexivity; intro H.
  - apply Z.eqb_eq in H. now subst.
  - now apply Qeq_bool_iff.
  - now apply Qeq_bool_iff.
  - now apply Qeq_bool_iff.
Qed.
Lemma term_eqb_value a b : term_eqb a b = true -> value rho a == value rho b.
Proof.
  destruct a, b; cbn [term_eqb value]; try discriminate; intro H.
  - apply andb_prop in H as [H _]. now apply numv_eqb_value.
  - apply SystemFacts.eqb_spec in H. now subst.
Qed.

Definition signed (neg : bool) (q : Q) : Q := if neg then - q else q.
Lemma dec_value d : dec_Q d == signed (dneg d) (inject_Z (Z.of_N (dcoef d))) * Qpower 10 (dexp d).
Proof. unfold dec_Q. rewrite Qred_correct. reflexivity. Qed.
Lemma ten_nz : ~ 10 == 0. Proof. discriminate. Qed.
Lemma dec_mul_value a b : dec_Q (dec_mul a b) == dec_Q a * dec_Q b.
Proof.
  rewrite !dec_value. unfold dec_mul. cbn [dneg dcoef dexp]. rewrite (Qpower_plus 10 _ _ ten_nz), N2Z.inj_mul, inject_Z_mult.
  destruct (dneg a), (dneg b); cbn [xorb signed]; ring.
Qed.
Lemma opp_power q k : (0 < k)%Z -> Qpower (- q) k == if Z.odd k then - Qpower q k else Qpower q k.
Proof.
  intro K. assert (E : - q == (-1) * q) by ring. rewrite E, Qmult_power.
  assert (M : Qpower (-1) k == if Z.odd k then -1 else 1).
  { destruct (Z.odd k) eqn:O.
    - apply Z.odd_spec in O as [m ->]. rewrite (Qpower_plus (-1) (2 * m) 1) by discriminate. rewrite Qpower_mult.
      change (Qpower (-1) 2) with (1 # 1). rewrite Qpower_1. reflexivity.
    - assert (Z.Even k) by (apply Z.even_spec; rewrite <- Z.negb_odd, O; reflexivity). destruct H as [m ->].
      rewrite Qpower_mult. change (Qpower (-1) 2) with (1 # 1). now rewrite Qpower_1. }
  rewrite M. destruct (Z.odd k); ring.
Qed.
Lemma dec_pow_value a k : (0 < k)%Z -> dec_Q (dec_pow a k) == Qpower (dec_Q a) k.
Proof.
  intro K. rewrite !dec_value. unfold dec_pow. cbn [dneg dcoef dexp]. rewrite Qpower_mult, Qmult_power.
  assert (C : inject_Z (Z.of_N (dcoef a ^ Z.to_N k)) == Qpower (inject_Z (Z.of_N (dcoef a))) k).
  { rewrite N2Z.inj_pow, Z2N.id by lia. rewrite Zpower_Qpower by lia. reflexivity. }
  destruct (dneg a); cbn [andb signed].
  - rewrite opp_power by lia. destruct (Z.odd k); cbn [signed]; rewrite C; reflexivity.
  - rewrite C. reflexivity.
Qed.
Lemma dec_exact_same d d' : dec_exact d = Ok d' -> d' = d.
Proof. unfold dec_exact. destruct (_ && _)%bool; congruence. Qed.
Lemma mul_pow_value v w k x : (0 < k)%Z -> mul_pow v w k = Ok x -> num_Q x == num_Q v * Qpower (num_Q w) k.
Proof.
  intro K. destruct v, w; cbn [mul_pow]; try discriminate.
  - injection 1 as <-. cbn [num_Q]. now rewrite inject_Z_mult, Zpower_Qpower by lia.
  - destruct (dec_exact (dec_pow d0 k)) as [p|] eqn:E1; [|discriminate]. cbn [bind]. destruct (dec_exact (dec_mul d p)) as [m|] eqn:E2; [|discriminate].
    cbn [bind]. injection 1 as <-. apply dec_exact_same in E1, E2. subst. cbn [num_Q]. now rewrite dec_mul_value, dec_pow_value.
Qed.

Lemma good_nz n : good n -> ~ value rho n == 0.
Proof. destruct 1 as [n [_ H]|n k [_ H] _ _]; auto. cbn [raised value]. now apply Qpower_not_0. Qed.

Lemma step_value terms nd k terms' : step terms (nd, k) = Ok terms' -> Forall good terms -> base_ok nd ->
  Forall good terms' /\ terms_value terms' == terms_value terms * Qpower (value rho nd) k.
Proof.
  intros E F B. cbn [step] in E. destruct (Z.eqb_spec k 0) as [->|K0].
  { injection E as <-. split; auto. cbn [Qpower]. ring. }
  set (term := if (k =? 1)%Z then nd else raised nd k) in *.
  assert (T : good term /\ value rho term == Qpower (value rho nd) k).
  { subst term. destruct (Z.eqb_spec k 1) as [->|K1].
    - split; [now constructor|]. now rewrite Qpower_1_r.
    - split; [now constructor|]. reflexivity. }
  destruct T as [Tg Tv].
  assert (App : forall l, Forall good l -> Forall good (term :: l) /\ terms_value (term :: l) == terms_value l * Qpower (value rho nd) k).
  { intros l Fl. split; [now constructor|]. cbn [terms_value]. rewrite Tv. ring. }
  destruct terms as [|last rest]; [injection E as <-; apply (App []); constructor|].
  pose proof (App _ F) as A. inversion F as [|? ? G Fr]; subst.
  destruct (is_terminal last && term_eqb last nd) eqn:C.
  { apply andb_prop in C as [_ C]. apply term_eqb_value in C. destruct (Z.eqb_spec (k + 1) 0) as [K1|K1]; injection E as <-.
    - split; auto. cbn [terms_value]. rewrite C. assert (k = (-1)%Z) by lia. subst k. rewrite Qpower_m1. field. apply B.
    - split; [constructor; auto; constructor; auto; lia|]. cbn [terms_value raised value]. rewrite C, Qpower_plus, Qpower_1_r by apply B. ring. }
  destruct last as [r|v r|s|a x|a b|a b|a b|f a]; try (injection E as <-; exact A).
  - destruct nd as [|v' r'| | | | | |]; try (injection E as <-; exact A).
    destruct (same_type v v' && (0 <? k)%Z) eqn:ST; [|injection E as <-; exact A].
    apply andb_prop in ST as [_ KP]. apply Z.ltb_lt in KP.
    destruct (mul_pow v v' k) as [w|] eqn:M; [|discriminate]. cbn [bind] in E. injection E as <-. apply mul_pow_value in M; auto.
    assert (V : value rho (Number w None) == value rho (Number v r) * Qpower (value rho (Number v' r')) k) by exact M.
    split.
    + constructor; auto. constructor. split; [reflexivity|]. rewrite V. intro Z. apply Qmult_integral in Z as [Z|Z].
      * now apply (good_nz _ G).
      * revert Z. apply Qpower_not_0. apply B.
    + cbn [terms_value]. rewrite V. ring.
  - destruct x as [|x rr| | | | | |]; try (injection E as <-; exact A).
    destruct (term_eqb a nd) eqn:TE; [|injection E as <-; exact A]. apply term_eqb_value in TE.
    destruct x as [m|d|t]; try discriminate.
    assert (GG : base_ok a /\ m <> 0%Z /\ m <> 1%Z).
    { inversion G as [? [H _]|? ? H ? ?]; subst; [discriminate H|]. auto. }
    destruct GG as (Ba & M0 & M1).
    destruct (Z.eqb_spec (m + k) 0) as [S|S].
    + injection E as <-. split; auto. cbn [terms_value value]. rewrite TE.
      assert (k = (- m)%Z) by lia. subst k. rewrite Qpower_opp. field. apply Qpower_not_0, B.
    + destruct (Z.eqb_spec (m + k) 1) as [S1|S1]; injection E as <-.
      * split; [constructor; auto; now constructor|]. cbn [terms_value value]. rewrite TE.
        assert (k = (1 - m)%Z) by lia. subst k. rewrite Qpower_minus by apply B. rewrite Qpower_1_r. field. apply Qpower_not_0, B.
      * split; [constructor; auto; apply Go_power; auto|]. cbn [terms_value raised value]. rewrite (Qpower_plus (value rho nd) m k) by apply B. rewrite (Qpower_comp _ _ TE m m eq_refl). ring.
Qed.

Lemma steps_value c : forall terms terms', steps terms c = Ok terms' -> Forall good terms -> Forall (fun e => base_ok (fst e)) c ->
  Forall good terms' /\ terms_value terms' == terms_value terms * chain_value c.
Proof.
  induction c as [|[nd k] c IH]; intros terms terms' E F B; cbn [steps] in E.
  - injection E as <-. split; auto. cbn [chain_value]. ring.
  - destruct (step terms (nd, k)) as [t|] eqn:S; [|discriminate]. cbn [bind] in E. inversion B as [|? ? B1 B2]; subst.
    destruct (step_value _ _ _ _ S F B1) as [F' V]. destruct (IH _ _ E F' B2) as [F'' V']. split; auto. rewrite V', V. cbn [chain_value]. ring.
Qed.
End Values.

(** ** order *)
Lemma streqP a b : Bool.reflect (a = b) (str_eqb a b).
Proof. apply Bool.iff_reflect. symmetry. apply SystemFacts.eqb_spec. Qed.
Lemma str_le_refl a : str_le a a = true.
Proof. induction a as [|x a IH]; cbn [str_le]; auto. rewrite N.eqb_refl, IH. apply Bool.orb_true_r. Qed.
Lemma str_le_total a : forall b, str_le a b = true \/ str_le b a = true.
Proof.
  induction a as [|x a IH]; intros [|y b]; cbn [str_le]; auto. destruct (N.lt_trichotomy x y) as [H|[->|H]].
  - left. apply N.ltb_lt in H. now rewrite H.
  - rewrite N.eqb_refl. destruct (IH b) as [->| ->]; rewrite ?Bool.andb_true_r, ?Bool.orb_true_r; auto.
  - right. apply N.ltb_lt in H. now rewrite H.
Qed.
Lemma str_le_cons x a y b : str_le (x :: a) (y :: b) = true <-> (x < y)%N \/ x = y /\ str_le a b = true.
Proof. cbn [str_le]. rewrite Bool.orb_true_iff, Bool.andb_true_iff, N.ltb_lt, N.eqb_eq. reflexivity. Qed.
Lemma str_le_trans a : forall b c, str_le a b = true -> str_le b c = true -> str_le a c = true.
Proof.
  induction a as [|x a IH]; intros [|y b] [|z c]; auto; try (cbn [str_le]; discriminate). rewrite !str_le_cons.
  intros [H|[-> H]] [G|[-> G]]; [left; lia|now left|now left|right; eauto].
Qed.
Lemma str_le_antisym a : forall b, str_le a b = true -> str_le b a = true -> a = b.
Proof.
  induction a as [|x a IH]; intros [|y b]; auto; try (cbn [str_le]; discriminate). rewrite !str_le_cons.
  intros [H|[-> H]] [G|[E G]]; try lia. f_equal. auto.
Qed.
Definition kle (a b : node) : Prop := key_le (key a) (key b) = true.
Lemma key_le_total a b : key_le a b = true \/ key_le b a = true.
Proof.
  destruct a as [a1 a2], b as [b1 b2]. unfold key_le. cbn [fst snd].
  destruct (streqP a1 b1), (streqP b1 a1); try congruence; apply str_le_total.
Qed.
Lemma key_le_iff a b : key_le a b = true <-> (str_le (fst a) (fst b) = true /\ fst a <> fst b) \/ (fst a = fst b /\ str_le (snd a) (snd b) = true).
Proof.
  unfold key_le. destruct (streqP (fst a) (fst b)) as [E|E]; split.
  - auto.
  - intros [[_ H]|[_ H]]; [contradiction|exact H].
  - auto.
  - intros [[H _]|[H _]]; [exact H|contradiction].
Qed.
Lemma key_le_trans a b c : key_le a b = true -> key_le b c = true -> key_le a c = true.
Proof.
  rewrite !key_le_iff. intros [[H N]|[E H]] [[H' N']|[E' H']].
  - left. split; [eapply str_le_trans; eauto|]. intro X. apply N. apply str_le_antisym; auto. rewrite X. auto.
  - left. rewrite <- E'. auto.
  - left. rewrite E. auto.
  - right. split; [congruence|eapply str_le_trans; eauto].
Qed.
Lemma key_le_antisym a b : key_le a b = true -> key_le b a = true -> a = b.
Proof.
  rewrite !key_le_iff. destruct a as [a1 a2], b as [b1 b2]. cbn [fst snd]. intros [[H N]|[E H]] [[H' N']|[E' H']].
  - destruct N. now apply str_le_antisym.
  - now destruct N.
  - now destruct N'.
  - subst. f_equal. now apply str_le_antisym.
Qed.

Definition le_entry (e f : node * Z) : Prop := kle (fst e) (fst f).
Lemma insert_sorted e l : StronglySorted le_entry l -> StronglySorted le_entry (insert e l).
Proof.
  induction 1 as [|x l S IH F]; cbn [insert]; [repeat constructor|]. destruct (key_le (key (fst e)) (key (fst x))) eqn:E.
  - constructor; [now constructor|]. constructor; [exact E|]. eapply Forall_impl; [|exact F]. intros y H. unfold le_entry, kle in *. eapply key_le_trans; eauto.
  - constructor; auto. assert (X : le_entry x e) by (unfold le_entry, kle; destruct (key_le_total (key (fst e)) (key (fst x))); congruence).
    eapply Permutation_Forall; [symmetry; apply insert_perm|]. now constructor.
Qed.
Lemma in_turn_sorted c : StronglySorted le_entry (in_turn c).
Proof. unfold in_turn. induction (rev c) as [|x l IH]; cbn [sort fold_right]; [constructor|]. fold (sort l). now apply insert_sorted. Qed.

(** ** identifiers are collected *)
Definition base (t : node) : node := match t with Raise a _ => a | _ => t end.
Definition typed (n : node) : Prop := match n with Number (NStr _) _ | Unhandled _ => False | _ => is_terminal n = true end.
Definition fine (t : node) : Prop := typed (base t) /\ factor t.
(** after an identifier come only identifiers, none smaller *)
Definition kge (a b : node) : Prop := forall s, base b = Identifier s -> exists s', base a = Identifier s' /\ str_le s s' = true.

Lemma kle_identifier s a : typed a -> kle (Identifier s) a -> exists s', a = Identifier s' /\ str_le s s' = true.
Proof.
  destruct a as [|v r|s'| | | | |]; cbn [typed is_terminal]; try (contradiction || discriminate).
  - destruct v; try contradiction; intros _ E; discriminate E.
  - intros _ E. exists s'. auto.
Qed.
Lemma factor_written t : factor t -> written t = written (base t).
Proof. destruct 1; auto. cbn [base written]. apply app_nil_r. Qed.
Definition seen (terms : list node) : list str := flat_map written terms.
Lemma in_seen s terms : Forall fine terms -> In s (seen terms) -> exists t, In t terms /\ base t = Identifier s.
Proof.
  intros F. unfold seen. rewrite in_flat_map. intros (t & I & W). rewrite Forall_forall in F. destruct (F t I) as [T G].
  rewrite (factor_written _ G) in W. exists t. split; auto. destruct (base t); cbn in *; try contradiction; try discriminate.
  destruct W as [->|[]]. reflexivity.
Qed.
Lemma term_eqb_base a b : term_eqb a b = true -> typed a -> typed b /\ written a = written b.
Proof.
  destruct a, b; cbn [term_eqb typed]; try discriminate; intros E T.
  - destruct v; try contradiction; destruct v0; cbn in E |- *; try discriminate; auto.
  - destruct (streqP name name0); [|discriminate]. subst. auto.
Qed.
Lemma numbers_unwritten v r : written (Number v r) = []. Proof. reflexivity. Qed.

Lemma kge_trans a b c : kge a b -> kge b c -> kge a c.
Proof. intros H G s E. destruct (G s E) as (s' & E' & L). destruct (H s' E') as (s2 & E2 & L2). exists s2. split; auto. eapply str_le_trans; eauto. Qed.

(** the invariant: the stack is in descending order, has no identifier twice, and is below what comes *)
Definition stacked (terms : list node) : Prop := Forall fine terms /\ StronglySorted kge terms /\ NoDup (seen terms).
Lemma stacked_tail t l : stacked (t :: l) -> stacked l.
Proof.
  intros (F & S & N). inversion F; inversion S; subst. split; [|split]; auto. unfold seen in *. cbn [flat_map] in N.
  revert N. generalize (written t) (flat_map written l). intros a b. induction a as [|x a IH]; cbn [app]; auto. inversion 1; auto.
Qed.
(** replacing the last term *)
Lemma stacked_replace t t' l : stacked (t :: l) -> fine t' -> Forall (kge t') l -> incl (written t') (written t) -> (List.length (written t') <= 1)%nat -> stacked (t' :: l).
Proof.
  intros (F & S & N) G K W Len. inversion F; inversion S; subst. split; [now constructor|]. split; [now constructor|].
  unfold seen in *. cbn [flat_map] in *. destruct (written t') as [|x [|y w]]; cbn [app List.length] in *; [|constructor|lia].
  - apply (stacked_tail t l). split; [|split]; auto.
  - intro I. assert (X : In x (written t)) by (apply W; now left). revert X I N. generalize (written t) (flat_map written l). intros a b. 
    induction a as [|z a IH]; cbn [app In]; [tauto|]. intros [->|X] I ND; apply NoDup_cons_iff in ND as [ND1 ND2]; auto. apply ND1. apply in_or_app. now right.
  - apply (stacked_tail t l). split; [|split]; auto.
Qed.
Lemma fine_written t : fine t -> (List.length (written t) <= 1)%nat.
Proof. intros [T G]. rewrite (factor_written _ G). destruct (base t); cbn in *; try contradiction; try discriminate; lia. Qed.
(** a new last term *)
Lemma stacked_push t l : stacked l -> fine t -> Forall (kge t) l -> (forall s, base t = Identifier s -> match l with h :: _ => base h <> Identifier s | [] => True end) -> stacked (t :: l).
Proof.
  intros (F & S & N) G K Nw. split; [now constructor|]. split; [now constructor|]. unfold seen in *. cbn [flat_map].
  rewrite (factor_written _ (proj2 G)). destruct G as [T _]. destruct (base t) as [|v r|s| | | | |] eqn:B; cbn [typed is_terminal] in T; try contradiction; try discriminate T.
  { exact N. }
  cbn [written app]. constructor; auto. intro I. apply in_seen in I as (t' & I & B'); auto. destruct l as [|h l]; [destruct I|].
  specialize (Nw s eq_refl). destruct I as [->|I]; [contradiction|].
  inversion S as [|? ? S' Fh]; subst. rewrite Forall_forall in Fh. specialize (Fh _ I). inversion K as [|? ? Kh Kl]; subst.
  destruct (Fh s B') as (s1 & B1 & L1). destruct (Kh s1 B1) as (s2 & B2 & L2). apply Nw. rewrite B1. f_equal.
  rewrite B in B2. injection B2 as <-. now apply str_le_antisym.
Qed.

Lemma base_terminal n : is_terminal n = true -> base n = n.
Proof. destruct n; cbn; congruence. Qed.
Lemma typed_terminal n : typed n -> is_terminal n = true.
Proof. destruct n; cbn; auto; contradiction. Qed.
Lemma typed_factor n : typed n -> factor n.
Proof. destruct n; cbn; intro H; try contradiction; try discriminate; constructor. Qed.
Lemma typed_fine n : typed n -> fine n.
Proof. intro T. split; [rewrite base_terminal; auto using typed_terminal|now apply typed_factor]. Qed.
Lemma raised_fine n k : typed n -> k <> 0%Z -> k <> 1%Z -> fine (raised n k).
Proof. intros T K0 K1. split; [exact T|]. constructor; auto using typed_terminal. Qed.
Lemma kge_same a a' b : base a = base a' -> kge a b -> kge a' b.
Proof. unfold kge. intros ->. auto. Qed.
Lemma kge_below f a a' : base a = base a' -> kge f a -> kge f a'.
Proof. unfold kge. intros ->. auto. Qed.

Lemma step_stacked terms nd k terms' : step terms (nd, k) = Ok terms' -> stacked terms -> typed nd -> Forall (kge nd) terms ->
  stacked terms' /\ forall f, typed f -> kle nd f -> Forall (kge f) terms -> Forall (kge f) terms'.
Proof.
  intros E S T K. cbn [step] in E. destruct (Z.eqb_spec k 0) as [->|K0]; [injection E as <-; auto|].
  pose proof (base_terminal nd (typed_terminal nd T)) as Bn.
  assert (Later : forall f, typed f -> kle nd f -> forall t, base t = nd -> kge f t).
  { intros f Tf L t Bt s Es. rewrite Bt in Es. subst nd. rewrite Es in L. apply kle_identifier in L as (s' & -> & L); auto. exists s'. auto. }
  set (term := if (k =? 1)%Z then nd else raised nd k) in *.
  assert (Tm : fine term /\ base term = nd).
  { subst term. destruct (Z.eqb_spec k 1); split; auto using typed_fine, raised_fine. }
  destruct Tm as [Tf Tb]. clearbody term.
  assert (Kt : Forall (kge term) terms).
  { eapply Forall_impl; [|exact K]. intros a. apply kge_same. congruence. }
  assert (Push : (forall s, nd = Identifier s -> match terms with h :: _ => base h <> Identifier s | [] => True end) ->
    stacked (term :: terms) /\ forall f, typed f -> kle nd f -> Forall (kge f) terms -> Forall (kge f) (term :: terms)).
  { intro H. split.
    - apply stacked_push; auto. intros s Es. apply H. congruence.
    - intros f T' L F. constructor; auto. }
  destruct terms as [|last rest]; [injection E as <-; apply Push; auto|].
  assert (SF : fine last) by (destruct S as [F _]; now inversion F).
  assert (Replace : forall t, fine t -> base t = nd -> base last = nd \/ (exists v r v' r', base last = Number v r /\ nd = Number v' r') -> stacked (t :: rest) /\ forall f, typed f -> kle nd f -> Forall (kge f) (last :: rest) -> Forall (kge f) (t :: rest)).
  { intros t Ft Bt Bl. split.
    - apply (stacked_replace last); auto.
      + inversion K; subst. eapply Forall_impl; [|eassumption]. intro a. apply kge_same. congruence.
      + rewrite (factor_written t (proj2 Ft)), (factor_written last (proj2 SF)), Bt. destruct Bl as [->|(v & r & v' & r' & -> & ->)]; [apply incl_refl|]. intros x [].
      + now apply fine_written.
    - intros f T' L F. inversion F; subst. constructor; auto. }
  assert (Drop : stacked rest /\ forall f, typed f -> kle nd f -> Forall (kge f) (last :: rest) -> Forall (kge f) rest).
  { split; [exact (stacked_tail _ _ S)|]. intros f _ _ F. now inversion F. }
  destruct (is_terminal last && term_eqb last nd) eqn:C.
  { apply andb_prop in C as [C1 C]. rewrite <- (base_terminal last C1) in C.
    assert (Bl : base last = nd \/ (exists v r v' r', base last = Number v r /\ nd = Number v' r')).
    { rewrite (base_terminal last C1) in *. destruct last, nd; cbn [term_eqb] in C; try discriminate; eauto 8. destruct (streqP name name0); [subst; auto|discriminate]. }
    destruct (Z.eqb_spec (k + 1) 0) as [K1|K1]; injection E as <-; auto. apply Replace; auto. apply raised_fine; auto. lia. }
  assert (NotTerminal : is_terminal last = true -> forall s, nd = Identifier s -> base last <> Identifier s).
  { intros L s ->. rewrite L in C. cbn [andb] in C. rewrite (base_terminal _ L). intros ->. cbn [term_eqb] in C. now rewrite SystemFacts.eqb_refl' in C. }
  destruct last as [r|v r|s|a x|a b|a b|a b|f a]; try (injection E as <-; apply Push; cbn [is_terminal base] in *; auto; intros; discriminate).
  - destruct nd as [|v' r'| | | | | |]; try (injection E as <-; apply Push; intros; discriminate).
    destruct (same_type v v' && (0 <? k)%Z) eqn:ST; [|injection E as <-; apply Push; intros; discriminate].
    apply andb_prop in ST as [ST _]. destruct (mul_pow v v' k) as [w|] eqn:M; [|discriminate]. cbn [bind] in E. injection E as <-.
    assert (Tw : typed (Number w None)).
    { destruct v, v'; cbn [mul_pow] in M; try discriminate.
      - injection M as <-. reflexivity.
      - destruct (dec_exact (dec_pow d0 k)); [|discriminate]. cbn [bind] in M. destruct (dec_exact (dec_mul d _)); [|discriminate]. injection M as <-. reflexivity. }
    split.
    + apply (stacked_replace (Number v r)); auto using typed_fine.
      * apply Forall_forall. intros t I s Es. destruct S as (_ & S & _). inversion S as [|? ? _ Fk]; subst. rewrite Forall_forall in Fk.
        destruct (Fk t I s Es) as (s' & X & _). discriminate X.
      * intros z [].
    + intros f Tf' L F. inversion F; subst. constructor; auto. intros s Es. discriminate Es.
  - destruct x as [|x rr| | | | | |]; try (destruct (proj2 SF); fail).
    all: try (exfalso; destruct SF as [_ SF]; inversion SF; fail).
    destruct (term_eqb a nd) eqn:TE.
    + destruct SF as [Ta Fa]. cbn [base] in Ta. destruct x as [m|d|t]; try discriminate.
      assert (Bl : base (Raise a (Number (NInt m) rr)) = nd \/ (exists v r v' r', base (Raise a (Number (NInt m) rr)) = Number v r /\ nd = Number v' r')).
      { cbn [base]. destruct a, nd; cbn [term_eqb] in TE; try discriminate; eauto 8. destruct (streqP name name0); [subst; auto|discriminate]. }
      destruct (Z.eqb_spec (m + k) 0) as [M0|M0]; [injection E as <-; auto|].
      destruct (Z.eqb_spec (m + k) 1) as [M1|M1]; injection E as <-.
      * split.
        -- apply (stacked_replace _ a rest S); auto using typed_fine.
           ++ inversion K as [|? ? _ Kr]; subst. destruct S as (_ & S & _). inversion S as [|? ? _ Fk]; subst. eapply Forall_impl; [|exact Fk]. intro t. apply kge_same. cbn [base]. rewrite base_terminal; auto using typed_terminal.
           ++ cbn [written]. intros z I. apply in_or_app. now left.
           ++ apply fine_written. now apply typed_fine.
        -- intros f Tf' L F. inversion F as [|? ? Fa1 Fr]; subst. constructor; auto. revert Fa1. apply kge_below. cbn [base]. rewrite base_terminal; auto using typed_terminal.
      * apply Replace; auto. apply raised_fine; auto.
    + injection E as <-. apply Push. intros s ->. cbn [base]. intros ->. cbn [term_eqb] in TE. now rewrite SystemFacts.eqb_refl' in TE.
Qed.

Lemma steps_stacked c : forall terms terms', steps terms c = Ok terms' -> StronglySorted le_entry c -> Forall (fun e => typed (fst e)) c ->
  stacked terms -> Forall (fun e => Forall (kge (fst e)) terms) c -> stacked terms'.
Proof.
  induction c as [|[nd k] c IH]; intros terms terms' E So T S K; cbn [steps] in E; [injection E as <-; exact S|].
  destruct (step terms (nd, k)) as [t|] eqn:St; [|discriminate]. cbn [bind] in E. inversion So as [|? ? So' Fo]; inversion T; inversion K; subst.
  cbn [fst] in *. destruct (step_stacked _ _ _ _ St S) as [S' Later]; auto. apply (IH t terms' E); auto.
  rewrite Forall_forall in *. intros e I. apply Later; auto. apply (Fo e I).
Qed.
Lemma build_written t : written (build t) = seen (rev t).
Proof.
  destruct t as [|l t]; [reflexivity|]. cbn [build]. assert (G : forall n, written (fold_left (fun r t => Multiply t r) t n) = (seen (rev t) ++ written n)%list).
  { induction t as [|x t IH]; intro n; cbn [fold_left rev]; auto. rewrite IH. unfold seen. rewrite flat_map_app. cbn [flat_map written]. rewrite app_nil_r. now rewrite app_assoc. }
  rewrite G. cbn [rev]. unfold seen. rewrite flat_map_app. cbn [flat_map]. now rewrite app_nil_r.
Qed.
Lemma build_form t : Forall factor t -> product_form (build t).
Proof.
  destruct 1 as [|l t Fl Ft]; [constructor; constructor|]. cbn [build]. assert (P : product_form l) by now constructor. clear Fl. revert l P.
  induction Ft as [|x t Fx _ IH]; intros l P; cbn [fold_left]; auto. apply IH. now constructor.
Qed.
Lemma seen_rev t : Permutation (seen (rev t)) (seen t).
Proof. unfold seen. apply Permutation_flat_map. symmetry. apply Permutation_rev. Qed.

(** ** no Decimal: no failure *)
Definition int_base (n : node) : Prop := match n with Number (NInt _) _ | Identifier _ => True | _ => False end.
Definition intish (t : node) : Prop := match t with Raise a (Number (NInt _) _) => int_base a | _ => int_base t end.
Lemma int_base_intish n : int_base n -> intish n.
Proof. destruct n; auto. contradiction. Qed.
Lemma step_total terms nd k : Forall intish terms -> int_base nd -> exists t, step terms (nd, k) = Ok t /\ Forall intish t.
Proof.
  intros F B. cbn [step]. destruct (k =? 0)%Z; [eauto|].
  assert (T : intish (if (k =? 1)%Z then nd else raised nd k)) by (destruct (k =? 1)%Z; [now apply int_base_intish|exact B]).
  set (term := if (k =? 1)%Z then nd else raised nd k) in *. clearbody term.
  destruct terms as [|last rest]; [eexists; split; [reflexivity|]; auto|]. inversion F as [|? ? L Fr]; subst.
  destruct (is_terminal last && term_eqb last nd).
  { destruct (k + 1 =? 0)%Z; eexists; split; try reflexivity; auto. }
  destruct last as [r|[v|d|st] r|s|a [|[m|d|st] rr| | | | | |]|a b|a b|a b|f a]; cbn [intish int_base] in L; try contradiction.
  - destruct nd as [|[v'|d|st] r'| | | | | |]; cbn [int_base] in B; try contradiction; [|eexists; split; [reflexivity|]; auto].
    destruct (same_type _ _ && _); [|eexists; split; [reflexivity|]; auto]. cbn [mul_pow bind]. eexists; split; [reflexivity|]. constructor; auto.
  - eexists; split; [reflexivity|]; auto.
  - destruct (term_eqb a nd) eqn:E; [|eexists; split; [reflexivity|]; auto].
    destruct (m + k =? 0)%Z; [eauto|]. destruct (m + k =? 1)%Z; eexists; split; try reflexivity; constructor; auto. now apply int_base_intish.
Qed.
Lemma steps_total c : forall terms, Forall intish terms -> Forall (fun e => int_base (fst e)) c -> exists t, steps terms c = Ok t.
Proof.
  induction c as [|[nd k] c IH]; intros terms F B; cbn [steps]; [eauto|]. inversion B; subst. destruct (step_total terms nd k F) as (t & -> & F'); auto. cbn [bind]. auto.
Qed.

(** ** the leaves of a chain *)
Lemma chains_leaves (P : node -> Prop) (Q : node -> Prop) :
  (forall v r, Q (Number v r) -> P (Number v r)) -> (forall s, P (Identifier s)) ->
  (forall x y, Q (Multiply x y) -> Q x /\ Q y) -> (forall x y, Q (Divide x y) -> Q x /\ Q y) -> (forall x y, Q (Raise x y) -> Q x) ->
  forall n c, plain n -> Q n -> chains n = Ok (c, []) -> Forall (fun e => P (fst e)) c.
Proof.
  intros Hn Hi Hm Hd Hr.
  assert (Sc : forall k c, Forall (fun e : node * Z => P (fst e)) c -> Forall (fun e => P (fst e)) (scaled k c)).
  { intros k c F. unfold scaled. rewrite Forall_map. eapply Forall_impl; [|exact F]. cbn. auto. }
  induction n as [r|v r|s|x IHx y _|x IHx y IHy|x IHx y IHy|x _ y _|f x _]; cbn [plain]; try contradiction; intros c P' Q' E; cbn [chains] in E.
  - injection E as <-. constructor; auto. cbn. auto.
  - injection E as <-. constructor; auto. cbn. auto.
  - destruct P' as [P' (z & r & ->)]. destruct (chains_plain x P') as (cx & Ex & _). rewrite Ex in E. cbn [bind fst snd] in E. injection E as <-. eauto.
  - destruct P' as [P1 P2]. destruct (Hm _ _ Q'). destruct (chains_plain x P1) as (cx & Ex & _). destruct (chains_plain y P2) as (cy & Ey & _). rewrite Ex, Ey in E. cbn [bind fst snd app] in E. injection E as <-.
    apply Forall_app. eauto.
  - destruct P' as [P1 P2]. destruct (Hd _ _ Q'). destruct (chains_plain x P1) as (cx & Ex & _). destruct (chains_plain y P2) as (cy & Ey & _). rewrite Ex, Ey in E. cbn [bind fst snd app] in E. injection E as <-.
    apply Forall_app. eauto.
Qed.

(** ** identifiers only: the result in terms of the exponents *)
Definition power (e : str * Z) : node := if (snd e =? 1)%Z then Identifier (fst e) else raised (Identifier (fst e)) (snd e).
Fixpoint total (s : str) (l : list (str * Z)) : Z :=
  match l with [] => 0 | (t, k) :: l' => (if str_eqb t s then k else 0) + total s l' end%Z.
Definition sgt (a b : str * Z) : Prop := str_le (fst b) (fst a) = true /\ fst a <> fst b.
Definition descending (l : list (str * Z)) : Prop := StronglySorted sgt l /\ Forall (fun e => snd e <> 0%Z) l.

Lemma step_powers l s k : descending l -> Forall (fun e => str_le (fst e) s = true) l ->
  exists l', step (map power l) (Identifier s, k) = Ok (map power l') /\ descending l' /\ Forall (fun e => str_le (fst e) s = true) l' /\
    forall t, total t l' = (total t l + if str_eqb s t then k else 0)%Z.
Proof.
  intros [D Z] B. cbn [step]. destruct (Z.eqb_spec k 0) as [->|K0].
  { exists l. split; [reflexivity|]. split; [now split|]. split; auto. intro t. destruct (str_eqb s t); lia. }
  change (if (k =? 1)%Z then Identifier s else raised (Identifier s) k) with (power (s, k)).
  assert (Push : (forall s0 k0, match l with e :: _ => e = (s0, k0) | [] => False end -> s0 <> s) ->
    exists l', Ok (power (s, k) :: map power l) = Ok (map power l') /\ descending l' /\ Forall (fun e => str_le (fst e) s = true) l' /\
      forall t, total t l' = (total t l + if str_eqb s t then k else 0)%Z).
  { intro H. exists ((s, k) :: l). split; [reflexivity|]. split; [|split].
    - split; [|constructor; auto]. constructor; auto. destruct l as [|[s0 k0] l]; auto. specialize (H s0 k0 eq_refl). inversion D as [|? ? D' F]; subst. inversion B as [|? ? B1 B2]; subst. cbn [fst] in *.
      constructor; [split; cbn; auto|]. rewrite Forall_forall in *. intros e I. split; cbn [fst]; auto. destruct (F e I) as [L N]. cbn [fst] in *. intros ->. apply N. apply str_le_antisym; auto. 
    - constructor; auto. apply str_le_refl.
    - intro t. cbn [total]. destruct (str_eqb s t); lia. }
  destruct l as [|[s0 k0] l]; [apply Push; tauto|]. cbn [map] in *. inversion D as [|? ? D' F]; inversion Z as [|? ? Z1 Z2]; inversion B as [|? ? B1 B2]; subst. cbn [fst snd] in *.
  change (power (s0, k0)) with (if (k0 =? 1)%Z then Identifier s0 else raised (Identifier s0) k0) in *.
  destruct (streqP s0 s) as [->|N].
  - assert (New : forall j, j = (k0 + k)%Z -> j <> 0%Z -> exists l', Ok (power (s, j) :: map power l) = Ok (map power l') /\ descending l' /\ Forall (fun e => str_le (fst e) s = true) l' /\
      forall t, total t l' = (total t ((s, k0) :: l) + if str_eqb s t then k else 0)%Z).
    { intros j -> J. exists ((s, (k0 + k)%Z) :: l). split; [reflexivity|]. split; [|split].
      - split; constructor; auto.
      - constructor; auto.
      - intro t. cbn [total]. destruct (str_eqb s t); lia. }
    assert (Gone : (k0 + k = 0)%Z -> exists l', Ok (map power l) = Ok (map power l') /\ descending l' /\ Forall (fun e => str_le (fst e) s = true) l' /\
      forall t, total t l' = (total t ((s, k0) :: l) + if str_eqb s t then k else 0)%Z).
    { intro J. exists l. split; [reflexivity|]. split; [now split|]. split; auto. intro t. cbn [total]. destruct (str_eqb s t); lia. }
    destruct (Z.eqb_spec k0 1) as [->|K1]; cbn [is_terminal raised term_eqb andb]; rewrite SystemFacts.eqb_refl'.
    + destruct (Z.eqb_spec (k + 1) 0) as [J|J]; [apply Gone; lia|]. specialize (New (k + 1)%Z ltac:(lia) J). change (power (s, k + 1)%Z) with (if (k + 1 =? 1)%Z then Identifier s else raised (Identifier s) (k + 1)) in New.
      destruct (Z.eqb_spec (k + 1) 1); [lia|exact New].
    + destruct (Z.eqb_spec (k0 + k) 0) as [J|J]; [apply Gone; lia|]. specialize (New (k0 + k)%Z eq_refl J). change (power (s, k0 + k)%Z) with (if (k0 + k =? 1)%Z then Identifier s else raised (Identifier s) (k0 + k)) in New.
      destruct (Z.eqb_spec (k0 + k) 1); exact New.
  - assert (X : str_eqb s0 s = false) by (destruct (streqP s0 s); congruence).
    destruct (Z.eqb_spec k0 1) as [->|K1]; cbn [is_terminal raised term_eqb andb]; rewrite X; apply Push; intros ? ? [= <- <-]; auto.
Qed.

Definition named (c : list (str * Z)) : chain := map (fun e => (Identifier (fst e), snd e)) c.
Lemma steps_powers c : forall l, descending l -> StronglySorted le_entry (named c) -> Forall (fun e => Forall (fun x => str_le (fst x) (fst e) = true) l) c ->
  exists l', steps (map power l) (named c) = Ok (map power l') /\ descending l' /\ forall t, total t l' = (total t l + total t c)%Z.
Proof.
  induction c as [|[s k] c IH]; intros l D So B; cbn [named map steps].
  - exists l. split; [reflexivity|]. split; auto. intro t. cbn [total]. lia.
  - inversion So as [|? ? So' F]; inversion B as [|? ? B1 B2]; subst. cbn [fst snd] in *. destruct (step_powers l s k D B1) as (l1 & -> & D1 & B1' & T1). cbn [bind].
    destruct (IH l1 D1 So') as (l2 & E2 & D2 & T2).
    + rewrite Forall_forall in *. intros e I. rewrite Forall_forall in *. specialize (F (Identifier (fst e), snd e) (in_map _ _ _ I)). unfold le_entry, kle in F. cbn [fst key type_text node_str] in F.
      unfold key_le in F. cbn [fst snd] in F. rewrite SystemFacts.eqb_refl' in F. intros x Ix. eapply str_le_trans; [rewrite ?Forall_forall in B1'; apply (B1' x Ix)|exact F].
    + exists l2. split; [exact E2|]. split; auto. intro t. rewrite T2, T1. cbn [total]. lia.
Qed.
Lemma total_absent s l : Forall (fun e => fst e <> s) l -> total s l = 0%Z.
Proof. induction 1 as [|[t k] l N _ IH]; cbn [total]; auto. cbn [fst] in N. destruct (streqP t s); [contradiction|]. lia. Qed.
Lemma descending_total s k l : descending ((s, k) :: l) -> total s ((s, k) :: l) = k /\ total s l = 0%Z.
Proof.
  intros [D _]. inversion D as [|? ? _ F]; subst. assert (Z : total s l = 0%Z).
  { apply total_absent. eapply Forall_impl; [|exact F]. intros [t j] [_ N]. cbn [fst] in *. congruence. }
  split; auto. cbn [total]. rewrite SystemFacts.eqb_refl', Z. lia.
Qed.
Lemma descending_unique l : forall l', descending l -> descending l' -> (forall t, total t l = total t l') -> l = l'.
Proof.
  assert (Tail : forall e (l : list (str * Z)), descending (e :: l) -> descending l) by (intros e l0 [D Z]; inversion D; inversion Z; split; auto).
  assert (Top : forall s k l t j l', descending ((s, k) :: l) -> descending ((t, j) :: l') -> (forall x, total x ((s, k) :: l) = total x ((t, j) :: l')) -> str_le s t = true).
  { intros s k l0 t j l' D D' H. destruct (streqP s t) as [->|N]; [apply str_le_refl|]. destruct (str_le_total s t) as [L|L]; auto.
    exfalso. destruct (descending_total _ _ _ D) as [T _]. rewrite H in T. cbn [total] in T. destruct (streqP t s); [congruence|]. 
    assert (Zk : k <> 0%Z) by (destruct D as [_ Z]; now inversion Z). apply Zk. rewrite <- T. rewrite Z.add_0_l.
    apply total_absent. destruct D' as [D' _]. inversion D' as [|? ? _ F]; subst. eapply Forall_impl; [|exact F]. intros [y w] [Ly Ny]. cbn [fst] in *. intros ->. apply N. now apply str_le_antisym. }
  induction l as [|[s k] l IH]; intros [|[t j] l'] D D' H; auto.
  - destruct (descending_total _ _ _ D') as [T _]. rewrite <- H in T. cbn [total] in T. assert (j <> 0%Z) by (destruct D' as [_ Z]; now inversion Z). congruence.
  - destruct (descending_total _ _ _ D) as [T _]. rewrite H in T. cbn [total] in T. assert (k <> 0%Z) by (destruct D as [_ Z]; now inversion Z). congruence.
  - assert (s = t) by (apply str_le_antisym; [eapply (Top s k l t j l')|eapply (Top t j l' s k l)]; eauto). subst t.
    destruct (descending_total _ _ _ D) as [T _], (descending_total _ _ _ D') as [T' _]. rewrite H, T' in T. subst j. f_equal. apply IH; eauto.
    intro x. specialize (H x). cbn [total] in H. lia.
Qed.

(** chains of identifiers *)
Lemma named_of c : Forall (fun e => match fst e with Identifier _ => True | _ => False end) c -> exists l, c = named l.
Proof.
  induction 1 as [|[n k] c H _ (l & ->)]; [exists []; reflexivity|]. destruct n; try contradiction. exists ((name, k) :: l). reflexivity.
Qed.
Lemma total_app s a b : total s (a ++ b)%list = (total s a + total s b)%Z.
Proof. induction a as [|[t k] a IH]; cbn [app total]; [lia|]. rewrite IH. lia. Qed.
Lemma total_perm s a b : Permutation a b -> total s a = total s b.
Proof. induction 1 as [|[t k] a b _ IH|[t k] [t' k'] a|]; cbn [total]; lia. Qed.
Lemma named_inj a : forall b, named a = named b -> a = b.
Proof. induction a as [|[s k] a IH]; intros [|[t j] b]; cbn; try discriminate; auto. intros [= -> -> E]. f_equal. auto. Qed.
Lemma named_app a b : named (a ++ b) = (named a ++ named b)%list.
Proof. unfold named. apply map_app. Qed.
Lemma scaled_named k a : scaled k (named a) = named (map (fun e => (fst e, snd e * k)%Z) a).
Proof. unfold scaled, named. rewrite !map_map. reflexivity. Qed.
Lemma total_scaled s k a : total s (map (fun e => (fst e, snd e * k)%Z) a) = (total s a * k)%Z.
Proof. induction a as [|[t j] a IH]; cbn [map total fst snd]; auto. rewrite IH. destruct (str_eqb t s); lia. Qed.
Lemma chains_exponent n : plain n -> no_numbers n -> exists l, chains n = Ok (named l, []) /\ forall s, total s l = exponent n s.
Proof.
  unfold exponent.
  induction n as [r|v r|s|x IHx y _|x IHx y IHy|x IHx y IHy|x _ y _|f x _]; cbn [plain no_numbers chains gdim]; try contradiction; intros P N.
  - exists [(s, 1%Z)]. split; [reflexivity|]. intro t. cbn [total]. destruct (str_eqb s t); lia.
  - destruct P as [P (z & r & ->)]. destruct (IHx P N) as (l & -> & T). cbn [bind fst snd]. rewrite scaled_named. eexists. split; [reflexivity|]. intro t. rewrite total_scaled, T. lia.
  - destruct P as [P1 P2], N as [N1 N2]. destruct (IHx P1 N1) as (l & -> & T), (IHy P2 N2) as (l' & -> & T'). cbn [bind fst snd app]. rewrite <- named_app. eexists. split; [reflexivity|]. intro t. now rewrite total_app, T, T'.
  - destruct P as [P1 P2], N as [N1 N2]. destruct (IHx P1 N1) as (l & -> & T), (IHy P2 N2) as (l' & -> & T'). cbn [bind fst snd app]. rewrite scaled_named, <- named_app. eexists. split; [reflexivity|]. intro t. rewrite total_app, total_scaled, T, T'. lia.
Qed.
Lemma in_turn_named l : exists l', in_turn (named l) = named l' /\ Permutation l' l.
Proof.
  assert (P : Permutation (in_turn (named l)) (named l)) by apply in_turn_perm. unfold named in P.
  apply Permutation_map_inv in P as (l' & E & P'). exists l'. split; auto. now apply Permutation_sym.
Qed.
Lemma expand_powers n : plain n -> no_numbers n -> exists l, expand n = Ok (build (map power l)) /\ descending l /\ forall s, total s l = exponent n s.
Proof.
  intros P N. destruct (chains_exponent n P N) as (c & E & T). unfold expand, chain_terms. rewrite E. cbn [bind fst snd].
  destruct (in_turn_named c) as (c' & E' & Pm). pose proof (in_turn_sorted (named c)) as So. rewrite E' in *.
  destruct (steps_powers c' []) as (l & El & D & Tl); auto.
  - split; constructor.
  - apply Forall_forall. constructor.
  - cbn [map] in El. rewrite El. cbn [bind]. exists l. split; [reflexivity|]. split; auto. intro s. rewrite Tl. cbn [total]. rewrite (total_perm s _ _ Pm). apply T.
Qed.
Lemma exponent_power s e : exponent (power e) s = if str_eqb (fst e) s then snd e else 0%Z.
Proof.
  destruct e as [t k]. unfold power, exponent, raised. cbn [fst snd]. destruct (Z.eqb_spec k 1) as [->|_]; cbn [gdim]; destruct (str_eqb t s); lia.
Qed.
Lemma exponent_build s l : exponent (build (map power l)) s = total s l.
Proof.
  destruct l as [|e l]; [reflexivity|]. cbn [map build].
  assert (G : forall n, exponent (fold_left (fun r t => Multiply t r) (map power l) n) s = (exponent n s + total s l)%Z).
  { induction l as [|f l IH]; intro n; cbn [map fold_left total]; [lia|]. rewrite IH. change (exponent (Multiply (power f) n) s) with (exponent (power f) s + exponent n s)%Z.
    rewrite exponent_power. destruct f. cbn [fst snd]. lia. }
  rewrite G, exponent_power. destruct e. cbn [fst snd total]. reflexivity.
Qed.
Lemma build_powers_inj l l' s : build (map power l) = build (map power l') -> total s l = total s l'.
Proof. intro H. now rewrite <- !exponent_build, H. Qed.
Lemma Permutation_in_iff' {A} {a b : list A} (p : Permutation a b) x : In x a <-> In x b.
Proof. split; apply Permutation_in; auto. now symmetry. Qed.
Lemma written_power e : written (power e) = [fst e].
Proof. unfold power. destruct (_ =? _)%Z; reflexivity. Qed.
Lemma seen_powers s l : descending l -> (In s (seen (map power l)) <-> total s l <> 0%Z).
Proof.
  induction l as [|[t k] l IH]; intro D; [cbn; split; [tauto|congruence]|].
  assert (D' : descending l) by (destruct D as [D Z]; inversion D; inversion Z; split; auto).
  assert (Zk : k <> 0%Z) by (destruct D as [_ Z]; now inversion Z).
  unfold seen in *. cbn [map flat_map]. rewrite written_power. cbn [app In fst]. rewrite IH by auto. cbn [total].
  destruct (streqP t s) as [->|N].
  - destruct (descending_total _ _ _ D) as [_ ->]. split; [lia|auto].
  - rewrite Z.add_0_l. tauto.
Qed.
