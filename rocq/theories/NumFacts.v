(** * Numbers as text: what int() and Decimal() do on the texts the tokeniser produces. *)
From Verif Require Import PyBase PyNum Regex RegexFacts Lexer LexSpec.

Definition digits (s : str) : Prop := Forall (fun c => is_digit c = true) s.

Lemma matches_chr rs w : matches (Chr rs) w <-> exists c, w = [c] /\ in_ranges rs c = true.
Proof.
  split; [intro H; inversion H; eauto|intros [c [-> H]]; now constructor].
Qed.
Lemma matches_alt a b w : matches (Alt a b) w <-> matches a w \/ matches b w.
Proof.
  split; [intro H; inversion H; auto|intros [H|H]; [now apply M_alt_l|now apply M_alt_r]].
Qed.
Lemma matches_seq a b w : matches (Seq a b) w <->
  exists s t, w = s ++ t /\ matches a s /\ matches b t.
Proof.
  split; [intro H; inversion H; eauto 6|intros (s & t & -> & H1 & H2); now constructor].
Qed.
Lemma matches_eps w : matches Eps w <-> w = [].
Proof. split; [intro H; inversion H; auto|intros ->; constructor]. Qed.

Lemma matches_star_chr rs w : matches (Star (Chr rs)) w <-> Forall (fun c => in_ranges rs c = true) w.
Proof.
  split.
  - intro H. remember (Star (Chr rs)) as r. induction H; try discriminate; auto.
    injection Heqr as ->. apply matches_chr in H as [c [-> Hc]]. simpl. constructor; auto.
  - induction 1 as [|c w Hc Hw IH]; [constructor|].
    change (c :: w) with ([c] ++ w). constructor; auto. now constructor.
Qed.

Lemma matches_plus_chr rs w : matches (plus (Chr rs)) w <->
  w <> [] /\ Forall (fun c => in_ranges rs c = true) w.
Proof.
  unfold plus. rewrite matches_seq. split.
  - intros (s & t & -> & H1 & H2). apply matches_chr in H1 as [c [-> Hc]].
    apply matches_star_chr in H2. split; [discriminate|]. simpl. auto.
  - intros [N H]. destruct w as [|c w]; [contradiction|]. inversion H; subst.
    exists [c], w. repeat split; auto. + now constructor. + now apply matches_star_chr.
Qed.

Lemma in_range1 a b c : in_ranges [(a, b)] c = true <-> (a <= c <= b)%N.
Proof.
  unfold in_ranges. simpl. rewrite orb_false_r, andb_true_iff, !N.leb_le. tauto.
Qed.

Lemma is_digit_range c : in_ranges [(48, 57)%N] c = is_digit c.
Proof. unfold in_ranges, is_digit. simpl. now rewrite orb_false_r. Qed.

Lemma matches_ch a w : matches (ch a) w <-> w = [a].
Proof.
  unfold ch. rewrite matches_chr. split.
  - intros [c [-> H]]. apply in_range1 in H. f_equal. lia.
  - intros ->. exists a. split; auto. apply in_range1. lia.
Qed.

Lemma matches_int w : matches r_int w <-> w <> [] /\ digits w.
Proof.
  unfold r_int, r_digit, rng, digits. rewrite matches_plus_chr.
  assert (H : forall l, Forall (fun c => in_ranges [(48, 57)%N] c = true) l <-> Forall (fun c => is_digit c = true) l).
  { intro l. rewrite !Forall_forall. setoid_rewrite is_digit_range. reflexivity. }
  rewrite H. reflexivity.
Qed.

Definition sign_text (neg : bool) (s : str) : Prop :=
  s = [] /\ neg = false \/ s = [43%N] /\ neg = false \/ s = [45%N] /\ neg = true.

Lemma matches_signed_int w : matches r_signed_int w <->
  exists c ds, w = c :: ds /\ (c = 45 \/ c = 43)%N /\ ds <> [] /\ digits ds.
Proof.
  unfold r_signed_int, r_minus, r_plus. rewrite matches_seq. split.
  - intros (s & t & -> & H1 & H2). rewrite matches_alt, !matches_ch in H1.
    apply matches_int in H2 as [N D]. destruct H1 as [-> | ->]; eexists _, _; (split; [reflexivity|]); auto.
  - intros (c & ds & -> & Hc & N & D). exists [c], ds. repeat split.
    + rewrite matches_alt, !matches_ch. destruct Hc; subst; auto.
    + now apply matches_int.
Qed.

Lemma matches_any_int w : matches r_any_int w <->
  exists neg sg ds, sign_text neg sg /\ w = sg ++ ds /\ ds <> [] /\ digits ds.
Proof.
  unfold r_any_int. rewrite matches_alt, matches_int, matches_signed_int. split.
  - intros [[N D]|(c & ds & -> & [->| ->] & N & D)].
    + exists false, [], w. unfold sign_text. auto 6.
    + exists true, [45%N], ds. unfold sign_text. auto 6.
    + exists false, [43%N], ds. unfold sign_text. auto 6.
  - intros (neg & sg & ds & H & -> & N & D).
    destruct H as [[-> _]|[[-> _]|[-> _]]]; simpl; auto; right; eexists _, _; eauto 6.
Qed.

Lemma take_digits_app ds rest : digits ds ->
  match rest with c :: _ => is_digit c = false | [] => True end ->
  take_digits (ds ++ rest) = (ds, rest).
Proof.
  intros D H. induction D as [|c ds Hc D IH]; simpl.
  - destruct rest as [|c r]; auto. simpl. now rewrite H.
  - rewrite Hc, IH. reflexivity.
Qed.

Lemma take_digits_all ds : digits ds -> take_digits ds = (ds, []).
Proof. intro D. rewrite <- (app_nil_r ds) at 1. apply take_digits_app; auto. Qed.

Lemma split_sign_ok neg sg rest : sign_text neg sg ->
  match rest with c :: _ => c <> 45%N /\ c <> 43%N | [] => True end ->
  split_sign (sg ++ rest) = (neg, rest).
Proof.
  intros [[-> ->]|[[-> ->]|[-> ->]]] H; simpl; auto.
  destruct rest as [|c r]; auto. simpl. destruct H as [H1 H2].
  apply N.eqb_neq in H1, H2. now rewrite H1, H2.
Qed.

Lemma digit_not_sign c : is_digit c = true -> c <> 45%N /\ c <> 43%N.
Proof. unfold is_digit. rewrite andb_true_iff, !N.leb_le. lia. Qed.

Lemma digits_head_not_sign ds rest : ds <> [] -> digits ds ->
  match ds ++ rest with c :: _ => c <> 45%N /\ c <> 43%N | [] => True end.
Proof.
  intros N D. destruct D as [|c ds Hc D]; [contradiction|]. simpl. now apply digit_not_sign.
Qed.

Lemma py_int_value neg sg ds : sign_text neg sg -> ds <> [] -> digits ds ->
  py_int (sg ++ ds) =
  if (4300 <? N.of_nat (List.length ds))%N then Err (EValue VE_int_digits)
  else Ok (if neg then (- Z.of_N (digits_value ds))%Z else Z.of_N (digits_value ds)).
Proof.
  intros S N D. unfold py_int. rewrite (split_sign_ok neg).
  - rewrite take_digits_all by auto. destruct ds; [contradiction|]. reflexivity.
  - auto.
  - pose proof (digits_head_not_sign ds [] N D) as H. now rewrite app_nil_r in H.
Qed.

Lemma py_int_outcome w : matches r_int w \/ matches r_signed_int w ->
  (exists z, py_int w = Ok z) \/ py_int w = Err (EValue VE_int_digits).
Proof.
  intro H. assert (M : matches r_any_int w).
  { unfold r_any_int. apply matches_alt. auto. }
  apply matches_any_int in M as (neg & sg & ds & S & -> & N & D).
  rewrite (py_int_value neg) by auto.
  destruct (4300 <? _)%N; eauto.
Qed.

Definition exp_text (s : str) : Prop :=
  s = [] \/ exists c neg sg ds, (c = 69 \/ c = 101)%N /\ sign_text neg sg /\ ds <> [] /\ digits ds /\
            s = c :: sg ++ ds.

Lemma parse_exp_ok s : exp_text s -> exists z, parse_exp s = Ok z.
Proof.
  intros [->|(c & neg & sg & ds & Hc & S & N & D & ->)]; simpl; eauto.
  assert ((c =? 69) || (c =? 101) = true)%N as -> by (rewrite orb_true_iff, !N.eqb_eq; tauto).
  rewrite (split_sign_ok neg); auto.
  - rewrite take_digits_all by auto. destruct ds; [contradiction|]. eauto.
  - pose proof (digits_head_not_sign ds [] N D) as H. now rewrite app_nil_r in H.
Qed.

Lemma exp_text_head s : exp_text s ->
  match s with c :: _ => is_digit c = false /\ c <> 46%N | [] => True end.
Proof.
  intros [->|(c & neg & sg & ds & Hc & _ & _ & _ & ->)]; auto.
  destruct Hc as [-> | ->]; split; auto; discriminate.
Qed.

Definition dec_outcome (r : res dec) : Prop := (exists d, r = Ok d) \/ r = Err EInvalidOperation.

Lemma py_decimal_outcome_shape neg sg ip fp dot ex :
  sign_text neg sg -> digits ip -> digits fp -> ip ++ fp <> [] ->
  (dot = 46%N :: fp \/ dot = [] /\ fp = []) -> exp_text ex ->
  dec_outcome (py_decimal (sg ++ ip ++ dot ++ ex)).
Proof.
  intros S Di Df N Hd He. unfold py_decimal.
  pose proof (exp_text_head ex He) as Hh.
  rewrite (split_sign_ok neg); auto.
  2:{ destruct Di as [|c ip Hc Di]; [|simpl; now apply digit_not_sign].
      destruct Hd as [->|[-> ->]]; simpl; [split; discriminate|]. contradiction. }
  rewrite take_digits_app; auto.
  2:{ destruct Hd as [->|[-> ->]]; simpl; auto. destruct ex; auto. tauto. }
  assert (E : (match dot ++ ex with
               | c :: r' => if (c =? 46)%N then take_digits r' else ([], dot ++ ex)
               | [] => ([], []) end) = (fp, ex)).
  { destruct Hd as [->|[-> ->]].
    - simpl. apply take_digits_app; auto. destruct ex; auto. tauto.
    - simpl. destruct ex as [|c ex]; auto. destruct Hh as [_ Hh]. apply N.eqb_neq in Hh. now rewrite Hh. }
  cbv beta iota zeta. unfold str in E |- *. rewrite E. destruct (ip ++ fp) as [|x xs] eqn:Ei; [contradiction|].
  destruct (parse_exp_ok ex He) as [z ->]. cbn [bind].
  match goal with |- context [if ?b then _ else _] => destruct b end; unfold dec_outcome; eauto.
Qed.

Lemma matches_e_power w : matches r_e_power w -> exp_text w.
Proof.
  unfold r_e_power. rewrite matches_seq. intros (s & t & -> & H1 & H2).
  rewrite matches_alt, !matches_ch in H1. apply matches_any_int in H2 as (neg & sg & ds & S & -> & N & D).
  right. destruct H1 as [-> | ->]; eexists _, neg, sg, ds; repeat split; eauto.
Qed.

Lemma py_decimal_float w : matches r_float w -> dec_outcome (py_decimal w).
Proof.
  unfold r_float. rewrite matches_alt. intros [H|H].
  - apply matches_seq in H as (s & ex & -> & H & He).
    assert (Hex : exp_text ex).
    { unfold opt in He. rewrite matches_alt, matches_eps in He.
      destruct He as [He| ->]; [now apply matches_e_power|left; auto]. }
    rewrite matches_alt in H. destruct H as [H|H]; cbn [seqs] in H.
    + apply matches_seq in H as (a & b & -> & Ha & Hb).
      apply matches_seq in Hb as (p & f & -> & Hp & Hf).
      apply matches_any_int in Ha as (neg & sg & ds & S & -> & N & D).
      unfold r_period in Hp. apply matches_ch in Hp as ->.
      unfold opt in Hf. rewrite matches_alt, matches_eps, matches_int in Hf.
      assert (Df : digits f) by (destruct Hf as [[_ Hf]| ->]; auto; constructor).
      replace (((sg ++ ds) ++ [46%N] ++ f) ++ ex) with (sg ++ ds ++ (46%N :: f) ++ ex)
        by (rewrite <- !app_assoc; reflexivity).
      apply (py_decimal_outcome_shape neg sg ds f); auto.
      destruct ds; [contradiction|discriminate].
    + apply matches_seq in H as (a & b & -> & Ha & Hb).
      apply matches_seq in Hb as (p & f & -> & Hp & Hf).
      unfold r_period in Hp. apply matches_ch in Hp as ->. apply matches_int in Hf as [Nf Df].
      unfold opt in Ha. rewrite matches_alt, matches_eps, matches_any_int in Ha.
      destruct Ha as [(neg & sg & ds & S & -> & N & D)| ->].
      * replace (((sg ++ ds) ++ [46%N] ++ f) ++ ex) with (sg ++ ds ++ (46%N :: f) ++ ex)
          by (rewrite <- !app_assoc; reflexivity).
        apply (py_decimal_outcome_shape neg sg ds f); auto.
        destruct ds; [contradiction|discriminate].
      * change (([] ++ [46%N] ++ f) ++ ex) with ([] ++ [] ++ (46%N :: f) ++ ex).
        apply (py_decimal_outcome_shape false [] [] f); auto.
        -- left; auto.
        -- constructor.
  - apply matches_seq in H as (a & ex & -> & Ha & He).
    apply matches_any_int in Ha as (neg & sg & ds & S & -> & N & D).
    replace ((sg ++ ds) ++ ex) with (sg ++ ds ++ [] ++ ex) by (rewrite <- !app_assoc; reflexivity).
    apply (py_decimal_outcome_shape neg sg ds []); auto.
    + constructor.
    + destruct ds; [contradiction|discriminate].
    + now apply matches_e_power.
Qed.
