(** * Numbers: what str() writes can be read back. *)
From Verif Require Import PyBase PyNum Graph Regex Lexer LexSpec Parser GrammarSpec VisitSpec
  NumText NumFacts PrintSpec.
Local Open Scope N_scope.

Lemma digits_N_str n : digits (N_str n).
Proof.
  unfold digits. eapply Forall_impl; [| apply N_str_digits]. intros c H. unfold is_digit.
  apply andb_true_iff. rewrite !N.leb_le. exact H.
Qed.

Lemma digits_app a b : digits (a ++ b) <-> digits a /\ digits b.
Proof. apply Forall_app. Qed.

Lemma digits_zeros n : digits (zeros n).
Proof. unfold zeros. induction (Z.to_nat n); cbn; constructor; auto. Qed.

Lemma digits_value_app a b : digits_value (a ++ b) =
  fold_left (fun acc c => acc * 10 + (c - 48)) b (digits_value a).
Proof. unfold digits_value. apply fold_left_app. Qed.

Lemma digits_value_zeros n ds : digits_value (zeros n ++ ds) = digits_value ds.
Proof.
  rewrite digits_value_app. f_equal. unfold zeros. induction (Z.to_nat n); cbn; auto.
Qed.

Lemma length_zeros n : (0 <= n)%Z -> Z.of_nat (List.length (zeros n)) = n.
Proof. intros H. unfold zeros. rewrite repeat_length. lia. Qed.

Lemma digit_count_digits ds : digits ds -> digit_count ds = List.length ds.
Proof.
  unfold digit_count. induction 1 as [| c ds Hc D IH]; cbn; auto. rewrite Hc. cbn. auto.
Qed.
Lemma digit_count_app a b : digit_count (a ++ b) = (digit_count a + digit_count b)%nat.
Proof. unfold digit_count. rewrite filter_app, app_length. reflexivity. Qed.

(** ** Decimal() of a text of known shape *)
Lemma py_decimal_shape neg sg ip fp dot ex e :
  sign_text neg sg -> digits ip -> digits fp -> ip ++ fp <> [] ->
  (dot = 46 :: fp \/ dot = [] /\ fp = []) -> exp_text ex -> parse_exp ex = Ok e ->
  py_decimal (sg ++ ip ++ dot ++ ex) =
  (let coef := digits_value (ip ++ fp) in
   let ex' := (e - Z.of_nat (List.length fp))%Z in
   let adj := (ex' + Z.of_nat (List.length (N_str coef)) - 1)%Z in
   if (dec_emax <? adj)%Z || (ex' <? dec_etiny)%Z then Err EInvalidOperation
   else Ok (mkDec neg coef ex')).
Proof.
  intros S Di Df N Hd He Hp. unfold py_decimal.
  pose proof (exp_text_head ex He) as Hh.
  rewrite (split_sign_ok neg); auto.
  2:{ destruct Di as [|c ip Hc Di]; [|simpl; now apply digit_not_sign].
      destruct Hd as [->|[-> ->]]; simpl; [split; discriminate|]. contradiction. }
  rewrite take_digits_app; auto.
  2:{ destruct Hd as [->|[-> ->]]; simpl; auto. destruct ex; auto. tauto. }
  assert (E : (match dot ++ ex with
               | c :: r' => if (c =? 46)%N then take_digits r' else ([], dot ++ ex)
               | [] => ([], []) end) = (fp, ex)).
  { destruct Hd as [->|[-> ->]].
    - simpl. apply take_digits_app; auto. destruct ex; auto. tauto.
    - simpl. destruct ex as [|c ex]; auto. destruct Hh as [_ Hh]. apply N.eqb_neq in Hh. now rewrite Hh. }
  cbv beta iota zeta. unfold str in E |- *. rewrite E.
  destruct (ip ++ fp) as [|x xs] eqn:Ei; [contradiction|]. rewrite Hp. cbn [bind]. reflexivity.
Qed.

(** ** The exponent part *)
Lemma exp_signed z : exp_text (69 :: Z_str_signed z) /\ parse_exp (69 :: Z_str_signed z) = Ok z.
Proof.
  assert (G : exists neg sg ds, sign_text neg sg /\ ds <> [] /\ digits ds /\
    Z_str_signed z = sg ++ ds /\ z = if neg then (- Z.of_N (digits_value ds))%Z else Z.of_N (digits_value ds)).
  { destruct z as [| p | p]; cbn [Z_str_signed].
    - exists false, [43], [48]. unfold sign_text. repeat split; auto; try discriminate; try (repeat constructor).
    - exists false, [43], (N_str (Npos p)). unfold sign_text.
      rewrite N_str_value. repeat split; auto using N_str_nonempty, digits_N_str.
    - exists true, [45], (N_str (Npos p)). unfold sign_text.
      rewrite N_str_value. repeat split; auto using N_str_nonempty, digits_N_str. }
  destruct G as (neg & sg & ds & S & N & D & E & V). rewrite E. split.
  - right. exists 69, neg, sg, ds. auto 6.
  - cbn [parse_exp]. change ((69 =? 69) || (69 =? 101))%bool with true. cbv iota.
    rewrite (split_sign_ok neg); auto.
    + rewrite take_digits_all by auto. destruct ds; [contradiction |]. now rewrite V.
    + pose proof (digits_head_not_sign ds [] N D) as H. now rewrite app_nil_r in H.
Qed.

(** ** The shape of str(Decimal) *)
Lemma dec_str_shape d :
  exists ip fp dot ex e,
    dec_str d = (if dneg d then [45] else []) ++ ip ++ dot ++ ex /\
    digits ip /\ ip <> [] /\ digits fp /\ (dot = 46 :: fp /\ fp <> [] \/ dot = [] /\ fp = []) /\
    exp_text ex /\ parse_exp ex = Ok e /\
    digits_value (ip ++ fp) = dcoef d /\ (e - Z.of_nat (List.length fp) = dexp d)%Z /\
    (dexp d = 0%Z -> ip = N_str (dcoef d) /\ dot = [] /\ ex = []) /\
    (dexp d <> 0%Z -> dot <> [] \/ ex <> []).
Proof.
  pose (ds := N_str (dcoef d)).
  assert (Dds : digits ds) by apply digits_N_str.
  assert (Vds : digits_value ds = dcoef d) by apply N_str_value.
  assert (Nds : ds <> []) by apply N_str_nonempty.
  assert (Lds : (1 <= Z.of_nat (List.length ds))%Z).
  { destruct ds; [contradiction |]. cbn [List.length]. lia. }
  unfold dec_str, dec_digits. cbv zeta. change (N_str (dcoef d)) with ds.
  set (len := Z.of_nat (List.length ds)) in *. set (left := (dexp d + len)%Z).
  destruct ((dexp d <=? 0)%Z && (-6 <? left)%Z)%bool eqn:E1.
  - apply andb_true_iff in E1. rewrite Z.leb_le, Z.ltb_lt in E1. destruct E1 as [E1 E2].
    rewrite Z.eqb_refl.
    destruct (Z.leb_spec left 0) as [L | L].
    + exists [48], (zeros (- left) ++ ds), (46 :: zeros (- left) ++ ds), [], 0%Z.
      split; [cbn [app]; now rewrite !app_nil_r |].
      split; [repeat constructor |]. split; [discriminate |].
      split; [apply digits_app; split; [apply digits_zeros | exact Dds] |].
      split; [left; split; auto; intros H; apply app_eq_nil in H; tauto |].
      split; [left; reflexivity |]. split; [reflexivity |].
      split; [change ([48] ++ zeros (- left) ++ ds) with (48 :: zeros (- left) ++ ds);
              rewrite digits_value_cons0, digits_value_zeros; exact Vds |].
      split; [rewrite app_length, Nat2Z.inj_add, length_zeros by lia; fold len; unfold left; lia |].
      split; [unfold left in L; lia | left; discriminate].
    + destruct (Z.leb_spec len left) as [L2 | L2].
      * exists ds, [], [], [], 0%Z. assert (Z0 : dexp d = 0%Z) by (unfold left in L2; lia).
        replace (left - len)%Z with 0%Z by (unfold left; lia).
        split; [cbn [zeros Z.to_nat List.repeat app]; now rewrite !app_nil_r |].
        split; [exact Dds |]. split; [exact Nds |]. split; [constructor |].
        split; [right; auto |]. split; [left; reflexivity |]. split; [reflexivity |].
        split; [rewrite app_nil_r; exact Vds |].
        split; [cbn [List.length]; lia |]. split; [auto | lia].
      * exists (firstn (Z.to_nat left) ds), (skipn (Z.to_nat left) ds),
          (46 :: skipn (Z.to_nat left) ds), [], 0%Z.
        assert (Lf : List.length (firstn (Z.to_nat left) ds) = Z.to_nat left)
          by (apply firstn_length_le; unfold len in L2; lia).
        assert (Ls : Z.of_nat (List.length (skipn (Z.to_nat left) ds)) = (len - left)%Z)
          by (rewrite skipn_length; unfold len; unfold len in L2; lia).
        rewrite <- (firstn_skipn (Z.to_nat left) ds) in Dds. apply digits_app in Dds.
        destruct Dds as [D1 D2].
        split; [rewrite !app_nil_r; reflexivity |]. split; [exact D1 |].
        split; [intros H; rewrite H in Lf; cbn [List.length] in Lf; lia |]. split; [exact D2 |].
        split; [left; split; [reflexivity | intros H; rewrite H in Ls; cbn [List.length] in Ls; lia] |].
        split; [left; reflexivity |]. split; [reflexivity |].
        split; [rewrite firstn_skipn; exact Vds |].
        split; [rewrite Ls; unfold left; lia |]. split; [unfold left in L2; lia | left; discriminate].
  - assert (C : (0 < dexp d)%Z \/ (left <= -6)%Z).
    { apply andb_false_iff in E1. rewrite Z.leb_gt, Z.ltb_ge in E1. tauto. }
    assert (NL : (left =? 1)%Z = false) by (apply Z.eqb_neq; unfold left in *; lia).
    rewrite NL. cbn [Z.leb Z.compare Pos.compare Pos.compare_cont].
    change (1 <=? 0)%Z with false. cbv iota.
    destruct (exp_signed (left - 1)) as [X1 X2].
    destruct (Z.leb_spec len 1) as [L2 | L2].
    + exists ds, [], [], (69 :: Z_str_signed (left - 1)), (left - 1)%Z.
      replace (1 - len)%Z with 0%Z by lia.
      split; [cbn [zeros Z.to_nat List.repeat app]; now rewrite app_nil_r |].
      split; [exact Dds |]. split; [exact Nds |]. split; [constructor |].
      split; [right; auto |]. split; [exact X1 |]. split; [exact X2 |].
      split; [rewrite app_nil_r; exact Vds |].
      split; [cbn [List.length]; unfold left; lia |].
      split; [intros Z0; rewrite Z0 in C; unfold left in C; rewrite Z0 in C; lia | right; discriminate].
    + exists (firstn 1 ds), (skipn 1 ds), (46 :: skipn 1 ds), (69 :: Z_str_signed (left - 1)), (left - 1)%Z.
      assert (Ls : Z.of_nat (List.length (skipn 1 ds)) = (len - 1)%Z)
        by (rewrite skipn_length; unfold len; unfold len in L2; lia).
      pose proof Dds as Dds'. rewrite <- (firstn_skipn 1 ds) in Dds'. apply digits_app in Dds'.
      destruct Dds' as [D1 D2].
      split; [change (Z.to_nat 1) with 1%nat; rewrite <- !app_assoc; reflexivity |].
      split; [exact D1 |].
      split; [destruct ds; [contradiction | discriminate] |]. split; [exact D2 |].
      split; [left; split; [reflexivity | intros H; rewrite H in Ls; cbn [List.length] in Ls; lia] |].
      split; [exact X1 |]. split; [exact X2 |].
      split; [rewrite firstn_skipn; exact Vds |].
      split; [rewrite Ls; unfold left; lia |].
      split; [intros Z0; rewrite Z0 in C; unfold left in C; rewrite Z0 in C; lia | left; discriminate].
Qed.

Lemma neg_sign (neg : bool) : sign_text neg (if neg then [45] else []).
Proof. unfold sign_text. destruct neg; auto. Qed.

(** Decimal(str(d)) = d *)
Theorem py_decimal_dec_str d : dec_valid d -> py_decimal (dec_str d) = Ok d.
Proof.
  intros [V1 V2].
  destruct (dec_str_shape d) as (ip & fp & dot & ex & e & E & Di & Ni & Df & Hd & Xt & Xp & Vd & Ve & _ & _).
  rewrite E, (py_decimal_shape (dneg d) _ ip fp dot ex e); auto using neg_sign.
  - cbv zeta. rewrite Vd, Ve.
    replace (dec_emax <? _)%Z with false by (symmetry; apply Z.ltb_ge; exact V2).
    replace (dexp d <? dec_etiny)%Z with false by (symmetry; apply Z.ltb_ge; exact V1).
    destruct d; reflexivity.
  - intros H. apply app_eq_nil in H. tauto.
  - tauto.
Qed.

(** ** Tokens of numbers *)
Definition num_kind (v : numv) : kind :=
  match v with
  | NInt z => if (z <? 0)%Z then SIGNED_INT else INT
  | NDec d => if (dexp d =? 0)%Z then (if dneg d then SIGNED_INT else INT) else FLOAT
  | NStr (43 :: _) | NStr (45 :: _) => SIGNED_INT
  | NStr _ => INT
  end.

Definition kind_re (k : kind) : re :=
  match k with INT => r_int | SIGNED_INT => r_signed_int | _ => r_float end.

(** the reading of a number token *)
Definition num_reads (k : kind) (t : str) (n : node) : Prop :=
  matches (kind_re k) t /\
  ((k = INT \/ k = SIGNED_INT) /\ (exists z, py_int t = Ok z /\ n = Number (NInt z) (Some t)) \/
   k = FLOAT /\ (exists d, py_decimal t = Ok d /\ n = Number (NDec d) (Some t))).

Lemma int_reads neg sg ds : sign_text neg sg -> ds <> [] -> digits ds ->
  (N.of_nat (List.length ds) <= 4300) ->
  num_reads (match sg with [] => INT | _ => SIGNED_INT end) (sg ++ ds)
    (Number (NInt (signed_value neg (digits_value ds))) (Some (sg ++ ds))).
Proof.
  intros S N D L. split.
  - destruct S as [[-> _] | [[-> _] | [-> _]]]; cbn [kind_re app].
    + now apply matches_int.
    + apply matches_signed_int. exists 43, ds. auto.
    + apply matches_signed_int. exists 45, ds. auto.
  - left. split; [destruct sg; auto |]. exists (signed_value neg (digits_value ds)). split; [| reflexivity].
    rewrite (py_int_value neg) by auto.
    replace (4300 <? N.of_nat (List.length ds)) with false by (symmetry; apply N.ltb_ge; exact L).
    reflexivity.
Qed.

Lemma short_digits sg ds : digits ds -> short (sg ++ ds) -> (N.of_nat (List.length ds) <= 4300).
Proof.
  unfold short. intros D H. rewrite digit_count_app, (digit_count_digits ds D) in H. lia.
Qed.

Lemma matches_e ex : exp_text ex -> ex <> [] -> matches r_e_power ex.
Proof.
  intros [-> | (c & neg & sg & ds & Hc & S & N & D & ->)] Hn; [contradiction |].
  unfold r_e_power. apply matches_seq. exists [c], (sg ++ ds). split; [reflexivity |]. split.
  - rewrite matches_alt, !matches_ch. destruct Hc as [-> | ->]; auto.
  - apply matches_any_int. exists neg, sg, ds. auto.
Qed.

Lemma num_token v : number_ok v \/ exponent_ok v -> num_reads (num_kind v) (num_str v) (renumber v).
Proof.
  destruct v as [z | d | s]; cbn [num_kind num_str renumber number_ok exponent_ok].
  - intros H. assert (Hs : short (Z_str z)) by tauto. clear H.
    destruct z as [| p | p]; cbn [Z_str] in *.
    + exact (int_reads false [] [48] (or_introl (conj eq_refl eq_refl)) ltac:(discriminate)
               ltac:(repeat constructor) ltac:(cbn; lia)).
    + change (Z.pos p <? 0)%Z with false. cbv iota.
      assert (L : N.of_nat (List.length (N_str (N.pos p))) <= 4300)
        by (apply (short_digits []); [apply digits_N_str | exact Hs]).
      pose proof (int_reads false [] (N_str (N.pos p)) (or_introl (conj eq_refl eq_refl))
        (N_str_nonempty _) (digits_N_str _) L) as R.
      rewrite N_str_value in R. exact R.
    + change (Z.neg p <? 0)%Z with true. cbv iota.
      assert (L : N.of_nat (List.length (N_str (N.pos p))) <= 4300)
        by (apply (short_digits [45]); [apply digits_N_str | exact Hs]).
      pose proof (int_reads true [45] (N_str (N.pos p)) (neg_sign true)
        (N_str_nonempty _) (digits_N_str _) L) as R.
      rewrite N_str_value in R. exact R.
  - intros [[V S] | []].
    destruct (dec_str_shape d) as (ip & fp & dot & ex & e & E & Di & Ni & Df & Hd & Xt & Xp & Vd & Ve & C0 & C1).
    destruct (Z.eqb_spec (dexp d) 0) as [Z0 | Z0].
    + destruct (C0 Z0) as (-> & -> & ->). rewrite !app_nil_r in E. rewrite E.
      pose proof (int_reads (dneg d) _ (N_str (dcoef d)) (neg_sign (dneg d))
        (N_str_nonempty _) (digits_N_str _)) as R.
      rewrite N_str_value in R.
      assert (L : N.of_nat (List.length (N_str (dcoef d))) <= 4300)
        by (apply (short_digits []); [apply digits_N_str | exact (S Z0)]).
      specialize (R L). destruct (dneg d); exact R.
    + split.
      * cbn [kind_re]. rewrite E. unfold r_float. rewrite matches_alt.
        assert (Mi : matches r_any_int ((if dneg d then [45] else []) ++ ip)).
        { apply matches_any_int. exists (dneg d), (if dneg d then [45] else []), ip.
          auto using neg_sign. }
        destruct Hd as [[-> Nf] | [-> ->]].
        -- left. apply matches_seq. exists ((if dneg d then [45] else []) ++ ip ++ 46 :: fp), ex.
           split; [now rewrite <- !app_assoc |]. split.
           ++ apply M_alt_l. cbn [seqs]. rewrite app_assoc. apply M_seq; [exact Mi |].
              change (46 :: fp) with ([46] ++ fp). apply M_seq; [now apply matches_ch |].
              apply M_alt_l. now apply matches_int.
           ++ unfold opt. rewrite matches_alt. destruct ex; [right; constructor |].
              left. apply matches_e; [exact Xt | discriminate].
        -- right. cbn [app]. rewrite app_assoc. apply M_seq; [exact Mi |].
           apply matches_e; [exact Xt |]. destruct (C1 Z0); congruence.
      * right. split; [reflexivity |]. exists d. split; [now apply py_decimal_dec_str | reflexivity].
  - intros [[] | [(sg & ds & -> & Hsg & N & D) S]].
    assert (Dd : digits ds).
    { eapply Forall_impl; [| exact D]. intros c H. unfold is_digit. apply andb_true_iff.
      rewrite !N.leb_le. exact H. }
    pose proof (short_digits sg ds Dd S) as L.
    destruct Hsg as [<- | [<- | [<- | []]]].
    + pose proof (int_reads false [] ds (or_introl (conj eq_refl eq_refl)) N Dd L) as R.
      cbn [app] in *. destruct ds as [| c ds]; [contradiction |].
      inversion Dd as [| ? ? Hc Dd']; subst. apply digit_not_sign in Hc. destruct Hc as [H1 H2].
      assert (E1 : num_kind (NStr (c :: ds)) = INT).
      { cbn [num_kind]. destruct c as [| p]; [reflexivity |].
        repeat (destruct p as [p | p |]; try reflexivity); exfalso; (apply H1; reflexivity) || (apply H2; reflexivity). }
      assert (E2 : text_value (c :: ds) = Z.of_N (digits_value (c :: ds))).
      { unfold text_value. destruct c as [| p]; [reflexivity |].
        repeat (destruct p as [p | p |]; try reflexivity); exfalso; (apply H1; reflexivity) || (apply H2; reflexivity). }
      cbn [num_kind] in E1. rewrite E1, E2. exact R.
    + exact (int_reads false (u "+") ds (or_intror (or_introl (conj eq_refl eq_refl))) N Dd L).
    + exact (int_reads true (u "-") ds (or_intror (or_intror (conj eq_refl eq_refl))) N Dd L).
Qed.

Lemma num_kind_exponent v : exponent_ok v -> num_kind v = INT \/ num_kind v = SIGNED_INT.
Proof.
  intros H. destruct (num_token v (or_intror H)) as [_ [[K _] | [K (d & E & R)]]]; [exact K |].
  destruct v as [z | d' | s]; cbn in H, R; try contradiction; discriminate.
Qed.
