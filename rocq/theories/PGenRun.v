(** * Derivations of the grammar are runs of the automaton *)
From Verif Require Import PyBase Lexer Parser GrammarSpec ParserFacts ParserComplete PAtn PSpec
  PSim PSimFacts PSimMore PGen PGenSound.
Local Open Scope Z_scope.

(** ** Steps of runs *)
Ltac edge :=
  lazymatch goal with
  | |- In _ (edges ?n) =>
    let e := eval vm_compute in (edges n) in change (edges n) with e;
    repeat (first [left; reflexivity | right])
  end.

Ltac r_eps t := apply (Run_eps _ t); [edge |].
Ltac r_act t := apply (Run_action _ t); [edge |].
Ltac r_call s f := apply (Run_call _ s f); [edge |].
Ltac r_prec t p := apply (Run_precedence _ t p); [edge | lia |].
Ltac r_ret := apply Run_return; [reflexivity |].
Ltac r_tok t := eapply (Run_atom _ t); [edge |].

Lemma syms_app : forall a b, syms (a ++ b) = map sym a ++ syms b.
Proof. intros a b. unfold syms. now rewrite map_app, app_assoc. Qed.

Lemma syms_cons : forall t r, syms (t :: r) = sym t :: syms r.
Proof. reflexivity. Qed.

(** replaces the type of a token of known kind *)
Ltac known K t :=
  match goal with
  | H : kinded K t |- _ =>
    let E := fresh "E" in
    pose proof (proj2 (sym_kinded K t) H) as E; cbn [kind_id Z.of_N] in E;
    rewrite E; clear E
  end.

Lemma run_integer : forall i f st w, integer_token i -> accepts f st w ->
  accepts 12 (f :: st) (sym i :: w).
Proof.
  intros i f st w H A. r_eps 101.
  apply (Run_set _ 102 [(1, 1); (9, 9)]); [edge | |].
  - destruct H as [H | H].
    + known INT i. exists 9, 9. split; [right; now left | lia].
    + known SIGNED_INT i. exists 1, 1. split; [now left | lia].
  - r_eps 13. r_ret. exact A.
Qed.

Lemma run_number : forall ts t f st w, derives Number_r ts t -> accepts f st w ->
  accepts 14 (f :: st) (map sym ts ++ w).
Proof.
  intros ts t f st w D A. inversion D; subst.
  - inversion H; subst. cbn [map app]. r_eps 105. r_eps 103. r_call 12 106.
    apply run_integer; [assumption |]. r_eps 15. r_ret. exact A.
  - cbn [map app]. known FLOAT f0. r_eps 105. r_eps 104. r_tok 106. r_eps 15. r_ret. exact A.
Qed.

Lemma run_spaces : forall ws st w, ws <> [] -> Forall (kinded WS) ws -> accepts 66 st w ->
  accepts 63 st (map sym ws ++ w).
Proof.
  induction ws as [| x ws IH]; intros st w N F A; [congruence |].
  inversion F as [| ? ? Fx Fs]; subst. cbn [map app]. known WS x.
  r_eps 62. r_tok 64. r_eps 65. destruct ws as [| y ws].
  - r_eps 66. exact A.
  - r_eps 63. apply IH; [discriminate | exact Fs | exact A].
Qed.

(** [WS?] *)
Lemma run_opt_space : forall w0 a b c st w,
  In (PEps a) (edges c) -> In (PEps b) (edges c) -> In (PAtom b 18) (edges a) ->
  opt_space w0 -> accepts b st w -> accepts c st (map sym w0 ++ w).
Proof.
  intros w0 a b c st w I1 I2 I3 O A. destruct O as [| x Hx]; cbn [map app].
  - now apply (Run_eps _ b).
  - known WS x. apply (Run_eps _ a); [exact I1 |]. now apply (Run_atom _ b).
Qed.

Lemma run_offset : forall z f st w, kinded HOUR_MINUTE z \/ integer_token z -> accepts f st w ->
  accepts 20 (f :: st) (sym z :: w).
Proof.
  intros z f st w H A. r_eps 156. destruct H as [H | H].
  - known HOUR_MINUTE z. r_eps 154. r_tok 157. r_eps 21. r_ret. exact A.
  - r_eps 155. r_call 12 157. apply run_integer; [exact H |]. r_eps 21. r_ret. exact A.
Qed.

(** [(timezone_offset | TIMEZONE)?] *)
Lemma run_opt_zone : forall z a b c n st w,
  In (PEps a) (edges n) -> In (PEps b) (edges n) -> In (PEps c) (edges n) ->
  In (PCall 20 c) (edges a) -> In (PAtom c 20) (edges b) ->
  opt_zone z -> accepts c st w -> accepts n st (map sym z ++ w).
Proof.
  intros z a b c n st w I1 I2 I3 I4 I5 O A. destruct O as [| x Hx]; cbn [map app].
  - now apply (Run_eps _ c).
  - destruct Hx as [Hx | Hx].
    + apply (Run_eps _ a); [exact I1 |]. apply (Run_call _ 20 c); [exact I4 |].
      now apply run_offset.
    + known TIMEZONE x. apply (Run_eps _ b); [exact I2 |]. now apply (Run_atom _ c).
Qed.

(** [(DATE | integer)] *)
Lemma run_date : forall d a b c n st w,
  In (PEps a) (edges n) -> In (PEps b) (edges n) ->
  In (PAtom c 25) (edges a) -> In (PCall 12 c) (edges b) ->
  date_or_integer d -> accepts c st w -> accepts n st (sym d :: w).
Proof.
  intros d a b c n st w I1 I2 I3 I4 O A. destruct O as [H | H].
  - known DATE d. apply (Run_eps _ a); [exact I1 |]. now apply (Run_atom _ c).
  - apply (Run_eps _ b); [exact I2 |]. apply (Run_call _ 12 c); [exact I4 |].
    now apply run_integer.
Qed.

Lemma run_timestamp : forall ns f st w, timestamp ns -> accepts f st w ->
  accepts 16 (f :: st) (map sym ns ++ w).
Proof.
  intros ns f st w H A. r_eps 147.
  assert (A148 : accepts 148 (f :: st) w) by (r_eps 17; r_ret; exact A).
  destruct H as [d Hd | d w1 c w2 z Hd Hw Hc Hw2 Hz | i z Hi Hz | s w1 z Hs Hw Hz
                 | d w1 z Hd Hw Hz].
  - r_eps 109. cbn [map app]. apply (run_date d 107 108 110); [edge | edge | edge | edge | exact Hd |].
    r_eps 148. exact A148.
  - r_eps 113. cbn [map app].
    apply (run_date d 111 112 114); [edge | edge | edge | edge | exact Hd |].
    r_eps 116. rewrite map_app, <- app_assoc. cbn [map app].
    rewrite map_app, <- app_assoc.
    assert (A117 : accepts 117 (f :: st) (sym c :: map sym w2 ++ map sym z ++ w)).
    { r_eps 118. r_call 18 120.
      assert (A120 : accepts 120 (f :: st) (map sym w2 ++ map sym z ++ w)).
      { apply (run_opt_space w2 119 121); [edge | edge | edge | exact Hw2 |].
        r_eps 124. apply (run_opt_zone z 122 123 125); [edge | edge | edge | edge | edge | exact Hz |].
        r_eps 148. exact A148. }
      r_eps 152. destruct Hc as [Hc | [Hc | Hc]].
      - known HOUR_MINUTE_SECOND c. r_eps 149. r_tok 153. r_eps 19. r_ret. exact A120.
      - known HOUR_MINUTE c. r_eps 150. r_tok 153. r_eps 19. r_ret. exact A120.
      - r_eps 151. r_call 12 153. apply run_integer; [exact Hc |]. r_eps 19. r_ret. exact A120. }
    destruct Hw as [| t Ht | t Ht]; cbn [map app].
    + r_eps 117. exact A117.
    + r_eps 115. known WS t. apply (Run_set _ 117 [(18, 18); (26, 26)]); [edge | | exact A117].
      exists 18, 18. split; [now left | lia].
    + r_eps 115. known T t. apply (Run_set _ 117 [(18, 18); (26, 26)]); [edge | | exact A117].
      exists 26, 26. split; [right; now left | lia].
  - r_eps 126. cbn [map app]. r_call 12 129. apply run_integer; [exact Hi |].
    apply (run_opt_zone z 127 128 130); [edge | edge | edge | edge | edge | exact Hz |].
    r_eps 148. exact A148.
  - r_eps 131. cbn [map app]. known TIMESTAMP s. r_tok 133. rewrite map_app, <- app_assoc.
    apply (run_opt_space w1 132 134); [edge | edge | edge | exact Hw |].
    r_eps 137. apply (run_opt_zone z 135 136 138); [edge | edge | edge | edge | edge | exact Hz |].
    r_eps 148. exact A148.
  - r_eps 141. cbn [map app].
    apply (run_date d 139 140 142); [edge | edge | edge | edge | exact Hd |].
    r_eps 144. rewrite map_app, <- app_assoc.
    apply (run_opt_space w1 143 145); [edge | edge | edge | exact Hw |].
    r_eps 146. cbn [map app]. apply (Run_set _ 148 [(20, 21)]); [edge | | exact A148].
    exists 20, 21. split; [now left |]. destruct Hz as [Hz | Hz].
    + known TIMEZONE z. lia.
    + known TZ z. lia.
Qed.

(** ** All rules.  A product can go on, so its run begins where its loop ends. *)
Definition runs (r : rule) (ts : list token) : Prop :=
  match r with
  | Unit_spec => accepts 0 [] (syms ts)
  | Shift_spec => forall f st w, accepts f st w -> accepts 2 (f :: st) (map sym ts ++ w)
  | Product => forall st w, accepts 70 st w -> accepts 4 st (map sym ts ++ w)
  | Power => forall f st w, accepts f st w -> accepts 6 (f :: st) (map sym ts ++ w)
  | Logarithm_r => forall f st w, accepts f st w -> accepts 8 (f :: st) (map sym ts ++ w)
  | Basic_spec => forall f st w, accepts f st w -> accepts 10 (f :: st) (map sym ts ++ w)
  | Integer_r => forall f st w, accepts f st w -> accepts 12 (f :: st) (map sym ts ++ w)
  | Number_r => forall f st w, accepts f st w -> accepts 14 (f :: st) (map sym ts ++ w)
  | Timestamp_r => True
  end.

Lemma loop_again : forall st w, accepts 70 st w -> accepts 69 st w.
Proof. intros st w A. r_eps 72. r_eps 70. exact A. Qed.

Lemma product_done : forall f st w, accepts f st w -> accepts 70 (f :: st) w.
Proof. intros f st w A. r_eps 71. r_eps 5. r_ret. exact A. Qed.

Theorem derivation_runs : forall r ts t, derives r ts t -> runs r ts.
Proof.
  intros r ts t D. induction D; cbn [runs] in *.
  - unfold syms. cbn [map app]. r_eps 23. r_eps 24. r_eps 25. r_tok 26. r_eps 1.
    apply Run_end; reflexivity.
  - r_eps 23. r_eps 22. r_call 2 24. unfold syms. apply IHD. r_eps 25. r_tok 26. r_eps 1.
    apply Run_end; reflexivity.
  - intros f st w A. r_eps 48. r_eps 27. r_call 4 49. apply IHD. apply product_done.
    r_eps 3. r_ret. exact A.
  - intros f st w A. rewrite !map_app. cbn [map]. rewrite !map_app, <- !app_assoc. cbn [app].
    rewrite <- !app_assoc. r_eps 48. r_eps 28. r_call 4 30. apply IHD1. apply product_done.
    apply (run_opt_space w1 29 31); [edge | edge | edge | assumption |].
    r_eps 32. known SHIFT_OP op. r_tok 34.
    apply (run_opt_space w2 33 35); [edge | edge | edge | assumption |].
    r_eps 36. r_call 14 37. apply IHD2. r_eps 49. r_eps 3. r_ret. exact A.
  - intros f st w A. rewrite !map_app. cbn [map]. rewrite !map_app, <- !app_assoc. cbn [app].
    rewrite <- !app_assoc. r_eps 48. r_eps 38. r_call 4 40. apply IHD. apply product_done.
    apply (run_opt_space w1 39 41); [edge | edge | edge | assumption |].
    r_eps 42. known SHIFT_OP op. r_tok 44.
    apply (run_opt_space w2 43 45); [edge | edge | edge | assumption |].
    r_eps 46. r_call 16 47. apply run_timestamp; [assumption |].
    r_eps 49. r_eps 3. r_ret. exact A.
  - intros st w A. r_eps 50. r_act 51. r_call 6 52. apply IHD. r_eps 70. exact A.
  - intros st w A. rewrite map_app, <- app_assoc. apply IHD1. r_eps 68. r_eps 53.
    r_prec 54 4. r_call 6 69. apply IHD2. now apply loop_again.
  - intros st w A. rewrite map_app, <- app_assoc. cbn [map app]. apply IHD1.
    r_eps 68. r_eps 55. r_prec 56 3. known MULTIPLY o. r_tok 57. r_call 6 69.
    apply IHD2. now apply loop_again.
  - intros st w A. rewrite map_app, <- app_assoc. cbn [map app]. apply IHD1.
    r_eps 68. r_eps 58. r_prec 59 2. known DIVIDE o. r_tok 60. r_call 6 69.
    apply IHD2. now apply loop_again.
  - intros st w A. rewrite !map_app, <- !app_assoc. apply IHD1.
    r_eps 68. r_eps 61. r_prec 63 1. apply run_spaces; [assumption | assumption |].
    r_eps 67. r_call 6 69. apply IHD2. now apply loop_again.
  - intros f st w A. rewrite map_app, <- app_assoc. r_eps 84. r_eps 73. r_call 8 74.
    apply IHD1. r_call 12 75. apply IHD2. r_eps 85. r_eps 7. r_ret. exact A.
  - intros f st w A. r_eps 84. r_eps 76. r_call 8 85. apply IHD. r_eps 7. r_ret. exact A.
  - intros f st w A. rewrite map_app, <- app_assoc. cbn [map app]. r_eps 84. r_eps 77.
    r_call 8 78. apply IHD1. known RAISE r. r_tok 79. r_call 12 80. apply IHD2.
    r_eps 85. r_eps 7. r_ret. exact A.
  - intros f st w A. rewrite map_app, <- app_assoc. cbn [map app]. r_eps 84. r_eps 81.
    r_call 8 82. apply IHD. known UNICODE_EXPONENT e. r_tok 83. r_eps 85. r_eps 7. r_ret. exact A.
  - intros f st w A. r_eps 91. r_eps 86. r_call 10 92. apply IHD. r_eps 9. r_ret. exact A.
  - intros f st w A. cbn [map app]. rewrite map_app, <- app_assoc. cbn [map app].
    r_eps 91. r_eps 87. known LOG l. r_tok 88. r_call 2 89. apply IHD.
    known CLOSE_PAREN c. r_tok 90. r_eps 92. r_eps 9. r_ret. exact A.
  - intros f st w A. cbn [map app]. r_eps 99. r_eps 93. known ID i. r_tok 100. r_eps 11. r_ret.
    exact A.
  - intros f st w A. cbn [map app]. rewrite map_app, <- app_assoc. cbn [map app].
    r_eps 99. r_eps 94. known OPEN_PAREN o. r_tok 95. r_call 2 96. apply IHD.
    known CLOSE_PAREN c. r_tok 97. r_eps 100. r_eps 11. r_ret. exact A.
  - intros f st w A. r_eps 99. r_eps 98. r_call 14 100. apply IHD. r_eps 11. r_ret. exact A.
  - intros f st w A. cbn [map app]. now apply run_integer.
  - intros f st w A. r_eps 105. r_eps 103. r_call 12 106. apply IHD. r_eps 15. r_ret. exact A.
  - intros f0 st w A. cbn [map app]. r_eps 105. r_eps 104. known FLOAT f. r_tok 106. r_eps 15.
    r_ret. exact A.
Qed.
