(** * str(int) can be read back. *)
From Verif Require Import PyBase PyNum.
From Coq Require Import Lia.
Open Scope N_scope.

Lemma digits_value_rev l : digits_value (rev l) = fold_right (fun c acc => acc * 10 + (c - 48)) 0 l.
Proof. unfold digits_value. now rewrite <- fold_left_rev_right, rev_involutive. Qed.

Lemma digits_rev_value fuel : forall n, n < 2 ^ N.of_nat fuel -> (fuel <> 0)%nat -> 
  fold_right (fun c acc => acc * 10 + (c - 48)) 0 (digits_rev fuel n) = n.
Proof.
  induction fuel as [|f IH]; intros n L F; [contradiction|]. cbn [digits_rev]. destruct (N.ltb_spec n 10) as [H|H].
  - cbn [fold_right]. lia.
  - cbn [fold_right]. assert (D : n = 10 * (n / 10) + n mod 10) by (apply N.div_mod; lia). rewrite IH.
    + rewrite D at 3. generalize (n / 10) (n mod 10). lia.
    + replace (N.of_nat (S f)) with (N.succ (N.of_nat f)) in L by lia. rewrite N.pow_succ_r' in L. apply N.div_lt_upper_bound; lia.
    + intros ->. cbn in L. lia.
Qed.
Lemma digits_rev_digits fuel : forall n, Forall (fun c => 48 <= c <= 57) (digits_rev fuel n).
Proof.
  induction fuel as [|f IH]; intro n; cbn [digits_rev]; [constructor|]. destruct (N.ltb_spec n 10) as [H|H].
  - constructor; [lia|constructor].
  - constructor; auto. assert (B : n mod 10 < 10) by (apply N.mod_lt; lia). revert B. generalize (n mod 10). lia.
Qed.
Lemma log_bound n : n < 2 ^ N.of_nat (S (N.to_nat (N.log2 n))).
Proof.
  replace (N.of_nat (S (N.to_nat (N.log2 n)))) with (N.succ (N.log2 n)) by lia. destruct n as [|p]; [cbn; lia|]. apply N.log2_spec. lia.
Qed.

Lemma N_str_value n : digits_value (N_str n) = n.
Proof. unfold N_str. rewrite digits_value_rev. apply digits_rev_value; [apply log_bound|discriminate]. Qed.
Lemma N_str_digits n : Forall (fun c => 48 <= c <= 57) (N_str n).
Proof. unfold N_str. apply Forall_rev. apply digits_rev_digits. Qed.
Lemma N_str_nonempty n : N_str n <> [].
Proof.
  unfold N_str. cbn [digits_rev]. intro H. apply (f_equal (@rev N)) in H. rewrite rev_involutive in H. destruct (n <? 10); discriminate H.
Qed.
Lemma digits_value_cons0 l : digits_value (48 :: l) = digits_value l.
Proof. reflexivity. Qed.
Lemma N_str_no_leading_zero n : 0 < n -> forall l, N_str n <> 48 :: l.
Proof.
  (* the last digit produced is the quotient that is below ten *)
  assert (G : forall fuel n, 0 < n -> n < 2 ^ N.of_nat fuel -> exists a c, digits_rev fuel n = (a ++ [c])%list /\ c <> 48).
  { induction fuel as [|f IH]; intros m P L; [cbn in L; lia|]. cbn [digits_rev]. destruct (N.ltb_spec m 10) as [H|H].
    - exists [], (48 + m). split; [reflexivity|lia].
    - destruct (IH (m / 10)) as (a & c & E & N).
      + apply N.div_str_pos. lia.
      + replace (N.of_nat (S f)) with (N.succ (N.of_nat f)) in L by lia. rewrite N.pow_succ_r' in L. apply N.div_lt_upper_bound; lia.
      + exists ((48 + m mod 10) :: a), c. rewrite E. split; auto. }
  intros P l E. unfold N_str in E. destruct (G _ n P (log_bound n)) as (a & c & D & Nz). rewrite D, rev_app_distr in E. cbn [rev app] in E. injection E as E _. contradiction.
Qed.
Lemma N_str_length k n : n < 10 ^ N.of_nat k -> (0 < k)%nat -> (List.length (N_str n) <= k)%nat.
Proof.
  unfold N_str. rewrite rev_length. generalize (S (N.to_nat (N.log2 n))). intro fuel. revert k n. induction fuel as [|f IH]; intros k n L K; cbn [digits_rev List.length]; [lia|].
  destruct (N.ltb_spec n 10) as [H|H]; cbn [List.length]; [lia|]. destruct k as [|k]; [lia|]. destruct k as [|k]; [cbn in L; lia|].
  apply le_n_S. apply IH; [|lia]. replace (N.of_nat (S (S k))) with (N.succ (N.of_nat (S k))) in L by lia. rewrite N.pow_succ_r' in L. apply N.div_lt_upper_bound; lia.
Qed.
