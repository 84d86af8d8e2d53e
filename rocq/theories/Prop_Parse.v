(** * C02, C05: outcomes of parse. *)
From Verif Require Import PyBase PyNum Graph Lexer LexSpec Parser GrammarSpec Visitor VisitSpec
  VisitorFacts ParseFacts.

(** What [parse] is expected to do with a text: [ts] its tokens. *)
Inductive parse_outcome (ts : list token) : res node -> Prop :=
| Po_graph t g : derives Unit_spec ts t -> preferred t -> reads t g -> parse_outcome ts (Ok g)
| Po_syntax : (forall t, ~ derives Unit_spec ts t) -> parse_outcome ts (Err ESyntax)
| Po_number t e : derives Unit_spec ts t -> preferred t -> bad_number e ts -> parse_outcome ts (Err e).

(** C02.  parse is total; it returns the graph read off the one preferred derivation,
    SyntaxError exactly when there is no derivation, and otherwise only the two numeric
    range errors.  (KeyError, AssertionError, TypeError and EOutOfModel are thereby
    impossible.) *)
Theorem C02_parse_outcomes :
  forall s, is_text s ->
  exists ts, tokenises DEFAULT_MODE (strip s) ts /\ parse_outcome ts (parse s).
Proof.
  intros s H. destruct (parse_cases s H) as (ts & T & C). exists ts. split; auto.
  destruct C as [(t & g & -> & D & P & R)|[[-> N]|(t & e & -> & D & P & B)]].
  - now apply (Po_graph ts t).
  - apply Po_syntax. intros t D. apply N. eauto.
  - now apply (Po_number ts t).
Qed.

Theorem C02_parse_errors :
  forall s e, is_text s -> parse s = Err e ->
  e = ESyntax \/ e = EValue VE_int_digits \/ e = EInvalidOperation.
Proof.
  intros s e H E. destruct (parse_cases s H) as (ts & T & [(t & g & E' & _)|[[E' _]|(t & e' & E' & _ & _ & B)]]);
    rewrite E in E'; try discriminate; injection E' as ->; auto.
  destruct B as [[-> _]|[-> _]]; auto.
Qed.

(** C02, success: exactly the reading the specification gives. *)
Theorem C02_parse_reads :
  forall s g, is_text s ->
  (parse s = Ok g <-> exists ts t, tokenises DEFAULT_MODE (strip s) ts /\
      derives Unit_spec ts t /\ preferred t /\ reads t g).
Proof. exact parse_reads. Qed.

(** C02, the ValueError in plain terms: an integer literal of more than 4300 digits. *)
Theorem C02_int_error_means_4300_digits :
  forall s ts t, tokenises DEFAULT_MODE s ts -> In t ts -> integer_token t ->
  (too_long_int t <-> (4300 < List.length (filter is_digit (ttext t)))%nat).
Proof.
  intros s ts t T I K. apply too_long_int_digits; auto.
  pose proof (well_lexed_all _ _ T) as W. rewrite Forall_forall in W. auto.
Qed.

Example C02_examples :
  parse (u " km2/h @ 5 ") = Ok (Shift (Divide (Raise (Identifier (u "km")) (Number (NInt 2) (Some (u "2"))))
     (Identifier (u "h"))) (Number (NInt 5) (Some (u "5")))) /\
  parse (u "m//s") = Err ESyntax /\ parse (u "1e1000000000000000000 m") = Err EInvalidOperation /\
  parse (repeat 49%N 4301) = Err (EValue VE_int_digits).
Proof. vm_compute. auto. Qed.

(** The characters c with c.isspace(), CPython 3.11. *)
Definition white_space : list N :=
  [9; 10; 11; 12; 13; 28; 29; 30; 31; 32; 133; 160; 5760; 8192; 8193; 8194; 8195; 8196; 8197; 8198; 8199; 8200; 8201; 8202; 8232; 8233; 8239; 8287; 12288]%N.
Definition white (w : str) : Prop := Forall (fun c => In c white_space) w.

Lemma is_space_iff c : is_space c = true <-> In c white_space.
Proof.
  split.
  - unfold is_space. intro H. apply existsb_exists in H as ([a b] & I & H). apply andb_true_iff in H as [H1 H2].
    apply N.leb_le in H1, H2. cbn [fst snd] in *. cbn [In] in I.
    assert (R : forall lo n, In (lo, lo + n)%N [(9, 13); (28, 32); (133, 133); (160, 160); (5760, 5760); (8192, 8202);
       (8232, 8233); (8239, 8239); (8287, 8287); (12288, 12288)]%N -> (lo <= c <= lo + n)%N ->
       In c (map (fun i => lo + N.of_nat i)%N (seq 0 (S (N.to_nat n))))).
    { intros lo n _ B. apply in_map_iff. exists (N.to_nat (c - lo)). split; [lia|]. apply in_seq. lia. }
    assert (S : incl (map (fun i => a + N.of_nat i)%N (seq 0 (S (N.to_nat (b - a))))) white_space).
    { repeat (destruct I as [E|I]; [injection E as <- <-; vm_compute; intuition|]). destruct I. }
    apply S, R; [|lia]. replace (a + (b - a))%N with b by lia. exact I.
  - intro H. assert (F : forallb is_space white_space = true) by (vm_compute; reflexivity).
    rewrite forallb_forall in F. now apply F.
Qed.
Lemma white_iff w : white w <-> Forall (fun c => is_space c = true) w.
Proof. unfold white. rewrite !Forall_forall. split; intros H c I; apply is_space_iff, H, I. Qed.

(** C05.  Surrounding white space never matters. *)
Theorem C05_surrounding_white_space :
  forall w1 s w2, white w1 -> white w2 ->
  parse (w1 ++ s ++ w2) = parse s /\ normalize (w1 ++ s ++ w2) = normalize s.
Proof.
  intros w1 s w2 H1 H2. apply white_iff in H1, H2. unfold normalize. rewrite parse_surround by assumption. auto.
Qed.

Lemma lstrip_removes s : exists w, white w /\ s = w ++ lstrip s.
Proof.
  induction s as [|c s (w & W & E)]; [exists []; split; [constructor|reflexivity]|]. cbn [lstrip].
  destruct (is_space c) eqn:C.
  - exists (c :: w). split; [constructor; [now apply is_space_iff|exact W]|]. cbn [app]. now rewrite <- E.
  - exists []. split; [constructor|reflexivity].
Qed.

(** C05.  All of it is removed, and nothing else, before the text is tokenised ([strip] in C02). *)
Theorem C05_exactly_the_white_space_is_removed :
  forall s, exists w1 w2, white w1 /\ white w2 /\ s = w1 ++ strip s ++ w2 /\
    (forall c t, strip s = c :: t -> ~ In c white_space) /\
    (forall c t, strip s = t ++ [c] -> ~ In c white_space) /\
    parse s = parse (strip s).
Proof.
  intro s. destruct (lstrip_removes s) as (w1 & W1 & E1). destruct (lstrip_removes (rev (lstrip s))) as (w2 & W2 & E2).
  assert (E3 : lstrip s = strip s ++ rev w2).
  { unfold strip. rewrite <- (rev_involutive (lstrip s)) at 1. rewrite E2 at 1. now rewrite rev_app_distr. }
  assert (W3 : white (rev w2)) by (apply Forall_rev; exact W2).
  exists w1, (rev w2). split; [exact W1|]. split; [exact W3|]. split; [rewrite <- E3; exact E1|]. split; [|split].
  - intros c t H I. apply is_space_iff in I. pose proof (lstrip_first s) as F. rewrite E3, H in F. cbn [app] in F. congruence.
  - intros c t H I. apply is_space_iff in I. unfold strip in H. apply (f_equal (@rev _)) in H.
    rewrite rev_involutive, rev_app_distr in H. cbn [rev app] in H.
    pose proof (lstrip_first (rev (lstrip s))) as F. rewrite H in F. congruence.
  - rewrite E1 at 1. rewrite E3. apply parse_surround; now apply white_iff.
Qed.

Example C05_example : white (u " 	
 ") /\ In 160%N white_space /\ strip (u "  m s	 ") = u "m s".
Proof. split; [apply white_iff; repeat constructor|]. split; [apply is_space_iff; reflexivity|reflexivity]. Qed.

Print Assumptions C02_parse_outcomes.
Print Assumptions C02_parse_errors.
Print Assumptions C02_parse_reads.
Print Assumptions C02_int_error_means_4300_digits.
Print Assumptions C05_surrounding_white_space.
Print Assumptions C05_exactly_the_white_space_is_removed.
