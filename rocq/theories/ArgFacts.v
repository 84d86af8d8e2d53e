(** * argparse (Argparse.v) meets ArgSpec.v *)
From Verif Require Import PyBase PyNum Regex RegexFacts Argparse ArgSpec.
From Coq Require Import Lia.
Local Open Scope list_scope.

Lemma starts_iff p a : startswith p a = true <-> exists r, a = p ++ r.
Proof.
  unfold startswith. revert a. induction p as [|x p IH]; intro a; cbn [strip_prefix app].
  - split; eauto.
  - destruct a as [|y a]; [split; [discriminate|intros [r R]; discriminate R]|].
    destruct (N.eqb x y) eqn:E.
    + apply N.eqb_eq in E as <-. rewrite IH. split; intros [r R]; exists r; congruence.
    + split; [discriminate|]. intros [r R]. injection R as -> _. rewrite N.eqb_refl in E. discriminate.
Qed.
Lemma is_str_iff a b : is_str a b = true <-> a = b. Proof. apply str_eqb_eq. Qed.
Lemma has_char_iff c a : has_char c a = true <-> In c a.
Proof.
  unfold has_char. rewrite existsb_exists. split.
  - intros (x & I & E). apply N.eqb_eq in E as ->. exact I.
  - intro I. exists c. now rewrite N.eqb_refl.
Qed.
Lemma before_eq_free a : ~ In 61%N a -> before_eq a = a.
Proof.
  induction a as [|c a IH]; intro H; [reflexivity|]. cbn [before_eq]. destruct (N.eqb c 61) eqn:E.
  - apply N.eqb_eq in E as ->. exfalso. apply H. now left.
  - f_equal. apply IH. intro I. apply H. now right.
Qed.
Lemma before_eq_cut p v : ~ In 61%N p -> before_eq (p ++ 61%N :: v) = p.
Proof.
  induction p as [|c a IH]; intro H; [reflexivity|]. cbn [before_eq app]. destruct (N.eqb c 61) eqn:E.
  - apply N.eqb_eq in E as ->. exfalso. apply H. now left.
  - f_equal. apply IH. intro I. apply H. now right.
Qed.
Lemma before_eq_split a : In 61%N a -> exists v, a = before_eq a ++ 61%N :: v.
Proof.
  induction a as [|c a IH]; intros H; [destruct H|]. cbn [before_eq]. destruct (N.eqb c 61) eqn:E.
  - apply N.eqb_eq in E as ->. exists a. reflexivity.
  - destruct H as [->|H]; [discriminate E|]. destruct (IH H) as [v V]. exists v. cbn [app]. now rewrite <- V.
Qed.
Lemma help_no_eq p q : u "--help" = p ++ q -> ~ In 61%N p.
Proof.
  intros H I. assert (J : In 61%N (u "--help")) by (rewrite H; apply in_or_app; now left).
  change (In 61%N [45;45;104;101;108;112]%N) in J. repeat (destruct J as [J|J]; [discriminate J|]). destruct J.
Qed.

Section Facts.
Variable negnum : str -> bool.

Lemma kind_cases a :
  match arg_kind_of negnum a with
  | KPositional => ordinary negnum a
  | KUnknown => foreign_option negnum a
  | KHelp => asks_help a /\ (gets_help a \/ a = u "--")
  | KBad => asks_help a /\ ~ gets_help a
  | KEither => asks_help a /\ ~ gets_help a
  end.
Proof.
  unfold arg_kind_of. change (u "-") with [45%N]. change (u "h") with [104%N].
  destruct a as [|c a]; [cbn [strip_prefix]; left; intros [r R]; discriminate R|].
  cbn [strip_prefix]. destruct (N.eqb 45 c) eqn:C.
  2:{ left. intros [r R]. injection R as -> _. discriminate C. }
  apply N.eqb_eq in C as <-. destruct a as [|d a]; [right; left; reflexivity|].
  unfold startswith at 1. cbn [strip_prefix]. destruct (N.eqb 104 d) eqn:D.
  { apply N.eqb_eq in D as <-. unfold is_str. cbn [str_eqb].
    assert (AH : asks_help (45 :: 104 :: a)%N) by (left; exists a; reflexivity). cbn [N.eqb Pos.eqb andb].
    destruct a as [|e a].
    - split; auto. left. left. reflexivity.
    - split; auto. intros [G|(p & q & H & L & G)]; [discriminate G|]. subst p. discriminate H. }
  unfold startswith at 1. cbn [strip_prefix]. destruct (N.eqb 45 d) eqn:E.
  2:{ assert (NA : ~ asks_help (45 :: d :: a)%N).
      { intros [[r R]|(p & q & H & L & G)].
        - injection R as -> _. discriminate D.
        - destruct p as [|x [|y p]]; cbn in L; try lia. injection H as <- <- _.
          destruct G as [G|[v G]]; injection G as -> _; discriminate E. }
      cbn [andb]. destruct (negnum _) eqn:N; [right; right; auto|]. destruct (has_char _ _) eqn:S.
      - apply has_char_iff in S. right. right. auto.
      - split; auto. intros [O|[O|[_ [O|O]]]].
        + apply O. exists (d :: a). reflexivity.
        + discriminate O.
        + congruence.
        + apply has_char_iff in O. congruence. }
  apply N.eqb_eq in E as <-. cbn [andb]. clear D.
  destruct (startswith (before_eq _) _) eqn:S.
  - apply starts_iff in S as [q Q]. set (w := (45 :: 45 :: a)%N) in *.
    assert (L2 : (2 <= List.length (before_eq w))%nat) by (cbn; lia).
    destruct (has_char 61 w) eqn:HC.
    + apply has_char_iff in HC. split.
      * right. exists (before_eq w), q. split; auto. split; auto. right. apply before_eq_split in HC as [v V]. exists v. exact V.
      * intros [G|(p & q' & H & L & G)]; [discriminate G|]. subst p. now apply help_no_eq in H.
    + assert (NI : ~ In 61%N w) by (intro I; apply has_char_iff in I; congruence).
      rewrite (before_eq_free w NI) in Q, L2. split.
      * right. exists w, q. auto.
      * destruct a as [|x a]; [right; reflexivity|]. left. right. exists w, q. split; auto. split; [|reflexivity]. cbn. lia.
  - assert (NA : ~ asks_help (45 :: 45 :: a)%N).
    { intros [[r R]|(p & q & H & L & G)]; [discriminate R|]. pose proof (help_no_eq p q H) as NI.
      assert (B : before_eq (45 :: 45 :: a)%N = p).
      { destruct G as [->|[v ->]]; [now apply before_eq_free|now apply before_eq_cut]. }
      rewrite B in S. rewrite H in S. rewrite (proj2 (starts_iff p (p ++ q))) in S; [discriminate|eauto]. }
    destruct (negnum _) eqn:N; [right; right; auto|]. destruct (has_char _ _) eqn:HS.
    + apply has_char_iff in HS. right. right. auto.
    + split; auto. intros [O|[O|[_ [O|O]]]].
      * apply O. exists (45%N :: a). reflexivity.
      * discriminate O.
      * congruence.
      * apply has_char_iff in O. congruence.
Qed.

Lemma ordinary_not_help a : ordinary negnum a -> ~ asks_help a.
Proof.
  intros [O|[->|[O _]]] A; auto.
  - destruct A as [[r ->]|(p & q & H & L & G)].
    + apply O. exists (104%N :: r). reflexivity.
    + destruct p as [|x [|y p]]; cbn in L; try lia. injection H as <- <- _. apply O.
      destruct G as [-> | [v ->]]; eexists; reflexivity.
  - destruct A as [[r R]|(p & q & H & L & G)]; [discriminate R|]. destruct p as [|x [|y p]]; cbn in L; try lia.
    destruct G as [G|[v G]]; discriminate G.
Qed.
Lemma gets_asks a : gets_help a -> asks_help a.
Proof.
  intros [->|(p & q & H & L & ->)]; [left; now exists []|]. right. exists p, q. split; auto. split; [lia|auto].
Qed.
Lemma dashes_ask : asks_help (u "--").
Proof. right. exists (u "--"), (u "help"). split; [reflexivity|]. split; [cbn; lia|auto]. Qed.
Lemma dashes_get_none : ~ gets_help (u "--").
Proof.
  intros [H|(p & q & H & L & E)]; [discriminate H|]. rewrite <- E in L. cbn in L. lia.
Qed.

Lemma kind_positional a : arg_kind_of negnum a = KPositional <-> ordinary negnum a.
Proof.
  pose proof (kind_cases a) as K. destruct (arg_kind_of negnum a); split; intro H; try discriminate; auto.
  - exfalso. apply (ordinary_not_help a H). tauto.
  - exfalso. apply (ordinary_not_help a H). tauto.
  - exfalso. apply (ordinary_not_help a H). tauto.
  - exfalso. destruct K. auto.
Qed.
Lemma kind_unknown a : arg_kind_of negnum a = KUnknown <-> foreign_option negnum a.
Proof.
  pose proof (kind_cases a) as K. destruct (arg_kind_of negnum a); split; intro H; try discriminate; auto; destruct H as [H1 H2]; exfalso; tauto.
Qed.
Lemma kind_help a : a <> u "--" -> (arg_kind_of negnum a = KHelp <-> gets_help a).
Proof.
  intro ND. pose proof (kind_cases a) as K. split.
  - intro E. rewrite E in K. destruct K as [_ [K|K]]; [exact K|contradiction].
  - intro H. pose proof (gets_asks a H) as A. destruct (arg_kind_of negnum a); auto; exfalso.
    + now apply (ordinary_not_help a).
    + now apply K.
    + now apply K.
    + now apply K.
Qed.

Lemma dashes_b a : is_str a dashes = true <-> a = u "--". Proof. apply is_str_iff. Qed.
Lemma dashes_in r : existsb (is_str dashes) r = true <-> In (u "--") r.
Proof.
  rewrite existsb_exists. split.
  - intros (x & I & E). apply is_str_iff in E as <-. exact I.
  - intro I. exists (u "--"). split; auto.
Qed.
Lemma ordinary_not_dashes a : ordinary negnum a -> is_str a dashes = false.
Proof.
  intro O. destruct (is_str a dashes) eqn:E; auto. apply dashes_b in E as ->. exfalso.
  now apply (ordinary_not_help _ O), dashes_ask.
Qed.
Lemma foreign_not_dashes a : foreign_option negnum a -> is_str a dashes = false.
Proof.
  intros [_ O]. destruct (is_str a dashes) eqn:E; auto. apply dashes_b in E as ->. exfalso. now apply O, dashes_ask.
Qed.

Lemma scan_values args l : scan negnum args = Values l <-> passes negnum args l.
Proof.
  split.
  - revert l. induction args as [|a r IH]; intros l; cbn [scan].
    + intros [= <-]. constructor.
    + destruct (is_str a dashes) eqn:D.
      * apply dashes_b in D as ->. destruct (existsb (is_str dashes) r) eqn:X; [discriminate|]. intros [= <-]. constructor.
        intro I. apply dashes_in in I. congruence.
      * destruct (arg_kind_of negnum a) eqn:K; try discriminate.
        -- destruct (scan negnum r) as [l'| | |]; try discriminate. intros [= <-]. constructor; [now apply kind_positional|auto].
        -- destruct (scan negnum r); discriminate.
  - induction 1 as [|a l v O P IH|l N]; cbn [scan].
    + reflexivity.
    + rewrite ordinary_not_dashes by auto. rewrite (proj2 (kind_positional a) O), IH. reflexivity.
    + rewrite (proj2 (dashes_b (u "--")) eq_refl). destruct (existsb (is_str dashes) l) eqn:X; auto. apply dashes_in in X. contradiction.
Qed.

(** every argument is read in exactly one of these ways *)
Lemma plain_step a r : ~ asks_help a -> a <> u "--" ->
  (ordinary negnum a /\ scan negnum (a :: r) = match scan negnum r with Values l => Values (a :: l) | o => o end) \/
  (foreign_option negnum a /\ scan negnum (a :: r) = match scan negnum r with Values _ | BadUsage => BadUsage | o => o end).
Proof.
  intros NA ND. pose proof (kind_cases a) as K. cbn [scan]. destruct (is_str a dashes) eqn:D; [apply dashes_b in D; contradiction|].
  destruct (arg_kind_of negnum a); try (exfalso; tauto); auto.
Qed.

Lemma scan_help pre h post : (forall a, In a pre -> ~ asks_help a /\ a <> u "--") -> gets_help h ->
  scan negnum (pre ++ h :: post) = Helped.
Proof.
  intros P G. induction pre as [|a pre IH]; cbn [app].
  - cbn [scan]. assert (D : h <> u "--") by (intros ->; now apply dashes_get_none).
    destruct (is_str h dashes) eqn:E; [apply dashes_b in E; contradiction|]. now rewrite (proj2 (kind_help h D) G).
  - assert (IH' := IH (fun a I => P a (or_intror I))). clear IH. destruct (P a (or_introl eq_refl)) as [NA ND].
    destruct (plain_step a (pre ++ h :: post) NA ND) as [[_ ->]|[_ ->]]; now rewrite IH'.
Qed.
Lemma scan_helped args : scan negnum args = Helped <->
  exists pre h post, args = pre ++ h :: post /\ (forall a, In a pre -> ~ asks_help a /\ a <> u "--") /\ gets_help h.
Proof.
  split.
  - induction args as [|a r IH]; [discriminate|]. cbn [scan].
    destruct (is_str a dashes) eqn:D.
    { destruct (existsb _ r); discriminate. }
    assert (ND : a <> u "--") by (intros ->; rewrite (proj2 (dashes_b _) eq_refl) in D; discriminate).
    pose proof (kind_cases a) as K. destruct (arg_kind_of negnum a) eqn:AK; try discriminate.
    + destruct (scan negnum r); try discriminate. intros _. destruct (IH eq_refl) as (pre & h & post & -> & P & G).
      exists (a :: pre), h, post. split; [reflexivity|]. split; auto. intros b [<-|I]; auto. split; auto. now apply ordinary_not_help.
    + intros _. exists [], a, r. split; [reflexivity|]. split; [intros ? []|]. now apply (kind_help a ND).
    + destruct (scan negnum r); try discriminate. intros _. destruct (IH eq_refl) as (pre & h & post & -> & P & G).
      exists (a :: pre), h, post. split; [reflexivity|]. split; auto. intros b [<-|I]; auto. split; auto. apply K.
  - intros (pre & h & post & -> & P & G). now apply scan_help.
Qed.

(** an option the program does not have, and nothing that asks for help *)
Lemma scan_foreign pre a post l : ~ In (u "--") pre -> (forall b, In b (pre ++ a :: post) -> ~ asks_help b \/ (b = u "--" /\ In b post)) ->
  foreign_option negnum a -> scan negnum post = Values l \/ scan negnum post = BadUsage ->
  scan negnum (pre ++ a :: post) = BadUsage.
Proof.
  intros ND H F V. induction pre as [|b pre IH]; cbn [app].
  - cbn [scan]. rewrite (foreign_not_dashes a F), (proj2 (kind_unknown a) F). destruct V as [-> | ->]; reflexivity.
  - assert (IH' : scan negnum (pre ++ a :: post) = BadUsage).
    { apply IH; [intro I; apply ND; now right|]. intros c I. apply H. now right. }
    assert (Nb : b <> u "--") by (intros ->; apply ND; now left).
    assert (NA : ~ asks_help b) by (destruct (H b (or_introl eq_refl)) as [X|[X _]]; [auto|contradiction]).
    destruct (plain_step b (pre ++ a :: post) NA Nb) as [[_ ->]|[_ ->]]; now rewrite IH'.
Qed.

(** ** The subcommands *)
Lemma arity_wants cmd n : arity cmd = Some n <-> In (cmd, n) wants.
Proof.
  unfold arity. split.
  - intro H. destruct (is_str cmd (u "convert")) eqn:E1; [apply is_str_iff in E1 as ->; injection H as <-; now left|].
    destruct (is_str cmd (u "conversion-expr")) eqn:E2; [apply is_str_iff in E2 as ->; injection H as <-; right; now left|].
    destruct (is_str cmd (u "explain-unit")) eqn:E3; [apply is_str_iff in E3 as ->; injection H as <-; right; right; now left|].
    destruct (is_str cmd (u "debug-parser")) eqn:E4; [apply is_str_iff in E4 as ->; injection H as <-; right; right; right; now left|discriminate].
  - intros [I|[I|[I|[I|[]]]]]; injection I as <- <-; reflexivity.
Qed.
Lemma arity_none cmd : arity cmd = None <-> ~ In cmd (map fst wants).
Proof.
  split.
  - intros H I. apply in_map_iff in I as ([c n] & E & I). cbn in E. subst c. apply arity_wants in I. congruence.
  - intro N. destruct (arity cmd) as [n|] eqn:E; auto. exfalso. apply N. apply arity_wants in E. apply in_map_iff. exists (cmd, n). auto.
Qed.

Definition named (prog : str) : Prop := ~ begins_dash prog.
Lemma parse_named prog args : named prog -> parse_args negnum (prog :: args) = top negnum args.
Proof.
  intro N. cbn [parse_args]. destruct (startswith (u "-") prog) eqn:E; auto. apply starts_iff in E. contradiction.
Qed.
Lemma top_ordinary c r : ordinary negnum c -> top negnum (c :: r) = subcommand negnum c r.
Proof. intro O. cbn [top]. now rewrite (ordinary_not_dashes c O), (proj2 (kind_positional c) O). Qed.
Lemma command_ordinary cmd n : In (cmd, n) wants -> ordinary negnum cmd.
Proof. intros [I|[I|[I|[I|[]]]]]; injection I as <- <-; left; intros [r R]; discriminate R. Qed.

Lemma run_iff prog args cmd l : named prog ->
  (parse_args negnum (prog :: args) = Run cmd l <->
   exists r n, args = cmd :: r /\ In (cmd, n) wants /\ passes negnum r l /\ List.length l = n).
Proof.
  intro N. rewrite (parse_named prog args N). split.
  - destruct args as [|a r]; [discriminate|]. cbn [top]. destruct (is_str a dashes); [discriminate|].
    destruct (arg_kind_of negnum a); try discriminate.
    + unfold subcommand. destruct (arity a) as [n|] eqn:A; [|discriminate]. destruct (scan negnum r) eqn:S; try discriminate.
      destruct (Nat.eqb (List.length l0) n) eqn:E; [|discriminate]. intros [= <- <-]. apply PeanoNat.Nat.eqb_eq in E.
      exists r, n. split; auto. split; [now apply arity_wants|]. split; [now apply scan_values|auto].
    + destruct (top negnum r); discriminate.
  - intros (r & n & -> & W & P & L). rewrite (top_ordinary cmd r (command_ordinary cmd n W)). unfold subcommand.
    rewrite (proj2 (arity_wants cmd n) W), (proj2 (scan_values r l) P), L, PeanoNat.Nat.eqb_refl. reflexivity.
Qed.

Lemma wrong_number prog cmd n args l : named prog -> In (cmd, n) wants -> passes negnum args l -> List.length l <> n ->
  parse_args negnum (prog :: cmd :: args) = Usage.
Proof.
  intros N W P L. rewrite parse_named, (top_ordinary cmd args (command_ordinary cmd n W)) by auto. unfold subcommand.
  rewrite (proj2 (arity_wants cmd n) W), (proj2 (scan_values args l) P). now rewrite (proj2 (PeanoNat.Nat.eqb_neq _ _) L).
Qed.
Lemma no_such_command prog cmd args : named prog -> ordinary negnum cmd -> ~ In cmd (map fst wants) ->
  parse_args negnum (prog :: cmd :: args) = Usage.
Proof.
  intros N O W. rewrite parse_named, (top_ordinary cmd args O) by auto. unfold subcommand. now rewrite (proj2 (arity_none cmd) W).
Qed.
Lemma help_of_command prog cmd n pre h post : named prog -> In (cmd, n) wants ->
  (forall a, In a pre -> ~ asks_help a /\ a <> u "--") -> gets_help h ->
  parse_args negnum (prog :: cmd :: pre ++ h :: post) = Help (Some cmd).
Proof.
  intros N W P G. rewrite parse_named, (top_ordinary cmd _ (command_ordinary cmd n W)) by auto. unfold subcommand.
  rewrite (proj2 (arity_wants cmd n) W). now rewrite (scan_help pre h post P G).
Qed.
Lemma top_foreign a r : foreign_option negnum a -> top negnum (a :: r) =
  match top negnum r with Help h => Help h | Undecided => Undecided | _ => Usage end.
Proof. intro F. cbn [top]. now rewrite (foreign_not_dashes a F), (proj2 (kind_unknown a) F). Qed.
Lemma help_of_program prog pre h post : named prog -> (forall a, In a pre -> foreign_option negnum a) -> gets_help h ->
  parse_args negnum (prog :: pre ++ h :: post) = Help None.
Proof.
  intros N P G. rewrite parse_named by auto. clear N prog. induction pre as [|a pre IH]; cbn [app].
  - cbn [top]. assert (D : h <> u "--") by (intros ->; now apply dashes_get_none).
    destruct (is_str h dashes) eqn:E; [apply dashes_b in E; contradiction|]. now rewrite (proj2 (kind_help h D) G).
  - rewrite top_foreign by (apply P; now left). rewrite IH; auto. intros b I. apply P. now right.
Qed.
Lemma help_iff prog args h : named prog ->
  (parse_args negnum (prog :: args) = Help h <->
   exists pre, (forall a, In a pre -> foreign_option negnum a) /\
   match h with
   | None => exists x post, args = pre ++ x :: post /\ gets_help x
   | Some cmd => exists mid x post, args = pre ++ cmd :: mid ++ x :: post /\ In cmd (map fst wants) /\
                   (forall a, In a mid -> ~ asks_help a /\ a <> u "--") /\ gets_help x
   end).
Proof.
  intro N. rewrite (parse_named prog args N). clear N prog. split.
  - induction args as [|a r IH]; [discriminate|]. cbn [top]. destruct (is_str a dashes) eqn:D; [discriminate|].
    assert (ND : a <> u "--") by (intros ->; rewrite (proj2 (dashes_b _) eq_refl) in D; discriminate).
    destruct (arg_kind_of negnum a) eqn:K; try discriminate.
    + unfold subcommand. destruct (arity a) as [n|] eqn:A; [|discriminate]. destruct (scan negnum r) eqn:S; try discriminate.
      * destruct (Nat.eqb _ n); discriminate.
      * intros [= <-]. apply scan_helped in S as (mid & x & post & -> & P & G). exists []. split; [intros ? []|].
        exists mid, x, post. split; [reflexivity|]. split; [|auto]. apply arity_wants in A. apply in_map_iff. exists (a, n). auto.
    + intros [= <-]. exists []. split; [intros ? []|]. exists a, r. split; [reflexivity|]. now apply (kind_help a ND).
    + destruct (top negnum r) as [| |h'| |]; try discriminate. intros [= ->]. destruct (IH eq_refl) as (pre & P & M).
      exists (a :: pre). split.
      * intros b [<-|I]; auto. now apply kind_unknown.
      * destruct h as [cmd|].
        -- destruct M as (mid & x & post & -> & R). exists mid, x, post. split; [reflexivity|exact R].
        -- destruct M as (x & post & -> & R). exists x, post. split; [reflexivity|exact R].
  - intros (pre & P & M). revert args M. induction pre as [|a pre IH]; intros args M.
    + destruct h as [cmd|].
      * destruct M as (mid & x & post & -> & W & Q & G). apply in_map_iff in W as ([c n] & E & W). cbn in E. subst c.
        cbn [app]. rewrite (top_ordinary cmd _ (command_ordinary cmd n W)). unfold subcommand.
        rewrite (proj2 (arity_wants cmd n) W). now rewrite (scan_help mid x post Q G).
      * destruct M as (x & post & -> & G). cbn [app top]. assert (D : x <> u "--") by (intros ->; now apply dashes_get_none).
        destruct (is_str x dashes) eqn:E; [apply dashes_b in E; contradiction|]. now rewrite (proj2 (kind_help x D) G).
    + assert (P' : forall a, In a pre -> foreign_option negnum a) by (intros b I; apply P; now right).
      assert (F : foreign_option negnum a) by (apply P; now left).
      destruct h as [cmd|].
      * destruct M as (mid & x & post & -> & R). cbn [app]. rewrite (top_foreign a _ F).
        rewrite (IH P' (pre ++ cmd :: mid ++ x :: post)); [reflexivity|]. exists mid, x, post. auto.
      * destruct M as (x & post & -> & R). cbn [app]. rewrite (top_foreign a _ F).
        rewrite (IH P' (pre ++ x :: post)); [reflexivity|]. exists x, post. auto.
Qed.
Lemma no_command_iff prog args : named prog -> (parse_args negnum (prog :: args) = NoCommand <-> args = []).
Proof.
  intro N. rewrite (parse_named prog args N). split; [|intros ->; reflexivity].
  destruct args as [|a r]; auto. cbn [top]. destruct (is_str a dashes); [discriminate|]. destruct (arg_kind_of negnum a); try discriminate.
  - unfold subcommand. destruct (arity a); [|discriminate]. destruct (scan negnum r); try discriminate. destruct (Nat.eqb _ _); discriminate.
  - destruct (top negnum r); discriminate.
Qed.
End Facts.
