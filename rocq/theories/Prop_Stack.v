(** * C84, C85: parse() and normalize() on a stack of limited size *)
From Verif Require Import PyBase PyNum Graph Lexer LexSpec Parser GrammarSpec Visitor VisitSpec
  LexerFacts ParseFacts PrintSpec PrintParse PrintMore Stack StackSpec StackFacts.
Require Import Lia.
Local Open Scope nat_scope.

(** [k]: how many frames the stack can still take; [need]: frames taken by the lexer and the
    parser for a list of tokens, whatever they are. *)

(** C84.  The limit never changes an answer, it only turns it into a RecursionError... *)
Theorem C84_the_limit_changes_no_answer :
  forall need k s, parse_in need k s = parse s \/ parse_in need k s = Err ERecursion.
Proof. exact parse_in_or. Qed.

(** ...a higher limit keeps every answer... *)
Theorem C84_a_higher_limit_keeps_answers :
  forall need k k' s, k <= k' -> parse_in need k s <> Err ERecursion ->
  parse_in need k' s = parse_in need k s.
Proof. exact parse_in_more. Qed.

(** ...and for a text of n characters, b of them opening brackets, 4 n + 12 b + 36 frames are
    enough, if they are enough for the lexer and the parser. *)
Theorem C84_enough_frames :
  forall need k s, is_text s ->
  (forall ts, tokenises DEFAULT_MODE (strip s) ts -> need ts <= k) ->
  4 * List.length s + 12 * open_brackets s + 36 <= k ->
  parse_in need k s = parse s.
Proof.
  intros need k s H N K. destruct (lex_total (strip s) (is_text_strip s H)) as (ts & E & T).
  apply (parse_in_tokens need k s ts H T (N ts T)).
  pose proof (tokens_text _ _ _ T). pose proof (brackets_text ts (well_lexed_all _ _ T)) as B.
  rewrite (tokenises_concat _ _ _ T) in B. destruct (strip_shorter s). lia.
Qed.

(** A text that parses has a least number of frames for the visitor; it is above four times the
    depth of the expression.  The answer is there exactly from this number on. *)
Theorem C84_threshold :
  forall need s g, is_text s -> parse s = Ok g ->
  exists ts n, tokenises DEFAULT_MODE (strip s) ts /\
    4 * depth g < n <= 4 * List.length s + 12 * open_brackets s + 36 /\
    forall k, parse_in need k s = if (n <=? k) && (need ts <=? k) then Ok g else Err ERecursion.
Proof.
  intros need s g H E. destruct (parse_in_threshold need s g H E) as (ts & n & T & D & U & A & B).
  exists ts, n. split; [exact T |]. split.
  - pose proof (tokens_text _ _ _ T). pose proof (brackets_text ts (well_lexed_all _ _ T)) as L.
    rewrite (tokenises_concat _ _ _ T) in L. destruct (strip_shorter s). lia.
  - intros k. destruct (Nat.leb_spec n k); cbn [andb]; [| apply B; now left].
    destruct (Nat.leb_spec (need ts) k); [now apply A | apply B; now right].
Qed.

(** Once parse() has an answer, its text is there too: normalize() overflows the stack only
    where parse() does. *)
Theorem C84_normalize_needs_no_more :
  forall need k s, is_text s ->
  normalize_in need k s
  = if k <? 1 then Err ERecursion
    else match parse_in need (k - 1) s with Ok g => Ok (node_str g) | Err e => Err e end.
Proof.
  intros need k s H. unfold normalize_in. destruct (Nat.ltb_spec k 1); auto.
  destruct (parse_in need (k - 1) s) as [g | e] eqn:E; cbn [bind]; auto.
  apply str_in_enough. destruct (parse_in_or need (k - 1) s) as [Q | Q]; rewrite Q in E; [| discriminate E].
  destruct (C84_threshold need s g H E) as (ts & n & _ & [D _] & A). rewrite A in Q.
  destruct (Nat.leb_spec n (k - 1)); cbn [andb] in Q; [lia | rewrite E in Q; discriminate Q].
Qed.

(** ** The hypotheses are met *)
(** A stack of 1000 frames of which 100 are taken, a text of 160 characters with 10 brackets. *)
Corollary C84_ordinary_texts :
  forall need s, is_text s -> (forall ts, need ts <= 900) ->
  List.length s <= 160 -> open_brackets s <= 10 -> parse_in need 900 s = parse s.
Proof. intros need s H N L B. apply C84_enough_frames; auto. lia. Qed.

Lemma C84_example : let s := u "kg.m2 s-2 (lg(re 1 mW)) / 4.2 @ 3" in
  parse_in (fun _ => 0) 81 s = Err ERecursion /\ parse_in (fun _ => 0) 82 s = parse s /\
  is_ok (parse s) = true.
Proof. vm_compute. auto. Qed.

(** ** C85: a text is parsed however long it is *)
Lemma long_text_str n : node_str (long_product n) = long_text n.
Proof.
  unfold long_text. induction n as [| n IH]; [reflexivity |]. cbn [long_product node_str].
  rewrite IH. rewrite <- app_assoc. f_equal.
  clear IH. induction n as [| n IH]; [reflexivity |]. cbn [repeat List.concat] in *.
  rewrite <- app_assoc, IH. reflexivity.
Qed.

Lemma long_writable n : writable false (long_product n).
Proof.
  assert (M : word_ok false (u "m")).
  { split; [discriminate |]. split; [repeat constructor |]. split; [| discriminate].
    intros I. repeat (destruct I as [I | I]; [discriminate I |]). destruct I. }
  assert (S : forall n, has_shift (long_product n) = false) by (intros k; induction k; cbn; auto; rewrite IHk; auto).
  induction n as [| n IH]; [exact M |]. cbn [long_product writable]. split; [exact IH |].
  rewrite S. exact M.
Qed.

Lemma long_bracket_free n : bracket_free (long_product n).
Proof. induction n as [| n IH]; cbn; auto. Qed.

Lemma long_renumbered n : renumbered (long_product n) = long_product n.
Proof. induction n as [| n IH]; cbn; auto. now rewrite IH. Qed.

Lemma long_depth n : depth (long_product n) = n + 1.
Proof. induction n as [| n IH]; cbn; auto. rewrite IH. lia. Qed.

Lemma long_parses n : parse (long_text n) = Ok (long_product n).
Proof.
  rewrite <- long_text_str. rewrite (parse_node_str _ (long_writable n)).
  rewrite (reread_bracket_free _ false (long_writable n) (long_bracket_free n)). now rewrite long_renumbered.
Qed.

Lemma long_is_text n : is_text (long_text n).
Proof.
  unfold long_text, is_text. apply Forall_app. split; [repeat (constructor; [vm_compute; discriminate |]); constructor |].
  induction n as [| n IH]; cbn [repeat List.concat]; [constructor |]. apply Forall_app. split; [| exact IH].
  repeat (constructor; [vm_compute; discriminate |]); constructor.
Qed.

(** A product of n metres is a valid text, and raises RecursionError when there is no room for
    4 n frames (250 factors with Python's default limit of 1000). *)
Theorem C85_long_products_overflow_the_stack_refuted :
  forall need n, parse (long_text n) = Ok (long_product n) /\
  forall k, k <= 4 * n + 4 -> parse_in need k (long_text n) = Err ERecursion.
Proof.
  intros need n. split; [apply long_parses |]. intros k K.
  destruct (C84_threshold need _ _ (long_is_text n) (long_parses n)) as (ts & m & _ & [D _] & A).
  rewrite A, long_depth in *. destruct (Nat.leb_spec m k); [lia | reflexivity].
Qed.

(** No limit is enough for all texts. *)
Corollary C85_no_limit_is_enough_refuted :
  ~ exists need k, forall s g, is_text s -> parse s = Ok g -> parse_in need k s = Ok g.
Proof.
  intros (need & k & A). destruct (C85_long_products_overflow_the_stack_refuted need k) as [P R].
  specialize (A _ _ (long_is_text k) P). rewrite R in A by lia. discriminate A.
Qed.
