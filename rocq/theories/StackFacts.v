(** * Facts about the limited stack *)
From Verif Require Import PyBase PyNum Graph Regex Lexer LexSpec Parser GrammarSpec Visitor VisitSpec
  LexerFacts VisitorFacts ParseFacts ParserFacts ParserComplete Stack StackSpec.
Require Import Lia.
Local Open Scope nat_scope.

(** Frames a tree needs. *)
Fixpoint frames (t : ptree) : nat :=
  match t with
  | PEOF | PLeaf _ => token_frames
  | PNode Timestamp_r _ => timestamp_frames
  | PNode _ cs =>
    rule_frames + (fix go l := match l with [] => 1 | x :: l' => Nat.max (frames x) (go l') end) cs
  end.

Fixpoint most (l : list nat) : nat := match l with [] => 1 | x :: l' => Nat.max x (most l') end.

Lemma frames_node r cs : r <> Timestamp_r -> frames (PNode r cs) = 4 + most (map frames cs).
Proof.
  intros H.
  assert (E : (fix go l := match l with [] => 1 | x :: l' => Nat.max (frames x) (go l') end) cs
              = most (map frames cs)) by (induction cs as [|c cs IH]; cbn; [|rewrite IH]; auto).
  destruct r; try contradiction; cbn [frames]; unfold rule_frames; rewrite E; reflexivity.
Qed.

Lemma visit_in_node k r cs : r <> Timestamp_r ->
  visit_in k (PNode r cs)
  = if k <? 5 then Err ERecursion
    else do vs <- mapM (visit_in (k - 4)) cs ;; finish r (aggregate vs).
Proof.
  intro H.
  assert (E : (fix go l := match l with
                          | [] => Ok []
                          | x :: l' => do v <- visit_in (k - 4) x ;; do vs <- go l' ;; Ok (v :: vs)
                          end) cs = mapM (visit_in (k - 4)) cs)
    by (induction cs as [|c cs IH]; cbn; [|rewrite IH]; auto).
  destruct r; try contradiction; cbn [visit_in]; unfold rule_frames; cbn [Nat.add]; rewrite E;
    reflexivity.
Qed.

Lemma ptree_ind' (P : ptree -> Prop) :
  P PEOF -> (forall t, P (PLeaf t)) -> (forall r cs, Forall P cs -> P (PNode r cs)) ->
  forall t, P t.
Proof.
  intros HE HL HN. fix IH 1. intros [r cs | t |]; [| apply HL | apply HE].
  apply HN. induction cs as [| c cs IHc]; constructor; [apply IH | exact IHc].
Qed.

Lemma rule_dec (r : rule) : {r = Timestamp_r} + {r <> Timestamp_r}.
Proof. destruct r; (left; reflexivity) || (right; discriminate). Qed.

Ltac ltb := match goal with
  | |- context [?a <? ?b] => destruct (Nat.ltb_spec a b); try lia
  | H : context [?a <? ?b] |- _ => destruct (Nat.ltb_spec a b); try lia
  end.

(** ** With enough room nothing changes *)
Lemma visit_in_enough t : forall k, frames t <= k -> visit_in k t = visit t.
Proof.
  induction t as [| tok | r cs IH] using ptree_ind'; intros k H.
  - cbn [visit_in frames visit] in *. unfold token_frames in *. now ltb.
  - cbn [visit_in frames visit] in *. unfold token_frames in *. now ltb.
  - destruct (rule_dec r) as [-> | R].
    + cbn [visit_in frames visit] in *. unfold timestamp_frames in *. now ltb.
    + rewrite frames_node in H by exact R. rewrite visit_in_node, visit_node by exact R.
      assert (1 <= most (map frames cs)) by (clear; induction cs as [| c cs I]; cbn [map most]; lia).
      ltb. f_equal.
      assert (Hm : most (map frames cs) <= k - 4) by lia. clear H H0 H1.
      induction IH as [| c cs Hc Hcs IHl]; cbn in *; auto.
      rewrite Hc, IHl by lia. reflexivity.
Qed.

(** ** Otherwise it is the same or a RecursionError *)
Lemma visit_in_or t : forall k, visit_in k t = visit t \/ visit_in k t = Err ERecursion.
Proof.
  induction t as [| tok | r cs IH] using ptree_ind'; intros k.
  - cbn [visit_in frames visit]. unfold token_frames. ltb; auto.
  - cbn [visit_in frames visit]. unfold token_frames, timestamp_frames. ltb; auto.
  - destruct (rule_dec r) as [-> | R].
    + cbn [visit_in frames visit]. unfold token_frames, timestamp_frames. ltb; auto.
    + rewrite visit_in_node, visit_node by exact R. ltb; auto.
      assert (A : mapM (visit_in (k - 4)) cs = mapM visit cs \/ mapM (visit_in (k - 4)) cs = Err ERecursion).
      { induction IH as [| c cs Hc Hcs IHl]; cbn; auto.
        destruct (Hc (k - 4)) as [-> | ->]; cbn; auto.
        destruct (visit c); cbn; auto. destruct IHl as [-> | ->]; auto. }
      destruct A as [-> | ->]; cbn; auto.
Qed.

Lemma visit_in_more t : forall k k', k <= k' -> visit_in k t <> Err ERecursion ->
  visit_in k' t = visit_in k t.
Proof.
  induction t as [| tok | r cs IH] using ptree_ind'; intros k k' L.
  - cbn [visit_in frames visit]. unfold token_frames. ltb; ltb; auto; congruence.
  - cbn [visit_in frames visit]. unfold token_frames. ltb; ltb; auto; congruence.
  - destruct (rule_dec r) as [-> | R].
    + cbn [visit_in frames visit]. unfold timestamp_frames. ltb; ltb; auto; congruence.
    + rewrite !visit_in_node by exact R. ltb; [congruence |]. ltb. intros N.
      assert (A : mapM (visit_in (k - 4)) cs <> Err ERecursion ->
                  mapM (visit_in (k' - 4)) cs = mapM (visit_in (k - 4)) cs).
      { clear N. induction IH as [| c cs Hc Hcs IHl]; cbn; auto. intros N.
        rewrite (Hc (k - 4) (k' - 4)); [| lia | intros E; rewrite E in N; cbn in N; congruence].
        destruct (visit_in (k - 4) c); cbn in *; auto. rewrite IHl; auto.
        intros E. rewrite E in N. cbn in N. congruence. }
      rewrite A; [reflexivity |]. intros E. rewrite E in N. cbn in N. congruence.
Qed.

(** A tree that can be visited overflows the stack exactly below its [frames]. *)
Lemma visit_in_few t : forall k v, visit t = Ok v -> k < frames t -> visit_in k t = Err ERecursion.
Proof.
  induction t as [| tok | r cs IH] using ptree_ind'; intros k v.
  - cbn [visit_in frames visit]. unfold token_frames. intros _ H. now ltb.
  - cbn [visit_in frames visit]. unfold token_frames. intros _ H. now ltb.
  - destruct (rule_dec r) as [-> | R].
    + cbn [visit_in frames visit]. unfold timestamp_frames. intros _ H. now ltb.
    + rewrite visit_in_node, visit_node, frames_node by exact R. intros V H. ltb; auto.
      destruct (mapM visit cs) as [vs | e] eqn:M; [| discriminate V].
      assert (A : mapM (visit_in (k - 4)) cs = Err ERecursion); [| now rewrite A].
      assert (Hm : k - 4 < most (map frames cs)) by lia.
      assert (H1 : 1 <= k - 4) by lia.
      clear V H H0 v. revert vs M. induction IH as [| c cs Hc Hcs IHl]; intros vs M; cbn in *; [lia |].
      destruct (visit c) as [v1 | e] eqn:Vc; cbn in M; [| discriminate M].
      destruct (mapM visit cs) as [vs' | e] eqn:Mc; cbn in M; [| discriminate M].
      destruct (Nat.lt_ge_cases (k - 4) (frames c)) as [L | L].
      * now rewrite (Hc _ _ eq_refl L).
      * rewrite (visit_in_enough c _ L), Vc. cbn. rewrite (IHl ltac:(lia) vs' eq_refl). reflexivity.
Qed.

(** ** How many frames a derivation needs *)
Definition opens (t : token) : bool :=
  match tkind t with OPEN_PAREN | LOG => true | _ => false end.
Definition brackets (ts : list token) : nat := List.length (filter opens ts).

Lemma brackets_app a b : brackets (a ++ b) = brackets a + brackets b.
Proof. unfold brackets. now rewrite filter_app, app_length. Qed.

Lemma most_app a b : most (a ++ b) <= Nat.max (most a) (most b).
Proof. induction a as [| x a IH]; cbn [app most]; lia. Qed.
Lemma most_leaves ts : most (map frames (map PLeaf ts)) <= 5.
Proof. induction ts as [| t ts IH]; cbn [map most]; [lia |]. cbn [frames]. unfold token_frames. lia. Qed.

Definition room (r : rule) : nat :=
  match r with
  | Integer_r => 0 | Number_r => 1 | Basic_spec => 2 | Logarithm_r => 3 | Power => 4
  | Product => 5 | Shift_spec => 6 | Unit_spec => 7 | Timestamp_r => 0
  end.

Lemma brackets_cons x l : brackets (x :: l) = (if opens x then 1 else 0) + brackets l.
Proof. unfold brackets. cbn [filter]. destruct (opens x); reflexivity. Qed.
Lemma opens_kind t k : kinded k t -> opens t = match k with OPEN_PAREN | LOG => true | _ => false end.
Proof. unfold kinded, opens. now intros ->. Qed.

Lemma derives_some r ts t : derives r ts t -> r <> Unit_spec -> 1 <= List.length ts.
Proof.
  induction 1; intros N; try (now destruct N); cbn [List.length]; repeat rewrite app_length; cbn [List.length]; try lia;
    try (now apply IHderives); try (pose proof (IHderives ltac:(discriminate)); lia);
    pose proof (IHderives1 ltac:(discriminate)); lia.
Qed.

Lemma most_mid w1 w2 x :
  most ((map frames (map PLeaf w1) ++ 5 :: map frames (map PLeaf w2)) ++ [x]) <= Nat.max 5 x.
Proof.
  pose proof (most_app (map frames (map PLeaf w1) ++ 5 :: map frames (map PLeaf w2)) [x]) as A.
  pose proof (most_app (map frames (map PLeaf w1)) (5 :: map frames (map PLeaf w2))) as B.
  pose proof (most_leaves w1). pose proof (most_leaves w2). cbn [most] in *. lia.
Qed.

Lemma derives_frames r ts t : derives r ts t ->
  frames t <= 4 * (List.length ts + 3 * brackets ts + room r) + 7.
Proof.
  induction 1;
    repeat match goal with H : derives _ _ _ |- _ =>
             first [pose proof (derives_some _ _ _ H ltac:(discriminate)) | idtac];
             revert H end; intros;
    rewrite frames_node by discriminate;
    repeat match goal with H : kinded _ _ |- _ => apply opens_kind in H end;
    repeat (progress (repeat rewrite ?brackets_app, ?brackets_cons, ?app_length, ?map_app;
                      cbn [app List.length map most]));
    repeat match goal with H : opens _ = _ |- _ => rewrite H; clear H end;
    repeat match goal with |- context [most (map frames (map PLeaf ?w) ++ ?l)] =>
             let G := fresh in pose proof (most_app (map frames (map PLeaf w)) l) as G;
             pose proof (most_leaves w);
             generalize dependent (most (map frames (map PLeaf w) ++ l)); intros end;
    cbn [frames room List.length map most app] in *; unfold token_frames, timestamp_frames in *;
    change (brackets []) with 0 in *; try lia.
  all: repeat match goal with H : context [most (map frames (map PLeaf ?w) ++ ?l)] |- _ =>
             pose proof (most_app (map frames (map PLeaf w)) l); pose proof (most_leaves w);
             generalize dependent (most (map frames (map PLeaf w) ++ l)); intros end;
       cbn [frames room List.length map most app] in *; try lia.
  all: match goal with |- context [most ((map frames (map PLeaf ?a) ++ 5 :: map frames (map PLeaf ?b)) ++ [?x])] =>
         pose proof (most_mid a b x) end; lia.
Qed.

(** ** How deep an expression is *)
Lemma depth_pos g : 1 <= depth g.
Proof. destruct g; cbn [depth]; lia. Qed.

Lemma most_In x l : In x l -> x <= most l.
Proof. induction l as [| y l IH]; cbn [In most]; [tauto |]. intros [-> | H]; [| apply IH in H]; lia. Qed.

Lemma frames_child r cs c : r <> Timestamp_r -> In c cs -> 4 + frames c <= frames (PNode r cs).
Proof. intros R I. rewrite frames_node by exact R. pose proof (most_In _ _ (in_map frames _ _ I)). lia. Qed.

Lemma reads_depth t g : reads t g -> 4 * depth g <= frames t.
Proof.
  induction 1;
    repeat match goal with H : reads (PNode ?r ?cs) _ |- _ => revert H end; intros;
    try (match goal with |- _ <= frames (PNode ?r ?cs) =>
           let c := fresh "child" in
           assert (c : forall x, In x cs -> 4 + frames x <= frames (PNode r cs))
             by (intros; now apply frames_child)
         end);
    repeat match goal with c : forall x, In x (?y :: ?l) -> _ |- _ =>
             pose proof (c y (or_introl eq_refl));
             assert (forall x, In x l -> 4 + frames x <= frames (PNode _ _))
               by (intros; apply c; now right);
             clear c end.
  all: try (match goal with p : ptree, q : ptree, ws : list token |- _ <= frames (PNode ?r ?cs) =>
         pose proof (frames_child r cs p ltac:(discriminate) (or_introl eq_refl));
         pose proof (frames_child r cs q ltac:(discriminate)
           ltac:(cbn [app In]; rewrite in_app_iff; cbn [In]; tauto)) end; cbn [depth]; lia).
  all: cbn [depth frames] in *; unfold token_frames, timestamp_frames in *; lia.
Qed.

(** ** str() *)
Lemma str_in_enough g : forall k, depth g <= k -> str_in k g = Ok (node_str g).
Proof.
  induction g; intros [| k] H; cbn [depth] in H; try lia; cbn [str_in node_str]; auto.
  all: try (rewrite IHg1, IHg2 by lia; reflexivity).
  rewrite IHg by lia. reflexivity.
Qed.

Lemma str_in_few g : forall k, k < depth g -> str_in k g = Err ERecursion.
Proof.
  induction g; intros [| k] H; cbn [depth] in H; try lia; cbn [str_in]; auto.
  all: try (destruct (Nat.lt_ge_cases k (depth g1)) as [L | L];
    [rewrite IHg1 by exact L; reflexivity
    | rewrite (str_in_enough g1) by exact L; cbn [bind]; rewrite IHg2 by lia; reflexivity]).
  rewrite IHg by lia. reflexivity.
Qed.

(** ** parse() *)
Lemma parse_in_or need k s : parse_in need k s = parse s \/ parse_in need k s = Err ERecursion.
Proof.
  unfold parse_in, parse. destruct (lex (strip s)) as [ts |]; auto.
  ltb; auto. destruct (p_unit ts) as [t |]; auto. ltb; auto.
  destruct (visit_in_or t (k - 1)) as [-> | ->]; auto.
Qed.

Lemma parse_in_more need k k' s : k <= k' -> parse_in need k s <> Err ERecursion ->
  parse_in need k' s = parse_in need k s.
Proof.
  intros L. unfold parse_in. destruct (lex (strip s)) as [ts |]; auto.
  destruct (Nat.ltb_spec k (need ts)); [congruence |].
  destruct (Nat.ltb_spec k' (need ts)); [lia |].
  destruct (p_unit ts) as [t |]; auto.
  destruct (Nat.ltb_spec k 1); [congruence |]. destruct (Nat.ltb_spec k' 1); [lia |]. intros N.
  rewrite (visit_in_more t (k - 1) (k' - 1)); [reflexivity | lia |].
  intros E. rewrite E in N. cbn in N. congruence.
Qed.

Lemma parse_in_tokens need k s ts : is_text s -> tokenises DEFAULT_MODE (strip s) ts ->
  need ts <= k -> 4 * List.length ts + 12 * brackets ts + 36 <= k -> parse_in need k s = parse s.
Proof.
  intros H T N K. unfold parse_in, parse.
  rewrite (proj2 (lex_spec (strip s) ts (is_text_strip s H)) T). ltb.
  destruct (p_unit ts) as [t |] eqn:P; auto. ltb.
  apply p_unit_exact in P as [D _]. pose proof (derives_frames _ _ _ D) as F. cbn [room] in F.
  rewrite visit_in_enough by lia. reflexivity.
Qed.

(** A text that parses has a threshold. *)
Lemma parse_in_threshold need s g : is_text s -> parse s = Ok g ->
  exists ts n, tokenises DEFAULT_MODE (strip s) ts /\ 4 * depth g < n /\
    n <= 4 * List.length ts + 12 * brackets ts + 36 /\
    (forall k, n <= k -> need ts <= k -> parse_in need k s = Ok g) /\
    (forall k, k < n \/ k < need ts -> parse_in need k s = Err ERecursion).
Proof.
  intros H E. destruct (parse_cases s H) as (ts & T & [(t & g' & E' & D & P & R) | [[E' _] | (t & e & E' & _)]]);
    rewrite E in E'; try discriminate. injection E' as <-.
  exists ts, (1 + frames t). split; [exact T |].
  pose proof (reads_depth t g R). split; [lia |].
  pose proof (derives_frames _ _ _ D) as F. cbn [room] in F. split; [lia |].
  assert (L : lex (strip s) = Some ts) by (apply (lex_spec (strip s) ts (is_text_strip s H)); exact T).
  assert (U : p_unit ts = Some t) by (apply p_unit_exact; auto).
  unfold parse_in. rewrite L, U. split.
  - intros k K N. ltb. ltb. rewrite visit_in_enough by lia. rewrite (reads_visit t g R). reflexivity.
  - intros k [K | K]; ltb; auto. ltb; auto.
    rewrite (visit_in_few t (k - 1) _ (reads_visit t g R)) by lia. reflexivity.
Qed.

(** ** In characters *)
Lemma filter_concat {A} (f : A -> bool) l : filter f (List.concat l) = List.concat (map (filter f) l).
Proof. induction l as [| x l IH]; cbn; auto. now rewrite filter_app, IH. Qed.

Lemma opens_open t : well_lexed t -> opens t = true -> 1 <= open_brackets (ttext t).
Proof.
  intros W O. assert (I : In 40%N (ttext t)).
  { unfold opens in O. destruct (tkind t) eqn:K; try discriminate O.
    - destruct W as (m & r & I & M). rewrite K in I.
      assert (r = ch 40) as ->.
      { destruct m; simpl in I;
          repeat (destruct I as [I | I]; [first [injection I as <-; reflexivity | discriminate I] |]);
          destruct I. }
      inversion M as [| rs c C | | | | |]; subst. cbn in C. left.
      rewrite orb_false_r in C. apply andb_prop in C as [C1 C2]. apply N.leb_le in C1, C2. lia.
    - destruct (log_text t W K) as (f & sp & rest & _ & _ & E & _). rewrite E.
      rewrite !in_app_iff. right. right. now left. }
  unfold open_brackets. assert (F : In 40%N (filter (fun c => N.eqb c 40) (ttext t))).
  { apply filter_In. split; [exact I | reflexivity]. }
  destruct (filter _ (ttext t)); [destruct F | cbn; lia].
Qed.

Lemma brackets_text ts : Forall well_lexed ts -> brackets ts <= open_brackets (text_of ts).
Proof.
  induction 1 as [| t ts W Ws IH]; [cbn; lia |]. rewrite brackets_cons. unfold text_of in *.
  cbn [map List.concat]. unfold open_brackets in *. rewrite filter_app, app_length.
  pose proof (opens_open t W). unfold open_brackets in *. destruct (opens t); [specialize (H eq_refl) |]; lia.
Qed.

Lemma tokens_text m s ts : tokenises m s ts -> List.length ts <= List.length s.
Proof.
  induction 1 as [| m k w rest ts T _ IH]; cbn; [lia |]. rewrite app_length.
  pose proof (tk_nonempty _ _ _ _ T). destruct w; [congruence |]. cbn. lia.
Qed.

Lemma lstrip_shorter s : List.length (lstrip s) <= List.length s /\ open_brackets (lstrip s) <= open_brackets s.
Proof.
  destruct (lstrip_split s) as (w & _ & E). unfold open_brackets.
  assert (L : s = w ++ lstrip s) by exact E. split.
  - rewrite L at 2. rewrite app_length. lia.
  - rewrite L at 2. rewrite filter_app, app_length. lia.
Qed.

Lemma strip_shorter s : List.length (strip s) <= List.length s /\ open_brackets (strip s) <= open_brackets s.
Proof.
  destruct (strip_split s) as (w1 & w2 & _ & _ & E). unfold open_brackets. split.
  - rewrite E at 2. rewrite !app_length. lia.
  - rewrite E at 2. rewrite !filter_app, !app_length. lia.
Qed.
