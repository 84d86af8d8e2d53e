(** * The identifiers of a text are pieces of it. *)
From Verif Require Import PyBase PyNum Graph Expr Lexer LexSpec LexerFacts Parser GrammarSpec VisitSpec Visitor VisitorFacts ParserFacts ParseFacts.
Open Scope list_scope.

Fixpoint leaves (t : ptree) : list token :=
  match t with PLeaf x => [x] | PEOF => [] | PNode _ cs => flat_map leaves cs end.

Lemma leaves_map ts : flat_map leaves (map PLeaf ts) = ts.
Proof. induction ts as [|t ts IH]; cbn [map flat_map leaves app]; congruence. Qed.

Lemma derives_leaves r ts t : derives r ts t -> leaves t = ts.
Proof.
  induction 1; cbn [leaves flat_map]; rewrite ?flat_map_app; cbn [leaves flat_map app]; rewrite ?flat_map_app;
    cbn [leaves flat_map app]; rewrite ?flat_map_app, ?leaves_map, ?app_nil_r;
    cbn [leaves flat_map app] in *; rewrite ?app_nil_r in *; rewrite <- ?app_assoc; cbn [app]; try congruence.
Qed.

Lemma set_union_in (a b : list str) k : In k (set_union a b) -> In k a \/ In k b.
Proof. unfold set_union. rewrite in_app_iff, filter_In. tauto. Qed.

Lemma reads_leaves t g : reads t g -> forall k, In k (identifiers g) -> exists x, In x (leaves t) /\ ttext x = k.
Proof.
  induction 1; cbn [identifiers leaves flat_map]; intros k I; try contradiction;
    try (apply set_union_in in I as [I|I]); try contradiction.
  all: try (match goal with IH : forall k, In k _ -> _, I : In _ _ |- _ => destruct (IH k I) as (y & Y & E); exists y; split; auto end;
            cbn [leaves flat_map] in *; rewrite ?flat_map_app; cbn [flat_map leaves app]; rewrite ?flat_map_app; cbn [flat_map leaves app];
            repeat (rewrite in_app_iff in * || cbn [In] in * ); tauto).
  destruct I as [<-|[]]. exists i. split; auto. now left.
Qed.

(** ** every identifier of a parsed text is a piece of the text *)
Lemma identifier_piece s g : is_text s -> parse s = Ok g ->
  forall k, In k (identifiers g) -> exists a b, s = a ++ k ++ b.
Proof.
  intros T P k I. apply (parse_reads s g T) in P as (ts & t & Tk & D & _ & R).
  destruct (reads_leaves t g R k I) as (x & X & E). rewrite (derives_leaves _ _ _ D) in X.
  apply in_split in X as (l1 & l2 & ->). apply tokenises_concat in Tk. unfold text_of in Tk.
  rewrite map_app, concat_app in Tk. cbn [map List.concat] in Tk. rewrite E in Tk.
  destruct (strip_split s) as (w1 & w2 & _ & _ & S). rewrite S, <- Tk.
  exists (w1 ++ List.concat (map ttext l1)), (List.concat (map ttext l2) ++ w2). now rewrite <- !app_assoc.
Qed.

Definition ascii (s : str) : Prop := Forall (fun c => (c < 128)%N) s.
Lemma ascii_text s : ascii s -> is_text s.
Proof. unfold ascii, is_text. apply Forall_impl. intros c H. lia. Qed.
Lemma ascii_app a b : ascii (a ++ b) <-> ascii a /\ ascii b.
Proof. apply Forall_app. Qed.
Lemma ascii_identifiers s g : ascii s -> parse s = Ok g -> Forall ascii (identifiers g).
Proof.
  intros A P. apply Forall_forall. intros k I. destruct (identifier_piece s g (ascii_text s A) P k I) as (a & b & E).
  rewrite E in A. apply ascii_app in A as [_ A]. now apply ascii_app in A.
Qed.
