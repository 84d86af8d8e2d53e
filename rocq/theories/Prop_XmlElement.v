(** * C103, C104, C105: which parts of an XML document count. *)
From Coq Require FinFun.
From Verif Require Import PyBase PyNum Graph Expr Units UnitSystem ParseFacts Xml XmlElement.

(** ** Specification *)

(** [e] is somewhere in the document (the root included) *)
Inductive inside : xnode -> xnode -> Prop :=
| In_here e : inside e e
| In_kid e k ns l a x ks tl : In k ks -> inside e k -> inside e (Element ns l a x ks tl).

Definition is_element (e : xnode) : Prop := match e with Element _ _ _ _ _ _ => True | NotElement _ => False end.

(** every element in it has a namespace, and no namespace contains a closing brace *)
Definition namespaced (e : xnode) : Prop :=
  forall ns l a x ks tl, inside (Element ns l a x ks tl) e -> exists n, ns = Some n /\ ~ In brace_close n.
(** no element in it has a namespace (and local names contain no brace, as XML says) *)
Definition bare (e : xnode) : Prop :=
  forall ns l a x ks tl, inside (Element ns l a x ks tl) e -> ns = None /\ ~ In brace_close l.

(** a text with blanks around it *)
Definition padded (core : str) (x : option str) : Prop :=
  exists w w', blank w /\ blank w' /\ match x with Some s => s | None => [] end = w ++ core ++ w'.

(** the same content: element for element, the same local names and, up to blanks around them, the
    same texts in front of the first child; namespaces, attributes and tails may differ *)
Inductive alike : xnode -> xnode -> Prop :=
| Alike ns ns' l a a' core x x' ks ks' tl tl' :
    padded core x -> padded core x' -> alikes ks ks' ->
    alike (Element ns l a x ks tl) (Element ns' l a' x' ks' tl')
with alikes : list xnode -> list xnode -> Prop :=
| Alikes_nil : alikes [] []
| Alikes_cons e e' l l' : alike e e' -> alikes l l' -> alikes (e :: l) (e' :: l').

(** the document has exactly one element called unit-system, and it is [e]: [e] occurs at exactly
    one place.  Places are lists of positions among the children. *)
Fixpoint at_place (root : xnode) (p : list nat) : option xnode :=
  match p with
  | [] => Some root
  | i :: p' => match root with
               | NotElement _ => None
               | Element _ _ _ _ ks _ => match nth_error ks i with Some k => at_place k p' | None => None end
               end
  end.
Definition a_unit_system (e : xnode) : Prop :=
  match e with Element _ l _ _ _ _ => l = u "unit-system" | NotElement _ => False end.
Definition the_unit_system (root e : xnode) : Prop :=
  a_unit_system e /\
  exists p, at_place root p = Some e /\
    forall p' e', at_place root p' = Some e' -> a_unit_system e' -> p' = p.

(** what a namespaced, comment-free element says *)
Inductive says_tag : xnode -> tag -> Prop :=
| ST ns l a x ks tl core ts : padded core x -> strip core = core -> says_tags ks ts ->
    says_tag (Element ns l a x ks tl) (mkTag l core ts)
with says_tags : list xnode -> list tag -> Prop :=
| ST_nil : says_tags [] []
| ST_cons e t es ts : says_tag e t -> says_tags es ts -> says_tags (e :: es) (t :: ts).

(** ** Proofs *)
Section XnodeInd.
Variable P : xnode -> Prop.
Hypothesis HE : forall ns l a x ks tl, Forall P ks -> P (Element ns l a x ks tl).
Hypothesis HN : forall tl, P (NotElement tl).
Fixpoint xnode_full (e : xnode) : P e :=
  match e with
  | Element ns l a x ks tl => HE ns l a x ks tl
      ((fix go (l : list xnode) : Forall P l :=
          match l with [] => Forall_nil _ | k :: r => Forall_cons _ (xnode_full k) (go r) end) ks)
  | NotElement tl => HN tl
  end.
End XnodeInd.

Lemma from_element_eq ns l a x ks tl :
  from_element (Element ns l a x ks tl) =
  do cs <- mapM from_element ks ;; Ok (mkTag (after_first brace_close (clark ns l)) (tag_text x) cs).
Proof.
  cbn [from_element]. f_equal. clear. induction ks as [|k r IH]; [reflexivity|]. cbn [mapM]. rewrite <- IH. reflexivity.
Qed.

Lemma after_first_none s : ~ In brace_close s -> after_first brace_close s = [].
Proof.
  induction s as [|c s IH]; [reflexivity|]. intro N. cbn [after_first].
  destruct (N.eqb_spec c brace_close) as [->|]; [exfalso; apply N; now left|]. apply IH. intro I. apply N. now right.
Qed.
Lemma after_first_app n l : ~ In brace_close n -> after_first brace_close (n ++ brace_close :: l) = l.
Proof.
  induction n as [|c n IH]; intro N; cbn [app after_first].
  - now rewrite N.eqb_refl.
  - destruct (N.eqb_spec c brace_close) as [->|]; [exfalso; apply N; now left|]. apply IH. intro I. apply N. now right.
Qed.
Lemma clark_namespaced n l : ~ In brace_close n -> after_first brace_close (clark (Some n) l) = l.
Proof. intro N. cbn [clark after_first]. change (N.eqb brace_open brace_close) with false. cbn [app]. now apply after_first_app. Qed.

Lemma strip_of_padded core x : padded core x -> tag_text x = strip core.
Proof. intros (w & w' & W & W' & E). unfold tag_text. rewrite E. now apply strip_surround. Qed.
Lemma tag_text_padded x : padded (tag_text x) x /\ strip (tag_text x) = tag_text x.
Proof.
  unfold tag_text. split; [|apply strip_idem]. unfold padded.
  destruct (strip_split (match x with Some s => s | None => [] end)) as (w & w' & W & W' & E). eauto.
Qed.

Lemma says_tags_forall2 es ts : says_tags es ts <-> Forall2 says_tag es ts.
Proof. split; induction 1; constructor; auto. Qed.
Lemma alikes_forall2 es ts : alikes es ts <-> Forall2 alike es ts.
Proof. split; induction 1; constructor; auto. Qed.

Lemma namespaced_kid ns l a x ks tl k : namespaced (Element ns l a x ks tl) -> In k ks -> namespaced k.
Proof. intros N I ns' l' a' x' ks' tl' J. eapply N. econstructor; eauto. Qed.
Lemma bare_kid ns l a x ks tl k : bare (Element ns l a x ks tl) -> In k ks -> bare k.
Proof. intros N I ns' l' a' x' ks' tl' J. eapply N. econstructor; eauto. Qed.

Lemma from_says e : namespaced e -> forall t, from_element e = Ok t <-> says_tag e t.
Proof.
  induction e as [ns l a x ks tl IH|tl] using xnode_full; intros N t.
  2:{ split; [intro H; discriminate H|]. intro H. inversion H. }
  rewrite from_element_eq.
  assert (Name : after_first brace_close (clark ns l) = l).
  { destruct (N ns l a x ks tl (In_here _)) as (n & -> & B). now apply clark_namespaced. }
  rewrite Name.
  assert (K : forall ts, mapM from_element ks = Ok ts <-> says_tags ks ts).
  { assert (Nk : forall k, In k ks -> namespaced k) by (intros; eapply namespaced_kid; eauto).
    clear Name N. induction IH as [|k r Hk _ IHr]; intro ts.
    - cbn [mapM]. split; [intros [= <-]; constructor|]. intro H. inversion H. reflexivity.
    - assert (IH' := IHr (fun k' I => Nk k' (or_intror I))). cbn [mapM]. split.
      + intro H. destruct (from_element k) as [t1|] eqn:E1; [|discriminate H]. cbn [bind] in H.
        destruct (mapM from_element r) as [ts1|] eqn:E2; [|discriminate H]. cbn [bind] in H. injection H as <-.
        constructor; [apply Hk; auto; apply Nk; now left|now apply IH'].
      + intro H. inversion H as [|? t1 ? ts1 A B]; subst.
        apply Hk in A; [|apply Nk; now left]. apply IH' in B. rewrite A, B. reflexivity. }
  split.
  - intro H. destruct (mapM from_element ks) as [ts|] eqn:E; [|discriminate H]. cbn [bind] in H. injection H as <-.
    destruct (tag_text_padded x). econstructor; eauto. now apply K.
  - intro H. inversion H as [? ? ? ? ? ? core ts P S T]; subst. apply K in T. rewrite T. cbn [bind].
    rewrite (strip_of_padded _ _ P), S. reflexivity.
Qed.

(** the only way to fail *)
Lemma from_element_result e :
  (exists t, from_element e = Ok t) /\ (forall c, inside c e -> is_element c) \/
  from_element e = Err EAttribute /\ (exists c, inside c e /\ ~ is_element c).
Proof.
  induction e as [ns l a x ks tl IH|tl] using xnode_full.
  2:{ right. split; [reflexivity|]. exists (NotElement tl). split; [constructor|auto]. }
  rewrite from_element_eq.
  assert (K : (exists ts, mapM from_element ks = Ok ts) /\ (forall k c, In k ks -> inside c k -> is_element c) \/
              mapM from_element ks = Err EAttribute /\ exists k c, In k ks /\ inside c k /\ ~ is_element c).
  { induction IH as [|k r Hk _ IHr].
    - left. split; [now exists []|]. intros k c [].
    - cbn [mapM]. destruct Hk as [[[t ->] Ek]|[-> (c & I & Nc)]].
      + destruct IHr as [[[ts ->] Er]|[-> (k' & c & J & I & Nc)]].
        * left. split; [eexists; reflexivity|]. intros k' c [<-|J] I; eauto.
        * right. split; [reflexivity|]. exists k', c. split; [now right|auto].
      + right. split; [reflexivity|]. exists k, c. split; [now left|auto]. }
  destruct K as [[[ts ->] Er]|[-> (k & c & J & I & Nc)]].
  - left. split; [eexists; reflexivity|]. intros c I. inversion I; subst; [exact Logic.I|eauto].
  - right. split; [reflexivity|]. exists c. split; auto. econstructor; eauto.
Qed.

Lemma alike_from e e' : alike e e' -> namespaced e -> namespaced e' -> from_element e = from_element e'.
Proof.
  revert e'. induction e as [ns l a x ks tl IH|tl] using xnode_full; intros e' A N N'; [|inversion A].
  inversion A as [? ns' ? ? a' core ? x' ? ks' ? tl' P P' K]; subst. rewrite !from_element_eq.
  assert (Nm : after_first brace_close (clark ns l) = after_first brace_close (clark ns' l)).
  { destruct (N ns l a x ks tl (In_here _)) as (n & -> & B). destruct (N' ns' l a' x' ks' tl' (In_here _)) as (n' & -> & B').
    now rewrite !clark_namespaced. }
  rewrite Nm, (strip_of_padded _ _ P), (strip_of_padded _ _ P'). f_equal.
  assert (Nk : forall k, In k ks -> namespaced k) by (intros; eapply namespaced_kid; [exact N|assumption]).
  assert (Nk' : forall k, In k ks' -> namespaced k) by (intros; eapply namespaced_kid; [exact N'|assumption]).
  clear - IH K Nk Nk'. revert ks' K Nk'. induction IH as [|k r Hk _ IHr]; intros ks' K Nk'; inversion K; subst; [reflexivity|].
  cbn [mapM]. rewrite (Hk e'); auto; [|apply Nk; now left|apply Nk'; now left]. rewrite (IHr (fun k' I => Nk k' (or_intror I)) l'); auto.
  intros k' I. apply Nk'. now right.
Qed.

(** *** the one unit-system *)
Fixpoint placed (root : xnode) : list (list nat * xnode) :=
  match root with
  | NotElement _ => []
  | Element _ l _ _ ks _ =>
    (if str_eqb l (u "unit-system") then [([], root)] else []) ++
    (fix go (i : nat) (ks : list xnode) :=
       match ks with
       | [] => []
       | k :: r => map (fun q => (i :: fst q, snd q)) (placed k) ++ go (S i) r
       end) 0%nat ks
  end.
Fixpoint placed_from (i : nat) (ks : list xnode) : list (list nat * xnode) :=
  match ks with
  | [] => []
  | k :: r => map (fun q => (i :: fst q, snd q)) (placed k) ++ placed_from (S i) r
  end.
Lemma placed_eq ns l a x ks tl :
  placed (Element ns l a x ks tl) =
  (if str_eqb l (u "unit-system") then [([], Element ns l a x ks tl)] else []) ++ placed_from 0 ks.
Proof.
  reflexivity.
Qed.
Lemma placed_elements root : map snd (placed root) = unit_systems root.
Proof.
  induction root as [ns l a x ks tl IH|tl] using xnode_full; [|reflexivity].
  rewrite placed_eq, map_app. cbn [unit_systems]. 
  assert (K : map snd (placed_from 0 ks) = flat_map unit_systems ks); [|rewrite K; destruct (str_eqb l _); reflexivity].
  generalize 0%nat. induction IH as [|k r Hk _ IHr]; intro i; [reflexivity|]. cbn [placed_from flat_map].
  rewrite map_app, map_map, <- Hk, IHr. reflexivity.
Qed.
Lemma str_eqb_true a b : str_eqb a b = true <-> a = b.
Proof.
  revert b. induction a as [|x a IH]; intros [|y b]; cbn [str_eqb]; split; try discriminate; auto.
  - intro H. apply andb_prop in H as [H K]. apply N.eqb_eq in H. apply IH in K. now subst.
  - intros [= -> ->]. rewrite N.eqb_refl. now apply IH.
Qed.
Lemma placed_in root : forall p e, In (p, e) (placed root) <-> at_place root p = Some e /\ a_unit_system e.
Proof.
  induction root as [ns l a x ks tl IH|tl] using xnode_full; intros p e.
  2:{ split; [intros []|]. intros [H U]. destruct p; cbn [at_place] in H; [injection H as <-; exact U|discriminate H]. }
  rewrite placed_eq, in_app_iff.
  assert (K : forall i, In (p, e) (placed_from i ks) <->
     exists j p' k, p = (i + j)%nat :: p' /\ nth_error ks j = Some k /\ at_place k p' = Some e /\ a_unit_system e).
  { clear - IH. induction IH as [|k r Hk _ IHr]; intro i.
    - split; [intros []|]. intros (j & p' & k & _ & H & _). destruct j; discriminate H.
    - cbn [placed_from]. rewrite in_app_iff, in_map_iff, IHr. split.
      + intros [([p' e'] & E & I)|(j & p' & k' & E & R)].
        * injection E as <- <-. apply Hk in I. exists 0%nat, p', k. rewrite Nat.add_0_r. cbn [fst nth_error]. tauto.
        * exists (S j), p', k'. split; [rewrite E; f_equal; lia|exact R].
      + intros (j & p' & k' & -> & H & R). destruct j as [|j]; cbn [nth_error] in H.
        * left. injection H as <-. exists (p', e). rewrite Nat.add_0_r. split; [reflexivity|]. now apply Hk.
        * right. exists j, p', k'. split; [f_equal; lia|auto]. }
  rewrite K. split.
  - intros [H|(j & p' & k & -> & H & R & U)].
    + destruct (str_eqb l (u "unit-system")) eqn:E; [|destruct H]. destruct H as [H|[]]. injection H as <- <-.
      split; [reflexivity|]. now apply str_eqb_true.
    + cbn [at_place plus]. rewrite H. auto.
  - intros [H U]. destruct p as [|i p']; cbn [at_place] in H.
    + left. injection H as <-. cbn [a_unit_system] in U. apply str_eqb_true in U. rewrite U. now left.
    + right. destruct (nth_error ks i) as [k|] eqn:E; [|discriminate H]. exists i, p', k. auto.
Qed.
Lemma placed_nodup root : NoDup (map fst (placed root)).
Proof.
  induction root as [ns l a x ks tl IH|tl] using xnode_full; [|constructor].
  assert (K : forall i, NoDup (map fst (placed_from i ks)) /\
                forall p, In p (map fst (placed_from i ks)) -> exists j p', (i <= j)%nat /\ p = j :: p').
  { clear - IH. induction IH as [|k r Hk _ IHr]; intro i; [split; [constructor|intros p []]|].
    cbn [placed_from]. rewrite map_app, map_map. cbn [fst]. destruct (IHr (S i)) as [D B]. split.
    - assert (D1 : NoDup (map (fun q : list nat * xnode => i :: fst q) (placed k))).
      { rewrite <- (map_map fst (cons i)). apply FinFun.Injective_map_NoDup; [intros a b [=]; auto|exact Hk]. }
      assert (X : forall p, In p (map (fun q : list nat * xnode => i :: fst q) (placed k)) -> ~ In p (map fst (placed_from (S i) r))).
      { intros p I J. apply in_map_iff in I as (q & <- & _). destruct (B _ J) as (j & p' & L & E). injection E as -> _. lia. }
      revert D1 X. generalize (map (fun q : list nat * xnode => i :: fst q) (placed k)) as A. intros A DA X.
      induction DA as [|y A' Ny _ IHA]; [exact D|]. cbn [app]. constructor.
      + rewrite in_app_iff. intros [J|J]; [auto|]. apply (X y); [now left|auto].
      + apply IHA. intros p I. apply X. now right.
    - intros p I. apply in_app_iff in I as [I|I].
      + apply in_map_iff in I as (q & <- & _). exists i, (fst q). split; auto.
      + destruct (B _ I) as (j & p' & L & E). exists j, p'. split; [lia|auto]. }
  rewrite placed_eq, map_app. destruct (K 0%nat) as [D B]. destruct (str_eqb l (u "unit-system")); [|exact D].
  cbn [map fst app]. constructor; [|exact D]. intro I. destruct (B _ I) as (j & p' & _ & E). discriminate E.
Qed.
Lemma one_unit_system root e : unit_systems root = [e] <-> the_unit_system root e.
Proof.
  rewrite <- placed_elements. split.
  - intro H. destruct (placed root) as [|[p e0] r] eqn:E; [discriminate H|]. destruct r; [|discriminate H]. injection H as <-.
    assert (I : In (p, e0) (placed root)) by (rewrite E; now left). apply placed_in in I as [I U]. split; [exact U|].
    exists p. split; [exact I|]. intros p' e' H' U'. assert (J : In (p', e') (placed root)) by (apply placed_in; auto).
    rewrite E in J. destruct J as [J|[]]. now injection J.
  - intros [U (p & H & Only)]. assert (I : In (p, e) (placed root)) by (apply placed_in; auto).
    pose proof (placed_nodup root) as D.
    assert (All : forall q, In q (placed root) -> q = (p, e)).
    { intros [p' e'] J. pose proof J as J'. apply placed_in in J' as [H' U']. pose proof (Only _ _ H' U') as ->. rewrite H in H'. injection H' as ->. reflexivity. }
    destruct (placed root) as [|q r]; [destruct I|]. pose proof (All q (or_introl eq_refl)) as ->.
    destruct r as [|q' r]; [reflexivity|]. pose proof (All q' (or_intror (or_introl eq_refl))) as ->.
    cbn [map fst] in D. inversion D as [|? ? Nin _]. exfalso. apply Nin. now left.
Qed.
Lemma exactly_one_case root :
  (exists e, the_unit_system root e /\ exactly_one (unit_systems root) = Ok e) \/
  (~ exists e, the_unit_system root e) /\ exactly_one (unit_systems root) = Err (EValue VE_xml_missing).
Proof.
  destruct (unit_systems root) as [|e [|e' r]] eqn:E.
  - right. split; [|reflexivity]. intros [e H]. apply one_unit_system in H. rewrite E in H. discriminate H.
  - left. exists e. split; [now apply one_unit_system|reflexivity].
  - right. split; [|reflexivity]. intros [e0 H]. apply one_unit_system in H. rewrite E in H. discriminate H.
Qed.

(** ** C103.  A document is read by its one unit-system element: local names, stripped texts and
    nesting are all that counts. *)
Theorem C103_what_is_read :
  forall strict set_order root s,
  (forall e, the_unit_system root e -> namespaced e) ->
  (read_document strict set_order root = Ok s <->
   exists e t, the_unit_system root e /\ says_tag e t /\ read_system strict set_order t = Ok s).
Proof.
  intros st o root s N. unfold read_document. destruct (exactly_one_case root) as [(e & H & ->)|[No ->]]; cbn [bind].
  - split.
    + intro R. destruct (from_element e) as [t|] eqn:E; [|discriminate R]. exists e, t. split; auto. split; [now apply from_says; [apply N|]|exact R].
    + intros (e' & t & H' & S & R). apply one_unit_system in H, H'. rewrite H in H'. injection H' as <-.
      apply from_says in S; [|apply N; now apply one_unit_system]. rewrite S. exact R.
  - split; [discriminate|]. intros (e & t & H & _). exfalso. eauto.
Qed.

(** Namespaces (whatever they are), attributes, blanks around texts, text after end tags and
    everything outside the unit-system element make no difference, for either reader. *)
Theorem C103_only_content_counts :
  forall strict set_order root root' e e',
  the_unit_system root e -> the_unit_system root' e' -> namespaced e -> namespaced e' -> alike e e' ->
  read_document strict set_order root = read_document strict set_order root'.
Proof.
  intros st o root root' e e' H H' N N' A. apply one_unit_system in H, H'. unfold read_document. rewrite H, H'. cbn [exactly_one bind].
  now rewrite (alike_from e e').
Qed.

(** Refusals: no unit-system element or several, or a comment (or processing instruction) inside. *)
Theorem C103_refusals :
  forall strict set_order root,
  ((~ exists e, the_unit_system root e) ->
     read_document strict set_order root = Err (EValue VE_xml_missing)) /\
  (forall e, the_unit_system root e -> (exists c, inside c e /\ ~ is_element c) ->
     read_document strict set_order root = Err EAttribute).
Proof.
  intros st o root. unfold read_document. split.
  - intro No. destruct (exactly_one_case root) as [(e & H & _)|[_ ->]]; [exfalso; eauto|reflexivity].
  - intros e H (c & I & Nc). apply one_unit_system in H. rewrite H. cbn [exactly_one bind].
    destruct (from_element_result e) as [[_ E]|[-> _]]; [exfalso; auto|reflexivity].
Qed.

(** ** C103, C104.  Documents without namespaces are read as if they were empty. *)
Lemma bare_names ks ts : mapM from_element ks = Ok ts -> (forall k, In k ks -> bare k) ->
  List.length ts = List.length ks /\ Forall (fun t => t_name t = []) ts.
Proof.
  revert ts. induction ks as [|k r IH]; intros ts H B; cbn [mapM] in H; [injection H as <-; auto|].
  destruct (from_element k) as [t|] eqn:E; [|discriminate H]. cbn [bind] in H.
  destruct (mapM from_element r) as [ts'|] eqn:E'; [|discriminate H]. cbn [bind] in H. injection H as <-.
  destruct (IH ts' eq_refl) as [L F]; [intros; apply B; now right|]. cbn [List.length]. split; [now rewrite L|]. constructor; [|exact F].
  destruct k as [ns l a x ks tl|]; [|discriminate E]. rewrite from_element_eq in E.
  destruct (B _ (or_introl eq_refl) ns l a x ks tl (In_here _)) as [-> Nb].
  destruct (mapM from_element ks); [|discriminate E]. cbn [bind] in E. injection E as <-. cbn [t_name clark]. now apply after_first_none.
Qed.
Lemma none_named n ts : Forall (fun t => t_name t = []) ts -> n <> [] -> pop_all n ts = ([], ts).
Proof.
  intros F N. unfold pop_all. induction F as [|t r E _ IH]; [reflexivity|]. cbn [filter]. rewrite E.
  destruct n as [|c n]; [congruence|]. cbn [str_eqb negb]. injection IH as -> IH2. now rewrite IH2.
Qed.

Theorem C103_without_namespaces_nothing_is_read :
  forall set_order root e,
  the_unit_system root e -> bare e -> (forall c, inside c e -> is_element c) ->
  read_document false set_order root = Ok empty_system /\
  (read_document true set_order root = Ok empty_system <-> forall c, inside c e -> c = e) /\
  ((exists c, inside c e /\ c <> e) -> read_document true set_order root = Err (EValue VE_xml_unhandled)).
Proof.
  intros o root e H B All. apply one_unit_system in H. unfold read_document. rewrite H. cbn [exactly_one bind].
  destruct (from_element_result e) as [[[t E] _]|[_ (c & I & Nc)]]; [|exfalso; auto]. rewrite E. cbn [bind].
  destruct e as [ns l a x ks tl|]; [|discriminate E]. rewrite from_element_eq in E.
  destruct (mapM from_element ks) as [ts|] eqn:K; [|discriminate E]. cbn [bind] in E. injection E as <-.
  destruct (bare_names ks ts K) as [L F]; [intros; eapply bare_kid; eauto|].
  unfold read_system. cbn [t_children]. rewrite !(none_named _ _ F) by (intro Z; vm_compute in Z; discriminate Z). cbn [fold_res bind unhandled andb].
  destruct ks as [|k ks].
  - destruct ts; [|discriminate L]. cbn [nonempty]. split; [reflexivity|]. split; [split; [|reflexivity]|].
    + intros _ c I. inversion I as [|? ? ? ? ? ? ? ? J]; [reflexivity|destruct J].
    + intros (c & I & Ne). exfalso. apply Ne. inversion I as [|? ? ? ? ? ? ? ? J]; [reflexivity|destruct J].
  - destruct ts as [|t0 ts]; [discriminate L|]. cbn [nonempty]. split; [reflexivity|]. split; [|reflexivity].
    split; [discriminate|]. intro Only. exfalso.
    assert (I : inside k (Element ns l a x (k :: ks) tl)) by (econstructor; [left; reflexivity|constructor]).
    specialize (Only k I). clear - Only.
    assert (Sz : forall e : xnode, exists n, n = (fix sz (e : xnode) : nat := match e with Element _ _ _ _ ks _ => S ((fix go l := match l with [] => 0 | k :: r => sz k + go r end)%nat ks) | NotElement _ => 1%nat end) e) by eauto.
    set (sz := (fix sz (e : xnode) : nat := match e with Element _ _ _ _ ks _ => S ((fix go l := match l with [] => 0 | k :: r => sz k + go r end)%nat ks) | NotElement _ => 1%nat end)) in *.
    apply (f_equal sz) in Only. destruct k; cbn [sz] in Only; lia.
Qed.

(** *** sample documents *)
Fixpoint in_namespace (n : option str) (e : xnode) : xnode :=
  match e with
  | Element _ l a x ks tl => Element n l a x (map (in_namespace n) ks) tl
  | NotElement tl => NotElement tl
  end.
Fixpoint elements_only (e : xnode) : bool :=
  match e with Element _ l _ _ ks _ => negb (existsb (N.eqb brace_close) l) && forallb elements_only ks | NotElement _ => false end.

Lemma in_namespace_inside n e c : inside c (in_namespace n e) -> exists c', inside c' e /\ c = in_namespace n c'.
Proof.
  revert c. induction e as [ns l a x ks tl IH|tl] using xnode_full; intros c I.
  - cbn [in_namespace] in I. inversion I as [|? k ? ? ? ? ? ? J K]; subst.
    + exists (Element ns l a x ks tl). split; [constructor|reflexivity].
    + apply in_map_iff in J as (k0 & <- & J). rewrite Forall_forall in IH. destruct (IH k0 J c K) as (c' & I' & E).
      exists c'. split; [econstructor; eauto|exact E].
  - exists (NotElement tl). inversion I. split; [constructor|reflexivity].
Qed.
Lemma elements_only_inside e c : elements_only e = true -> inside c e -> elements_only c = true.
Proof.
  intros H I. induction I as [|c k ns l a x ks tl J K IH]; [exact H|]. apply IH. cbn [elements_only] in H.
  apply andb_prop in H as [_ H]. rewrite forallb_forall in H. auto.
Qed.
Lemma in_namespace_namespaced n e : ~ In brace_close n -> namespaced (in_namespace (Some n) e).
Proof.
  intros N ns l a x ks tl I. apply in_namespace_inside in I as (c' & _ & E). destruct c'; [|discriminate E]. injection E as -> _ _ _ _ _. eauto.
Qed.
Lemma in_namespace_bare e : elements_only e = true -> bare (in_namespace None e).
Proof.
  intros O ns l a x ks tl I. apply in_namespace_inside in I as (c' & I & E). apply (elements_only_inside _ _ O) in I.
  destruct c'; [|discriminate E]. injection E as -> -> _ _ _ _. split; [reflexivity|]. cbn [elements_only] in I.
  apply andb_prop in I as [I _]. intro J. apply Bool.negb_true_iff in I.
  assert (X : existsb (N.eqb brace_close) local = true) by (apply existsb_exists; exists brace_close; split; [exact J|apply N.eqb_refl]).
  rewrite I in X. discriminate X.
Qed.
Lemma in_namespace_elements n e c : elements_only e = true -> inside c (in_namespace n e) -> is_element c.
Proof.
  intros O I. apply in_namespace_inside in I as (c' & I & ->). apply (elements_only_inside _ _ O) in I.
  destruct c'; [exact Logic.I|discriminate I].
Qed.
Lemma padded_self x : padded (match x with Some s => s | None => [] end) x.
Proof. exists [], []. rewrite app_nil_r. repeat split; constructor. Qed.
Lemma in_namespace_alike n n' e : elements_only e = true -> alike (in_namespace n e) (in_namespace n' e).
Proof.
  induction e as [ns l a x ks tl IH|tl] using xnode_full; intro O; [|discriminate O].
  cbn [in_namespace]. cbn [elements_only] in O. apply andb_prop in O as [_ O].
  econstructor; [apply padded_self|apply padded_self|]. apply alikes_forall2.
  induction IH as [|k r Hk _ IHr]; cbn [map]; constructor; cbn [forallb] in O; apply andb_prop in O as [O1 O2]; auto.
Qed.

Definition el (name text : string) (kids : list xnode) : xnode :=
  Element None (u name) [(u "comment", u "x")] (Some (u text)) kids (Some (u "
    ")).
(** a <unit-system> with a prefix, a basis unit and a defined unit *)
Definition sample : xnode :=
  el "unit-system" "
" [el "prefix" "" [el "value" "1e3" []; el "name" " kilo " []; el "symbol" "k" []];
   el "unit" "" [el "base" "" []; el "name" "" [el "singular" "meter" []]; el "symbol" "m" []];
   el "unit" "" [el "def" "
  12 m " []; el "aliases" "" [el "name" "" [el "singular" "box" []]]]].
(** a document around it, with a comment in front *)
Definition around (e : xnode) : xnode := Element None (u "udunits-2") [] None [NotElement None; e] None.
Definition any_order : list str -> list str := fun l => l.
Definition vocabulary (r : res system) : list str :=
  match r with Ok s => dkeys (s_names s) ++ dkeys (s_symbols s) ++ dkeys (s_alias_names s) ++ dkeys (s_prefix_names s) | Err _ => [u "failed"] end.

Lemma around_one e : unit_systems e = [e] -> the_unit_system (around e) e.
Proof. intro H. apply one_unit_system. cbn [around unit_systems flat_map]. rewrite H. reflexivity. Qed.
Lemma sample_plain : elements_only sample = true.
Proof. vm_compute. reflexivity. Qed.
Lemma sample_one n : the_unit_system (around (in_namespace n sample)) (in_namespace n sample).
Proof. apply around_one. reflexivity. Qed.
Lemma brace_free n : existsb (N.eqb brace_close) n = false -> ~ In brace_close n.
Proof. intros H I. assert (X : existsb (N.eqb brace_close) n = true) by (apply existsb_exists; exists brace_close; split; [exact I|apply N.eqb_refl]). rewrite H in X. discriminate X. Qed.

Example C103_example :
  vocabulary (read_document true any_order (around (in_namespace (Some (u "https://doi.org/10.5065/D6KD1WN0")) sample))) =
    [u "meter"; u "meters"; u "m"; u "box"; u "boxes"; u "kilo"] /\
  namespaced (in_namespace (Some (u "https://doi.org/10.5065/D6KD1WN0")) sample) /\
  alike (in_namespace (Some (u "a")) sample) (in_namespace (Some (u "b")) sample).
Proof.
  split; [vm_compute; reflexivity|]. split; [apply in_namespace_namespaced, brace_free; vm_compute; reflexivity|].
  apply in_namespace_alike, sample_plain.
Qed.

Example C103_bare_example :
  the_unit_system (around (in_namespace None sample)) (in_namespace None sample) /\ bare (in_namespace None sample) /\
  (forall c, inside c (in_namespace None sample) -> is_element c).
Proof.
  split; [apply sample_one|]. split; [apply in_namespace_bare, sample_plain|]. intros c. apply in_namespace_elements, sample_plain.
Qed.

(** The expectation that a document means the same with or without namespaces. *)
Theorem C104_namespaces_do_not_matter_refuted :
  ~ (forall strict set_order root root' e e',
     the_unit_system root e -> the_unit_system root' e' -> namespaced e -> bare e' -> alike e e' ->
     read_document strict set_order root = read_document strict set_order root').
Proof.
  intro H.
  pose proof (H false any_order _ _ _ _ (sample_one (Some (u "a"))) (sample_one None)
    (in_namespace_namespaced _ _ (brace_free (u "a") eq_refl)) (in_namespace_bare _ sample_plain) (in_namespace_alike _ _ _ sample_plain)) as E.
  apply (f_equal vocabulary) in E. vm_compute in E. discriminate E.
Qed.

(** ** C105.  Comments inside the unit-system element. *)
Inductive commented : xnode -> xnode -> Prop :=
| Cm ns l a x ks ks' tl : commenteds ks ks' -> commented (Element ns l a x ks tl) (Element ns l a x ks' tl)
with commenteds : list xnode -> list xnode -> Prop :=
| Cm_nil : commenteds [] []
| Cm_keep e e' l l' : commented e e' -> commenteds l l' -> commenteds (e :: l) (e' :: l')
| Cm_here tl l l' : commenteds l l' -> commenteds l (NotElement tl :: l').

Definition with_comment (e : xnode) : xnode :=
  match e with Element n l a x ks tl => Element n l a x (NotElement None :: ks) tl | _ => e end.

Lemma commented_same e : elements_only e = true -> commented e e.
Proof.
  induction e as [ns l a x ks tl IH|tl] using xnode_full; intro O; [|discriminate O].
  cbn [elements_only] in O. apply andb_prop in O as [_ O]. constructor.
  induction IH as [|k r Hk _ IHr]; constructor; cbn [forallb] in O; apply andb_prop in O as [O1 O2]; auto.
Qed.

Lemma with_comment_commented e : elements_only e = true -> commented e (with_comment e).
Proof.
  intro O. pose proof (commented_same e O) as S0. destruct e as [n l a x ks tl|]; [|discriminate O].
  inversion S0 as [? ? ? ? ? ? ? K]. cbn [with_comment]. constructor. constructor. exact K.
Qed.

Theorem C105_comments_are_ignored_refuted :
  ~ (forall strict set_order root root' e e',
     the_unit_system root e -> the_unit_system root' e' -> namespaced e -> commented e e' ->
     read_document strict set_order root = read_document strict set_order root').
Proof.
  intro H. set (e := in_namespace (Some (u "a")) sample).
  assert (U' : the_unit_system (around (with_comment e)) (with_comment e)) by (apply around_one; reflexivity).
  assert (C : commented e (with_comment e)).
  { apply with_comment_commented. vm_compute. reflexivity. }
  pose proof (H false any_order _ _ _ _ (sample_one (Some (u "a"))) U'
    (in_namespace_namespaced _ _ (brace_free (u "a") eq_refl)) C) as E.
  apply (f_equal vocabulary) in E. vm_compute in E. discriminate E.
Qed.

Print Assumptions C103_what_is_read.
Print Assumptions C103_only_content_counts.
Print Assumptions C103_refusals.
Print Assumptions C103_without_namespaces_nothing_is_read.
Print Assumptions C104_namespaces_do_not_matter_refuted.
Print Assumptions C105_comments_are_ignored_refuted.
