(** * C88: conversions and comparisons do not depend on history or on other threads *)
From Verif Require Import PyBase PyNum Graph RegexFacts Expr Units UnitSpec Sympy Convert ConvertFacts SymCache ConvertSpec.
From Coq Require Import QArith Lia.
Local Open Scope nat_scope.

(** ** What the requests should give: the answers of Convert.v, which has no attributes *)
Definition alone (objects : list unit) (q : request) : answer :=
  match q with
  | Equal i j => IsEqual (unit_eq (object objects i) (object objects j))
  | Convert g h _ => Converts (mk_converter (any objects g) (any objects h))
  end.

(** Requests about existing objects; the dictionaries compare basis units only, none of which is
    named like a symbol of the code's own. *)
Definition basis_object (objects : list unit) (i : nat) : Prop :=
  exists r dl it, nth_error objects i = Some (UBasis r dl it) /\ ~ In r own_names.
Definition well_posed (objects : list unit) (q : request) : Prop :=
  match q with
  | Equal i j => i < List.length objects /\ j < List.length objects
  | Convert g h probes => cell g < List.length objects /\ cell h < List.length objects /\
      Forall (fun p => basis_object objects (fst p) /\ basis_object objects (snd p)) probes
  end.

(** ** Attributes *)
Lemma load_store c i v j : load (store c i v) j = if (j =? i) && (i <? List.length c) then Some v else load c j.
Proof.
  revert i j. induction c as [| x c IH]; intros i j; cbn [store List.length].
  - rewrite andb_comm. reflexivity.
  - destruct i as [| i], j as [| j]; try reflexivity. unfold load in *. cbn [nth]. apply IH.
Qed.

Lemma store_length c i v : List.length (store c i v) = List.length c.
Proof. revert i. induction c as [| x c IH]; intros [| i]; cbn; auto. Qed.

Lemma Forall2_impl {A B} (P Q : A -> B -> Prop) l m : (forall a b, P a b -> Q a b) -> Forall2 P l m -> Forall2 Q l m.
Proof. intros H. induction 1; constructor; auto. Qed.

Section Proof.
Variable objects : list unit.

Definition good (c : caches) : Prop :=
  List.length c = List.length objects /\
  forall i v, load c i = Some v -> symbolic (object objects i) = Ok v.

(** [leads K p r n]: if the attributes in [K] are set, [p] returns [r] after at most [n] accesses *)
Inductive leads {A} : list nat -> job A -> res A -> nat -> Prop :=
| LReturn K r n : leads K (Return r) r n
| LLoad K i k r n :
    (~ In i K -> leads K (k None) r n) ->
    (forall v, symbolic (object objects i) = Ok v -> leads (i :: K) (k (Some v)) r n) ->
    leads K (Load i k) r (S n)
| LStore K i v k r n : i < List.length objects -> symbolic (object objects i) = Ok v ->
    leads (i :: K) k r n -> leads K (Store i v k) r (S n).

Lemma leads_more {A} K (p : job A) r n : leads K p r n -> forall K' m, incl K K' -> n <= m -> leads K' p r m.
Proof.
  induction 1 as [K r n | K i k r n H1 IH1 H2 IH2 | K i v k r n L S H IH]; intros K' m I M.
  - constructor.
  - destruct m as [| m]; [lia |]. constructor.
    + intros N. apply IH1; auto; lia.
    + intros v S. apply IH2; auto; [| lia]. intros x [-> | X]; [now left | right; auto].
  - destruct m as [| m]; [lia |]. constructor; auto. apply IH; [| lia].
    intros x [-> | X]; [now left | right; auto].
Qed.

Lemma leads_bind {A B} K (p : job A) r n : leads K p r n ->
  forall (f : A -> job B) r' m, (forall e, r = Err e -> r' = Err e) ->
  (forall a K', r = Ok a -> incl K K' -> leads K' (f a) r' m) -> leads K (jbind p f) r' (n + m).
Proof.
  induction 1 as [K r n | K i k r n H1 IH1 H2 IH2 | K i v k r n L S H IH]; intros f r' m E F; cbn [jbind].
  - destruct r as [a | e].
    + eapply leads_more; [apply F; [reflexivity |] | |]; [apply incl_refl | apply incl_refl | lia].
    + rewrite (E e eq_refl). constructor.
  - cbn [Nat.add]. constructor.
    + intros N. apply IH1; auto.
    + intros v S. apply IH2; auto. intros a K' R I. apply F; auto. intros x X. apply I. now right.
  - cbn [Nat.add]. constructor; auto. apply IH; auto. intros a K' R I. apply F; auto.
    intros x X. apply I. now right.
Qed.

Lemma leads_amap {A} K (p : job A) r n (f : res A -> answer) : leads K p r n -> leads K (amap f p) (Ok (f r)) n.
Proof.
  induction 1 as [K r n | K i k r n H1 IH1 H2 IH2 | K i v k r n L S H IH]; cbn [amap].
  - constructor.
  - constructor; auto.
  - constructor; auto.
Qed.

Lemma leads_symbolic K i : i < List.length objects -> leads K (j_symbolic objects i) (symbolic (object objects i)) 3.
Proof.
  intros L. unfold j_symbolic.
  assert (R : forall K v, In i K -> symbolic (object objects i) = Ok v ->
            leads K (Load i (fun o => Return (of_option o EOutOfModel))) (Ok v) 1).
  { intros K' v I S. constructor; [contradiction |]. intros w S'. rewrite S in S'. injection S' as <-. constructor. }
  constructor.
  - intros _. destruct (symbolic (object objects i)) as [v | e] eqn:S; [| constructor].
    constructor; auto. apply R; [now left | exact eq_refl || exact S].
  - intros v S. rewrite S. apply (leads_more (i :: K) _ _ 1); [apply R; [now left | exact S] | apply incl_refl | lia].
Qed.

Lemma leads_normal_form K i : i < List.length objects -> leads K (j_normal_form objects i) (normal_form (object objects i)) 3.
Proof.
  intros L. unfold j_normal_form. change 3 with (3 + 0). eapply leads_bind; [now apply leads_symbolic | |].
  - intros e E. unfold normal_form. now rewrite E.
  - intros td K' E _. unfold normal_form. rewrite E. constructor.
Qed.

Lemma leads_eq K i j : i < List.length objects -> j < List.length objects ->
  leads K (j_eq objects i j) (unit_eq (object objects i) (object objects j)) 6.
Proof.
  intros Li Lj. unfold j_eq, unit_eq. destruct (str_eqb _ _); [constructor |].
  change 6 with (3 + (3 + 0)). eapply leads_bind; [now apply leads_normal_form | |].
  - intros e E. now rewrite E.
  - intros n1 K' E _. rewrite E. cbn [bind]. eapply leads_bind; [now apply leads_normal_form | |].
    + intros e E2. now rewrite E2.
    + intros n2 K'' E2 _. rewrite E2. constructor.
Qed.

Lemma basis_normal_form r dl it : ~ In r own_names -> exists n, normal_form (UBasis r dl it) = Ok n.
Proof.
  intros N. unfold normal_form, symbolic. cbn. rewrite (not_reserved r N). cbn. eauto.
Qed.

Lemma basis_eq x y : (exists r dl it, x = UBasis r dl it /\ ~ In r own_names) ->
  (exists r dl it, y = UBasis r dl it /\ ~ In r own_names) -> exists b, unit_eq x y = Ok b.
Proof.
  intros (r & dl & it & -> & N) (r' & dl' & it' & -> & N'). unfold unit_eq. destruct (str_eqb _ _); [eauto |].
  destruct (basis_normal_form r dl it N) as [n ->], (basis_normal_form r' dl' it' N') as [n' ->]. cbn. eauto.
Qed.

Lemma basis_object_length i : basis_object objects i -> i < List.length objects.
Proof. intros (r & dl & it & H & _). apply nth_error_Some. rewrite H. discriminate. Qed.

Lemma basis_object_is i : basis_object objects i -> exists r dl it, object objects i = UBasis r dl it /\ ~ In r own_names.
Proof.
  intros (r & dl & it & H & N). exists r, dl, it. split; [| exact N]. unfold object. now apply nth_error_nth.
Qed.

Lemma leads_probes K l : Forall (fun p => basis_object objects (fst p) /\ basis_object objects (snd p)) l ->
  exists bs, leads K (j_probes objects l) (Ok bs) (6 * List.length l).
Proof.
  revert K. induction l as [| [i j] l IH]; intros K F; cbn [j_probes List.length].
  - exists []. constructor.
  - inversion F as [| ? ? [Bi Bj] F']; subst. cbn [fst snd] in *.
    destruct (basis_eq (object objects i) (object objects j)) as [b Eb]; auto using basis_object_is.
    destruct (IH [] F') as [bs Hbs]. exists (b :: bs).
    replace (6 * S (List.length l)) with (6 + (6 * List.length l + 0)) by lia.
    eapply leads_bind; [apply leads_eq; auto using basis_object_length | |].
    + rewrite Eb. discriminate.
    + intros b' K' E _. rewrite Eb in E. injection E as <-.
      eapply leads_bind; [eapply leads_more; [exact Hbs | apply incl_nil_l | lia] | discriminate |].
      intros bs' K'' E _. injection E as <-. constructor.
Qed.

Definition cost (q : request) : nat :=
  match q with Equal _ _ => 6 | Convert _ _ probes => 6 * List.length probes + 6 end.

Lemma leads_converter K g h probes : well_posed objects (Convert g h probes) ->
  leads K (j_converter objects g h probes) (mk_converter (any objects g) (any objects h)) (6 * List.length probes + 6).
Proof.
  intros (Lg & Lh & F). destruct (leads_probes K probes F) as [bs Hbs]. unfold j_converter.
  eapply leads_bind; [exact Hbs | discriminate |]. intros _ K' _ _. clear F Hbs. unfold mk_converter.
  assert (P : forall A B (r : res A) (f : A -> job B) r' K m, (forall e, r = Err e -> r' = Err e) ->
            (forall a, r = Ok a -> leads K (f a) r' m) -> leads K (jbind (Return r) f) r' m).
  { intros A B r f r' K2 m E Q. cbn [jbind]. destruct r as [a | e]; [now apply Q |]. rewrite (E e eq_refl). constructor. }
  assert (C : forall h, core (any objects h) = object objects (cell h)) by (intros [i | i r]; reflexivity).
  apply P; [intros e E; now rewrite E |]. intros da ->. cbn [bind].
  apply P; [intros e E; now rewrite E |]. intros db ->. cbn [bind].
  apply P; [intros e E; now rewrite E |]. intros ia ->. cbn [bind].
  destruct (negb _); [constructor |]. rewrite !C.
  change 6 with (3 + (3 + 0)). eapply leads_bind; [now apply leads_normal_form | |].
  - intros e E. now rewrite E.
  - intros n1 K2 E _. rewrite E. cbn [bind]. eapply leads_bind; [now apply leads_normal_form | |].
    + intros e E2. now rewrite E2.
    + intros n2 K3 E2 _. rewrite E2. constructor.
Qed.

Lemma leads_program K q : well_posed objects q -> leads K (program objects q) (Ok (alone objects q)) (cost q).
Proof.
  destruct q as [i j | g h probes]; intros W; cbn [program alone cost].
  - apply (leads_amap _ _ _ _ IsEqual). destruct W. now apply leads_eq.
  - apply (leads_amap _ _ _ _ Converts). now apply leads_converter.
Qed.

(** ** The invariant *)
Definition set_in (c : caches) (K : list nat) : Prop := forall i, In i K -> load c i <> None.

Definition fine_log (l : list (request * res answer)) : Prop :=
  Forall (fun e => snd e = Ok (alone objects (fst e))) l.

(** the work a thread still has *)
Definition fuel (now : nat) (l : list request) : nat := now + list_sum (map (fun q => cost q + 2) l).

Inductive fine (c : caches) : thread -> nat -> Prop :=
| FineIdle l log : Forall (well_posed objects) l -> fine_log log -> fine c (mkThread None l log) (fuel 0 l)
| FineBusy q p l log K n : Forall (well_posed objects) l -> fine_log log -> set_in c K ->
    leads K p (Ok (alone objects q)) n -> fine c (mkThread (Some (q, p)) l log) (fuel (S n) l).

(** attributes are only ever set *)
Definition grows (c c' : caches) : Prop := forall i v, load c i = Some v -> load c' i = Some v.

Lemma grows_set c c' K : grows c c' -> set_in c K -> set_in c' K.
Proof.
  intros G S i I. specialize (S i I). destruct (load c i) as [v |] eqn:E; [| contradiction].
  rewrite (G i v E). discriminate.
Qed.

Lemma grows_fine c c' t n : grows c c' -> fine c t n -> fine c' t n.
Proof. intros G [l log W F | q p l log K n' W F S L]; econstructor; eauto using grows_set. Qed.

Lemma tstep_fine c t c' t' n : good c -> tstep objects c t c' t' -> fine c t n ->
  good c' /\ grows c c' /\ exists m, fine c' t' m /\ m < n.
Proof.
  intros G St F. destruct St as [c q l log | c q i k l log | c q i v k l log | c q r l log].
  - split; [exact G |]. split; [now intros ? ? |]. inversion F as [l' log' W L Et En | ]; subst.
    inversion W as [| ? ? Wq Wl]; subst.
    exists (fuel (S (cost q)) l). split.
    + apply (FineBusy c q (program objects q) l log []); auto; [intros i []|]. now apply leads_program.
    + unfold fuel. cbn [map list_sum fold_right]. change (fold_right Nat.add 0) with list_sum. lia.
  - split; [exact G |]. split; [now intros ? ? |].
    inversion F as [| q' p l' log' K n' W L Sk Ld Et En]; subst. inversion Ld as [| K' i' k' r n'' H1 H2 |]; subst.
    destruct (load c i) as [v |] eqn:E.
    + exists (fuel (S n'') l). split; [| unfold fuel; lia]. apply (FineBusy c q _ l log (i :: K)); auto.
      * intros j [-> | J]; [rewrite E; discriminate | now apply Sk].
      * apply H2. now apply G.
    + exists (fuel (S n'') l). split; [| unfold fuel; lia]. apply (FineBusy c q _ l log K); auto.
      apply H1. intros I. now apply (Sk i I).
  - inversion F as [| q' p l' log' K n' W L Sk Ld Et En]; subst. inversion Ld as [| | K' i' v' k' r n'' Li Sy H]; subst.
    destruct G as [Gl Gv].
    assert (Gr : grows c (store c i v)).
    { intros j w E. rewrite load_store. destruct (j =? i) eqn:J; cbn [andb]; [| exact E].
      apply Nat.eqb_eq in J. subst j. destruct (i <? _); [| exact E]. apply Gv in E. rewrite Sy in E.
      injection E as ->. reflexivity. }
    split; [| split; [exact Gr |]].
    + split; [now rewrite store_length |]. intros j w. rewrite load_store.
      destruct (j =? i) eqn:J; cbn [andb]; [| apply Gv]. apply Nat.eqb_eq in J. subst j.
      destruct (i <? _); [| apply Gv]. intros E. injection E as <-. exact Sy.
    + exists (fuel (S n'') l). split; [| unfold fuel; lia]. apply (FineBusy _ q _ l log (i :: K)); auto.
      intros j [-> | J].
      * rewrite load_store, Nat.eqb_refl. apply Nat.ltb_lt in Li. rewrite Gl, Li. discriminate.
      * now apply (grows_set c _ K Gr Sk).
  - split; [exact G |]. split; [now intros ? ? |].
    inversion F as [| q' p l' log' K n' W L Sk Ld Et En]; subst. inversion Ld as [K' r' n'' E1 E2 | |]; subst.
    exists (fuel 0 l). split; [| unfold fuel; lia]. constructor; auto. now constructor.
Qed.

Definition state_fine (s : state) (n : nat) : Prop :=
  good (st_caches s) /\ exists ns, Forall2 (fine (st_caches s)) (st_threads s) ns /\ list_sum ns = n.

Lemma step_fine s s' n : step objects s s' -> state_fine s n ->
  grows (st_caches s) (st_caches s') /\ exists m, state_fine s' m /\ m < n.
Proof.
  intros [c c' before t t' after St] [G (ns & F & En)]. cbn [st_caches st_threads] in *.
  apply Forall2_app_inv_l in F. destruct F as (n1 & n2 & F1 & F2 & ->). inversion F2 as [| ? k ? n3 Ft F3]; subst.
  destruct (tstep_fine c t c' t' k G St Ft) as (G' & Gr & m & Fm & Lt).
  split; [exact Gr |]. exists (list_sum (n1 ++ m :: n3)). split.
  - split; [exact G' |]. exists (n1 ++ m :: n3). split; [| reflexivity]. cbn [st_threads st_caches].
    apply Forall2_app; [eapply Forall2_impl; [| exact F1]; eauto using grows_fine |].
    constructor; [exact Fm |]. eapply Forall2_impl; [| exact F3]. eauto using grows_fine.
  - rewrite !list_sum_app. cbn [list_sum fold_right]. change (fold_right Nat.add 0) with list_sum. lia.
Qed.

Definition work_bound (work : list (list request)) : nat := list_sum (map (fuel 0) work).

Lemma initial_fine work : Forall (Forall (well_posed objects)) work ->
  state_fine (initial objects work) (work_bound work).
Proof.
  intros W. split.
  - split; [cbn; apply map_length |]. cbn. intros i v. unfold load.
    assert (N : nth i (map (fun _ : unit => @None symdef) objects) None = None).
    { clear. revert i. induction objects as [| x l IH]; intros [| i]; cbn; auto. }
    rewrite N. discriminate.
  - exists (map (fuel 0) work). split; [| reflexivity]. cbn.
    induction W as [| l work Wl W IH]; cbn; constructor; auto. constructor; auto. constructor.
Qed.
End Proof.

Lemma steps_fine objects s0 s : steps objects s0 s -> forall n, state_fine objects s0 n ->
  grows (st_caches s0) (st_caches s) /\ exists m, state_fine objects s m /\ m <= n.
Proof.
  induction 1 as [s0 | s0 s1 s2 H IH St]; intros n F.
  - split; [now intros ? ? |]. exists n. auto.
  - destruct (IH n F) as (G & m & Fm & Lm). destruct (step_fine objects s1 s2 m St Fm) as (G' & m' & F' & L').
    split; [intros i v E; apply G', G, E |]. exists m'. split; [exact F' | lia].
Qed.

(** ** The theorems.  [work]: one list of requests per thread. *)

(** Every answer is the one the request would get alone, in a fresh process. *)
Theorem C88_answers_do_not_depend_on_the_schedule :
  forall objects work s, Forall (Forall (well_posed objects)) work -> steps objects (initial objects work) s ->
  forall t q r, In t (st_threads s) -> In (q, r) (t_log t) -> r = Ok (alone objects q).
Proof.
  intros objects work s W H t q r T L.
  destruct (steps_fine _ _ _ H _ (initial_fine objects work W)) as (_ & m & [_ (ns & F & _)] & _).
  assert (X : exists n, fine objects (st_caches s) t n).
  { clear -F T. induction F as [| x n l ns Fx F IH]; [destruct T |]. destruct T as [-> | T]; eauto. }
  destruct X as [n X]. destruct X as [l log _ Lg | q' p l log K n _ Lg _ _]; cbn [t_log] in L;
    unfold fine_log in Lg; rewrite Forall_forall in Lg; exact (Lg _ L).
Qed.

(** An attribute is set once, to the symbolic definition of its own unit. *)
Theorem C88_attributes :
  forall objects work s, Forall (Forall (well_posed objects)) work -> steps objects (initial objects work) s ->
  (forall i v, load (st_caches s) i = Some v -> symbolic (object objects i) = Ok v) /\
  (forall s' i v, steps objects s s' -> load (st_caches s) i = Some v -> load (st_caches s') i = Some v).
Proof.
  intros objects work s W H.
  destruct (steps_fine _ _ _ H _ (initial_fine objects work W)) as (_ & m & Fm & _). split.
  - destruct Fm as [[_ G] _]. exact G.
  - intros s' i v H' E. destruct (steps_fine _ _ _ H' m Fm) as (G & _). now apply G.
Qed.

(** Nobody waits for anybody: every schedule ends within a number of steps known beforehand, and
    when no thread can go on every request has been answered, in order. *)
Inductive nsteps (objects : list unit) : nat -> state -> state -> Prop :=
| NSame s : nsteps objects 0 s s
| NThen n s s' s'' : nsteps objects n s s' -> step objects s' s'' -> nsteps objects (S n) s s''.

Lemma nsteps_steps objects n s s' : nsteps objects n s s' -> steps objects s s'.
Proof. induction 1; econstructor; eauto. Qed.

Lemma nsteps_bound objects n s s' : nsteps objects n s s' -> forall k, state_fine objects s k ->
  exists m, state_fine objects s' m /\ m + n <= k.
Proof.
  induction 1 as [s | n s s1 s2 H IH St]; intros k F; [exists k; split; [exact F | lia] |].
  destruct (IH k F) as (m & Fm & L). destruct (step_fine objects s1 s2 m St Fm) as (_ & m' & F' & L').
  exists m'. split; [exact F' | lia].
Qed.

(** what a thread was given, told from what it has done and what is left *)
Definition given (t : thread) : list request :=
  rev (map fst (t_log t)) ++ (match t_now t with Some (q, _) => [q] | None => [] end) ++ t_todo t.

Lemma step_given objects s s' : step objects s s' -> map given (st_threads s') = map given (st_threads s).
Proof.
  intros [c c' before t t' after St]. cbn [st_threads]. rewrite !map_app. cbn [map]. do 2 f_equal.
  destruct St; unfold given; cbn; rewrite <- ?app_assoc; reflexivity.
Qed.

Lemma steps_given objects s s' : steps objects s s' -> map given (st_threads s') = map given (st_threads s).
Proof. induction 1 as [| s s1 s2 H IH St]; [reflexivity |]. rewrite <- IH. now apply (step_given objects). Qed.

Theorem C88_every_schedule_ends :
  forall objects work, Forall (Forall (well_posed objects)) work ->
  (exists bound, forall n s, nsteps objects n (initial objects work) s -> n <= bound) /\
  forall s, steps objects (initial objects work) s -> (forall s', ~ step objects s s') ->
    map (fun t => rev (t_log t)) (st_threads s) = map (map (fun q => (q, Ok (alone objects q)))) work.
Proof.
  intros objects work W. split.
  - exists (work_bound work). intros n s H.
    destruct (nsteps_bound _ _ _ _ H _ (initial_fine objects work W)) as (m & _ & L). lia.
  - intros s H Stuck.
    assert (Idle : forall t, In t (st_threads s) -> t_now t = None /\ t_todo t = []).
    { intros t T. apply in_split in T. destruct T as (l1 & l2 & E). destruct s as [c ts]. cbn [st_threads] in E. subst ts.
      destruct t as [[[q p] |] todo log].
      - exfalso. destruct p; eapply Stuck; econstructor; constructor.
      - destruct todo as [| q todo]; [auto |]. exfalso. eapply Stuck. econstructor. constructor. }
    assert (Gv : map given (st_threads s) = work).
    { rewrite (steps_given _ _ _ H). cbn. rewrite map_map. cbn. now rewrite map_id. }
    rewrite <- Gv, map_map. apply map_ext_in. intros t T. destruct (Idle t T) as [N D]. unfold given. rewrite N, D.
    cbn [app]. rewrite app_nil_r, <- map_rev, map_map.
    rewrite <- (map_id (rev (t_log t))) at 1. apply map_ext_in. intros [q r] I. cbn [fst].
    apply in_rev in I. now rewrite (C88_answers_do_not_depend_on_the_schedule objects work s W H t q r T I).
Qed.

(** ** Example: two threads both find the attribute empty and both set it. *)
Definition tick1 (objects : list unit) (c : caches) (t : thread) : option (caches * thread) :=
  match t with
  | mkThread None (q :: l) log => Some (c, mkThread (Some (q, program objects q)) l log)
  | mkThread None [] _ => None
  | mkThread (Some (q, Load i k)) l log => Some (c, mkThread (Some (q, k (load c i))) l log)
  | mkThread (Some (q, Store i v k)) l log => Some (store c i v, mkThread (Some (q, k)) l log)
  | mkThread (Some (q, Return r)) l log => Some (c, mkThread None l ((q, r) :: log))
  end.
Definition tick (objects : list unit) (s : state) (j : nat) : state :=
  match nth_error (st_threads s) j with
  | Some t => match tick1 objects (st_caches s) t with
              | Some (c, t') => mkState c (firstn j (st_threads s) ++ t' :: skipn (S j) (st_threads s))
              | None => s
              end
  | None => s
  end.

Lemma tick_steps objects s j : steps objects s (tick objects s j).
Proof.
  unfold tick. destruct (nth_error (st_threads s) j) as [t |] eqn:E; [| constructor].
  destruct (tick1 objects (st_caches s) t) as [[c t'] |] eqn:T; [| constructor].
  assert (Sp : s = mkState (st_caches s) (firstn j (st_threads s) ++ t :: skipn (S j) (st_threads s))).
  { destruct s as [c0 l]. cbn in *. f_equal. clear T. revert j E. induction l as [| x l IH]; intros [| j] E; try discriminate.
    - now injection E as ->.
    - cbn in *. f_equal. now apply IH. }
  eapply Then; [apply Same |]. rewrite Sp at 1. constructor. clear Sp E.
  destruct t as [[[q [r | i k | i v k]] |] [| q' l] log]; cbn in T; try discriminate T; injection T as <- <-; constructor.
Qed.

Lemma ticks_steps objects l : forall s, steps objects s (fold_left (tick objects) l s).
Proof.
  assert (Tr : forall a b c, steps objects a b -> steps objects b c -> steps objects a c).
  { intros a b c H H2. induction H2 as [| s s1 s2 H2 IH2 St]; [exact H |]. exact (Then _ _ _ _ (IH2 H) St). }
  induction l as [| j l IH]; intros s; cbn [fold_left]; [constructor |]. eapply Tr; [apply tick_steps | apply IH].
Qed.

Definition ex_meter : unit := UBasis (u "meter") false false.
Definition ex_objects : list unit :=
  [ex_meter; UBasis (u "second") false true;
   UExpr (Multiply (Number (NInt 1000) None) (Identifier (u "m"))) [(u "m", RUnit ex_meter)];
   UExpr (Identifier (u "m")) [(u "m", RUnit ex_meter)]].
Definition ex_work : list (list request) :=
  [[Equal 2 3; Convert (HUnit 2) (HUnit 3) [(0, 1)]]; [Convert (HUnit 2) (HUnit 3) []]].
Definition ex_s1 : state := fold_left (tick ex_objects) [0; 1; 0; 1; 0; 1]  (initial ex_objects ex_work).
Definition ex_s2 : state := fold_left (tick ex_objects) (repeat 0 40 ++ repeat 1 20) ex_s1.

Example C88_example :
  Forall (Forall (well_posed ex_objects)) ex_work /\
  steps ex_objects (initial ex_objects ex_work) ex_s1 /\ steps ex_objects ex_s1 ex_s2 /\
  (* both threads have seen None and both have stored *)
  Forall (fun t => match t_now t with Some (_, Load 2 _) => True | _ => False end) (st_threads ex_s1) /\
  map (fun t => map snd (rev (t_log t))) (st_threads ex_s2) =
    [[Ok (IsEqual (Ok false));
      Ok (Converts (mk_converter (AUnit (object ex_objects 2)) (AUnit (object ex_objects 3))))];
     [Ok (Converts (mk_converter (AUnit (object ex_objects 2)) (AUnit (object ex_objects 3))))]] /\
  match mk_converter (AUnit (object ex_objects 2)) (AUnit (object ex_objects 3)) with
  | Ok c => convertQ c 3 = Ok 3000%Q
  | Err _ => False
  end.
Proof.
  split; [| split; [apply ticks_steps | split; [apply ticks_steps | split; [| split]]]].
  - assert (B : forall i r dl it, nth_error ex_objects i = Some (UBasis r dl it) ->
              existsb (str_eqb r) own_names = false -> basis_object ex_objects i).
    { intros i r dl it H N. exists r, dl, it. split; [exact H |]. intros I.
      assert (T : existsb (str_eqb r) own_names = true) by (apply existsb_exists; exists r; split; [exact I | apply str_eqb_refl]).
      rewrite T in N. discriminate N. }
    constructor; [| constructor; [| constructor]].
    + constructor; [cbn; lia | constructor; [| constructor]]. split; [cbn; lia |]. split; [cbn; lia |].
      constructor; [| constructor]. split; eapply B; reflexivity.
    + constructor; [| constructor]. split; [cbn; lia |]. split; [cbn; lia |]. constructor.
  - vm_compute. repeat constructor.
  - vm_compute. reflexivity.
  - vm_compute. reflexivity.
Qed.
