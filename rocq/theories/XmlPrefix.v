(** * The order of prefix symbols does not matter (C39). *)
From Verif Require Import PyBase PyNum Graph Visitor Expr Units UnitSystem SystemSpec SystemFacts SystemMore SystemKeep Xml XmlSpec XmlFacts.
From Coq Require Import Permutation.

(** the first prefix with which [q] leaves an accepted rest *)
Fixpoint find_fit (P : str -> bool) (q : str) (ps : dict prefix) : option (str * str * str) :=
  match ps with
  | [] => None
  | (key, p) :: ps' =>
    match strip_prefix key q with
    | Some k => if P k then Some (key, pf_value p, k) else find_fit P q ps'
    | None => find_fit P q ps'
    end
  end.

Definition fit_alike (a b : dict prefix) : Prop := forall P q, find_fit P q a = find_fit P q b.

(** equal systems but for the prefixes, which are alike *)
Record par (a b : system) : Prop := {
  pa_symbols : s_symbols a = s_symbols b;
  pa_names : s_names a = s_names b;
  pa_alias_names : s_alias_names a = s_alias_names b;
  pa_alias_symbols : s_alias_symbols a = s_alias_symbols b;
  pa_lazies : s_lazies a = s_lazies b;
  pa_pn : fit_alike (s_prefix_names a) (s_prefix_names b);
  pa_ps : fit_alike (s_prefix_symbols a) (s_prefix_symbols b) }.

Definition parm {A} (m : M A) (m' : M A) : Prop := forall a b, par a b ->
  fst (m a) = fst (m' b) /\ par (snd (m a)) (snd (m' b)).

Lemma parm_lift {A} (r : res A) : parm (lift r) (lift r).
Proof. intros a b H. auto. Qed.
Lemma parm_bind {A B} (m m' : M A) (f f' : A -> M B) : parm m m' -> (forall x, parm (f x) (f' x)) -> parm (mbind m f) (mbind m' f').
Proof.
  intros H G a b R. destruct (H a b R) as [E R']. unfold mbind. destruct (m a) as [[x|e] a'], (m' b) as [[y|e'] b']; cbn [fst snd] in *.
  - injection E as <-. now apply G.
  - discriminate.
  - discriminate.
  - injection E as <-. auto.
Qed.
Lemma parm_mmapM {A B} (f f' : A -> M B) l : (forall x, parm (f x) (f' x)) -> parm (mmapM f l) (mmapM f' l).
Proof.
  intro H. induction l as [|x l IH]; cbn [mmapM]; [apply (parm_lift (Ok []))|].
  apply parm_bind; auto. intro y. apply parm_bind; auto. intro ys. apply (parm_lift (Ok (y :: ys))).
Qed.

Section Par.
Variable ord : list str -> list str.
Variable rec : str -> M unit.
Hypothesis Hrec : forall q, parm (rec q) (rec q).

Lemma par_known a b k : par a b -> known_opt a k = known_opt b k.
Proof. intros [E1 E2 E3 E4 E5 _ _]. unfold known_opt. now rewrite E1, E2, E3, E4. Qed.

Lemma parm_refs ids : parm (resolve_refs ord rec ids) (resolve_refs ord rec ids).
Proof. apply parm_mmapM. intro k. apply parm_bind; auto. intro x. apply (parm_lift (Ok (k, RUnit x))). Qed.

Lemma par_register e r a b : par a b -> par (register e r a) (register e r b).
Proof. intros [E1 E2 E3 E4 E5 E6 E7]. constructor; cbn [register s_symbols s_names s_alias_names s_alias_symbols s_lazies s_prefix_names s_prefix_symbols]; congruence || auto. Qed.
Lemma par_set i l a b : par a b -> par (set_lazy i l a) (set_lazy i l b).
Proof. intros [E1 E2 E3 E4 E5 E6 E7]. constructor; cbn [set_lazy s_symbols s_names s_alias_names s_alias_symbols s_lazies s_prefix_names s_prefix_symbols]; congruence || auto. Qed.

Lemma parm_resolve i : parm (resolve ord rec i) (resolve ord rec i).
Proof.
  intros a b R. unfold resolve. rewrite (pa_lazies a b R). destruct (nth_error (s_lazies b) i) as [l|]; [|auto].
  destruct (lz_resolved l); [auto|]. revert a b R.
  apply (parm_bind (lift (parse (lz_def l))) (lift (parse (lz_def l)))); [apply parm_lift|]. intro g.
  apply parm_bind; [apply parm_refs|]. intro refs. apply parm_bind; [apply parm_lift|]. intro x.
  intros a b R. cbn [fst snd]. split; auto. now apply par_set.
Qed.

Lemma parm_force o : parm (force_entry ord rec o) (force_entry ord rec o).
Proof.
  destruct o as [[i|x r]|]; cbn [force_entry].
  - intros a b R. rewrite (pa_lazies a b R). destruct (nth_error (s_lazies b) i) as [l|]; [|auto]. revert a b R.
    apply parm_bind; [apply parm_resolve|]. intros x a b R. cbn [fst snd]. split; auto. now apply par_register.
  - apply (parm_lift (Ok (Some x))).
  - apply (parm_lift (Ok None)).
Qed.

Lemma parm_either k : parm (unit_by_either ord rec k) (unit_by_either ord rec k).
Proof.
  apply parm_bind.
  - intros a b R. unfold unit_by_name. destruct R as [E1 E2 E3 E4 E5 E6 E7] eqn:Z. rewrite E2, E3. apply parm_force. constructor; auto.
  - intros [x|]; [apply (parm_lift (Ok (Some x)))|].
    intros a b R. unfold unit_by_symbol. destruct R as [E1 E2 E3 E4 E5 E6 E7] eqn:Z. rewrite E1, E4. apply parm_force. constructor; auto.
Qed.

Definition is_known (s : system) (k : str) : bool := match known_opt s k with Some _ => true | None => false end.

Lemma try_find ps q s : try_prefixes ord rec ps q s =
  match find_fit (is_known s) q ps with
  | None => (Ok None, s)
  | Some (key, v, k) =>
    (dom o <- unit_by_either ord rec k ;;
     match o with
     | Some x => dom y <- lift (prefixed_unit key (mkPrefix [] v []) k x) ;; ret (Some y)
     | None => ret None
     end) s
  end.
Proof.
  induction ps as [|[key p] ps IH]; cbn [try_prefixes find_fit]; [reflexivity|].
  destruct (strip_prefix key q) as [k|] eqn:E; [|exact IH].
  unfold is_known at 1. destruct (known_opt s k) eqn:K.
  - unfold mbind. destruct (unit_by_either ord rec k s) as [[[x|]|er] s'] eqn:U.
    + reflexivity.
    + exfalso. apply either_none in U as [U _]. congruence.
    + reflexivity.
  - unfold mbind. rewrite (either_unknown ord rec k s K). exact IH.
Qed.

Lemma parm_try ps ps' q : fit_alike ps ps' -> parm (try_prefixes ord rec ps q) (try_prefixes ord rec ps' q).
Proof.
  intros H a b R. rewrite !try_find.
  replace (find_fit (is_known b) q ps') with (find_fit (is_known a) q ps).
  2: { rewrite H. clear -R. induction ps' as [|[key p] ps IH]; cbn [find_fit]; [reflexivity|].
       destruct (strip_prefix key q); auto. unfold is_known at 1 3. rewrite (par_known a b _ R), IH. reflexivity. }
  destruct (find_fit (is_known a) q ps) as [[[key v] k]|]; [|auto]. revert a b R.
  apply parm_bind; [apply parm_either|]. intros [x|]; [|apply (parm_lift (Ok None))].
  apply parm_bind; [apply parm_lift|]. intro y. apply (parm_lift (Ok (Some y))).
Qed.

Lemma parm_body q : parm (lookup_body ord rec q) (lookup_body ord rec q).
Proof.
  apply parm_bind; [apply parm_either|]. intros [x|]; [apply (parm_lift (Ok x))|].
  apply parm_bind; [intros a b R; apply parm_try; [apply (pa_pn a b R)|exact R]|]. intros [x|]; [apply (parm_lift (Ok x))|].
  apply parm_bind; [intros a b R; apply parm_try; [apply (pa_ps a b R)|exact R]|]. intros [x|]; [apply (parm_lift (Ok x))|].
  apply (parm_lift (Err (EUnresolvable q))).
Qed.
End Par.

Lemma parm_lookup ord f : forall q, parm (lookup ord f q) (lookup ord f q).
Proof.
  induction f as [|f IH]; intro q; cbn [lookup]; [apply (parm_lift (Err ERecursion))|]. now apply parm_body.
Qed.
Lemma parm_unit ord f t : parm (sys_unit ord f t) (sys_unit ord f t).
Proof.
  apply parm_bind; [apply parm_lift|]. intro e. apply parm_bind; [apply parm_refs, parm_lookup|]. intro refs. apply parm_lift.
Qed.
Lemma par_run ord a b c : par a b -> par (run ord a c) (run ord b c).
Proof. intro R. destruct c as [f q|f t]; cbn [run]; [now apply parm_lookup|now apply parm_unit]. Qed.
Lemma par_after ord cs : forall a b, par a b -> par (after ord a cs) (after ord b cs).
Proof. induction cs as [|c cs IH]; intros a b R; [exact R|]. apply IH. now apply par_run. Qed.

(** ** The dictionaries of prefixes *)
Lemma find_fit_app P q a b : find_fit P q (a ++ b) = match find_fit P q a with Some x => Some x | None => find_fit P q b end.
Proof.
  induction a as [|[key p] a IH]; cbn [app find_fit]; [reflexivity|].
  destruct (strip_prefix key q) as [k|]; auto. destruct (P k); auto.
Qed.

Lemma fit_alike_app a b a' b' : fit_alike a a' -> fit_alike b b' -> fit_alike (a ++ b) (a' ++ b').
Proof. intros A B P q. now rewrite !find_fit_app, A, B. Qed.

Definition block (syms : list str) (p : prefix) : dict prefix := map (fun w => (w, p)) syms.

Lemma find_block P q v syms p : pf_value p = v -> find_fit P q (block syms p) = find_fit P q (block syms (mkPrefix [] v [])).
Proof.
  intros <-. induction syms as [|w syms IH]; cbn [block map find_fit]; [reflexivity|].
  unfold block in IH. rewrite IH. reflexivity.
Qed.

Lemma find_block_some P q syms p key v k : find_fit P q (block syms p) = Some (key, v, k) ->
  v = pf_value p /\ In key syms /\ q = key ++ k /\ P k = true.
Proof.
  induction syms as [|w syms IH]; cbn [block map find_fit]; [discriminate|].
  destruct (strip_prefix w q) as [k'|] eqn:E.
  - destruct (P k') eqn:Z.
    + injection 1 as <- <- <-. apply strip_prefix_iff in E. repeat split; auto. now left.
    + intro H. destruct (IH H) as (A & B & C). repeat split; tauto || (now right).
  - intro H. destruct (IH H) as (A & B & C). repeat split; tauto || (now right).
Qed.
Lemma find_block_none P q syms p : find_fit P q (block syms p) = None -> forall w k, In w syms -> q = w ++ k -> P k = false.
Proof.
  induction syms as [|w syms IH]; cbn [block map find_fit]; [intros _ ? ? []|].
  intros H w' k [->|I] E.
  - rewrite (proj2 (strip_prefix_iff w' q k) E) in H. destruct (P k); [discriminate|reflexivity].
  - destruct (strip_prefix w q) as [k'|]; [destruct (P k'); [discriminate|]|]; eapply IH; eauto.
Qed.

Lemma comparable (a b x y : str) : a ++ x = b ++ y -> begins_with a b \/ begins_with b a.
Proof.
  revert b. induction a as [|c a IH]; intros b E; [left; now exists b|].
  destruct b as [|d b]; [right; now exists (c :: a)|]. injection E as -> E.
  destruct (IH b E) as [[r ->]|[r ->]]; [left|right]; now exists r.
Qed.

Lemma block_alike syms syms' p p' : pf_value p = pf_value p' -> (forall w, In w syms <-> In w syms') ->
  (forall v w, In v syms -> In w syms -> begins_with v w -> v = w) -> fit_alike (block syms p) (block syms' p').
Proof.
  intros V S B P q. rewrite (find_block P q (pf_value p)), (find_block P q (pf_value p) syms') by congruence. set (p0 := mkPrefix [] (pf_value p) []).
  destruct (find_fit P q (block syms p0)) as [[[key v] k]|] eqn:E.
  - apply find_block_some in E as (-> & I & Q & Z).
    destruct (find_fit P q (block syms' p0)) as [[[key' v'] k']|] eqn:E'.
    + apply find_block_some in E' as (-> & I' & Q' & Z'). apply S in I'.
      assert (K : key = key'). { rewrite Q in Q'. apply comparable in Q' as [C|C]; [|symmetry]; apply B; auto. }
      subst key'. rewrite Q in Q'. apply app_inv_head in Q'. now subst.
    + exfalso. apply S in I. pose proof (find_block_none _ _ _ _ E' key k I Q). congruence.
  - destruct (find_fit P q (block syms' p0)) as [[[key' v'] k']|] eqn:E'; [|reflexivity].
    apply find_block_some in E' as (-> & I' & Q' & Z'). apply S in I'. pose proof (find_block_none _ _ _ _ E key' k' I' Q'). congruence.
Qed.

Lemma dset_fresh {V} k (v : V) d : dmem k d = false -> dset k v d = d ++ [(k, v)].
Proof.
  induction d as [|[k' v'] d IH]; cbn [dset app]; [reflexivity|]. unfold dmem. cbn [dget].
  destruct (str_eqb k k'); [discriminate|]. intro H. now rewrite IH.
Qed.
Lemma dmem_app {V} k (a b : dict V) : dmem k (a ++ b) = dmem k a || dmem k b.
Proof. unfold dmem. induction a as [|[k' v'] a IH]; cbn [app dget]; [reflexivity|]. destruct (str_eqb k k'); auto. Qed.

Lemma dset_block p syms : forall d, NoDup syms -> (forall w, In w syms -> dmem w d = false) ->
  fold_left (fun d sym => dset sym p d) syms d = d ++ block syms p.
Proof.
  induction syms as [|w syms IH]; intros d N F; cbn [fold_left block map]; [now rewrite app_nil_r|].
  inversion N as [|? ? N1 N2]; subst. rewrite dset_fresh by (apply F; now left). rewrite IH; auto.
  - now rewrite <- app_assoc.
  - intros w' I. rewrite dmem_app, F by (now right). unfold dmem. cbn [dget orb]. rewrite eqb_neq; auto. intros ->. contradiction.
Qed.

(** ** set of symbols *)
Lemma dedup_In (l : list str) : forall acc w, In w (fold_left (fun acc x => set_union acc [x]) l acc) <-> In w acc \/ In w l.
Proof.
  induction l as [|x l IH]; intros acc w; cbn [fold_left]; [cbn; tauto|]. rewrite IH. unfold set_union. cbn [filter].
  destruct (str_mem x acc) eqn:E; cbn [negb].
  - rewrite app_nil_r. apply str_mem_In in E. cbn [In]. intuition (subst; auto).
  - rewrite in_app_iff. cbn [In]. tauto.
Qed.
Lemma dedup_NoDup (l : list str) : forall acc, NoDup acc -> NoDup (fold_left (fun acc x => set_union acc [x]) l acc).
Proof.
  induction l as [|x l IH]; intros acc N; cbn [fold_left]; auto. apply IH. unfold set_union. cbn [filter].
  destruct (str_mem x acc) eqn:E; cbn [negb]; [now rewrite app_nil_r|].
  apply (Permutation_NoDup (l := x :: acc)); [apply Permutation_cons_append|]. constructor; auto.
  rewrite <- str_mem_In, E. discriminate.
Qed.

Section Two.
Variable strict : bool.
Variables o o' : list str -> list str.
Hypothesis Ho : rearranges o.
Hypothesis Ho' : rearranges o'.

Definition same_prefix (p p' : prefix) : Prop := pf_name p = pf_name p' /\ pf_value p = pf_value p' /\
  NoDup (pf_symbols p) /\ NoDup (pf_symbols p') /\ forall w, In w (pf_symbols p) <-> In w (pf_symbols p').

Lemma ord_set ord l : rearranges ord -> NoDup (ord (fold_left (fun acc x => set_union acc [x]) l [])) /\
  forall w, In w (ord (fold_left (fun acc x => set_union acc [x]) l [])) <-> In w l.
Proof.
  intro H. split.
  - eapply Permutation_NoDup; [apply Permutation_sym, H|]. apply dedup_NoDup. constructor.
  - intro w. split; intro I.
    + apply (Permutation_in _ (H _)) in I. apply dedup_In in I as [[]|I]; auto.
    + apply (Permutation_in _ (Permutation_sym (H _))). apply dedup_In. now right.
Qed.

Lemma pop_first_filter n m cs : u n <> u m ->
  fst (pop_first (u n) (filter (fun c => negb (is_named m c)) cs)) = fst (pop_first (u n) cs) /\
  snd (pop_first (u n) (filter (fun c => negb (is_named m c)) cs)) = filter (fun c => negb (is_named m c)) (snd (pop_first (u n) cs)).
Proof.
  intro D. induction cs as [|x cs IH]; cbn [filter pop_first]; [auto|].
  destruct (str_eqb (t_name x) (u n)) eqn:E.
  - assert (Z : is_named m x = false). { apply eqb_spec in E. apply is_named_false. congruence. }
    rewrite Z. cbn [negb pop_first fst snd]. rewrite E. auto.
  - destruct (is_named m x) eqn:Z; cbn [negb pop_first].
    + destruct (pop_first (u n) cs) as [a r], (pop_first (u n) (filter (fun c => negb (is_named m c)) cs)) as [a' r'].
      cbn [fst snd] in *. destruct IH as [-> ->]. cbn [filter]. rewrite Z. auto.
    + rewrite E. destruct (pop_first (u n) cs) as [a r], (pop_first (u n) (filter (fun c => negb (is_named m c)) cs)) as [a' r'].
      cbn [fst snd] in *. destruct IH as [-> ->]. cbn [filter]. rewrite Z. auto.
Qed.

Lemma handle_prefix_same a b : same_but_symbols a b ->
  match handle_prefix strict o a, handle_prefix strict o' b with
  | Ok p, Ok p' => same_prefix p p' /\ (forall w, In w (pf_symbols p) <-> In w (symbol_texts (t_children a)))
  | Err e, Err e' => e = e'
  | _, _ => False
  end.
Proof.
  assert (G : t_text a = t_text b ->
    filter (fun c => negb (is_named "symbol" c)) (t_children a) = filter (fun c => negb (is_named "symbol" c)) (t_children b) ->
    (forall w, In w (symbol_texts (t_children a)) <-> In w (symbol_texts (t_children b))) ->
    match handle_prefix strict o a, handle_prefix strict o' b with
    | Ok p, Ok p' => same_prefix p p' /\ (forall w, In w (pf_symbols p) <-> In w (symbol_texts (t_children a)))
    | Err e, Err e' => e = e'
    | _, _ => False
    end).
  2: { intros [->|(_ & _ & H1 & H2 & H3)]; [apply G; tauto|now apply G]. }
  intros T F S. unfold handle_prefix.
  destruct (pop_first_filter "name" "symbol" (t_children a) ltac:(discriminate)) as [A1 A2].
  destruct (pop_first_filter "name" "symbol" (t_children b) ltac:(discriminate)) as [B1 B2].
  rewrite F in A1, A2.
  assert (X1 := pop_first_ext "name" "symbol" (t_children a)). assert (X2 := pop_first_ext "name" "symbol" (t_children b)).
  destruct (pop_first (u "name") (t_children a)) as [na ca], (pop_first (u "name") (t_children b)) as [nb cb]. cbn [fst snd] in *.
  specialize (X1 _ _ eq_refl ltac:(discriminate)). specialize (X2 _ _ eq_refl ltac:(discriminate)).
  assert (na = nb) as -> by congruence.
  assert (F1 : filter (fun c => negb (is_named "symbol" c)) ca = filter (fun c => negb (is_named "symbol" c)) cb) by congruence.
  clear A1 A2 B1 B2.
  destruct (pop_first_filter "value" "symbol" ca ltac:(discriminate)) as [A1 A2].
  destruct (pop_first_filter "value" "symbol" cb ltac:(discriminate)) as [B1 B2].
  rewrite F1 in A1, A2.
  assert (Y1 := pop_first_ext "value" "symbol" ca). assert (Y2 := pop_first_ext "value" "symbol" cb).
  destruct (pop_first (u "value") ca) as [va da], (pop_first (u "value") cb) as [vb db]. cbn [fst snd] in *.
  specialize (Y1 _ _ eq_refl ltac:(discriminate)). specialize (Y2 _ _ eq_refl ltac:(discriminate)).
  assert (va = vb) as -> by congruence.
  assert (F2 : filter (fun c => negb (is_named "symbol" c)) da = filter (fun c => negb (is_named "symbol" c)) db) by congruence.
  assert (SA : map t_text (filter (is_named "symbol") da) = symbol_texts (t_children a)) by (unfold symbol_texts; now rewrite Y1, X1).
  assert (SB : map t_text (filter (is_named "symbol") db) = symbol_texts (t_children b)) by (unfold symbol_texts; now rewrite Y2, X2).
  clear A1 A2 B1 B2 X1 X2 Y1 Y2 F F1.
  destruct nb as [n|]; [|reflexivity]. destruct (assert _); cbn [bind]; [|reflexivity].
  destruct vb as [v|]; [|reflexivity]. destruct (assert _); cbn [bind]; [|reflexivity].
  unfold pop_all. change (fun c => str_eqb (t_name c) (u "symbol")) with (is_named "symbol").
  change (fun c => negb (str_eqb (t_name c) (u "symbol"))) with (fun c => negb (is_named "symbol" c)).
  rewrite F2, T. destruct (unhandled _ _); cbn [bind]; [|reflexivity]. rewrite SA, SB.
  destruct (ord_set o (symbol_texts (t_children a)) Ho) as [N1 I1].
  destruct (ord_set o' (symbol_texts (t_children b)) Ho') as [N2 I2].
  split; [|exact I1]. split; [reflexivity|]. split; [reflexivity|]. split; [exact N1|]. split; [exact N2|].
  cbn [pf_symbols]. intro w. now rewrite I1, I2.
Qed.

(** name dictionaries *)
Definition same_names (a b : dict prefix) : Prop :=
  Forall2 (fun x y => fst x = fst y /\ pf_value (snd x) = pf_value (snd y)) a b.
Lemma same_names_alike a b : same_names a b -> fit_alike a b.
Proof.
  intros H P q. induction H as [|[k p] [k' p'] a b [E V] H IH]; cbn [find_fit]; [reflexivity|]. cbn [fst snd] in *. subst k'.
  rewrite V, IH. reflexivity.
Qed.
Lemma same_names_set k p p' a b : pf_value p = pf_value p' -> same_names a b -> same_names (dset k p a) (dset k p' b).
Proof.
  intros V H. induction H as [|[x v] [y w] a b [E W] H IH]; cbn [dset].
  - constructor; [auto|constructor].
  - cbn [fst snd] in *. subst y. destruct (str_eqb k x); constructor; auto.
Qed.

Lemma dmem_block w syms p : dmem w (block syms p) = str_mem w syms.
Proof.
  apply eq_iff_eq_true. rewrite dmem_In, str_mem_In. unfold dkeys, block. rewrite map_map. cbn. now rewrite map_id.
Qed.

Lemma fold_prefixes_same pa pb : Forall2 same_but_symbols pa pb ->
  forall before sa sb,
  (forall l a mid b r w, before ++ pa = l ++ a :: mid ++ b :: r ->
     In w (symbol_texts (t_children a)) -> ~ In w (symbol_texts (t_children b))) ->
  (forall a v w, In a pa -> In v (symbol_texts (t_children a)) -> In w (symbol_texts (t_children a)) -> begins_with v w -> v = w) ->
  (forall w, dmem w (s_prefix_symbols sa) = true -> exists a, In a before /\ In w (symbol_texts (t_children a))) ->
  (forall w, dmem w (s_prefix_symbols sa) = dmem w (s_prefix_symbols sb)) ->
  par sa sb -> same_names (s_prefix_names sa) (s_prefix_names sb) ->
  match fold_res (fun pt s => do p <- handle_prefix strict o pt;; Ok (add_prefix p s)) pa sa,
        fold_res (fun pt s => do p <- handle_prefix strict o' pt;; Ok (add_prefix p s)) pb sb with
  | Ok a, Ok b => par a b
  | Err e, Err e' => e = e'
  | _, _ => False
  end.
Proof.
  induction 1 as [|a b pa pb H F IH]; intros before sa sb C B K D R Nm; cbn [fold_res]; [exact R|].
  pose proof (handle_prefix_same a b H) as X.
  destruct (handle_prefix strict o a) as [p|e], (handle_prefix strict o' b) as [p'|e']; cbn [bind]; try contradiction; auto.
  destruct X as [(X1 & X2 & X3 & X4 & X5) X6].
  assert (Fr : forall w, In w (pf_symbols p) -> dmem w (s_prefix_symbols sa) = false).
  { intros w I. apply not_true_is_false. intro Z. destruct (K w Z) as (a0 & I0 & W0). apply in_split in I0 as (l1 & l2 & E).
    apply (C l1 a0 l2 a pa w); auto.
    - rewrite E, <- app_assoc. reflexivity.
    - now apply X6. }
  assert (Ea : s_prefix_symbols (add_prefix p sa) = s_prefix_symbols sa ++ block (pf_symbols p) p).
  { cbn [add_prefix s_prefix_symbols]. now apply dset_block. }
  assert (Eb : s_prefix_symbols (add_prefix p' sb) = s_prefix_symbols sb ++ block (pf_symbols p') p').
  { cbn [add_prefix s_prefix_symbols]. apply dset_block; auto. intros w I. rewrite <- D. apply Fr. now apply X5. }
  assert (Nm' : same_names (s_prefix_names (add_prefix p sa)) (s_prefix_names (add_prefix p' sb))).
  { cbn [add_prefix s_prefix_names]. rewrite X1. now apply same_names_set. }
  apply (IH (before ++ [a])); auto.
  - intros l x mid y r w E. apply (C l x mid y r w). rewrite <- E, <- app_assoc. reflexivity.
  - intros x v w I. apply B. now right.
  - intros w Z. rewrite Ea, dmem_app, dmem_block in Z. apply orb_prop in Z as [Z|Z].
    + destruct (K w Z) as (x & I & W). exists x. split; auto. apply in_or_app. now left.
    + apply str_mem_In in Z. exists a. split; [apply in_or_app; right; now left|]. now apply X6.
  - intro w. rewrite Ea, Eb, !dmem_app, !dmem_block, D. f_equal. apply eq_iff_eq_true. rewrite !str_mem_In. apply X5.
  - destruct R as [R1 R2 R3 R4 R5 R6 R7]. constructor; auto.
    + now apply same_names_alike.
    + rewrite Ea, Eb. apply fit_alike_app; auto. apply block_alike; auto.
      intros v w I J. rewrite X6 in I, J. apply (B a); auto. now left.
Qed.

(** units *)
Definition parr (x y : res system) : Prop :=
  match x, y with Ok a, Ok b => par a b | Err e, Err e' => e = e' | _, _ => False end.

Lemma par_add_unit e r rep a b : par a b -> parr (add_unit e r rep a) (add_unit e r rep b).
Proof.
  intro R. unfold add_unit. rewrite (pa_names a b R), (pa_symbols a b R).
  destruct (_ && _); [reflexivity|]. destruct (_ && _); [reflexivity|]. cbn. now apply par_register.
Qed.
Lemma par_add_lazy d r a b : par a b -> parr (add_lazy d r a) (add_lazy d r b).
Proof.
  intro R. unfold add_lazy. rewrite (pa_lazies a b R). apply par_add_unit.
  destruct R as [R1 R2 R3 R4 R5 R6 R7]. constructor; cbn; auto; congruence.
Qed.
Lemma parr_bind {A} (x : res A) f g : (forall v, parr (f v) (g v)) -> parr (bind x f) (bind x g).
Proof. intro H. destruct x; cbn; auto. Qed.

Lemma par_handle_unit t a b : par a b -> parr (handle_unit strict t a) (handle_unit strict t b).
Proof.
  intro R. unfold handle_unit.
  destruct (pop_first (u "name") (t_children t)) as [nt c1]. apply parr_bind. intro nm.
  destruct (pop_all (u "symbol") c1) as [sts c2]. destruct (pop_first (u "aliases") c2) as [al c3]. apply parr_bind. intro als.
  destruct (pop_first (u "comment") c3) as [? c4]. destruct (pop_first (u "definition") c4) as [? c5].
  destruct (pop_first (u "def") c5) as [[d|] c6].
  - apply parr_bind. intros _. apply parr_bind. intros _. now apply par_add_lazy.
  - destruct (pop_first (u "dimensionless") c6) as [dl c7].
    apply parr_bind. intro dc. apply parr_bind. intro it. apply parr_bind. intro x. apply parr_bind. intros _. now apply par_add_unit.
Qed.

Lemma par_fold_units us : forall a b, par a b -> parr (fold_res (handle_unit strict) us a) (fold_res (handle_unit strict) us b).
Proof.
  induction us as [|t us IH]; intros a b R; cbn [fold_res]; [exact R|].
  pose proof (par_handle_unit t a b R) as H. destruct (handle_unit strict t a), (handle_unit strict t b); cbn [parr bind] in *; auto; contradiction.
Qed.

Lemma reshuffled_filter ca cb (P : tag -> bool) : (forall x, t_name x = u "prefix" -> P x = false) ->
  Forall2 same_but_symbols ca cb -> filter P ca = filter P cb.
Proof.
  intros HP. induction 1 as [|a b ca cb H F IH]; cbn [filter]; [reflexivity|]. rewrite IH.
  destruct H as [->|(H1 & H2 & _)]; [reflexivity|]. now rewrite (HP a H1), (HP b H2).
Qed.
Lemma reshuffled_prefixes ca cb : Forall2 same_but_symbols ca cb ->
  Forall2 same_but_symbols (filter (is_named "prefix") ca) (filter (is_named "prefix") cb).
Proof.
  induction 1 as [|a b ca cb H F IH]; cbn [filter]; [constructor|].
  assert (E : is_named "prefix" a = is_named "prefix" b).
  { destruct H as [->|(H1 & H2 & _)]; [reflexivity|]. unfold is_named. now rewrite H1, H2. }
  rewrite E. destruct (is_named "prefix" b); auto.
Qed.

Lemma read_reshuffled a b : reshuffled a b -> clear_symbols a -> parr (read_system strict o a) (read_system strict o' b).
Proof.
  intros Rs [C1 C2]. unfold read_system, pop_all. cbn [fst snd].
  change (fun c => str_eqb (t_name c) (u "prefix")) with (is_named "prefix").
  change (fun c => str_eqb (t_name c) (u "unit")) with (is_named "unit").
  pose proof (fold_prefixes_same _ _ (reshuffled_prefixes _ _ Rs) [] empty_system empty_system C1 C2) as H.
  specialize (H ltac:(discriminate) ltac:(reflexivity)).
  specialize (H ltac:(constructor; auto; intros ? ?; reflexivity) ltac:(constructor)).
  destruct (fold_res _ (filter (is_named "prefix") (t_children a)) empty_system) as [sa|e],
    (fold_res _ (filter (is_named "prefix") (t_children b)) empty_system) as [sb|e']; cbn [bind]; try contradiction; auto.
  assert (E : filter (fun c => negb (is_named "prefix" c)) (t_children a) = filter (fun c => negb (is_named "prefix" c)) (t_children b)).
  { apply reshuffled_filter; auto. intros x N. apply is_named_iff in N. now rewrite N. }
  change (fun c => negb (str_eqb (t_name c) (u "prefix"))) with (fun c => negb (is_named "prefix" c)). rewrite E.
  pose proof (par_fold_units (filter (is_named "unit") (filter (fun c => negb (is_named "prefix" c)) (t_children b))) sa sb H) as U.
  destruct (fold_res _ _ sa), (fold_res _ _ sb); cbn [parr bind] in *; auto; try contradiction.
  destruct (unhandled _ _); cbn [bind parr]; auto.
Qed.
End Two.
