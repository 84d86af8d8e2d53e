(** * C97, C98: replacing a unit, add_unit(unit, replace=True) *)
From Verif Require Import PyBase PyNum Graph Lexer Parser Visitor Expr Units UnitSystem SystemSpec SystemFacts SystemProofs SystemMore SystemKeep Prop_System
  Xml Sympy Convert XmlData Database.
From Coq Require Import Lia Permutation.
Local Open Scope list_scope.

(** The four dictionaries, and which words of a unit go into which. *)
Inductive kind_of_word := PrimaryName | PrimarySymbol | AliasName | AliasSymbol.
Definition dict_of (v : kind_of_word) (s : system) : dict entry :=
  match v with PrimaryName => s_names s | PrimarySymbol => s_symbols s | AliasName => s_alias_names s | AliasSymbol => s_alias_symbols s end.
Definition words_of (v : kind_of_word) (r : reference) : list str :=
  match v with PrimaryName => ref_names r | PrimarySymbol => r_symbols r | AliasName => ref_alias_names r | AliasSymbol => r_alias_symbols r end.

(** A definition not resolved yet that some word leads to. *)
Definition pending (s : system) (l : lazy) : Prop :=
  exists v k i, dget k (dict_of v s) = Some (ELazy i) /\ nth_error (s_lazies s) i = Some l.
(** None of them claims the word. *)
Definition no_rival (v : kind_of_word) (k : str) (s : system) : Prop :=
  forall l, pending s l -> ~ In k (words_of v (lz_names l)).

Lemma dict_register v e r s : dict_of v (register e r s) = dset_all (words_of v r) e (dict_of v s).
Proof. now destruct v. Qed.
Lemma dict_set v i l s : dict_of v (set_lazy i l s) = dict_of v s.
Proof. now destruct v. Qed.

(** ** What look-ups keep *)
Section Invariant.
Variable ord : list str -> list str.
Variable P : system -> Prop.
Definition preserved {A} (m : M A) : Prop := forall s, P s -> P (snd (m s)).

Lemma pr_lift {A} (r : res A) : preserved (lift r). Proof. now intros s. Qed.
Lemma pr_ret {A} (a : A) : preserved (ret a). Proof. now intros s. Qed.
Lemma pr_bind {A B} (m : M A) (f : A -> M B) : preserved m -> (forall a, preserved (f a)) -> preserved (mbind m f).
Proof.
  intros H1 H2 s K. specialize (H1 s K). unfold mbind. destruct (m s) as [[a | e] s1]; cbn [snd] in *; [now apply H2 | exact H1].
Qed.
Lemma pr_mmapM {A B} (f : A -> M B) l : (forall a, preserved (f a)) -> preserved (mmapM f l).
Proof. intros H. induction l; cbn [mmapM]; [apply pr_ret |]. apply pr_bind; auto. intros b. apply pr_bind; auto. intros. apply pr_ret. Qed.

(** names of the lazies never change; [live] indices are those the dictionaries lead to *)
Variable names_of : nat -> option reference.
Variable live : nat -> Prop.
Hypothesis names_ok : forall s i, P s -> option_map lz_names (nth_error (s_lazies s) i) = names_of i.
Hypothesis live_ok : forall s v k i, P s -> dget k (dict_of v s) = Some (ELazy i) -> live i.
Hypothesis P_set : forall s i l l', P s -> nth_error (s_lazies s) i = Some l -> lz_names l' = lz_names l -> P (set_lazy i l' s).
Hypothesis P_register : forall s i r x, P s -> live i -> names_of i = Some r -> P (register (EUnit x r) r s).

Section Rec.
Variable rec : str -> M unit.
Hypothesis R : forall k, preserved (rec k).

Lemma pr_refs ids : preserved (resolve_refs ord rec ids).
Proof. apply pr_mmapM. intros k. apply pr_bind; [apply R |]. intros x. apply pr_ret. Qed.

Lemma pr_resolve i : preserved (resolve ord rec i).
Proof.
  intros s K. unfold resolve. destruct (nth_error (s_lazies s) i) as [l |] eqn:N; [| exact K].
  destruct (lz_resolved l); [exact K |]. pose proof (names_ok s i K) as Na. rewrite N in Na. cbn [option_map] in Na.
  apply (pr_bind (lift (parse (lz_def l)))); [apply pr_lift | | exact K]. intros g. apply pr_bind; [apply pr_refs |]. intros refs.
  apply pr_bind; [apply pr_lift |]. intros x s' K'. cbn [snd].
  pose proof (names_ok s' i K') as Na'. rewrite <- Na in Na'. destruct (nth_error (s_lazies s') i) as [l' |] eqn:N'; [| discriminate Na'].
  cbn [option_map] in Na'. injection Na' as Na'. apply (P_set s' i l'); [exact K' | exact N' |]. cbn [lz_names]. now symmetry.
Qed.

Lemma pr_force s o : P s -> (forall i, o = Some (ELazy i) -> live i) -> P (snd (force_entry ord rec o s)).
Proof.
  intros K L. destruct o as [[i | x r] |]; cbn [force_entry ret snd]; try exact K.
  destruct (nth_error (s_lazies s) i) as [l |] eqn:N; [| exact K]. pose proof (names_ok s i K) as Na. rewrite N in Na. cbn [option_map] in Na.
  pose proof (pr_resolve i s K) as K1. unfold mbind. destruct (resolve ord rec i s) as [[x | e] s1]; cbn [snd] in *; [| exact K1].
  apply (P_register s1 i); [exact K1 | now apply L | now symmetry].
Qed.

Lemma pr_by_name k : preserved (unit_by_name ord rec k).
Proof.
  intros s K. unfold unit_by_name. apply pr_force; [exact K |]. intros i. unfold get_or.
  destruct (dget k (s_names s)) eqn:E; intros H; [injection H as ->; exact (live_ok s PrimaryName k i K E) | exact (live_ok s AliasName k i K H)].
Qed.
Lemma pr_by_symbol k : preserved (unit_by_symbol ord rec k).
Proof.
  intros s K. unfold unit_by_symbol. apply pr_force; [exact K |]. intros i. unfold get_or.
  destruct (dget k (s_symbols s)) eqn:E; intros H; [injection H as ->; exact (live_ok s PrimarySymbol k i K E) | exact (live_ok s AliasSymbol k i K H)].
Qed.
Lemma pr_either k : preserved (unit_by_either ord rec k).
Proof. apply pr_bind; [apply pr_by_name |]. intros [x |]; [apply pr_ret | apply pr_by_symbol]. Qed.
Lemma pr_try ps q : preserved (try_prefixes ord rec ps q).
Proof.
  induction ps as [| [key p] ps IH]; cbn [try_prefixes]; [apply pr_ret |]. destruct (strip_prefix key q); [| exact IH].
  apply pr_bind; [apply pr_either |]. intros [x |]; [| exact IH]. apply pr_bind; [apply pr_lift |]. intros y. apply pr_ret.
Qed.
Lemma pr_body q : preserved (lookup_body ord rec q).
Proof.
  apply pr_bind; [apply pr_either |]. intros [x |]; [apply pr_ret |].
  apply pr_bind; [intros s K; now apply pr_try |]. intros [x |]; [apply pr_ret |].
  apply pr_bind; [intros s K; now apply pr_try |]. intros [x |]; [apply pr_ret | now intros s].
Qed.
End Rec.

Lemma pr_lookup f : forall q, preserved (lookup ord f q).
Proof. induction f as [| f IH]; intros q; cbn [lookup]; [now intros s | now apply pr_body]. Qed.
Lemma pr_unit f t : preserved (sys_unit ord f t).
Proof. apply pr_bind; [apply pr_lift |]. intros g. apply pr_bind; [apply pr_refs, pr_lookup |]. intros refs. apply pr_lift. Qed.
Lemma pr_run s c : P s -> P (run ord s c).
Proof. intros K. destruct c; cbn [run]; [now apply pr_lookup | now apply pr_unit]. Qed.
Lemma pr_after cs : forall s, P s -> P (after ord s cs).
Proof. unfold after. induction cs as [| c cs IH]; intros s K; cbn [fold_left]; [exact K |]. apply IH. now apply pr_run. Qed.
End Invariant.

(** ** The word stays *)
Section Stays.
Variable ord : list str -> list str.
Variable v : kind_of_word.
Variable k : str.
Variable e : entry.
Variable s0 : system.

Definition staying (s : system) : Prop :=
  dget k (dict_of v s) = Some e /\
  (forall i, option_map lz_names (nth_error (s_lazies s) i) = option_map lz_names (nth_error (s_lazies s0) i)) /\
  (forall w q i, dget q (dict_of w s) = Some (ELazy i) -> exists w q, dget q (dict_of w s0) = Some (ELazy i)).

Hypothesis Nr : no_rival v k s0.
Hypothesis At : dget k (dict_of v s0) = Some e.

Lemma staying_first : staying s0.
Proof. split; [exact At |]. split; [reflexivity |]. intros w q i H. now exists w, q. Qed.

Lemma staying_after history : staying (after ord s0 history).
Proof.
  apply (pr_after ord staying (fun i => option_map lz_names (nth_error (s_lazies s0) i))
     (fun i => exists w q, dget q (dict_of w s0) = Some (ELazy i))); [| | | | exact staying_first].
  - intros s i (_ & N & _). apply N.
  - intros s w q i (_ & _ & L) H. exact (L w q i H).
  - intros s i l l' (G & N & L) Ni El. split; [now rewrite dict_set |]. split.
    + assert (Li : Nat.ltb i (List.length (s_lazies s)) = true) by (apply Nat.ltb_lt, nth_error_Some; rewrite Ni; discriminate).
      intros j. rewrite nth_set_lazy, Li. destruct (Nat.eqb j i) eqn:Ej; [| apply N]. apply Nat.eqb_eq in Ej. subst j.
      rewrite <- N, Ni. cbn [option_map]. now rewrite El.
    + intros w q j. rewrite dict_set. apply L.
  - intros s i r x (G & N & L) (w & q & Hq) Ni. split.
    + rewrite dict_register, dget_dset_all. destruct (str_mem k (words_of v r)) eqn:Em; [| exact G]. exfalso. apply str_mem_In in Em.
      destruct (nth_error (s_lazies s0) i) as [l |] eqn:Nl; [| discriminate Ni]. injection Ni as <-.
      exact (Nr l (ex_intro _ w (ex_intro _ q (ex_intro _ i (conj Hq Nl)))) Em).
    + split; [exact N |]. intros w' q' j. rewrite dict_register, dget_dset_all. destruct (str_mem q' (words_of w' r)); [discriminate | apply L].
Qed.
End Stays.

(** add_unit(unit, replace=True), the system after it *)
Definition replaced (x : unit) (r : reference) (s : system) : system := snd (add_unit_prog (EUnit x r) r true s).

Lemma replaced_is x r s : add_unit_prog (EUnit x r) r true s = (Ok tt, register (EUnit x r) r s).
Proof. rewrite add_unit_prog_spec. reflexivity. Qed.
Lemma dict_replaced v x r s : dict_of v (replaced x r s) = dset_all (words_of v r) (EUnit x r) (dict_of v s).
Proof. unfold replaced. rewrite replaced_is. apply dict_register. Qed.
Lemma lazies_replaced x r s : s_lazies (replaced x r s) = s_lazies s.
Proof. unfold replaced. rewrite replaced_is. reflexivity. Qed.

(** C97.  add_unit(unit, replace=True) succeeds, and every name of the unit gives that unit, whatever
    is looked up before, if no definition still to be resolved claims the name too. *)
Theorem C97_replaced_names_stay :
  forall ord s x r, fst (add_unit_prog (EUnit x r) r true s) = Ok tt /\
  forall k, In k (ref_names r) -> no_rival PrimaryName k (replaced x r s) ->
  forall history stack, fst (lookup ord (S stack) k (after ord (replaced x r s) history)) = Ok x.
Proof.
  intros ord s x r. split; [now rewrite replaced_is |]. intros k I N history f.
  assert (G : dget k (dict_of PrimaryName (replaced x r s)) = Some (EUnit x r)).
  { rewrite dict_replaced, dget_dset_all. cbn [words_of]. apply str_mem_In in I. now rewrite I. }
  destruct (staying_after ord PrimaryName k _ _ N G history) as (G' & _).
  destruct (C32_priority ord (after ord (replaced x r s) history) k x r f) as (H & _). now rewrite (H G').
Qed.

(** ... and so does every text with the name in it. *)
Definition unit_part (a : anyunit) : unit := match a with AUnit x => x | ADate x _ => x end.

Lemma refs_of_answer e refs a : unit_from_expression e refs = Ok a -> exists d, unit_part a = UExpr d refs.
Proof.
  assert (M : forall d, mk_unit d refs = Err EOutOfModel \/ (exists er, mk_unit d refs = Err er) \/ mk_unit d refs = Ok (UExpr d refs)).
  { intros d. unfold mk_unit. destruct (normalised refs d); cbn [bind]; eauto. }
  assert (K : forall d, (do y <- mk_unit d refs ;; Ok (AUnit y)) = Ok a -> exists d, unit_part a = UExpr d refs).
  { intros d. destruct (M d) as [-> | [[er ->] | ->]]; cbn [bind]; try discriminate. injection 1 as <-. now exists d. }
  destruct e as [| | | | | | b q |]; cbn [unit_from_expression]; try exact (K _).
  destruct (M b) as [-> | [[er ->] | ->]]; cbn [bind]; try discriminate. destruct (is_time_unit (UExpr b refs)) as [[|] |] eqn:It; cbn [bind]; [| exact (K _) | discriminate].
  assert (D : forall raw, mk_date (UExpr b refs) raw = Ok a -> exists d, unit_part a = UExpr d refs).
  { intros raw. unfold mk_date. rewrite It. cbn [bind]. injection 1 as <-. now exists b. }
  destruct q as [raw | w [raw |] | | | | | |]; try discriminate; apply D.
Qed.

Section Refs.
Variable ord : list str -> list str.
Variable P : system -> Prop.
Variable k : str.
Variable x : unit.
Variable f : nat.
Hypothesis Pk : forall q, preserved P (lookup ord f q).
Hypothesis Hit : forall s, P s -> forall y, fst (lookup ord f k s) = Ok y -> y = x.

Lemma refs_hit ids : forall s refs s', P s ->
  mmapM (fun q => dom y <- lookup ord f q ;; ret (q, RUnit y)) ids s = (Ok refs, s') -> In k ids -> dget k refs = Some (RUnit x).
Proof.
  induction ids as [| q ids IH]; intros s refs s' Ps E I; [contradiction |]. cbn [mmapM] in E. unfold mbind at 1 in E.
  unfold mbind at 1 in E. destruct (lookup ord f q s) as [[y | er] s1] eqn:L; [| discriminate E]. cbn [ret] in E. unfold mbind in E at 1.
  destruct (mmapM (fun q => dom y <- lookup ord f q ;; ret (q, RUnit y)) ids s1) as [[ys | er] s2] eqn:R; [| discriminate E].
  cbn [ret] in E. injection E as <- <-. cbn [dget]. destruct (str_eqb k q) eqn:Ek.
  - apply eqb_spec in Ek. subst q. f_equal. f_equal. apply (Hit s Ps). now rewrite L.
  - apply (IH s1 ys s2); [| exact R |].
    + pose proof (Pk q s Ps) as P1. now rewrite L in P1.
    + destruct I as [-> | I]; [| exact I]. rewrite eqb_refl' in Ek. discriminate Ek.
Qed.
End Refs.

Theorem C97_texts_use_the_replacement :
  forall ord s x r k, rearranges ord -> In k (ref_names r) -> no_rival PrimaryName k (replaced x r s) ->
  forall history stack t g a, parse t = Ok g -> In k (identifiers g) ->
  fst (sys_unit ord stack t (after ord (replaced x r s) history)) = Ok a ->
  exists d refs, unit_part a = UExpr d refs /\ dget k refs = Some (RUnit x).
Proof.
  intros ord s x r k Po I N history f t g a Pt Ig E.
  assert (G : dget k (dict_of PrimaryName (replaced x r s)) = Some (EUnit x r)).
  { rewrite dict_replaced, dget_dset_all. cbn [words_of]. apply str_mem_In in I. now rewrite I. }
  unfold sys_unit in E. unfold mbind at 1 in E. unfold lift at 1 in E. rewrite Pt in E. unfold mbind in E at 1. unfold resolve_refs in E.
  destruct (mmapM (fun q => dom y <- lookup ord f q ;; ret (q, RUnit y)) (ord (identifiers g)) (after ord (replaced x r s) history)) as [[refs | er] s2] eqn:R;
    [| discriminate E]. cbn [lift fst] in E. destruct (refs_of_answer g refs a E) as [d Ed]. exists d, refs. split; [exact Ed |].
  refine (refs_hit ord (fun s' => exists h, s' = after ord (replaced x r s) h) k x f _ _ _ _ _ _ (ex_intro _ history eq_refl) R _).
  - intros q s1 [h ->]. exists (h ++ [Call_lookup f q]). unfold after. now rewrite fold_left_app.
  - intros s1 [h ->] y Ey. destruct f as [| f']; [discriminate Ey |].
    destruct (C97_replaced_names_stay ord s x r) as [_ H]. rewrite (H k I N h f') in Ey. now injection Ey.
  - apply (Permutation_in k (Permutation_sym (Po (identifiers g)))). exact Ig.
Qed.

(** The same for symbols, if the word is no name of another unit. *)
Theorem C97_replaced_symbols_stay :
  forall ord s x r k, built ord s -> In k (r_symbols r) -> ~ In k (ref_alias_names r) ->
  dget k (s_names s) = None -> dget k (s_alias_names s) = None -> ~ In k (ref_names r) ->
  no_rival PrimarySymbol k (replaced x r s) ->
  forall history stack, fst (lookup ord (S stack) k (after ord (replaced x r s) history)) = Ok x.
Proof.
  intros ord s x r k B I Na D1 D2 Nn N history f.
  assert (G : dget k (dict_of PrimarySymbol (replaced x r s)) = Some (EUnit x r)).
  { rewrite dict_replaced, dget_dset_all. cbn [words_of]. apply str_mem_In in I. now rewrite I. }
  destruct (staying_after ord PrimarySymbol k _ _ N G history) as (G' & _).
  assert (C : closed (replaced x r s)) by (unfold replaced; rewrite replaced_is; cbn [snd]; apply closed_register; exact (built_closed ord s B)).
  destruct (kept_after ord _ C history _ (kept_refl _)) as [(_ & V1 & V2 & _) _].
  assert (Nd : forall d d' : dict entry, dkeys d = dkeys d' -> dget k d = None -> dget k d' = None).
  { intros d d' E H. pose proof (dmem_keys k d d' E) as M. unfold dmem in M. rewrite H in M. now destruct (dget k d'). }
  assert (Nm : forall ks, ~ In k ks -> str_mem k ks = false).
  { intros ks H. destruct (str_mem k ks) eqn:E; [| reflexivity]. now apply str_mem_In in E. }
  destruct (C32_priority ord (after ord (replaced x r s) history) k x r f) as (_ & _ & H & _). rewrite H; [reflexivity | | | exact G'].
  - apply (Nd _ _ V1). change (dget k (dict_of PrimaryName (replaced x r s)) = None). rewrite dict_replaced, dget_dset_all. cbn [words_of dict_of].
    now rewrite (Nm _ Nn).
  - apply (Nd _ _ V2). change (dget k (dict_of AliasName (replaced x r s)) = None). rewrite dict_replaced, dget_dset_all. cbn [words_of dict_of].
    now rewrite (Nm _ Na).
Qed.

(** ** Taking over all the words of the replaced unit is enough *)
Definition well_filed (s : system) : Prop :=
  forall v k i l, dget k (dict_of v s) = Some (ELazy i) -> nth_error (s_lazies s) i = Some l -> In k (words_of v (lz_names l)).
Definition in_range (s : system) : Prop :=
  forall v k i, dget k (dict_of v s) = Some (ELazy i) -> (i < List.length (s_lazies s))%nat.

Lemma filed_register x r s : well_filed s /\ in_range s -> well_filed (register (EUnit x r) r s) /\ in_range (register (EUnit x r) r s).
Proof.
  intros [W I]. split.
  - intros v k i l. rewrite dict_register, dget_dset_all. destruct (str_mem k (words_of v r)); [discriminate | apply W].
  - intros v k i. rewrite dict_register, dget_dset_all. destruct (str_mem k (words_of v r)); [discriminate | apply I].
Qed.

Lemma filed_run ord s c : well_filed s /\ in_range s -> well_filed (run ord s c) /\ in_range (run ord s c).
Proof.
  intros WI. set (Q := fun s' => (well_filed s' /\ in_range s') /\
    forall i, option_map lz_names (nth_error (s_lazies s') i) = option_map lz_names (nth_error (s_lazies s) i)).
  assert (H : Q (run ord s c)); [| exact (proj1 H)].
  apply (pr_run ord Q (fun i => option_map lz_names (nth_error (s_lazies s) i)) (fun _ => True)); [| auto | | | split; [exact WI | reflexivity]].
  - intros s' i [_ N]. apply N.
  - intros s' i l l' [[W I] N] Ni El.
    assert (Li : Nat.ltb i (List.length (s_lazies s')) = true) by (apply Nat.ltb_lt, nth_error_Some; rewrite Ni; discriminate).
    split; [split |].
    + intros v k j l1. rewrite dict_set, nth_set_lazy, Li. intros G. destruct (Nat.eqb j i) eqn:Ej; [| now apply W].
      apply Nat.eqb_eq in Ej. subst j. injection 1 as <-. rewrite El. now apply (W v k i).
    + intros v k j. rewrite dict_set. intros G. apply I in G. apply nth_error_Some. rewrite nth_set_lazy, Li.
      destruct (Nat.eqb j i); [discriminate | now apply nth_error_Some].
    + intros j. rewrite nth_set_lazy, Li. destruct (Nat.eqb j i) eqn:Ej; [| apply N]. apply Nat.eqb_eq in Ej. subst j. rewrite <- N, Ni. cbn [option_map]. now rewrite El.
  - intros s' i r x [WI' N] _ _. split; [now apply filed_register | exact N].
Qed.

Lemma built_filed ord s : built ord s -> well_filed s /\ in_range s.
Proof.
  intros B. induction B as [| p s B IH | x r rep s s' B IH A | d r s s' B IH A | c s B IH].
  - split; intros [] k i; discriminate.
  - destruct IH as [W I]. split; [intros v k i l G | intros v k i G]; [apply (W v k i l) | apply (I v k i)]; destruct v; exact G.
  - apply add_unit_ok in A. subst s'. now apply filed_register.
  - unfold add_lazy in A. apply add_unit_ok in A. subst s'. destruct IH as [W I]. split.
    + intros v k i l. rewrite dict_register, dget_dset_all. cbn [register s_lazies]. destruct (str_mem k (words_of v r)) eqn:Em.
      * injection 1 as <-. rewrite nth_error_app2 by lia. rewrite Nat.sub_diag. cbn [nth_error]. injection 1 as <-. now apply str_mem_In.
      * intros G N. assert (G' : dget k (dict_of v s) = Some (ELazy i)) by (destruct v; exact G). pose proof (I v k i G') as L.
        rewrite nth_error_app1 in N by exact L. exact (W v k i l G' N).
    + intros v k i. rewrite dict_register, dget_dset_all. cbn [register s_lazies]. rewrite app_length. cbn [List.length].
      destruct (str_mem k (words_of v r)); [injection 1 as <-; lia |]. intros G.
      assert (G' : dget k (dict_of v s) = Some (ELazy i)) by (destruct v; exact G). pose proof (I v k i G'). lia.
  - now apply filed_run.
Qed.

Theorem C97_taking_all_the_words_is_enough :
  forall ord s x r k, built ord s -> In k (ref_names r) ->
  (forall l, pending s l -> In k (ref_names (lz_names l)) -> forall v w, In w (words_of v (lz_names l)) -> In w (words_of v r)) ->
  forall history stack, fst (lookup ord (S stack) k (after ord (replaced x r s) history)) = Ok x.
Proof.
  intros ord s x r k B I T history f. apply C97_replaced_names_stay; [exact I |]. intros l (v & w & i & G & N) Ik.
  rewrite dict_replaced, dget_dset_all in G. rewrite lazies_replaced in N. destruct (str_mem w (words_of v r)) eqn:Em; [discriminate G |].
  assert (Pl : pending s l) by (exists v, w, i; auto). pose proof (proj1 (built_filed ord s B) v w i l G N) as Iw.
  pose proof (T l Pl Ik v w Iw) as Ir. apply str_mem_In in Ir. rewrite Ir in Em. discriminate Em.
Qed.

(** ** C98.  The replacement is undone as soon as another word of the replaced unit is looked up. *)
Theorem C98_replacement_undone :
  forall ord s k k' i l stack y s', known s k' (ELazy i) -> nth_error (s_lazies s) i = Some l -> In k (ref_names (lz_names l)) ->
  lookup ord stack k' s = (Ok y, s') ->
  forall stack', fst (lookup ord (S stack') k s') = Ok y.
Proof.
  intros ord s k k' i l stack y s' G N I E f. destruct stack as [| stack]; [discriminate E |]. cbn [lookup] in E.
  assert (F : exists s1, Ok y = fst (resolve ord (lookup ord stack) i s) /\ s' = register (EUnit y (lz_names l)) (lz_names l) s1).
  { apply known_iff in G. unfold known_opt in G.
    assert (H : forall s2 (X : (dom o <- force_entry ord (lookup ord stack) (Some (ELazy i)) ;;
       match o with Some x => ret x | None => fun _ => (Err EOutOfModel, s2) end) s = (Ok y, s')),
       exists s1, Ok y = fst (resolve ord (lookup ord stack) i s) /\ s' = register (EUnit y (lz_names l)) (lz_names l) s1).
    { intros s2 X. cbn [force_entry] in X. unfold mbind in X. rewrite N in X.
      destruct (resolve ord (lookup ord stack) i s) as [[x | er] s1]; [| discriminate X].
      cbn [ret] in X. injection X as -> <-. exists s1. split; reflexivity. }
    apply (H s). unfold lookup_body, unit_by_either, unit_by_name, unit_by_symbol, mbind in E. unfold mbind.
    destruct (get_or k' (s_names s) (s_alias_names s)) as [e1 |].
    - injection G as ->. destruct (force_entry ord (lookup ord stack) (Some (ELazy i)) s) as [[[x |] | er] s3] eqn:Fo; cbn [ret] in E; try exact E.
      apply force_none in Fo as [Fo _]. discriminate Fo.
    - cbn [force_entry ret] in E. rewrite G in E.
      destruct (force_entry ord (lookup ord stack) (Some (ELazy i)) s) as [[[x |] | er] s3] eqn:Fo; cbn [ret] in E; try exact E.
      apply force_none in Fo as [Fo _]. discriminate Fo. }
  destruct F as (s1 & _ & ->).
  destruct (C32_priority ord (register (EUnit y (lz_names l)) (lz_names l) s1) k y (lz_names l) f) as (H & _). rewrite H; [reflexivity |].
  change (dget k (dict_of PrimaryName (register (EUnit y (lz_names l)) (lz_names l) s1)) = Some (EUnit y (lz_names l))).
  rewrite dict_register, dget_dset_all. cbn [words_of]. apply str_mem_In in I. now rewrite I.
Qed.

(** On the shipped database: a user replaces the minute, forgetting its symbol; once somebody
    looked up "min", "minute" and "minutes" are the old unit again. *)
Definition long_minute : unit :=
  match fst (sys_unit same_order 9 (u "61 s") shipped) with Ok (AUnit x) => x | _ => UBasis [] false false end.
Definition minute_words := mkRef (Some (nm "minute" (Some "minutes"%string))) [] [] [].

Theorem C98_replaced_minute_comes_back_refuted :
  read_system true in_order db = Ok shipped /\
  fst (sys_unit same_order 9 (u "61 s") shipped) = Ok (AUnit long_minute) /\
  fst (add_unit_prog (EUnit long_minute minute_words) minute_words true shipped) = Ok tt /\
  fst (lookup same_order 9 (u "minute") (replaced long_minute minute_words shipped)) = Ok long_minute /\
  exists y, fst (lookup same_order 9 (u "minute") (after same_order (replaced long_minute minute_words shipped) [Call_lookup 9 (u "min")])) = Ok y /\
    fst (lookup same_order 9 (u "minute") shipped) = Ok y /\ unit_eq y long_minute = Ok false.
Proof.
  split; [vm_compute; reflexivity |]. split; [vm_compute; reflexivity |]. split; [vm_compute; reflexivity |]. split; [vm_compute; reflexivity |].
  eexists. split; [vm_compute; reflexivity |]. split; vm_compute; reflexivity.
Qed.

(** ** The hypotheses are met *)
Definition known_lazies (s : system) : list lazy :=
  flat_map (fun v => flat_map (fun e : str * entry => match snd e with
      | ELazy i => match nth_error (s_lazies s) i with Some l => [l] | None => [] end | _ => [] end) (dict_of v s))
    [PrimaryName; PrimarySymbol; AliasName; AliasSymbol].
Lemma dget_In {V} k (d : dict V) x : dget k d = Some x -> exists k', In (k', x) d.
Proof.
  induction d as [| [a b] d IH]; cbn [dget]; [discriminate |]. destruct (str_eqb k a); [injection 1 as ->; exists a; now left |].
  intros H. destruct (IH H) as [k' I]. exists k'. now right.
Qed.
Lemma pending_known s l : pending s l -> In l (known_lazies s).
Proof.
  intros (v & k & i & G & N). apply dget_In in G as [k' G]. apply in_flat_map. exists v. split; [destruct v; cbn; auto |].
  apply in_flat_map. exists (k', ELazy i). split; [exact G |]. cbn [snd]. rewrite N. now left.
Qed.
Definition no_rival_b (v : kind_of_word) (k : str) (s : system) : bool :=
  forallb (fun l => negb (str_mem k (words_of v (lz_names l)))) (known_lazies s).
Lemma no_rival_b_sound v k s : no_rival_b v k s = true -> no_rival v k s.
Proof.
  intros H l P I. apply pending_known in P. unfold no_rival_b in H. rewrite forallb_forall in H. specialize (H l P). apply str_mem_In in I. now rewrite I in H.
Qed.
Definition covers_b (k : str) (r : reference) (s : system) : bool :=
  forallb (fun l => negb (str_mem k (ref_names (lz_names l))) ||
      forallb (fun v => forallb (fun w => str_mem w (words_of v r)) (words_of v (lz_names l))) [PrimaryName; PrimarySymbol; AliasName; AliasSymbol])
    (known_lazies s).
Lemma covers_b_sound k r s : covers_b k r s = true ->
  forall l, pending s l -> In k (ref_names (lz_names l)) -> forall v w, In w (words_of v (lz_names l)) -> In w (words_of v r).
Proof.
  intros H l P I v w Iw. apply pending_known in P. unfold covers_b in H. rewrite forallb_forall in H. specialize (H l P). apply str_mem_In in I.
  rewrite I in H. cbn [negb orb] in H. rewrite forallb_forall in H. assert (Iv : In v [PrimaryName; PrimarySymbol; AliasName; AliasSymbol]) by (destruct v; cbn; auto).
  specialize (H v Iv). rewrite forallb_forall in H. now apply str_mem_In, H.
Qed.

(* after somebody looked up the minute there is no rival; the hour with all its words can be replaced at once *)
Example C97_example :
  no_rival PrimaryName (u "minute") (replaced long_minute minute_words (after same_order demo [Call_lookup 9 (u "min")])) /\
  In (u "minute") (ref_names minute_words) /\
  (forall l, pending demo l -> In (u "hour") (ref_names (lz_names l)) -> forall v w, In w (words_of v (lz_names l)) -> In w (words_of v hour_r)) /\
  In (u "hour") (ref_names hour_r) /\ built same_order demo.
Proof.
  split; [apply no_rival_b_sound; vm_compute; reflexivity |]. split; [cbn; auto |].
  split; [apply covers_b_sound; vm_compute; reflexivity |]. split; [cbn; auto | apply C34_example].
Qed.
Example C97_example_symbol :
  let r := ref1 "minute" "minutes" "min" in
  In (u "min") (r_symbols r) /\ ~ In (u "min") (ref_alias_names r) /\ ~ In (u "min") (ref_names r) /\
  dget (u "min") (s_names demo) = None /\ dget (u "min") (s_alias_names demo) = None /\ no_rival PrimarySymbol (u "min") (replaced long_minute r demo).
Proof.
  cbv zeta. split; [cbn; auto |]. split; [cbn; tauto |]. split; [vm_compute; intuition discriminate |].
  split; [vm_compute; reflexivity |]. split; [vm_compute; reflexivity |]. apply no_rival_b_sound. vm_compute. reflexivity.
Qed.
