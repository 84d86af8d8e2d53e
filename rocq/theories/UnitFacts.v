(** * Facts about dimensions. *)
From Verif Require Import PyBase PyNum Graph RegexFacts Expr Units UnitSpec.
Open Scope Z_scope.

Lemma gdim_ext rho rho' n b : (forall s, rho s b = rho' s b) -> gdim rho n b = gdim rho' n b.
Proof.
  intro H. induction n; simpl; auto; try congruence.
  destruct n2; auto. destruct v; auto. now rewrite IHn1.
Qed.

Lemma exps_expr d refs b : exps (UExpr d refs) b = gdim (ref_exps refs) d b.
Proof.
  simpl. assert (E : forall s b', (fix find (rs : list (str * uref)) : Z :=
               match rs with
               | [] => 0
               | (k, v) :: rs' =>
                 if str_eqb s k then match v with RUnit y => exps y b' | RPrefix _ => 0 end
                 else find rs'
               end) refs = ref_exps refs s b').
  { intros s b'. unfold ref_exps. induction refs as [|[k v] rs IH]; simpl; auto.
    destruct (str_eqb s k); [destruct v; reflexivity|exact IH]. }
  apply gdim_ext. intro s. apply E.
Qed.

(** ** split *)
Ltac sp5 := refine (conj _ (conj (conj _ _) (conj _ (conj _ _)))).
Lemma tidy_split rho n : forall root, tidy rho n ->
  exists t d, split root n = Ok (t, d) /\ (moves n = true <-> t <> None) /\ plain d /\
    (forall b, gdim rho d b = gdim rho n b) /\ (forall s, occurs s d -> occurs s n).
Proof.
  induction n; intros root H; simpl in H.
  - destruct H.
  - exists None, (Number v raw). sp5; simpl; auto; try discriminate; congruence.
  - exists None, (Identifier name). sp5; simpl; auto; try discriminate; congruence.
  - destruct H as (H & z & r & ->).
    destruct (IHn1 false H) as (t & d & E & M & P & G & O).
    exists t, (Raise d (Number (NInt z) r)). simpl. rewrite E. simpl.
    split; [reflexivity|]. split; [exact M|]. split; [split; eauto|]. split.
    + intro b. simpl. now rewrite G.
    + intros s [Hs|[]]; auto.
  - destruct H as (H1 & H2 & HM & Z1 & Z2).
    destruct (IHn1 false H1) as (t1 & d1 & E1 & M1 & P1 & G1 & O1).
    destruct (IHn2 false H2) as (t2 & d2 & E2 & M2 & P2 & G2 & O2).
    simpl. rewrite E1, E2. simpl. setoid_rewrite orb_true_iff.
    destruct t1 as [t1|], t2 as [t2|].
    + assert (moves n1 = true) by (apply M1; discriminate).
      assert (moves n2 = true) by (apply M2; discriminate).
      rewrite H, H0 in HM. discriminate.
    + exists (Some (Multiply t1 d2)), d1. sp5; auto; try discriminate.
      * intros _. left. apply M1. discriminate.
      * intro b. rewrite G1, (Z1 (proj2 M1 ltac:(discriminate))). lia.
    + exists (Some (Multiply d1 t2)), d2. sp5; auto; try discriminate.
      * intros _. right. apply M2. discriminate.
      * intro b. rewrite G2, (Z2 (proj2 M2 ltac:(discriminate))). lia.
    + exists None, (Multiply d1 d2). sp5; simpl; auto; try congruence.
      * intros [H|H]; [apply M1 in H|apply M2 in H]; congruence.
      * intros s [Hs|Hs]; auto.
  - destruct H as (H1 & H2 & HM).
    destruct (IHn1 false H1) as (t1 & d1 & E1 & M1 & P1 & G1 & O1).
    destruct (IHn2 false H2) as (t2 & d2 & E2 & M2 & P2 & G2 & O2).
    simpl. rewrite E1, E2. simpl. setoid_rewrite orb_true_iff.
    destruct t1 as [t1|], t2 as [t2|].
    + assert (moves n1 = true) by (apply M1; discriminate).
      assert (moves n2 = true) by (apply M2; discriminate).
      rewrite H, H0 in HM. discriminate.
    + exists (Some t1), (Divide d1 d2). sp5; simpl; auto; try discriminate.
      * intros _. left. apply M1. discriminate.
      * intro b. now rewrite G1, G2.
      * intros s [Hs|Hs]; auto.
    + exists (Some t2), (Divide d1 d2). sp5; simpl; auto; try discriminate.
      * intros _. right. apply M2. discriminate.
      * intro b. now rewrite G1, G2.
      * intros s [Hs|Hs]; auto.
    + exists None, (Divide d1 d2). sp5; simpl; auto; try congruence.
      * intros [H|H]; [apply M1 in H|apply M2 in H]; congruence.
      * intros s [Hs|Hs]; auto.
  - destruct (IHn1 false H) as (t & d & E & M & P & G & O). simpl. rewrite E. simpl.
    destruct root; eexists _, d; sp5; simpl; auto; discriminate.
  - destruct (IHn false H) as (t & d & E & M & P & G & O). simpl. rewrite E. simpl.
    eexists _, d; sp5; simpl; auto; discriminate.
Qed.

(** ** count *)
Fixpoint ssum (rho : str -> Z) (sc : scope) : Z :=
  match sc with
  | [] => 0
  | (k, OInt z) :: sc' => z * rho k + ssum rho sc'
  | (k, OStr _) :: sc' => ssum rho sc'
  end.

Definition int_scope (sc : scope) : Prop := Forall (fun e => exists z, snd e = OInt z) sc.

Definition oval (o : option order) : Z := match o with Some (OInt z) => z | _ => 0 end.

Lemma dset_int k z sc : int_scope sc -> int_scope (dset k (OInt z) sc).
Proof.
  unfold int_scope. induction 1 as [|[k' o] sc H F IH]; simpl.
  - constructor; auto. simpl. eauto.
  - destruct (str_eqb k k'); constructor; auto. simpl; eauto.
Qed.

Lemma dset_ssum rho k z sc : int_scope sc ->
  ssum rho (dset k (OInt z) sc) = ssum rho sc - oval (dget k sc) * rho k + z * rho k.
Proof.
  induction 1 as [|[k' o] sc [z' H] F IH]; simpl; [lia|]. simpl in H. subst o.
  destruct (str_eqb k k') eqn:E; simpl.
  - apply str_eqb_eq in E. subst. lia.
  - rewrite IH. lia.
Qed.

Lemma dget_int k sc : int_scope sc -> exists z,
  (match dget k sc with Some x => x | None => OInt 0 end) = OInt z /\ oval (dget k sc) = z.
Proof.
  induction 1 as [|[k' o] sc [z' H] F IH]; simpl; [eauto|]. simpl in H; subst.
  destruct (str_eqb k k'); [eauto|exact IH].
Qed.

Definition keys_in (sc : scope) (P : str -> Prop) : Prop := Forall (fun e => P (fst e)) sc.

Lemma dset_keys {V} (P : str -> Prop) k (v : V) sc : P k -> Forall (fun e => P (fst e)) sc ->
  Forall (fun e => P (fst e)) (dset k v sc).
Proof.
  intros Hk. induction 1 as [|[k' o] sc H F IH]; simpl; [repeat constructor; auto|].
  destruct (str_eqb k k'); constructor; auto.
Qed.

Lemma merge_ok (sub : bool) rho P r : forall l, int_scope l -> int_scope r -> keys_in l P -> keys_in r P ->
  exists sc, scope_merge (if sub then order_sub else order_add) l r = Ok sc /\ int_scope sc /\ keys_in sc P /\
    ssum rho sc = ssum rho l + (if sub then -1 else 1) * ssum rho r.
Proof.
  induction r as [|[k o] r IH]; intros l Il Ir Kl Kr; simpl.
  - exists l. repeat split; auto. lia.
  - inversion Ir as [|? ? [z Hz] Ir']; subst. simpl in Hz. subst o.
    inversion Kr as [|? ? Pk Kr']; subst. simpl in Pk.
    destruct (dget_int k l Il) as (w & E & V).
    assert (Eo : (if sub then order_sub else order_add)
      (match dget k l with Some x => x | None => OInt 0 end) (OInt z) = Ok (OInt (w + (if sub then -1 else 1) * z))).
    { rewrite E. destruct sub; cbn [order_sub order_add]; do 2 f_equal; lia. }
    rewrite Eo. cbn [bind].
    destruct (IH (dset k (OInt (w + (if sub then -1 else 1) * z)) l)) as (sc & E' & I' & K' & S'); auto.
    + now apply dset_int.
    + now apply dset_keys.
    + exists sc. repeat split; auto. rewrite S', dset_ssum, V by auto. lia.
Qed.

Lemma scale_ok z P rho l : int_scope l -> keys_in l P ->
  exists sc, scope_scale (NInt z) l = Ok sc /\ int_scope sc /\ keys_in sc P /\ ssum rho sc = z * ssum rho l.
Proof.
  intros H K. induction H as [|[k o] l [w Hw] Il IH]; simpl.
  - exists []. split; [reflexivity|split; [constructor|split; [constructor|simpl; lia]]].
  - simpl in Hw. subst o. inversion K as [|? ? Pk K']; subst.
    destruct (IH K') as (sc & E & I' & K'' & S). simpl. rewrite E. simpl.
    eexists. split; [reflexivity|]. repeat split.
    + constructor; simpl; eauto.
    + constructor; auto.
    + simpl. rewrite S. lia.
Qed.

Lemma count_plain rho d : plain d ->
  exists sc, count d = Ok sc /\ int_scope sc /\ keys_in sc (fun s => occurs s d) /\
    forall b, ssum (fun s => rho s b) sc = gdim rho d b.
Proof.
  induction d; simpl; intro P; try contradiction.
  - exists []. repeat split; constructor.
  - exists [(name, OInt 1)]. repeat split.
    + repeat constructor. simpl; eauto.
    + repeat constructor.
    + intro b. cbn [ssum gdim]. lia.
  - destruct P as (P & z & r & ->). destruct (IHd1 P) as (sc & E & I & K & S).
    rewrite E. simpl.
    destruct (scale_ok z (fun s => occurs s d1 \/ False) (fun s => 0) sc I) as (sc' & E' & I' & K' & _).
    { eapply Forall_impl; [|exact K]. simpl; auto. }
    exists sc'. repeat split; auto. intro b.
    destruct (scale_ok z (fun s => occurs s d1) (fun s => rho s b) sc I K) as (sc2 & E2 & _ & _ & S2).
    rewrite E' in E2. injection E2 as <-. now rewrite S2, S.
  - destruct P as (P1 & P2). destruct (IHd1 P1) as (l & E1 & I1 & K1 & S1).
    destruct (IHd2 P2) as (r & E2 & I2 & K2 & S2). rewrite E1, E2. simpl.
    assert (K1' : keys_in l (fun s => occurs s d1 \/ occurs s d2)) by (eapply Forall_impl; [|exact K1]; simpl; auto).
    assert (K2' : keys_in r (fun s => occurs s d1 \/ occurs s d2)) by (eapply Forall_impl; [|exact K2]; simpl; auto).
    destruct (merge_ok false (fun _ => 0) _ r l I1 I2 K1' K2') as (sc & E & I & K & _). simpl in E.
    exists sc. repeat split; auto. intro b.
    destruct (merge_ok false (fun s => rho s b) _ r l I1 I2 K1' K2') as (sc' & E' & _ & _ & S). simpl in E'.
    rewrite E in E'. injection E' as <-. rewrite S, S1, S2. lia.
  - destruct P as (P1 & P2). destruct (IHd1 P1) as (l & E1 & I1 & K1 & S1).
    destruct (IHd2 P2) as (r & E2 & I2 & K2 & S2). rewrite E1, E2. simpl.
    assert (K1' : keys_in l (fun s => occurs s d1 \/ occurs s d2)) by (eapply Forall_impl; [|exact K1]; simpl; auto).
    assert (K2' : keys_in r (fun s => occurs s d1 \/ occurs s d2)) by (eapply Forall_impl; [|exact K2]; simpl; auto).
    destruct (merge_ok true (fun _ => 0) _ r l I1 I2 K1' K2') as (sc & E & I & K & _). simpl in E.
    exists sc. repeat split; auto. intro b.
    destruct (merge_ok true (fun s => rho s b) _ r l I1 I2 K1' K2') as (sc' & E' & _ & _ & S). simpl in E'.
    rewrite E in E'. injection E' as <-. rewrite S, S1, S2. lia.
Qed.

(** ** dims *)
Definition dkeys_of (d : dims) : list str := map (fun e => fst (fst e)) d.

Lemma dims_get_in b d : dims_get b d <> None <-> In b (dkeys_of d).
Proof.
  induction d as [|[[k f] z] d IH]; simpl; [tauto|].
  destruct (str_eqb b k) eqn:E.
  - apply str_eqb_eq in E. subst. split; auto; discriminate.
  - apply str_eqb_neq in E. rewrite IH. split; auto. intros [H|H]; auto. congruence.
Qed.

Lemma dims_add_keys b z d : forall k, In k (dkeys_of (dims_add b z d)) <-> k = fst b \/ In k (dkeys_of d).
Proof.
  induction d as [|[[k' f] z'] d IH]; intro k; simpl.
  - intuition.
  - destruct (str_eqb (fst b) k') eqn:E; simpl.
    + apply str_eqb_eq in E. subst. intuition.
    + rewrite IH. intuition.
Qed.

Lemma dims_add_nodup b z d : NoDup (dkeys_of d) -> NoDup (dkeys_of (dims_add b z d)).
Proof.
  induction d as [|[[k' f] z'] d IH]; simpl; intro N.
  - repeat constructor; auto.
  - inversion N; subst. destruct (str_eqb (fst b) k') eqn:E; simpl; constructor; auto.
    apply str_eqb_neq in E. change (map (fun e => fst (fst e)) (dims_add b z d)) with (dkeys_of (dims_add b z d)).
    rewrite dims_add_keys. intros [H|H]; auto.
Qed.

Lemma dims_add_val b z d k : dval (dims_add b z d) k = dval d k + (if str_eqb (fst b) k then z else 0).
Proof.
  unfold dval. induction d as [|[[k' f] z'] d IH]; simpl.
  - destruct b as [b f]. simpl. rewrite str_eqb_sym. destruct (str_eqb b k); lia.
  - destruct (str_eqb (fst b) k') eqn:E; simpl.
    + apply str_eqb_eq in E. rewrite E. rewrite (str_eqb_sym k' k). destruct (str_eqb k k'); lia.
    + destruct (str_eqb k k') eqn:E2; auto.
      apply str_eqb_eq in E2. subst. rewrite E. lia.
Qed.

Lemma dims_add_all_nodup o m : forall acc acc', dims_add_all o m acc = Ok acc' -> NoDup (dkeys_of acc) -> NoDup (dkeys_of acc').
Proof.
  induction m as [|[b bo] m IH]; simpl; intros acc acc' E N.
  - now injection E as <-.
  - destruct o; [|discriminate]. eapply IH; eauto. now apply dims_add_nodup.
Qed.

Lemma dims_add_all_val z m : forall acc, NoDup (dkeys_of m) ->
  exists acc', dims_add_all (OInt z) m acc = Ok acc' /\ forall k, dval acc' k = dval acc k + z * dval m k.
Proof.
  induction m as [|[[b f] bo] m IH]; simpl; intros acc N.
  - exists acc. split; auto. intro k. unfold dval at 3. simpl. lia.
  - inversion N; subst. destruct (IH (dims_add (b, f) (bo * z) acc) H2) as (acc' & E & V).
    exists acc'. split; auto. intro k. rewrite V, dims_add_val. simpl.
    unfold dval at 4. simpl. rewrite (str_eqb_sym k b). destruct (str_eqb b k) eqn:E2.
    + apply str_eqb_eq in E2. subst. assert (dims_get k m = None).
      { destruct (dims_get k m) eqn:G; auto. exfalso. apply H1. apply dims_get_in. congruence. }
      unfold dval at 2. rewrite H. lia.
    + fold (dval m k). lia.
Qed.

Lemma drop_zero_get d b : NoDup (dkeys_of d) ->
  dims_get b (drop_zero d) = if Z.eqb (dval d b) 0 then None else Some (dval d b).
Proof.
  unfold dval. induction d as [|[[k f] z] d IH]; simpl; intro N; auto.
  inversion N; subst. destruct (Z.eqb z 0) eqn:Z; simpl.
  - rewrite IH by auto. destruct (str_eqb b k) eqn:E; auto. apply str_eqb_eq in E. subst.
    destruct (dims_get k d) eqn:G; [|now rewrite Z]. exfalso. apply H1, dims_get_in. congruence.
  - destruct (str_eqb b k); [now rewrite Z|apply IH; auto].
Qed.

Lemma drop_zero_nodup d : NoDup (dkeys_of d) -> NoDup (dkeys_of (drop_zero d)).
Proof.
  induction d as [|[[k f] z] d IH]; simpl; intro N; auto. inversion N; subst.
  destruct (Z.eqb z 0); simpl; auto. constructor; auto.
  intro I. apply H1. clear -I. induction d as [|[[k' f'] z'] d IH]; simpl in *; auto.
  destruct (Z.eqb z' 0); simpl in I; auto. destruct I; auto.
Qed.

(** *** the loop of Unit.dimensionality, in terms of [find_ref] *)
Definition step (refs : list (str * uref)) (k : str) (o : order) (acc : dims) : res dims :=
  match find_ref k refs with
  | None => Err EKey
  | Some (RPrefix _) => Ok acc
  | Some (RUnit y) => do m <- udims y ;; dims_add_all o m acc
  end.

Fixpoint walk (refs : list (str * uref)) (sc : scope) (acc : dims) : res dims :=
  match sc with
  | [] => Ok acc
  | (k, o) :: sc' => do acc' <- step refs k o acc ;; walk refs sc' acc'
  end.

Lemma udims_expr d refs : udims (UExpr d refs) =
  do td <- split_root d ;; do sc <- count (snd td) ;; do acc <- walk refs sc [] ;; Ok (drop_zero acc).
Proof.
  simpl. destruct (split_root d) as [td|]; auto. simpl. destruct (count (snd td)) as [sc|]; auto. cbn [bind].
  assert (W : forall acc, (fix outer (sc : scope) (acc : dims) : res dims :=
         match sc with
         | [] => Ok acc
         | (k, o) :: sc' =>
           do acc' <-
             (fix find (rs : list (str * uref)) : res dims :=
                match rs with
                | [] => Err EKey
                | (k', v) :: rs' =>
                  if str_eqb k k' then
                    match v with
                    | RPrefix _ => Ok acc
                    | RUnit y => do m <- udims y ;; dims_add_all o m acc
                    end
                  else find rs'
                end) refs ;;
           outer sc' acc'
         end) sc acc = walk refs sc acc).
  { induction sc as [|[k o] sc IH]; intro acc; cbn [walk]; auto.
    assert (F : (fix find (rs : list (str * uref)) : res dims :=
                match rs with
                | [] => Err EKey
                | (k', v) :: rs' =>
                  if str_eqb k k' then
                    match v with
                    | RPrefix _ => Ok acc
                    | RUnit y => do m <- udims y ;; dims_add_all o m acc
                    end
                  else find rs'
                end) refs = step refs k o acc).
    { unfold step. clear. induction refs as [|[k' v] rs IHr]; cbn [find_ref]; auto.
      destruct (str_eqb k k'); [destruct v; reflexivity|exact IHr]. }
    rewrite F. destruct (step refs k o acc); cbn [bind]; auto. }
  now rewrite W.
Qed.

Lemma udims_basis r dl it : udims (UBasis r dl it) = Ok (if dl then [] else [((r, it), 1)]).
Proof. reflexivity. Qed.

(** Every result has distinct keys and no zero. *)
Lemma udims_wf x d : udims x = Ok d -> NoDup (dkeys_of d) /\ Forall (fun e => snd e <> 0) d.
Proof.
  destruct x as [r dl it|df refs].
  - simpl. intro E. injection E as <-. destruct dl; simpl; repeat constructor; simpl; auto; discriminate.
  - rewrite udims_expr. destruct (split_root df) as [td|]; [|discriminate]. cbn [bind].
    destruct (count (snd td)) as [sc|]; [|discriminate]. cbn [bind].
    destruct (walk refs sc []) as [acc|] eqn:W; [|discriminate]. cbn [bind]. intro E. injection E as <-.
    assert (N : NoDup (dkeys_of acc)).
    { assert (G : forall sc acc0 acc, walk refs sc acc0 = Ok acc -> NoDup (dkeys_of acc0) -> NoDup (dkeys_of acc)).
      { clear. induction sc as [|[k o] sc IH]; simpl; intros acc0 acc E N; [now injection E as <-|].
        unfold step in E. destruct (find_ref k refs) as [[v|y]|]; [| |discriminate].
        - cbn [bind] in E. eauto.
        - destruct (udims y) as [m|]; [|discriminate]. cbn [bind] in E.
          destruct (dims_add_all o m acc0) as [a|] eqn:A; [|discriminate]. cbn [bind] in E.
          eapply IH; eauto. eapply dims_add_all_nodup; eauto. }
      eapply G; eauto. constructor. }
    split; [now apply drop_zero_nodup|].
    apply Forall_forall. intros e I. unfold drop_zero in I. apply filter_In in I as [_ I].
    apply negb_true_iff, Z.eqb_neq in I. exact I.
Qed.

Lemma wf_represents d : NoDup (dkeys_of d) -> Forall (fun e => snd e <> 0) d -> represents d (dval d).
Proof.
  intros N F. split; auto. intro b. unfold dval. clear N.
  induction F as [|[[k f] z] d Hz F IH]; simpl; auto. destruct (str_eqb b k); auto.
  simpl in Hz. apply Z.eqb_neq in Hz. now rewrite Hz.
Qed.

Lemma represents_val d f : represents d f -> forall b, dval d b = f b.
Proof.
  intros [_ R] b. unfold dval. rewrite R. destruct (Z.eqb_spec (f b) 0); congruence.
Qed.

Lemma represents_ext d f g : represents d f -> (forall b, f b = g b) -> represents d g.
Proof. intros [N R] E. split; auto. intro b. now rewrite R, E. Qed.

Theorem udims_sound x : sound_unit x -> exists d, udims x = Ok d /\ represents d (exps x).
Proof.
  induction 1 as [r dl it|d refs T O S IH].
  - exists (if dl then [] else [((r, it), 1)]). split; auto. split.
    + destruct dl; simpl; repeat constructor; auto.
    + intro b. simpl. destruct dl; simpl; auto. rewrite str_eqb_sym. destruct (str_eqb r b); auto.
  - rewrite udims_expr. unfold split_root.
    destruct (tidy_split (ref_exps refs) d true T) as (t & dd & E & _ & P & G & Oc).
    rewrite E. cbn [bind snd].
    destruct (count_plain (ref_exps refs) dd P) as (sc & Ec & I & K & Sm). rewrite Ec. cbn [bind].
    assert (W : forall acc, NoDup (dkeys_of acc) -> exists acc', walk refs sc acc = Ok acc' /\ NoDup (dkeys_of acc') /\
       forall b, dval acc' b = dval acc b + ssum (fun s => ref_exps refs s b) sc).
    { assert (K' : keys_in sc (fun s => occurs s d)) by (eapply Forall_impl; [|exact K]; simpl; auto).
      clear -I K' O IH. induction sc as [|[k o] sc IHs]; intros acc N.
      - exists acc. repeat split; auto. intro b. simpl. lia.
      - inversion I as [|? ? [z Hz] I']; subst. simpl in Hz. subst o. inversion K' as [|? ? Ok_ K'']; subst.
        simpl in Ok_. cbn [walk]. unfold step. pose proof (O k Ok_) as Hf.
        destruct (find_ref k refs) as [[v|y]|] eqn:F; [| |congruence].
        + cbn [bind]. destruct (IHs I' K'' acc N) as (acc' & E & N' & V). exists acc'. repeat split; auto.
          intro b. rewrite V. simpl. unfold ref_exps at 2. rewrite F. lia.
        + destruct (IH k y F Ok_) as (m & Em & R). rewrite Em. cbn [bind].
          destruct (dims_add_all_val z m acc (proj1 R)) as (a & Ea & Va). rewrite Ea. cbn [bind].
          assert (Na : NoDup (dkeys_of a)) by (eapply dims_add_all_nodup; eauto).
          destruct (IHs I' K'' a Na) as (acc' & E & N' & V). exists acc'. repeat split; auto.
          intro b. rewrite V, Va. simpl. unfold ref_exps at 2. rewrite F, (represents_val m _ R). lia. }
    destruct (W [] (NoDup_nil _)) as (acc & Ew & N & V). rewrite Ew. cbn [bind].
    eexists. split; [reflexivity|]. split; [now apply drop_zero_nodup|].
    intro b. rewrite drop_zero_get, V by auto. rewrite Sm, G. rewrite exps_expr.
    unfold dval. simpl. reflexivity.
Qed.
