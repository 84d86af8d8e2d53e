(** * The shipped database, read (XmlData.v is generated from the XML file). *)
From Verif Require Import PyBase PyNum Graph Visitor Expr Units UnitSystem SystemSpec SystemFacts SystemProofs SystemMore SystemKeep SystemOrd
  Xml XmlSpec XmlFacts XmlPrefix XmlData.
From Coq Require Import Permutation.

Definition in_order : list str -> list str := fun l => l.
Lemma in_order_rearranges : rearranges in_order. Proof. intro l. apply Permutation_refl. Qed.

(** the system read with the strict reader, prefix symbols stored in document order *)
Definition shipped : system := match read_system true in_order db with Ok s => s | Err _ => empty_system end.

(** one round of the computation of the depth of definitions *)
Definition deepen (ids : list (list str)) (s : system) (rk : list nat) : list nat :=
  map (fun is => list_max (map (query_rank s rk) is)) ids.
Definition all_ids (s : system) : list (list str) :=
  map (fun l => match parse (lz_def l) with Ok g => identifiers g | Err _ => [] end) (s_lazies s).

Definition ranks : list nat := Eval vm_compute in
  let s := shipped in let ids := all_ids s in Nat.iter 12 (deepen ids s) [].
Definition db_depth : nat := Eval vm_compute in S (list_max ranks).

(** every key of the four dictionaries *)
Definition all_words (s : system) : list str :=
  dkeys (s_names s) ++ dkeys (s_alias_names s) ++ dkeys (s_symbols s) ++ dkeys (s_alias_symbols s).

(** nothing resolved yet, only basis units: all units are proper *)
Definition pristine (s : system) : bool :=
  forallb (fun d => forallb (fun e : str * entry => match snd e with EUnit (UExpr _ _) _ => false | _ => true end) d)
    [s_names s; s_alias_names s; s_symbols s; s_alias_symbols s] &&
  forallb (fun l => match lz_resolved l with Some _ => false | None => true end) (s_lazies s).

Lemma pristine_proper s : pristine s = true -> proper_system s.
Proof.
  intro P. apply andb_prop in P as [P1 P2]. rewrite forallb_forall in P1. split.
  - intros k x r K. apply known_iff in K. unfold known_opt, get_or in K.
    assert (G : forall d, In d [s_names s; s_alias_names s; s_symbols s; s_alias_symbols s] -> dget k d = Some (EUnit x r) -> proper x).
    { clear K. intros d I. specialize (P1 d I). clear I. induction d as [|[k' e] d IH]; cbn [dget]; [discriminate|].
      cbn [forallb snd] in P1. apply andb_prop in P1 as [F1 F2]. destruct (str_eqb k k'); [|auto]. injection 1 as ->. destruct x; [constructor|discriminate]. }
    destruct (dget k (s_names s)) eqn:E1; [injection K as ->; eapply G; [|exact E1]; cbn; auto|].
    destruct (dget k (s_alias_names s)) eqn:E2; [injection K as ->; eapply G; [|exact E2]; cbn; auto|].
    destruct (dget k (s_symbols s)) eqn:E3; [injection K as ->; eapply G; [|exact E3]; cbn; auto|].
    eapply G; [|exact K]; cbn; auto.
  - intros i l x N R. rewrite forallb_forall in P2. apply nth_error_In in N. specialize (P2 l N). rewrite R in P2. discriminate.
Qed.

Lemma shipped_ok : read_system true in_order db = Ok shipped.
Proof.
  assert (E : is_ok (read_system true in_order db) = true) by (vm_compute; reflexivity).
  unfold shipped. destruct (read_system true in_order db); [reflexivity|discriminate].
Qed.

(** all the computations on the database in one go *)
Definition db_checks (s : system) : bool := clash_free_b s && pristine s && ranked_b s ranks.
Lemma db_checked : db_checks shipped = true. Proof. vm_compute. reflexivity. Qed.
