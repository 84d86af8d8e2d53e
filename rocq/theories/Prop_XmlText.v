(** * C106, C107, C108: from the bytes of an XML file to the unit system. *)
From Verif Require Import PyBase PyNum Graph Expr Units UnitSystem SystemSpec ParseFacts Xml XmlData Database
  XmlElement Prop_XmlElement XmlText XmlTextData.
Open Scope N_scope.
Open Scope list_scope.

(** ** Specification: writing a document *)
Definition escaped (c : N) : str :=
  if N.eqb c 60 then u "&lt;" else if N.eqb c 62 then u "&gt;"
  else if N.eqb c 38 then u "&amp;" else if N.eqb c 34 then u "&quot;" else [c].
Definition escape (s : str) : str := flat_map escaped s.
Definition opt (x : option str) : str := match x with Some s => s | None => [] end.
Definition quote : str := [34].
Definition write_attr (a : str * str) : str := u " " ++ fst a ++ u "=" ++ quote ++ escape (snd a) ++ quote.
(** an element in a namespace is written with the prefix n, which its start tag declares *)
Definition q_name (ns : option str) (l : str) : str := match ns with Some _ => u "n:" ++ l | None => l end.
Definition all_attrs (ns : option str) (a : list (str * str)) : list (str * str) :=
  match ns with Some n => (u "xmlns:n", n) :: a | None => a end.
Fixpoint write (e : xnode) : str :=
  match e with
  | NotElement tl => u "<!---->" ++ escape (opt tl)
  | Element ns l a x ks tl =>
    u "<" ++ q_name ns l ++ flat_map write_attr (all_attrs ns a) ++ u ">" ++
    escape (opt x) ++ flat_map write ks ++
    u "</" ++ q_name ns l ++ u ">" ++ escape (opt tl)
  end.

(** documents that can be written: proper names, namespaces and texts not empty, and no line
    ends or tabs in attributes (XML reads those as blanks) *)
Definition a_name_ok (n : str) : Prop := n <> [] /\ Forall (fun c => name_char c = true) n.
Definition one_line (v : str) : Prop := Forall (fun c => c <> 9 /\ c <> 10 /\ c <> 13) v.
Definition not_blank (x : option str) : Prop := x <> Some [].
Inductive writable : xnode -> Prop :=
| Wr_el ns l a x ks tl :
    (forall n, ns = Some n -> n <> [] /\ one_line n) -> a_name_ok l ->
    Forall (fun nv => a_name_ok (fst nv) /\ fst nv <> u "xmlns" /\ one_line (snd nv)) a ->
    not_blank x -> not_blank tl -> writables ks -> writable (Element ns l a x ks tl)
| Wr_other tl : not_blank tl -> writable (NotElement tl)
with writables : list xnode -> Prop :=
| Wrs_nil : writables []
| Wrs_cons e l : writable e -> writables l -> writables (e :: l).

(** ** Proofs: tokens *)
Definition w_tok (t : xtoken) : str :=
  match t with
  | TOpen q a _ => 60 :: q ++ flat_map write_attr a ++ u ">"
  | TClose q => 60 :: 47 :: q ++ u ">"
  | TChars s => escape s
  | TMisc => u "<!---->"
  end.
Definition tok_ok (t : xtoken) : Prop :=
  match t with
  | TOpen q a c => c = false /\ q <> [] /\ Forall (fun c => qname_char c = true) q /\
      Forall (fun nv : str * str => fst nv <> [] /\ Forall (fun c => qname_char c = true) (fst nv) /\ one_line (snd nv)) a
  | TClose q => Forall (fun c => qname_char c = true) q
  | TChars s => s <> []
  | TMisc => True
  end.
Definition is_chars (t : xtoken) : bool := match t with TChars _ => true | _ => false end.
Fixpoint separated (ts : list xtoken) : Prop :=
  match ts with
  | [] => True
  | t :: r => (is_chars t = true -> match r with [] => True | t' :: _ => is_chars t' = false end) /\ separated r
  end.

Lemma span_all p a b : Forall (fun c => p c = true) a -> match b with [] => True | c :: _ => p c = false end -> span p (a ++ b) = (a, b).
Proof.
  intros F B. induction F as [|c a H _ IH]; cbn [app span].
  - destruct b as [|c b]; [reflexivity|]. cbn [span]. now rewrite B.
  - now rewrite H, IH.
Qed.

Lemma escaped_cases c :
  (c = 60 /\ escaped c = u "&lt;") \/ (c = 62 /\ escaped c = u "&gt;") \/ (c = 38 /\ escaped c = u "&amp;") \/
  (c = 34 /\ escaped c = u "&quot;") \/ (escaped c = [c] /\ c <> 60 /\ c <> 38 /\ c <> 34).
Proof.
  unfold escaped. destruct (N.eqb_spec c 60); [auto 10|]. destruct (N.eqb_spec c 62); [auto 10|].
  destruct (N.eqb_spec c 38); [auto 10|]. destruct (N.eqb_spec c 34); [auto 10|]. do 4 right; auto.
Qed.
Lemma unescape_escape s : unescape (escape s) None = Some s.
Proof.
  induction s as [|c s IH]; [reflexivity|]. change (escape (c :: s)) with (escaped c ++ escape s).
  destruct (escaped_cases c) as [[-> ->]|[[-> ->]|[[-> ->]|[[-> ->]|(-> & A & B & _)]]]].
  1-4: cbv [u bytes_of utf8 app]; cbn [N_of_ascii N_of_digits]; cbn -[escape]; now rewrite IH.
  cbn [app unescape]. destruct (N.eqb_spec c 38); [congruence|]. now rewrite IH.
Qed.
Lemma escape_free (d : N) : d = 60 \/ d = 34 -> forall s, Forall (fun c => negb (N.eqb c d) = true) (escape s).
Proof.
  intros D s. induction s as [|c s IH]; [constructor|]. change (escape (c :: s)) with (escaped c ++ escape s). apply Forall_app. split; [|exact IH].
  destruct (escaped_cases c) as [[-> ->]|[[-> ->]|[[-> ->]|[[-> ->]|(-> & A & B & Q)]]]].
  1-4: destruct D as [-> | ->]; repeat constructor.
  constructor; [|constructor]. destruct (N.eqb_spec c d); [|reflexivity]. exfalso. destruct D as [-> | ->]; congruence.
Qed.
Lemma escape_nil s : escape s = [] -> s = [].
Proof.
  destruct s as [|c s]; [reflexivity|]. change (escape (c :: s)) with (escaped c ++ escape s). intro H.
  apply app_eq_nil in H as [H _]. exfalso. revert H. unfold escaped.
  destruct (N.eqb c 60); [discriminate|]. destruct (N.eqb c 62); [discriminate|]. destruct (N.eqb c 38); [discriminate|]. destruct (N.eqb c 34); discriminate.
Qed.
Lemma blanked_escape v : one_line v -> blanked (escape v) = escape v.
Proof.
  unfold blanked. induction 1 as [|c v (A & B & C) _ IH]; [reflexivity|]. change (escape (c :: v)) with (escaped c ++ escape v).
  rewrite map_app, IH. f_equal.
  destruct (escaped_cases c) as [[-> ->]|[[-> ->]|[[-> ->]|[[-> ->]|(-> & _)]]]]; try reflexivity.
  cbn [map]. unfold xml_space. destruct (N.eqb_spec c 32); [now subst|]. destruct (N.eqb_spec c 9); [congruence|].
  destruct (N.eqb_spec c 10); [congruence|]. destruct (N.eqb_spec c 13); [congruence|]. reflexivity.
Qed.

Lemma q_char c : qname_char c = true -> xml_space c = false /\ c <> 62 /\ c <> 47 /\ c <> 61 /\ c <> 33 /\ c <> 63.
Proof.
  unfold qname_char, name_char, xml_space. intro H.
  assert (X : c = 58 \/ (44 < c /\ c <> 47 /\ ~ (58 <= c <= 64))).
  { apply Bool.orb_true_iff in H as [H|H]; [|apply N.eqb_eq in H; auto]. right. apply Bool.negb_true_iff in H.
    apply Bool.orb_false_iff in H as [H _]. apply Bool.orb_false_iff in H as [H _]. apply Bool.orb_false_iff in H as [H H3].
    apply Bool.orb_false_iff in H as [H1 H2]. apply N.leb_gt in H1. apply N.eqb_neq in H2. split; auto. split; auto.
    intros [P Q]. apply N.leb_le in P, Q. rewrite P, Q in H3. discriminate H3. }
  assert (Y : c <> 32 /\ c <> 9 /\ c <> 10 /\ c <> 13) by lia. destruct Y as (Y1 & Y2 & Y3 & Y4).
  apply N.eqb_neq in Y1, Y2, Y3, Y4. rewrite Y1, Y2, Y3, Y4. split; [reflexivity|]. lia.
Qed.

Lemma attributes_written attrs : forall rest fuel,
  Forall (fun nv : str * str => fst nv <> [] /\ Forall (fun c => qname_char c = true) (fst nv) /\ one_line (snd nv)) attrs ->
  (List.length attrs < fuel)%nat ->
  attributes fuel (flat_map write_attr attrs ++ 62 :: rest) = Some (attrs, 62 :: rest).
Proof.
  induction attrs as [|[n v] attrs IH]; intros rest fuel F L; destruct fuel as [|f]; try (cbn [List.length] in L; lia); [reflexivity|].
  inversion F as [|? ? (Nn & Nq & V) F']; subst. cbn [fst snd] in *.
  assert (E : flat_map write_attr ((n, v) :: attrs) ++ 62 :: rest =
              [32] ++ (n ++ [61] ++ [34] ++ escape v ++ [34] ++ flat_map write_attr attrs ++ 62 :: rest)).
  { cbn [flat_map]. unfold write_attr at 1. cbn [fst snd]. rewrite <- !app_assoc. reflexivity. }
  rewrite E. set (rest' := flat_map write_attr attrs ++ 62 :: rest) in *.
  destruct n as [|c n]; [congruence|]. pose proof (Forall_inv Nq) as Qc. cbn beta in Qc. destruct (q_char c Qc) as (Qs & Q1 & Q2 & _).
  cbn [attributes]. rewrite (span_all xml_space [32]) by (repeat constructor; exact Qs).
  cbn [app]. apply N.eqb_neq in Q1, Q2. rewrite Q1, Q2. cbn [orb].
  change (c :: n ++ 61 :: 34 :: escape v ++ 34 :: rest') with ((c :: n) ++ (61 :: 34 :: escape v ++ 34 :: rest')).
  rewrite (span_all qname_char (c :: n)) by (auto; reflexivity). cbn [span xml_space N.eqb orb snd Pos.eqb].
  rewrite (span_all (fun c => negb (N.eqb c 34)) (escape v)) by (try apply escape_free; auto; reflexivity).
  assert (Lt : existsb (N.eqb 60) (escape v) = false).
  { pose proof (escape_free 60 (or_introl eq_refl) v) as G. clear - G. induction G as [|c w H _ IHg]; [reflexivity|].
    cbn [existsb]. rewrite N.eqb_sym. apply Bool.negb_true_iff in H. rewrite H. exact IHg. }
  rewrite Lt, blanked_escape, unescape_escape by exact V. subst rest'. rewrite IH; [reflexivity|exact F'|cbn [List.length] in L; lia].
Qed.

Lemma attrs_length attrs : (List.length attrs <= List.length (flat_map write_attr attrs))%nat.
Proof.
  induction attrs as [|[n v] r IH]; [cbn [List.length]; lia|]. cbn [flat_map].
  assert (W : write_attr (n, v) = 32 :: (n ++ u "=" ++ quote ++ escape v ++ quote)) by reflexivity.
  rewrite W. cbn [app List.length]. rewrite app_length. lia.
Qed.

Lemma start_tag_written q a rest : tok_ok (TOpen q a false) ->
  start_tag (q ++ flat_map write_attr a ++ u ">" ++ rest) = Some (TOpen q a false, rest).
Proof.
  intros (_ & Nq & Q & A). unfold start_tag. change (u ">" ++ rest) with (62 :: rest).
  rewrite span_all; [|exact Q|destruct a as [|[n v] a]; reflexivity].
  destruct q as [|c q]; [congruence|].
  rewrite attributes_written; [reflexivity|exact A|]. rewrite app_length. pose proof (attrs_length a). lia.
Qed.
Lemma end_tag_written q rest : Forall (fun c => qname_char c = true) q -> end_tag (q ++ u ">" ++ rest) = Some (TClose q, rest).
Proof. intro Q. unfold end_tag. change (u ">" ++ rest) with (62 :: rest). rewrite span_all; [reflexivity|exact Q|reflexivity]. Qed.

Lemma w_tok_length t : tok_ok t -> (1 <= List.length (w_tok t))%nat.
Proof.
  destruct t as [q a c|q|s|]; cbn [w_tok tok_ok List.length]; intro H; try lia.
  - destruct (escape s) eqn:E; [apply escape_nil in E; congruence|cbn [List.length]; lia].
  - vm_compute. lia.
Qed.

Lemma tokens_written ts : forall fuel, Forall tok_ok ts -> separated ts ->
  (List.length (flat_map w_tok ts) <= fuel)%nat -> tokens fuel (flat_map w_tok ts) = Some ts.
Proof.
  induction ts as [|t ts IH]; intros fuel F Sep L; [destruct fuel; reflexivity|].
  inversion F as [|? ? T F']; subst. destruct Sep as [Sp Sep]. cbn [flat_map] in *. rewrite app_length in L.
  pose proof (w_tok_length t T) as Lt. destruct fuel as [|f]; [lia|].
  assert (R : tokens f (flat_map w_tok ts) = Some ts) by (apply IH; auto; lia).
  destruct t as [q a c|q|s|]; cbn [w_tok] in *.
  - cbn [tok_ok] in T. assert (c = false) as -> by tauto.
    cbn [app tokens]. change (N.eqb 60 60) with true. cbn iota.
    replace ((q ++ flat_map write_attr a ++ u ">") ++ flat_map w_tok ts) with (q ++ flat_map write_attr a ++ u ">" ++ flat_map w_tok ts) by (rewrite <- !app_assoc; reflexivity).
    assert (Mk : markup (q ++ flat_map write_attr a ++ u ">" ++ flat_map w_tok ts) = Some (TOpen q a false, flat_map w_tok ts)).
    { rewrite <- (start_tag_written q a (flat_map w_tok ts) T). destruct T as (_ & Nq & Q & _). destruct q as [|d q]; [congruence|].
      pose proof (Forall_inv Q) as Qd. destruct (q_char d Qd) as (_ & Q1 & Q2 & Q3 & Q4 & Q5).
      cbn [app markup]. apply N.eqb_neq in Q2, Q4, Q5. now rewrite Q2, Q4, Q5. }
    rewrite Mk, R. reflexivity.
  - cbn [app tokens]. change (N.eqb 60 60) with true. cbn iota. cbn [markup N.eqb Pos.eqb].
    rewrite <- app_assoc, (end_tag_written q (flat_map w_tok ts) T), R. reflexivity.
  - destruct (escape s) as [|c e] eqn:E; [apply escape_nil in E; contradiction|].
    assert (Cd : char_data ((c :: e) ++ flat_map w_tok ts) = Some (TChars s, flat_map w_tok ts)).
    { unfold char_data. rewrite <- E. rewrite span_all.
      - now rewrite unescape_escape.
      - apply escape_free. now left.
      - specialize (Sp eq_refl). destruct ts as [|t' ts]; [exact I|]. destruct t'; try discriminate Sp; reflexivity. }
    pose proof (escape_free 60 (or_introl eq_refl) s) as Lf. rewrite E in Lf. apply Forall_inv in Lf. apply Bool.negb_true_iff in Lf.
    change ((c :: e) ++ flat_map w_tok ts) with (c :: (e ++ flat_map w_tok ts)) in *. cbn [tokens]. rewrite Lf, Cd, R. reflexivity.
  - change (u "<!---->" ++ flat_map w_tok ts) with (60 :: 33 :: (u "---->" ++ flat_map w_tok ts)). cbn [tokens].
    change (N.eqb 60 60) with true. cbn iota.
    assert (Mk : markup (33 :: u "---->" ++ flat_map w_tok ts) = Some (TMisc, flat_map w_tok ts)) by reflexivity.
    rewrite Mk, R. reflexivity.
Qed.

(** ** Proofs: the tree *)
Definition chars (x : option str) : list xtoken := match x with Some s => [TChars s] | None => [] end.
Fixpoint toks (e : xnode) : list xtoken :=
  match e with
  | NotElement tl => TMisc :: chars tl
  | Element ns l a x ks tl =>
    TOpen (q_name ns l) (all_attrs ns a) false :: chars x ++ flat_map toks ks ++ TClose (q_name ns l) :: chars tl
  end.

Lemma chars_written x : flat_map w_tok (chars x) = escape (opt x).
Proof. destruct x; cbn [chars flat_map w_tok opt]; [apply app_nil_r|reflexivity]. Qed.
Lemma write_toks e : write e = flat_map w_tok (toks e).
Proof.
  induction e as [ns l a x ks tl IH|tl] using xnode_full.
  - cbn [write toks flat_map]. rewrite !flat_map_app, chars_written. cbn [flat_map w_tok]. rewrite chars_written.
    assert (K : flat_map write ks = flat_map w_tok (flat_map toks ks)).
    { induction IH as [|k r Hk _ IHr]; [reflexivity|]. cbn [flat_map]. now rewrite flat_map_app, <- Hk, IHr. }
    rewrite K. change (u "<" ++ ?z) with (60 :: z). change (u "</" ++ ?z) with (60 :: 47 :: z).
    cbn [app]. rewrite <- !app_assoc. reflexivity.
  - cbn [write toks flat_map w_tok]. now rewrite chars_written.
Qed.

Lemma writables_forall ks : writables ks <-> Forall writable ks.
Proof. split; induction 1; constructor; auto. Qed.

Lemma name_q n : a_name_ok n -> n <> [] /\ Forall (fun c => qname_char c = true) n.
Proof. intros [N F]. split; auto. eapply Forall_impl; [|exact F]. intros c H. unfold qname_char. now rewrite H. Qed.

Lemma chars_ok x : not_blank x -> Forall tok_ok (chars x).
Proof. destruct x as [s|]; cbn [chars]; intro N; constructor; [|constructor]. cbn [tok_ok]. intro E. apply N. now subst. Qed.
Lemma toks_ok e : writable e -> Forall tok_ok (toks e).
Proof.
  induction e as [ns l a x ks tl IH|tl] using xnode_full; intro W; inversion W as [? ? ? ? ? ? Ns L A X Tl K|? Tl]; subst; cbn [toks].
  2:{ constructor; [exact Logic.I|now apply chars_ok]. }
  assert (Q : q_name ns l <> [] /\ Forall (fun c => qname_char c = true) (q_name ns l)).
  { apply name_q in L as [L1 L2]. destruct ns; cbn [q_name]; [|auto]. split; [discriminate|]. apply Forall_app. split; [repeat constructor|exact L2]. }
  constructor; [|apply Forall_app; split; [now apply chars_ok|]; apply Forall_app; split; [|constructor; [apply Q|now apply chars_ok]]].
  - cbn [tok_ok]. split; [reflexivity|]. split; [apply Q|]. split; [apply Q|].
    assert (A' : Forall (fun nv : str * str => fst nv <> [] /\ Forall (fun c => qname_char c = true) (fst nv) /\ one_line (snd nv)) a).
    { eapply Forall_impl; [|exact A]. intros nv (P1 & _ & P2). apply name_q in P1. tauto. }
    destruct ns as [n|]; cbn [all_attrs]; [|exact A']. constructor; [|exact A']. cbn [fst snd]. split; [discriminate|].
    split; [|now apply (Ns n)]. apply Forall_forall. intros c I. apply forallb_forall with (x := c) (l := u "xmlns:n"); [vm_compute; reflexivity|exact I].
  - apply writables_forall in K. clear - IH K. induction IH as [|k r Hk _ IHr]; [constructor|]. inversion K; subst. cbn [flat_map]. apply Forall_app. auto.
Qed.

Lemma separated_chars x r : separated r -> match r with [] => True | t :: _ => is_chars t = false end -> separated (chars x ++ r).
Proof. intros S1 H. destruct x; cbn [chars app separated]; [|exact S1]. split; [intros _; exact H|exact S1]. Qed.
Lemma toks_sep e r : separated r -> match r with [] => True | t :: _ => is_chars t = false end -> separated (toks e ++ r).
Proof.
  revert r. induction e as [ns l a x ks tl IH|tl] using xnode_full; intros r S1 H; cbn [toks app separated].
  2:{ split; [discriminate|]. now apply separated_chars. }
  split; [discriminate|]. rewrite <- !app_assoc.
  assert (End : separated ((TClose (q_name ns l) :: chars tl) ++ r)).
  { cbn [app separated]. split; [discriminate|]. now apply separated_chars. }
  assert (K : separated (flat_map toks ks ++ (TClose (q_name ns l) :: chars tl) ++ r) /\
              match flat_map toks ks ++ (TClose (q_name ns l) :: chars tl) ++ r with [] => True | t :: _ => is_chars t = false end).
  { clear S1 H. revert End. generalize (chars tl). intros ct End. induction IH as [|k rs Hk _ IHr]; cbn [flat_map]; [split; [exact End|reflexivity]|].
    destruct IHr as [I1 I2]. rewrite <- app_assoc. split; [now apply Hk|]. destruct k; reflexivity. }
  destruct K as [K1 K2]. now apply separated_chars.
Qed.

Lemma split_qualified l : Forall (fun c => name_char c = true) l -> split_name l = ([], l) /\ split_name (u "n:" ++ l) = (u "n", l).
Proof.
  intro F. assert (G : Forall (fun c => negb (N.eqb c 58) = true) l).
  { eapply Forall_impl; [|exact F]. intros c H. cbn beta. destruct (N.eqb_spec c 58) as [->|]; [vm_compute in H; discriminate H|reflexivity]. }
  unfold split_name. split.
  - rewrite <- (app_nil_r l) at 1. rewrite span_all; [reflexivity|exact G|exact Logic.I].
  - change (u "n:" ++ l) with (u "n" ++ 58 :: l). rewrite span_all; [reflexivity|repeat constructor|reflexivity].
Qed.

Definition attrs_fine (a : list (str * str)) : Prop := Forall (fun nv => a_name_ok (fst nv) /\ fst nv <> u "xmlns" /\ one_line (snd nv)) a.
Lemma str_eqb_false a b : a <> b -> str_eqb a b = false.
Proof. intro H. destruct (str_eqb a b) eqn:E; [|reflexivity]. apply str_eqb_true in E. contradiction. Qed.
Lemma plain_declared a : attrs_fine a -> declared a = [] /\ plain_attrs a = a.
Proof.
  induction 1 as [|[n v] a ([N1 N2] & X & _) _ [IH1 IH2]]; [split; reflexivity|]. cbn [fst] in *.
  destruct (split_qualified n N2) as [Sp _]. apply str_eqb_false in X. change (str_eqb n xmlns = false) in X.
  cbn [declared plain_attrs filter fst]. unfold is_declaration. rewrite X, Sp. cbn [fst]. change (str_eqb [] xmlns) with false. cbn [orb negb].
  split; [exact IH1|]. f_equal. exact IH2.
Qed.

Lemma open_frame_eq sc q attrs p l d ns a : split_name q = (p, l) -> declared attrs = d -> namespace (d ++ sc) p = Some ns ->
  plain_attrs attrs = a -> open_frame sc q attrs = Some (mkFrame q (d ++ sc) ns l a None []).
Proof. intros E1 E2 E3 E4. unfold open_frame. rewrite E1, E2. cbv zeta. rewrite E3, E4. reflexivity. Qed.

Lemma open_written sc ns l a : get [] sc = None -> (forall n, ns = Some n -> n <> [] /\ one_line n) -> a_name_ok l -> attrs_fine a ->
  exists sc', get [] sc' = None /\ open_frame sc (q_name ns l) (all_attrs ns a) = Some (mkFrame (q_name ns l) sc' ns l a None []).
Proof.
  intros G Ns [_ L] A. destruct (plain_declared a A) as [D P]. destruct (split_qualified l L) as [S1 S2].
  destruct ns as [n|].
  - destruct (Ns n eq_refl) as [Nn _]. exists ([(u "n", n)] ++ sc). split; [exact G|].
    apply (open_frame_eq _ _ _ (u "n")).
    + exact S2.
    + cbn [all_attrs declared]. rewrite D. reflexivity.
    + unfold namespace. destruct n; [congruence|reflexivity].
    + unfold plain_attrs in *. cbn [all_attrs filter]. rewrite P. reflexivity.
  - exists ([] ++ sc). split; [exact G|]. apply (open_frame_eq _ _ _ []); auto.
    cbn [app]. unfold namespace. rewrite G. reflexivity.
Qed.

Definition with_tail (e : xnode) : option str := match e with Element _ _ _ _ _ tl => tl | NotElement tl => tl end.

Lemma build_tail tl ts f fs root e :
  not_blank tl -> with_tail e = None ->
  build (chars tl ++ ts) (add_kid e f :: fs) root =
  build ts (add_kid (match e with Element a b c d k _ => Element a b c d k tl | NotElement _ => NotElement tl end) f :: fs) root.
Proof. intros _ E. destruct e as [a b c d k t|t]; cbn [with_tail] in E; subst; destruct tl; reflexivity. Qed.

Lemma str_eqb_same a : str_eqb a a = true.
Proof. now apply str_eqb_true. Qed.

Lemma build_kids ks : Forall (fun e => writable e -> forall ts f fs root, get [] (f_scope f) = None ->
     build (toks e ++ ts) (f :: fs) root = build ts (add_kid e f :: fs) root) ks ->
  Forall writable ks -> forall ts f fs root, get [] (f_scope f) = None ->
  build (flat_map toks ks ++ ts) (f :: fs) root =
  build ts (mkFrame (f_name f) (f_scope f) (f_ns f) (f_local f) (f_attrs f) (f_text f) (rev ks ++ f_kids f) :: fs) root.
Proof.
  intros IH. induction IH as [|k r Hk _ IHr]; intros W ts f fs root G.
  - destruct f. reflexivity.
  - inversion W; subst. cbn [flat_map]. rewrite <- app_assoc, Hk by auto. rewrite IHr by auto.
    cbn [add_kid f_name f_scope f_ns f_local f_attrs f_text f_kids rev]. now rewrite <- app_assoc.
Qed.

(** the start tag, text, children and end tag of an element *)
Lemma build_body ns l a x ks sc' :
  get [] sc' = None -> Forall writable ks -> not_blank x ->
  Forall (fun e => writable e -> forall ts f fs root, get [] (f_scope f) = None ->
     build (toks e ++ ts) (f :: fs) root = build ts (add_kid e f :: fs) root) ks ->
  forall ts fs root,
  build (chars x ++ flat_map toks ks ++ ts) (mkFrame (q_name ns l) sc' ns l a None [] :: fs) root =
  build ts (mkFrame (q_name ns l) sc' ns l a x (rev ks) :: fs) root.
Proof.
  intros G K X IH ts fs root.
  assert (E : build (chars x ++ flat_map toks ks ++ ts) (mkFrame (q_name ns l) sc' ns l a None [] :: fs) root =
              build (flat_map toks ks ++ ts) (mkFrame (q_name ns l) sc' ns l a x [] :: fs) root).
  { destruct x; reflexivity. }
  rewrite E, build_kids; auto. cbn [f_name f_scope f_ns f_local f_attrs f_text f_kids]. now rewrite app_nil_r.
Qed.

Lemma build_written e : writable e -> forall ts f fs root, get [] (f_scope f) = None ->
  build (toks e ++ ts) (f :: fs) root = build ts (add_kid e f :: fs) root.
Proof.
  induction e as [ns l a x ks tl IH|tl] using xnode_full; intros W ts f fs root G;
    inversion W as [? ? ? ? ? ? Ns L A X Tl K|? Tl]; subst; cbn [toks app].
  - destruct (open_written (f_scope f) ns l a G Ns L A) as (sc' & G' & O). apply writables_forall in K.
    cbn [build]. rewrite O. cbn iota. rewrite <- !app_assoc, (build_body ns l a x ks sc' G' K X IH).
    cbn [app build f_name]. rewrite str_eqb_same.
    unfold finished. cbn [f_ns f_local f_attrs f_text f_kids]. rewrite rev_involutive.
    rewrite (build_tail tl ts f fs root (Element ns l a x ks None)) by (auto; reflexivity). reflexivity.
  - cbn [build]. rewrite (build_tail tl ts f fs root (NotElement None)) by (auto; reflexivity). reflexivity.
Qed.

(** ** C106.  Every document, written out as XML, is read back as it is. *)
Theorem C106_written_documents_are_read_back :
  forall e, writable e -> is_element e -> with_tail e = None -> parse_xml (write e) = Some e.
Proof.
  intros e W El Nt. unfold parse_xml. rewrite write_toks.
  rewrite tokens_written; [|now apply toks_ok| |lia].
  2:{ rewrite <- (app_nil_r (toks e)). apply toks_sep; exact Logic.I. }
  destruct e as [ns l a x ks tl|]; [|destruct El]. cbn [with_tail] in Nt. subst tl.
  inversion W as [? ? ? ? ? ? Ns L A X Tl K|]; subst. apply writables_forall in K.
  destruct (open_written [] ns l a eq_refl Ns L A) as (sc' & G' & O).
  cbn [toks chars build]. rewrite O. cbn iota.
  rewrite (build_body ns l a x ks sc' G' K X); [|apply Forall_forall; intros e I We; now apply build_written].
  cbn [build f_name]. rewrite str_eqb_same. unfold finished. cbn [f_ns f_local f_attrs f_text f_kids]. now rewrite rev_involutive.
Qed.

Corollary C106_written_documents_give_their_system :
  forall strict set_order e, writable e -> is_element e -> with_tail e = None ->
  parse_file strict set_order (write e) = read_document strict set_order e.
Proof. intros st o e W El Nt. unfold parse_file. now rewrite C106_written_documents_are_read_back. Qed.

Lemma no_text_none x : match x with Some [] => False | _ => True end -> not_blank x.
Proof. intros H E. now rewrite E in H. Qed.
Fixpoint writable_b (e : xnode) : bool :=
  match e with
  | NotElement tl => match tl with Some [] => false | _ => true end
  | Element ns l a x ks tl =>
    match ns with Some [] => false | Some n => forallb (fun c => negb (N.eqb c 9 || N.eqb c 10 || N.eqb c 13)) n | None => true end &&
    match l with [] => false | _ => forallb name_char l end &&
    forallb (fun nv => match fst nv with [] => false | _ => forallb name_char (fst nv) end && negb (str_eqb (fst nv) (u "xmlns")) &&
                       forallb (fun c => negb (N.eqb c 9 || N.eqb c 10 || N.eqb c 13)) (snd nv)) a &&
    match x with Some [] => false | _ => true end && match tl with Some [] => false | _ => true end && forallb writable_b ks
  end.
Lemma one_line_b v : forallb (fun c => negb (N.eqb c 9 || N.eqb c 10 || N.eqb c 13)) v = true -> one_line v.
Proof.
  intro H. apply Forall_forall. intros c I. rewrite forallb_forall in H. specialize (H c I). apply Bool.negb_true_iff in H.
  apply Bool.orb_false_iff in H as [H H3]. apply Bool.orb_false_iff in H as [H1 H2]. apply N.eqb_neq in H1, H2, H3. auto.
Qed.
Lemma name_ok_b n : match n with [] => false | _ => forallb name_char n end = true -> a_name_ok n.
Proof. destruct n as [|c n]; [discriminate|]. intro H. split; [discriminate|]. apply Forall_forall. now apply forallb_forall. Qed.
Lemma writable_check e : writable_b e = true -> writable e.
Proof.
  induction e as [ns l a x ks tl IH|tl] using xnode_full; cbn [writable_b]; intro H.
  - apply andb_prop in H as [H K]. apply andb_prop in H as [H H5]. apply andb_prop in H as [H H4].
    apply andb_prop in H as [H H3]. apply andb_prop in H as [H1 H2]. constructor.
    + intros n ->. destruct n as [|c n]; [discriminate H1|]. split; [discriminate|now apply one_line_b].
    + now apply name_ok_b.
    + apply Forall_forall. intros nv I. rewrite forallb_forall in H3. specialize (H3 nv I).
      apply andb_prop in H3 as [H3 P3]. apply andb_prop in H3 as [P1 P2]. split; [now apply name_ok_b|]. split; [|now apply one_line_b].
      intro E. apply Bool.negb_true_iff in P2. apply str_eqb_true in E. exact (Bool.eq_true_false_abs _ E P2).
    + apply no_text_none. destruct x as [[|]|]; [discriminate H4|exact Logic.I|exact Logic.I].
    + apply no_text_none. destruct tl as [[|]|]; [discriminate H5|exact Logic.I|exact Logic.I].
    + apply writables_forall. clear - IH K. induction IH as [|k r Hk _ IHr]; [constructor|]. cbn [forallb] in K. apply andb_prop in K as [K1 K2]. constructor; auto.
  - constructor. apply no_text_none. destruct tl as [[|]|]; [discriminate H|exact Logic.I|exact Logic.I].
Qed.
Fixpoint no_empty_texts (e : xnode) : xnode :=
  let o x := match x with Some [] => None | _ => x end in
  match e with Element ns l a x ks tl => Element ns l a (o x) (map no_empty_texts ks) (o tl) | NotElement tl => NotElement (o tl) end.
Definition some_doc : xnode := around (no_empty_texts (in_namespace (Some (u "https://doi.org/10.5065/D6KD1WN0")) sample)).

Example C106_example :
  writable some_doc /\ is_element some_doc /\ with_tail some_doc = None /\
  vocabulary (parse_file true any_order (write some_doc)) = [u "meter"; u "meters"; u "m"; u "box"; u "boxes"; u "kilo"] /\
  parse_xml (u "<a:b xmlns:a='x&amp;y' c = 'd'>1 &lt; 2<!-- no --> m<c/><![CDATA[<]]></a:b>") =
    Some (Element (Some (u "x&y")) (u "b") [(u "c", u "d")] (Some (u "1 < 2"))
       [NotElement (Some (u " m")); Element None (u "c") [] None [] (Some (u "<"))] None) /\
  parse_xml (u "<a xmlns='d' xmlns:p='x'><p:b><c xmlns=''/><c/></p:b><p:b/></a>") =
    Some (Element (Some (u "d")) (u "a") [] None
       [Element (Some (u "x")) (u "b") [] None [Element None (u "c") [] None [] None; Element (Some (u "d")) (u "c") [] None [] None] None;
        Element (Some (u "x")) (u "b") [] None [] None] None) /\
  parse_xml (u "<a>1<![CDATA[2]]>3<b/>4<![CDATA[5]]></a>") =
    Some (Element None (u "a") [] (Some (u "123")) [Element None (u "b") [] None [] (Some (u "45"))] None) /\
  parse_xml (u "<a><b></a></b>") = None /\ parse_xml (u "<a/><b/>") = None /\ parse_xml (u "<p:a/>") = None /\
  parse_xml (u "<a>&#65;&#xe9;&#xE9;&#233;</a>") = Some (Element None (u "a") [] (Some [65; 233; 233; 233]%N) [] None) /\
  map (fun s => parse_xml (u s))
      ["<a>&#x;</a>"; "<a>&#4g;</a>"; "<a>&#6a;</a>"; "<a>&#x4g;</a>"; "<a>&#x4G;</a>"; "<a>&#x4@;</a>"; "<a>&#x4`;</a>";
       "<a>&#/;</a>"; "<a>&#:;</a>"]%string = repeat None 9.
Proof. split; [apply writable_check|]; vm_compute; auto 20. Qed.

(** ** The shipped file. *)
Fixpoint tag_eqb (a b : tag) : bool :=
  match a, b with
  | mkTag n x cs, mkTag n' x' cs' =>
    str_eqb n n' && str_eqb x x' &&
    (fix go (l l' : list tag) := match l, l' with
                                 | [], [] => true
                                 | t :: r, t' :: r' => tag_eqb t t' && go r r'
                                 | _, _ => false
                                 end) cs cs'
  end.
Section TagInd.
Variable P : tag -> Prop.
Hypothesis H : forall n x cs, Forall P cs -> P (mkTag n x cs).
Fixpoint tag_full (t : tag) : P t :=
  match t with
  | mkTag n x cs => H n x cs ((fix go (l : list tag) : Forall P l :=
      match l with [] => Forall_nil _ | k :: r => Forall_cons _ (tag_full k) (go r) end) cs)
  end.
End TagInd.
Lemma tag_eqb_eq a : forall b, tag_eqb a b = true -> a = b.
Proof.
  induction a as [n x cs IH] using tag_full; intros [n' x' cs'] E. cbn [tag_eqb] in E.
  apply andb_prop in E as [E K]. apply andb_prop in E as [E1 E2]. apply str_eqb_true in E1, E2. subst. f_equal.
  revert cs' K. induction IH as [|t r Ht _ IHr]; intros [|t' r'] K; try discriminate K; [reflexivity|].
  apply andb_prop in K as [K1 K2]. f_equal; auto.
Qed.

(** the tag of the unit-system of a text *)
Definition tag_of_text (text : str) : res tag :=
  match parse_xml text with
  | Some root => do e <- exactly_one (unit_systems root) ;; from_element e
  | None => Err ESyntax
  end.
Lemma parse_file_tag strict o text : parse_file strict o text = do t <- tag_of_text text ;; read_system strict o t.
Proof.
  unfold parse_file, tag_of_text, read_document. destruct (parse_xml text) as [r|]; [|reflexivity].
  destruct (exactly_one (unit_systems r)); [|reflexivity]. cbn [bind]. destruct (from_element a); reflexivity.
Qed.
Lemma tag_check text t : match tag_of_text text with Ok x => tag_eqb x t | Err _ => false end = true -> tag_of_text text = Ok t.
Proof. destruct (tag_of_text text) as [x|]; [|discriminate]. intro E. f_equal. now apply tag_eqb_eq. Qed.

Lemma shipped_tag : tag_of_text (utf8 shipped_bytes) = Ok db.
Proof. apply tag_check. vm_compute. reflexivity. Qed.

(** The bytes of the shipped file, decoded as UTF-8, give the database the theorems about shipped
    words are about (XmlData.v). *)
Theorem C106_shipped_file :
  forall strict set_order, parse_file strict set_order (utf8 shipped_bytes) = read_system strict set_order db.
Proof. intros st o. rewrite parse_file_tag, shipped_tag. reflexivity. Qed.

(** ** C107, C108.  The file is opened in text mode without an encoding (138), so its bytes are decoded
    as the locale says. *)
Inductive locale := UTF_8 | Latin_1 | Windows_1252.
(** the characters of the bytes 128 to 159 in Windows-1252 (it agrees with Latin-1 elsewhere).  It
    leaves 129, 141, 143, 144 and 157 undefined: Python raises UnicodeDecodeError, here they stand
    for themselves; the shipped file has none (C117_shipped_bytes_defined). *)
Definition cp1252_table : list N :=
  [8364; 129; 8218; 402; 8222; 8230; 8224; 8225; 710; 8240; 352; 8249; 338; 141; 381; 143;
   144; 8216; 8217; 8220; 8221; 8226; 8211; 8212; 732; 8482; 353; 8250; 339; 157; 382; 376].
Definition cp1252 (b : N) : N := if (128 <=? b) && (b <? 160) then nth (N.to_nat (b - 128)) cp1252_table b else b.
Definition decode (l : locale) (bytes : list N) : str :=
  match l with UTF_8 => utf8 bytes | Latin_1 => bytes | Windows_1252 => map cp1252 bytes end.
Definition parse_path (l : locale) (strict : bool) (set_order : list str -> list str) (bytes : list N) : res system :=
  parse_file strict set_order (decode l bytes).

Lemma utf8_ascii bytes : Forall (fun b => b < 128) bytes -> utf8 bytes = bytes.
Proof. induction 1 as [|b l H _ IH]; [reflexivity|]. cbn [utf8]. apply N.ltb_lt in H. now rewrite H, IH. Qed.

Theorem C107_ascii_files_are_read_alike :
  forall strict set_order bytes l l', Forall (fun b => b < 128) bytes ->
  parse_path l strict set_order bytes = parse_path l' strict set_order bytes.
Proof.
  intros st o b l l' F. unfold parse_path.
  assert (W : map cp1252 b = b).
  { induction F as [|c r C _ IH]; [reflexivity|]. cbn [map]. rewrite IH. f_equal. unfold cp1252.
    destruct (N.leb_spec 128 c); [lia|reflexivity]. }
  destruct l, l'; cbn [decode]; now rewrite ?(utf8_ascii b F), ?W.
Qed.

Example C107_example : Forall (fun b => b < 128) (write some_doc).
Proof.
  apply Forall_forall. intros c I. apply N.ltb_lt.
  assert (A : forallb (fun c => N.ltb c 128) (write some_doc) = true) by (vm_compute; reflexivity).
  rewrite forallb_forall in A. exact (A c I).
Qed.

(** the answer of a freshly read system to a word *)
Definition says_of (r : res system) (word : str) : bool :=
  match r with Ok s => match fst (sys_unit in_order 20 word s) with Ok _ => true | Err _ => false end | Err _ => false end.

Theorem C108_same_words_everywhere_refuted :
  ~ (forall l l' word, says_of (parse_path l false in_order shipped_bytes) word = says_of (parse_path l' false in_order shipped_bytes) word).
Proof.
  intro H. specialize (H UTF_8 Latin_1 (u "°C")). revert H.
  assert (A : says_of (parse_path UTF_8 false in_order shipped_bytes) (u "°C") = true) by (vm_compute; reflexivity).
  assert (B : says_of (parse_path Latin_1 false in_order shipped_bytes) (u "°C") = false) by (vm_compute; reflexivity).
  rewrite A, B. discriminate.
Qed.

Print Assumptions C106_written_documents_are_read_back.
Print Assumptions C106_shipped_file.
Print Assumptions C107_ascii_files_are_read_alike.
Print Assumptions C108_same_words_everywhere_refuted.
