(** * Specification of look-ups in a unit system.

    What a unit system is for its users: four vocabularies (names, alias names, symbols,
    alias symbols), two lists of prefixes, and for every word either a unit or the text
    defining one.  Nothing here computes with states. *)
From Verif Require Import PyBase PyNum Graph Visitor Expr Units UnitSystem.
From Coq Require Import Permutation.

(** ** Words.  [known s k e]: the word [k] stands for [e]; names come before alias names,
    those before symbols, those before alias symbols. *)
Inductive known (s : system) (k : str) (e : entry) : Prop :=
| Kn_name : dget k (s_names s) = Some e -> known s k e
| Kn_alias_name : dget k (s_names s) = None -> dget k (s_alias_names s) = Some e -> known s k e
| Kn_symbol : dget k (s_names s) = None -> dget k (s_alias_names s) = None ->
    dget k (s_symbols s) = Some e -> known s k e
| Kn_alias_symbol : dget k (s_names s) = None -> dget k (s_alias_names s) = None ->
    dget k (s_symbols s) = None -> dget k (s_alias_symbols s) = Some e -> known s k e.

Definition unknown (s : system) (k : str) : Prop := forall e, ~ known s k e.

(** [q] can be read with the prefix [key] of the list: the rest of [q] is a known word. *)
Definition fits (s : system) (q key k : str) (e : entry) : Prop := q = key ++ k /\ known s k e.
Definition misfits (s : system) (q key : str) : Prop := forall k e, ~ fits s q key k e.

(** The first entry of a prefix list with which [q] can be read. *)
Definition first_fit (s : system) (q : str) (ps : dict prefix) (key : str) (p : prefix) (k : str) (e : entry) : Prop :=
  exists before after, ps = before ++ (key, p) :: after /\ fits s q key k e /\
    Forall (fun kp => misfits s q (fst kp)) before.

(** ** Readings of a query: the word itself, else the first fitting prefix name, else the
    first fitting prefix symbol.  Never two prefixes. *)
Inductive reading (s : system) (q : str) : option (str * prefix * str) -> entry -> Prop :=
| Rd_word e : known s q e -> reading s q None e
| Rd_prefix_name key p k e : unknown s q -> first_fit s q (s_prefix_names s) key p k e ->
    reading s q (Some (key, p, k)) e
| Rd_prefix_symbol key p k e : unknown s q ->
    Forall (fun kp => misfits s q (fst kp)) (s_prefix_names s) ->
    first_fit s q (s_prefix_symbols s) key p k e ->
    reading s q (Some (key, p, k)) e.

(** No reading at all: neither a word nor any prefix followed by a word. *)
Definition unreadable (s : system) (q : str) : Prop :=
  unknown s q /\ Forall (fun kp => misfits s q (fst kp)) (s_prefix_names s) /\
  Forall (fun kp => misfits s q (fst kp)) (s_prefix_symbols s).

(** ** The unit a query means. [ord] is the order in which a set of words is visited.
    A word defined by a text means the unit of that text, each identifier of which stands
    for the unit it means; a prefixed word is prefix times unit. *)
Section Meaning.
Variable ord : list str -> list str.
Variable s : system.

Inductive means : str -> unit -> Prop :=
| Me_word q e x : reading s q None e -> entry_means e x -> means q x
| Me_prefixed q key p k e x y : reading s q (Some (key, p, k)) e -> entry_means e x ->
    prefixed_unit key p k x = Ok y -> means q y
with entry_means : entry -> unit -> Prop :=
| Me_unit x r : entry_means (EUnit x r) x
| Me_resolved i l x : nth_error (s_lazies s) i = Some l -> lz_resolved l = Some x ->
    entry_means (ELazy i) x
| Me_defined i l g refs x : nth_error (s_lazies s) i = Some l -> lz_resolved l = None ->
    parse (lz_def l) = Ok g -> refs_mean (ord (identifiers g)) refs ->
    mk_unit g refs = Ok x -> entry_means (ELazy i) x
with refs_mean : list str -> list (str * uref) -> Prop :=
| Me_nil : refs_mean [] []
| Me_cons k ks y refs : means k y -> refs_mean ks refs ->
    refs_mean (k :: ks) ((k, RUnit y) :: refs).

(** What [unit(text)] should return. *)
Definition text_means (text : str) (a : anyunit) : Prop :=
  exists g refs, parse text = Ok g /\ refs_mean (ord (identifiers g)) refs /\
    unit_from_expression g refs = Ok a.
End Meaning.

(** ** Calls and histories.  Every call has its own amount of stack and may fail. *)
Inductive call :=
| Call_lookup (stack : nat) (q : str)       (* unit_by_name_or_symbol(q) *)
| Call_unit (stack : nat) (text : str).     (* unit(text) *)

Definition run (ord : list str -> list str) (s : system) (c : call) : system :=
  match c with
  | Call_lookup f q => snd (lookup ord f q s)
  | Call_unit f t => snd (sys_unit ord f t s)
  end.

(** the system after a sequence of calls *)
Definition after (ord : list str -> list str) (s : system) (cs : list call) : system :=
  fold_left (run ord) cs s.

(** ** Clash-freedom: every word a lazily defined unit claims leads to that unit (still to
    be resolved, or resolved), not to another. *)
Definition owns (d : dict entry) (i : nat) (l : lazy) (ks : list str) : Prop :=
  forall k, In k ks ->
    dget k d = Some (ELazy i) \/
    (exists x, lz_resolved l = Some x /\ dget k d = Some (EUnit x (lz_names l))).

Definition clash_free (s : system) : Prop :=
  forall i l, nth_error (s_lazies s) i = Some l ->
    owns (s_symbols s) i l (r_symbols (lz_names l)) /\
    owns (s_names s) i l (ref_names (lz_names l)) /\
    owns (s_alias_names s) i l (ref_alias_names (lz_names l)) /\
    owns (s_alias_symbols s) i l (r_alias_symbols (lz_names l)).

(** Weaker: every word a lazily defined unit claims is registered (for whomever). *)
Definition closed (s : system) : Prop :=
  forall i l, nth_error (s_lazies s) i = Some l ->
    (forall k, In k (r_symbols (lz_names l)) -> dmem k (s_symbols s) = true) /\
    (forall k, In k (ref_names (lz_names l)) -> dmem k (s_names s) = true) /\
    (forall k, In k (ref_alias_names (lz_names l)) -> dmem k (s_alias_names s) = true) /\
    (forall k, In k (r_alias_symbols (lz_names l)) -> dmem k (s_alias_symbols s) = true).

(** Same words (in the same order) and same prefixes. *)
Definition same_vocabulary (a b : system) : Prop :=
  dkeys (s_symbols a) = dkeys (s_symbols b) /\ dkeys (s_names a) = dkeys (s_names b) /\
  dkeys (s_alias_names a) = dkeys (s_alias_names b) /\
  dkeys (s_alias_symbols a) = dkeys (s_alias_symbols b) /\
  s_prefix_names a = s_prefix_names b /\ s_prefix_symbols a = s_prefix_symbols b.

(** ** Systems that the public API can build. *)
Inductive built (ord : list str -> list str) : system -> Prop :=
| Bu_empty : built ord empty_system
| Bu_prefix p s : built ord s -> built ord (add_prefix p s)
| Bu_unit x r rep s s' : built ord s -> add_unit (EUnit x r) r rep s = Ok s' -> built ord s'
| Bu_lazy d r s s' : built ord s -> add_lazy d r s = Ok s' -> built ord s'
| Bu_call c s : built ord s -> built ord (run ord s c).

(** ... and the same where no word is ever claimed twice in the same vocabulary. *)
Definition fresh_words (r : reference) (s : system) : Prop :=
  (forall k, In k (r_symbols r) -> dmem k (s_symbols s) = false) /\
  (forall k, In k (ref_names r) -> dmem k (s_names s) = false) /\
  (forall k, In k (ref_alias_names r) -> dmem k (s_alias_names s) = false) /\
  (forall k, In k (r_alias_symbols r) -> dmem k (s_alias_symbols s) = false).

Inductive built_fresh (ord : list str -> list str) : system -> Prop :=
| Bf_empty : built_fresh ord empty_system
| Bf_prefix p s : built_fresh ord s -> built_fresh ord (add_prefix p s)
| Bf_unit x r s s' : built_fresh ord s -> fresh_words r s ->
    add_unit (EUnit x r) r false s = Ok s' -> built_fresh ord s'
| Bf_lazy d r s s' : built_fresh ord s -> fresh_words r s ->
    add_lazy d r s = Ok s' -> built_fresh ord s'
| Bf_call c s : built_fresh ord s -> built_fresh ord (run ord s c).

(** ** Dependency between defined units. *)
Inductive defined_by (s : system) (q : str) (l : lazy) : Prop :=
| Db pre i : reading s q pre (ELazy i) -> nth_error (s_lazies s) i = Some l ->
    lz_resolved l = None -> defined_by s q l.

(** the definition of [q] mentions [k] *)
Definition mentions (s : system) (q k : str) : Prop :=
  exists l g, defined_by s q l /\ parse (lz_def l) = Ok g /\ In k (identifiers g).

Inductive depends (s : system) : str -> str -> Prop :=
| Dep_one q k : mentions s q k -> depends s q k
| Dep_more q k k' : mentions s q k -> depends s k k' -> depends s q k'.

(** No circular definitions, with at most [n] levels below any word. *)
Definition depth_at_most (s : system) (rank : str -> nat) (n : nat) : Prop :=
  (forall q, (rank q <= n)%nat) /\ forall q k, mentions s q k -> (rank k < rank q)%nat.

(** ** Units that differ only in the order in which identifiers were looked up. *)
Inductive same_unit : unit -> unit -> Prop :=
| Sm_basis r dl it : same_unit (UBasis r dl it) (UBasis r dl it)
| Sm_expr d refs refs1 refs' : same_refs refs refs1 -> Permutation refs1 refs' ->
    NoDup (map fst refs) -> same_unit (UExpr d refs) (UExpr d refs')
with same_refs : list (str * uref) -> list (str * uref) -> Prop :=
| Sm_nil : same_refs [] []
| Sm_prefix k v refs refs' : same_refs refs refs' ->
    same_refs ((k, RPrefix v) :: refs) ((k, RPrefix v) :: refs')
| Sm_unit k x y refs refs' : same_unit x y -> same_refs refs refs' ->
    same_refs ((k, RUnit x) :: refs) ((k, RUnit y) :: refs').

Inductive same_any : anyunit -> anyunit -> Prop :=
| Sa_unit x y : same_unit x y -> same_any (AUnit x) (AUnit y)
| Sa_date x y r : same_unit x y -> same_any (ADate x r) (ADate y r).

(** An order in which a set may be visited: any rearrangement. *)
Definition rearranges (ord : list str -> list str) : Prop := forall l, Permutation (ord l) l.

(** The references of a unit form a dictionary (as they do in Python): distinct keys. *)
Inductive proper : unit -> Prop :=
| Pr_basis r dl it : proper (UBasis r dl it)
| Pr_expr d refs : NoDup (map fst refs) -> (forall k y, In (k, RUnit y) refs -> proper y) ->
    proper (UExpr d refs).

(** ... for every unit already in the system. *)
Definition proper_system (s : system) : Prop :=
  (forall k x r, known s k (EUnit x r) -> proper x) /\
  (forall i l x, nth_error (s_lazies s) i = Some l -> lz_resolved l = Some x -> proper x).
