(** * Specification of the XML reader.

    A document is a tree of elements (name, stripped text, children).  Nothing here follows
    the order in which the reader consumes children. *)
From Verif Require Import PyBase PyNum Graph Expr Units UnitSystem SystemSpec Xml.
From Coq Require Import Permutation.

Definition is_named (n : string) (t : tag) : bool := str_eqb (t_name t) (u n).

(** [c] is the first child called [n]. *)
Definition first_child (n : string) (cs : list tag) (c : tag) : Prop :=
  exists before after, cs = before ++ c :: after /\ t_name c = u n /\
    Forall (fun x => t_name x <> u n) before.
Definition no_child (n : string) (cs : list tag) : Prop := Forall (fun x => t_name x <> u n) cs.

(** ** Names: the words a <name> element stands for (C38). *)
Inductive sibilant : str -> Prop :=
| Sib_s w : sibilant (w ++ u "s") | Sib_x w : sibilant (w ++ u "x") | Sib_z w : sibilant (w ++ u "z")
| Sib_ch w : sibilant (w ++ u "ch") | Sib_sh w : sibilant (w ++ u "sh").

Inductive plural_of (cs : list tag) (singular : str) : option str -> Prop :=
| Pl_none c : first_child "noplural" cs c -> plural_of cs singular None
| Pl_given p : no_child "noplural" cs -> first_child "plural" cs p -> plural_of cs singular (Some (t_text p))
| Pl_es : no_child "noplural" cs -> no_child "plural" cs -> sibilant singular ->
    plural_of cs singular (Some (singular ++ u "es"))
| Pl_s : no_child "noplural" cs -> no_child "plural" cs -> ~ sibilant singular ->
    plural_of cs singular (Some (singular ++ u "s")).

(** what a <name> element says: its singular and its plural *)
Definition says (t : tag) (n : name) : Prop :=
  exists c, first_child "singular" (t_children t) c /\ n_singular n = t_text c /\
    plural_of (t_children t) (t_text c) (n_plural n).

(** a <name> element the reader accepts: <singular> is a leaf; <noplural> is empty and comes
    without <plural> *)
Definition well_named (t : tag) : Prop :=
  (forall c, first_child "singular" (t_children t) c -> t_children c = []) /\
  (forall c, first_child "noplural" (t_children t) c ->
     no_child "plural" (t_children t) /\ t_text c = [] /\ t_children c = []).

(** the words of a name: the singular, and the plural unless it is missing or empty *)
Definition word_of (n : name) (w : str) : Prop := w = n_singular n \/ (n_plural n = Some w /\ w <> []).

(** ** Units (C55).  The reference a <unit> element describes. *)
Definition symbol_texts (cs : list tag) : list str := map t_text (filter (is_named "symbol") cs).
Definition unit_of (doc ut : tag) : Prop := In ut (t_children doc) /\ t_name ut = u "unit".

Record describes (ut : tag) (r : reference) : Prop := {
  ds_name : match r_name r with
            | Some n => exists nt, first_child "name" (t_children ut) nt /\ says nt n
            | None => no_child "name" (t_children ut)
            end;
  ds_symbols : r_symbols r = symbol_texts (t_children ut);
  ds_aliases :
    (no_child "aliases" (t_children ut) /\ r_alias_names r = [] /\ r_alias_symbols r = []) \/
    (exists al, first_child "aliases" (t_children ut) al /\
       Forall2 says (filter (is_named "name") (t_children al)) (r_alias_names r) /\
       r_alias_symbols r = symbol_texts (t_children al)) }.

(** the words of a reference in each of the four vocabularies *)
Definition a_name (r : reference) (w : str) : Prop := exists n, r_name r = Some n /\ word_of n w.
Definition a_symbol (r : reference) (w : str) : Prop := In w (r_symbols r).
Definition an_alias_name (r : reference) (w : str) : Prop := exists n, In n (r_alias_names r) /\ word_of n w.
Definition an_alias_symbol (r : reference) (w : str) : Prop := In w (r_alias_symbols r).

(** what the element makes of it: a unit still to be resolved from the text of <def>, or,
    without <def>, a basis unit, dimensionless if it says so, of time if called second *)
Inductive stands_for (s : system) (ut : tag) (r : reference) : entry -> Prop :=
| St_defined c i : first_child "def" (t_children ut) c ->
    nth_error (s_lazies s) i = Some (mkLazy (t_text c) r None) -> stands_for s ut r (ELazy i)
| St_basis n key dl it : no_child "def" (t_children ut) -> r_name r = Some n ->
    (n_singular n <> [] -> key = n_singular n) ->
    (dl = true <-> exists c, first_child "dimensionless" (t_children ut) c) ->
    (it = true <-> n_singular n = u "second") ->
    stands_for s ut r (EUnit (UBasis key dl it) r).

(** ** Prefix symbols (C39) *)
(** same element, but for the order and repetition of its <symbol> children if it is a prefix *)
Definition same_but_symbols (a b : tag) : Prop :=
  a = b \/
  (t_name a = u "prefix" /\ t_name b = u "prefix" /\ t_text a = t_text b /\
   filter (fun c => negb (is_named "symbol" c)) (t_children a) = filter (fun c => negb (is_named "symbol" c)) (t_children b) /\
   forall w, In w (symbol_texts (t_children a)) <-> In w (symbol_texts (t_children b))).
Definition reshuffled (a b : tag) : Prop := Forall2 same_but_symbols (t_children a) (t_children b).

Definition begins_with (p s : str) : Prop := exists r, s = p ++ r.
(** no symbol belongs to two prefixes, and no prefix has two symbols one of which begins with
    the other *)
Definition prefixes_of (doc : tag) : list tag := filter (is_named "prefix") (t_children doc).
Definition clear_symbols (doc : tag) : Prop :=
  (forall before a mid b after w, prefixes_of doc = before ++ a :: mid ++ b :: after ->
     In w (symbol_texts (t_children a)) -> ~ In w (symbol_texts (t_children b))) /\
  (forall a v w, In a (prefixes_of doc) -> In v (symbol_texts (t_children a)) -> In w (symbol_texts (t_children a)) ->
     begins_with v w -> v = w).

(** ** Unrecognised content (C40).  The document with everything the reader does not know
    about taken out. *)
Definition called (ns : list string) (t : tag) : bool := existsb (fun n => is_named n t) ns.
Definition keep (ns : list string) (cs : list tag) : list tag := filter (called ns) cs.

Definition trim_name (t : tag) : tag :=
  mkTag (t_name t) [] (keep ["singular"; "plural"; "noplural"]%string (t_children t)).
Definition trim_prefix (t : tag) : tag :=
  mkTag (t_name t) [] (keep ["name"; "value"; "symbol"]%string (t_children t)).
Definition trim_aliases (t : tag) : tag :=
  mkTag (t_name t) (t_text t)
    (map (fun c => if is_named "name" c then trim_name c else c) (keep ["name"; "symbol"]%string (t_children t))).
Definition trim_unit (t : tag) : tag :=
  mkTag (t_name t) []
    (map (fun c => if is_named "name" c then trim_name c else if is_named "aliases" c then trim_aliases c else c)
      (keep ["name"; "symbol"; "aliases"; "def"; "dimensionless"; "base"]%string (t_children t))).
Definition trim_system (t : tag) : tag :=
  mkTag (t_name t) [] (map (fun c => if is_named "prefix" c then trim_prefix c else trim_unit c)
    (keep ["prefix"; "unit"]%string (t_children t))).

(** content that the strict reader accepts *)
Definition number_of (n : string) (cs : list tag) : nat := List.length (filter (is_named n) cs).
Definition only (ns : list string) (cs : list tag) : Prop := Forall (fun c => called ns c = true) cs.

Record clean_name (t : tag) : Prop := {
  cn_text : t_text t = [];
  cn_only : only ["singular"; "plural"; "noplural"]%string (t_children t);
  cn_one : forall n, (number_of n (t_children t) <= 1)%nat }.
Record clean_prefix (t : tag) : Prop := {
  cp_text : t_text t = [];
  cp_only : only ["name"; "value"; "symbol"]%string (t_children t);
  cp_name : (number_of "name" (t_children t) <= 1)%nat;
  cp_value : (number_of "value" (t_children t) <= 1)%nat }.
Record clean_unit (t : tag) : Prop := {
  cu_only : only ["name"; "symbol"; "aliases"; "comment"; "definition"; "def"; "dimensionless"; "base"]%string (t_children t);
  cu_one : forall n, u n <> u "symbol" -> (number_of n (t_children t) <= 1)%nat;
  cu_kind : (number_of "def" (t_children t) + number_of "dimensionless" (t_children t) + number_of "base" (t_children t) <= 1)%nat;
  cu_name : forall c, In c (t_children t) -> is_named "name" c = true -> clean_name c;
  cu_aliases : forall a, In a (t_children t) -> is_named "aliases" a = true ->
    only ["name"; "symbol"; "noplural"]%string (t_children a) /\
    forall c, In c (t_children a) -> is_named "name" c = true -> clean_name c }.
Record clean_system (t : tag) : Prop := {
  cs_only : only ["prefix"; "unit"]%string (t_children t);
  cs_prefix : forall c, In c (t_children t) -> is_named "prefix" c = true -> clean_prefix c;
  cs_unit : forall c, In c (t_children t) -> is_named "unit" c = true -> clean_unit c }.
