(** * Reading the XML database: pyudunits2/_udunits2_xml_parser.py

    The input is the tree of tags with local name and text, as Tag.from_element returns it
    (32-43).  How it comes from the file: XmlElement.v and XmlText.v. *)
From Verif Require Import PyBase PyNum Graph Expr Units UnitSystem.

(** Tag, 20-43: name, stripped text, children *)
Inductive tag := mkTag (t_name : str) (t_text : str) (t_children : list tag).

Definition t_name (t : tag) := let (n, _, _) := t in n.
Definition t_text (t : tag) := let (_, x, _) := t in x.
(** Tag.children *)
Definition t_children (t : tag) := let (_, _, c) := t in c.

(** pop_first_matching_tag, 44-49: on the list of children.  (list.remove(child) removes
    the first child equal to it, which is the first with that name and so child itself or
    an equal tag.) *)
Fixpoint pop_first (n : str) (cs : list tag) : option tag * list tag :=
  match cs with
  | [] => (None, [])
  | c :: r => if str_eqb (t_name c) n then (Some c, r)
              else let (o, r') := pop_first n r in (o, c :: r')
  end.

(** pop_iter_tags, 54-58 *)
Definition pop_all (n : str) (cs : list tag) : list tag * list tag :=
  (filter (fun c => str_eqb (t_name c) n) cs,
   filter (fun c => negb (str_eqb (t_name c) n)) cs).

(** truth of a list *)
Definition nonempty {A} (l : list A) : bool := match l with [] => false | _ => true end.

Section Reader.
(** strict = UnhandledContentDisallowed (237-251): raise ValueError on leftovers *)
Variable strict : bool.
(** tuple(set) of the symbols of a prefix, 121-133: any iteration order *)
Variable set_order : list str -> list str.

Definition unhandled (leftover : bool) : res Datatypes.unit :=
  if strict && leftover then Err (EValue VE_xml_unhandled) else Ok tt.

(** the assert statement *)
Definition assert (b : bool) : res Datatypes.unit := if b then Ok tt else Err EAssertion.

(** singular_name.endswith(("s", "ss", "sh", "ch", "x", "z")), 91 *)
Definition takes_es (s : str) : bool :=
  existsb (fun e => endswith e s) [u "s"; u "ss"; u "sh"; u "ch"; u "x"; u "z"].

(** handle_name_tag, 66-103 *)
Definition handle_name (t : tag) : res name :=
  let (sing, cs1) := pop_first (u "singular") (t_children t) in
  match sing with
  | None => Err (EValue VE_xml_missing)
  | Some st =>
    do _ <- assert (negb (nonempty (t_children st))) ;;
    let singular := t_text st in
    let (pl, cs2) := pop_first (u "plural") cs1 in
    let plural0 := option_map t_text pl in
    let (np, cs3) := pop_first (u "noplural") cs2 in
    do plural <-
      match np with
      | Some nt =>
        do _ <- assert (match plural0 with None => true | Some _ => false end) ;;
        do _ <- assert (negb (nonempty (t_children nt)) && negb (nonempty (t_text nt))) ;;
        Ok None
      | None =>
        match plural0 with
        | Some p => Ok (Some p)
        | None => Ok (Some (singular ++ (if takes_es singular then u "es" else u "s")))
        end
      end ;;
    do _ <- unhandled (nonempty cs3 || nonempty (t_text t)) ;;
    Ok (mkName singular plural)
  end.

(** handle_prefix, 105-134 *)
Definition handle_prefix (t : tag) : res prefix :=
  let (nt, cs1) := pop_first (u "name") (t_children t) in
  let (vt, cs2) := pop_first (u "value") cs1 in
  match nt with
  | None => Err (EValue VE_xml_missing)
  | Some n =>
    do _ <- assert (negb (nonempty (t_children n))) ;;
    match vt with
    | None => Err (EValue VE_xml_missing)
    | Some v =>
      do _ <- assert (negb (nonempty (t_children v))) ;;
      let (syms, cs3) := pop_all (u "symbol") cs2 in
      do _ <- unhandled (nonempty cs3 || nonempty (t_text t)) ;;
      Ok (mkPrefix (t_text n) (t_text v)
                   (set_order (fold_left (fun acc x => set_union acc [x])
                                         (map t_text syms) [])))
    end
  end.

(** the alias loop, 166-179 *)
Fixpoint handle_aliases (cs : list tag) : res (list name * list str) :=
  match cs with
  | [] => Ok ([], [])
  | c :: r =>
    if str_eqb (t_name c) (u "name") then
      do n <- handle_name c ;; do nr <- handle_aliases r ;; Ok (n :: fst nr, snd nr)
    else if str_eqb (t_name c) (u "symbol") then
      do _ <- assert (nonempty (t_text c) && negb (nonempty (t_children c))) ;;
      do nr <- handle_aliases r ;; Ok (fst nr, t_text c :: snd nr)
    else if str_eqb (t_name c) (u "noplural") then handle_aliases r
    else do _ <- unhandled true ;; handle_aliases r
  end.

(** one <unit>, 150-229 *)
Definition handle_unit (t : tag) (s : system) : res system :=
  let (nt, c1) := pop_first (u "name") (t_children t) in
  do nm <- match nt with
           | None => Ok None
           | Some n => do x <- handle_name n ;; Ok (Some x)
           end ;;
  let (sts, c2) := pop_all (u "symbol") c1 in
  let (al, c3) := pop_first (u "aliases") c2 in
  do aliases <- match al with
                | None => Ok ([], [])
                | Some a => do _ <- assert (negb (nonempty (t_text a))) ;;
                            handle_aliases (t_children a)
                end ;;
  let (_, c4) := pop_first (u "comment") c3 in
  let (_, c5) := pop_first (u "definition") c4 in
  let (bd, c6) := pop_first (u "def") c5 in
  let r := mkRef nm (map t_text sts) (fst aliases) (snd aliases) in
  match bd with
  | Some d =>
    do _ <- assert (negb (nonempty (t_children d))) ;;
    do _ <- unhandled (nonempty c6) ;;
    add_lazy (t_text d) r s
  | None =>
    let (dl, c7) := pop_first (u "dimensionless") c6 in
    do dimless_c8 <-
      match dl with
      | Some _ => Ok (true, c7)
      | None =>
        let (bt, c8) := pop_first (u "base") c7 in
        match bt with
        | None => Err EAssertion
        | Some b => do _ <- assert (negb (nonempty (t_text b)) && negb (nonempty (t_children b))) ;;
                    Ok (false, c8)
        end
      end ;;
    do it <- match nm with
             | None => Err EAttribute                                   (* 216 *)
             | Some n => Ok (str_eqb (n_singular n) (u "second"))
             end ;;
    do x <- mk_basis r (fst dimless_c8) it ;;
    do _ <- unhandled (nonempty (snd dimless_c8)) ;;
    add_unit (EUnit x r) r false s
  end.

(** a for loop whose body may raise *)
Fixpoint fold_res {A S} (f : A -> S -> res S) (l : list A) (s : S) : res S :=
  match l with
  | [] => Ok s
  | x :: l' => do s' <- f x s ;; fold_res f l' s'
  end.

(** parse_file from the <unit-system> element on, 141-234 *)
Definition read_system (t : tag) : res system :=
  let (ps, c1) := pop_all (u "prefix") (t_children t) in
  do s1 <- fold_res (fun pt s => do p <- handle_prefix pt ;; Ok (add_prefix p s)) ps empty_system ;;
  let (us, c2) := pop_all (u "unit") c1 in
  do s2 <- fold_res handle_unit us s1 ;;
  do _ <- unhandled (nonempty c2) ;;
  Ok s2.

End Reader.
