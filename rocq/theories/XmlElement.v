(** * From the parsed document to tags: Tag.from_element and parse_file,
    pyudunits2/_udunits2_xml_parser.py 32-43, 136-145

    The document is the tree lxml hands over: elements with a namespace, a local name,
    attributes, the text before the first child, children and the text after the end tag
    (tail), and nodes that are not elements (comments, processing instructions and unresolved
    entities).  For those, lxml's [.tag] is a function, not a string. *)
From Verif Require Import PyBase PyNum Graph Expr Units UnitSystem Xml.

(** an lxml element (tag, attributes, text, children, tail), or a comment or processing instruction *)
Inductive xnode :=
| Element (ns : option str) (local : str) (attrs : list (str * str)) (text : option str)
          (kids : list xnode) (tail : option str)
| NotElement (tail : option str).

Definition brace_open : N := 123.   (* { *)
Definition brace_close : N := 125.  (* } *)

(** lxml's element.tag: the local name, after the namespace in braces if there is one *)
Definition clark (ns : option str) (local : str) : str :=
  match ns with
  | None => local
  | Some n => brace_open :: n ++ brace_close :: local
  end.

(** s.partition(sep)[2] for a one-character separator: what follows the first one, "" without *)
Fixpoint after_first (sep : N) (s : str) : str :=
  match s with
  | [] => []
  | c :: r => if N.eqb c sep then r else after_first sep r
  end.

(** (element.text or "").strip(), 36 *)
Definition tag_text (x : option str) : str := strip (match x with Some s => s | None => [] end).

(** Tag.from_element, 32-43.  [.partition] on a tag that is a function: AttributeError. *)
Fixpoint from_element (e : xnode) : res tag :=
  match e with
  | NotElement _ => Err EAttribute
  | Element ns local _ text kids _ =>
    do cs <- (fix go (l : list xnode) : res (list tag) :=
                match l with
                | [] => Ok []
                | k :: r => do t <- from_element k ;; do ts <- go r ;; Ok (t :: ts)
                end) kids ;;
    Ok (mkTag (after_first brace_close (clark ns local)) (tag_text text) cs)
  end.

(** root.xpath('//* [local-name()="unit-system"]'), 142: in document order, the root included *)
Fixpoint unit_systems (e : xnode) : list xnode :=
  match e with
  | NotElement _ => []
  | Element _ local _ _ kids _ =>
    (if str_eqb local (u "unit-system") then [e] else []) ++ flat_map unit_systems kids
  end.

(** [[x] = l], 142: ValueError unless there is exactly one.  (The model has one kind of
    ValueError for documents that lack something; the message is not modelled.) *)
Definition exactly_one {A} (l : list A) : res A :=
  match l with [x] => Ok x | _ => Err (EValue VE_xml_missing) end.

(** parse_file from the root of the parsed document on, 140-234 *)
Definition read_document (strict : bool) (set_order : list str -> list str) (root : xnode) : res system :=
  do e <- exactly_one (unit_systems root) ;;
  do t <- from_element e ;;
  read_system strict set_order t.
