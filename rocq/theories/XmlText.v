(** * From the text of an XML file to the document: what lxml's etree.parse does
    (called in pyudunits2/_udunits2_xml_parser.py 138-140)

    lxml is not part of the repository; this is a model of it for well-formed documents made of
    elements, attributes, namespaces, character data, CDATA sections, the five predefined and the
    numeric entities, comments and processing instructions.  [None] means not well formed, or
    outside that subset (DTDs, other entities, the prefix xml).  Simplifications: names may
    contain more characters than XML allows, doubled attributes are not refused, and the text is
    what file.read() returns in text mode (line ends are "\n" already). *)
From Verif Require Import PyBase PyNum Graph Expr Units UnitSystem Xml XmlElement.
Open Scope N_scope.

(** XML 1.0, production S *)
Definition xml_space (c : N) : bool := N.eqb c 32 || N.eqb c 9 || N.eqb c 10 || N.eqb c 13.
(** a character of a name (without colon) *)
Definition name_char (c : N) : bool :=
  negb (N.leb c 44 || N.eqb c 47 || (N.leb 58 c && N.leb c 64) || (N.leb 91 c && N.leb c 94) || (N.leb 123 c && N.leb c 126)).
Definition qname_char (c : N) : bool := name_char c || N.eqb c 58.

(** the longest prefix with a property, and the rest *)
Fixpoint span (p : N -> bool) (s : str) : str * str :=
  match s with
  | [] => ([], [])
  | c :: r => if p c then let (a, b) := span p r in (c :: a, b) else ([], s)
  end.

(** what follows the first occurrence of [pat] *)
Fixpoint after_pat (pat s : str) : option (str * str) :=
  match strip_prefix pat s with
  | Some r => Some ([], r)
  | None => match s with
            | [] => None
            | c :: s' => match after_pat pat s' with Some (a, r) => Some (c :: a, r) | None => None end
            end
  end.

(** ** Entities *)
Definition digit_value (c : N) : option N :=
  if N.leb 48 c && N.leb c 57 then Some (c - 48)
  else if N.leb 97 c && N.leb c 102 then Some (c - 87)
  else if N.leb 65 c && N.leb c 70 then Some (c - 55)
  else None.
(** digits of a character reference *)
Fixpoint number (base : N) (s : str) (acc : N) : option N :=
  match s with
  | [] => Some acc
  | c :: r => match digit_value c with
              | Some d => if N.ltb d base then number base r (acc * base + d) else None
              | None => None
              end
  end.
(** the predefined entities and character references (XML 1.0, 4.1 and 4.6) *)
Definition entity (name : str) : option N :=
  if str_eqb name (u "lt") then Some 60
  else if str_eqb name (u "gt") then Some 62
  else if str_eqb name (u "amp") then Some 38
  else if str_eqb name (u "quot") then Some 34
  else if str_eqb name (u "apos") then Some 39
  else match name with
       | 35 :: 120 :: ((_ :: _) as d) => number 16 d 0
       | 35 :: ((_ :: _) as d) => number 10 d 0
       | _ => None
       end.
(** text with its references replaced *)
Fixpoint unescape (s : str) (name : option str) : option str :=
  match s with
  | [] => match name with None => Some [] | Some _ => None end
  | c :: r =>
    match name with
    | None => if N.eqb c 38 then unescape r (Some []) else option_map (cons c) (unescape r None)
    | Some acc =>
      if N.eqb c 59 then
        match entity (rev acc) with
        | Some x => option_map (cons x) (unescape r None)
        | None => None
        end
      else unescape r (Some (c :: acc))
    end
  end.

(** ** Tokens *)
Inductive xtoken :=
| TOpen (name : str) (attrs : list (str * str)) (closed : bool)
| TClose (name : str)
| TChars (s : str)
| TMisc.

(** attribute values: white space becomes blanks (XML 1.0, 3.3.3) *)
Definition blanked (s : str) : str := map (fun c => if xml_space c then 32 else c) s.

(** attributes, up to ">" or "/>" *)
Fixpoint attributes (fuel : nat) (s : str) : option (list (str * str) * str) :=
  match fuel with
  | O => None
  | S f =>
    let (w, r) := span xml_space s in
    match r with
    | [] => None
    | c :: _ =>
      if N.eqb c 62 || N.eqb c 47 then Some ([], r)
      else
        let (n, r1) := span qname_char r in
        match w, n, snd (span xml_space r1) with
        | _ :: _, _ :: _, e :: r2 =>
          if N.eqb e 61 then
            match snd (span xml_space r2) with
            | q :: r3 =>
              if N.eqb q 34 || N.eqb q 39 then
                match span (fun c => negb (N.eqb c q)) r3 with
                | (v, _ :: r4) =>
                  if existsb (N.eqb 60) v then None
                  else match unescape (blanked v) None, attributes f r4 with
                       | Some x, Some (l, r5) => Some ((n, x) :: l, r5)
                       | _, _ => None
                       end
                | (_, []) => None
                end
              else None
            | [] => None
            end
          else None
        | _, _, _ => None
        end
    end
  end.

(** the markup after "<": the token and the rest *)
Definition comment_or_cdata (r : str) : option (xtoken * str) :=
  match strip_prefix (u "--") r with
  | Some r1 => match after_pat (u "-->") r1 with Some (_, r2) => Some (TMisc, r2) | None => None end
  | None => match strip_prefix (u "[CDATA[") r with
            | Some r1 => match after_pat (u "]]>") r1 with Some (x, r2) => Some (TChars x, r2) | None => None end
            | None => None
            end
  end.
(** a processing instruction *)
Definition instruction (r : str) : option (xtoken * str) :=
  match after_pat (u "?>") r with Some (_, r1) => Some (TMisc, r1) | None => None end.
(** an end tag *)
Definition end_tag (r : str) : option (xtoken * str) :=
  let (n, r1) := span qname_char r in
  match snd (span xml_space r1) with
  | c :: r2 => if N.eqb c 62 then Some (TClose n, r2) else None
  | [] => None
  end.
(** a start tag or an empty element *)
Definition start_tag (r : str) : option (xtoken * str) :=
  let (n, r1) := span qname_char r in
  match n, attributes (S (List.length r1)) r1 with
  | _ :: _, Some (l, c :: r2) =>
    if N.eqb c 62 then Some (TOpen n l false, r2)
    else match r2 with
         | d :: r3 => if N.eqb d 62 then Some (TOpen n l true, r3) else None
         | [] => None
         end
  | _, _ => None
  end.
(** what begins with the character < *)
Definition markup (r : str) : option (xtoken * str) :=
  match r with
  | [] => None
  | c :: r' =>
    if N.eqb c 33 then comment_or_cdata r'
    else if N.eqb c 63 then instruction r'
    else if N.eqb c 47 then end_tag r'
    else start_tag r
  end.
(** text up to the next markup *)
Definition char_data (s : str) : option (xtoken * str) :=
  let (x, r) := span (fun c => negb (N.eqb c 60)) s in
  match unescape x None with Some x' => Some (TChars x', r) | None => None end.

(** all markup and texts of a document *)
Fixpoint tokens (fuel : nat) (s : str) : option (list xtoken) :=
  match s with
  | [] => Some []
  | c :: r =>
    match fuel with
    | O => None
    | S f => match (if N.eqb c 60 then markup r else char_data s) with
             | Some (t, r') => option_map (cons t) (tokens f r')
             | None => None
             end
    end
  end.

(** ** The tree *)
Definition scope := list (str * str).
(** "p:local": prefix and local name; no prefix is the empty one *)
Definition split_name (q : str) : str * str :=
  match span (fun c => negb (N.eqb c 58)) q with
  | (p, _ :: l) => (p, l)
  | (l, []) => ([], l)
  end.
(** the attribute that declares a namespace *)
Definition xmlns : str := u "xmlns".
(** the namespaces a start tag declares; the other attributes *)
Fixpoint declared (attrs : list (str * str)) : scope :=
  match attrs with
  | [] => []
  | (n, v) :: r =>
    if str_eqb n xmlns then ([], v) :: declared r
    else let (p, l) := split_name n in if str_eqb p xmlns then (l, v) :: declared r else declared r
  end.
(** does the attribute declare a namespace? *)
Definition is_declaration (n : str) : bool := str_eqb n xmlns || str_eqb (fst (split_name n)) xmlns.
(** the other attributes *)
Definition plain_attrs (attrs : list (str * str)) : list (str * str) :=
  filter (fun a => negb (is_declaration (fst a))) attrs.

(** the innermost declaration of a prefix *)
Fixpoint get (p : str) (sc : scope) : option str :=
  match sc with
  | [] => None
  | (p', v) :: r => if str_eqb p p' then Some v else get p r
  end.
(** the namespace of a prefix: [None] if it has not been declared *)
Definition namespace (sc : scope) (p : str) : option (option str) :=
  match get p sc, p with
  | Some [], _ => Some None
  | Some v, _ => Some (Some v)
  | None, [] => Some None
  | None, _ => None
  end.

(** an element that is still open *)
Record frame := mkFrame { f_name : str; f_scope : scope; f_ns : option str; f_local : str;
                          f_attrs : list (str * str); f_text : option str; f_kids : list xnode }.

(** text added to a text *)
Definition more (x : option str) (s : str) : option str := Some (match x with Some t => t ++ s | None => s end).
(** text added behind an element *)
Definition more_tail (e : xnode) (s : str) : xnode :=
  match e with
  | Element ns l a x ks tl => Element ns l a x ks (more tl s)
  | NotElement tl => NotElement (more tl s)
  end.
(** text inside an open element: lxml keeps it as text or as the tail of the last child *)
Definition add_chars (s : str) (f : frame) : frame :=
  match f_kids f with
  | [] => mkFrame (f_name f) (f_scope f) (f_ns f) (f_local f) (f_attrs f) (more (f_text f) s) []
  | k :: r => mkFrame (f_name f) (f_scope f) (f_ns f) (f_local f) (f_attrs f) (f_text f) (more_tail k s :: r)
  end.
(** a child is finished *)
Definition add_kid (e : xnode) (f : frame) : frame :=
  mkFrame (f_name f) (f_scope f) (f_ns f) (f_local f) (f_attrs f) (f_text f) (e :: f_kids f).
(** a start tag: namespaces looked up *)
Definition open_frame (sc : scope) (q : str) (attrs : list (str * str)) : option frame :=
  let sc' := declared attrs ++ sc in
  let (p, l) := split_name q in
  match namespace sc' p with
  | Some ns => Some (mkFrame q sc' ns l (plain_attrs attrs) None [])
  | None => None
  end.
(** an end tag: the element is complete *)
Definition finished (f : frame) : xnode :=
  Element (f_ns f) (f_local f) (f_attrs f) (f_text f) (rev (f_kids f)) None.

(** tokens are consumed with the open elements (innermost first) and the root once closed *)
Fixpoint build (ts : list xtoken) (stack : list frame) (root : option xnode) : option xnode :=
  match ts with
  | [] => match stack with [] => root | _ => None end
  | t :: ts' =>
    match t with
    | TChars s =>
      match stack with
      | [] => if forallb xml_space s then build ts' [] root else None
      | f :: fs => build ts' (add_chars s f :: fs) root
      end
    | TMisc =>
      match stack with
      | [] => build ts' [] root
      | f :: fs => build ts' (add_kid (NotElement None) f :: fs) root
      end
    | TOpen q attrs closed =>
      match stack, root with
      | [], Some _ => None
      | _, _ =>
        match open_frame (match stack with [] => [] | f :: _ => f_scope f end) q attrs with
        | None => None
        | Some f =>
          if closed then
            match stack with
            | [] => build ts' [] (Some (finished f))
            | g :: gs => build ts' (add_kid (finished f) g :: gs) root
            end
          else build ts' (f :: stack) root
        end
      end
    | TClose q =>
      match stack with
      | [] => None
      | f :: fs =>
        if str_eqb q (f_name f) then
          match fs with
          | [] => build ts' [] (Some (finished f))
          | g :: gs => build ts' (add_kid (finished f) g :: gs) root
          end
        else None
      end
    end
  end.

(** the root element of the document *)
Definition parse_xml (text : str) : option xnode :=
  match tokens (List.length text) text with
  | Some ts => build ts [] None
  | None => None
  end.

(** parse_file, 136-234, on the text of the file.  lxml.etree.XMLSyntaxError is a SyntaxError. *)
Definition parse_file (strict : bool) (set_order : list str -> list str) (text : str) : res system :=
  match parse_xml text with
  | Some root => read_document strict set_order root
  | None => Err ESyntax
  end.
