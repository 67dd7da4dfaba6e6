(** Model of the text of a document: ProcessList.xmlPrettify (ProcessList.py 67-76), that
    is ElementTree's tostring, minidom's parseString and toprettyxml, and of
    etree.parse (ProcessList.py 236-258), as Python 2.7 has them.

    Texts are ASCII. A byte string with another byte makes tostring raise a ValueError
    (UnicodeDecodeError); a document read that has one is outside the model, and so is
    one with a DOCTYPE; both count as not well-formed here. The declaration
    "<?xml ... ?>" is skipped like any processing instruction, and "]]>" in text is let
    pass. tostring and toprettyxml sort attributes by name; here they are written in the
    order of the model's lists, as everywhere. Names in a namespace ("{uri}name"), for
    which tostring invents a prefix, are modelled for reading only. *)
From Verif Require Export MFiles.
Local Open Scope string_scope.
Local Open Scope list_scope.

(** minidom's tree. *)
Inductive dom : Type :=
| DText (s : string)
| DElem (tag : string) (attrs : list (string * string)) (children : list dom).

(* ------------------------------------------------------------------ *)
(** * Printing *)

(** Replacing characters by the text for each. *)
Definition escaping (f : ascii -> list ascii) (s : string) : string := text (flat_map f (chars s)).

(** ElementTree's _escape_cdata and _escape_attrib. *)
Definition cdataChar (a : ascii) : list ascii :=
  if Ascii.eqb a "&" then chars "&amp;" else if Ascii.eqb a "<" then chars "&lt;" else if Ascii.eqb a ">" then chars "&gt;" else [a].
Definition attribChar (a : ascii) : list ascii :=
  if Ascii.eqb a """" then chars "&quot;" else if Ascii.eqb a "010" then chars "&#10;" else cdataChar a.
(** minidom's _write_data. *)
Definition domChar (a : ascii) : list ascii := if Ascii.eqb a """" then chars "&quot;" else cdataChar a.

Definition attrsText (f : ascii -> list ascii) (attrs : list (string * string)) : string :=
  String.concat "" (map (fun '(k, v) => (" " ++ k ++ "=""" ++ escaping f v ++ """")%string) attrs).

(** ElementTree's _serialize_xml; a missing text and an empty one are the same. *)
Fixpoint serialize (e : xelem) : string :=
  match e with
  | XElem tag attrs x children =>
      let inner := ((match x with Some s => escaping cdataChar s | None => "" end) ++ String.concat "" (map serialize children))%string in
      ("<" ++ tag ++ attrsText attribChar attrs ++
       if match x, children with None, [] | Some "", [] => true | _, _ => false end then " />" else ">" ++ inner ++ "</" ++ tag ++ ">")%string
  end.
Definition lineFeed : string := text ["010"%char].
Definition tostring (e : xelem) : string := ("<?xml version='1.0' encoding='UTF-8'?>" ++ lineFeed ++ serialize e)%string.

Definition tabs (k : nat) : string := text (repeat "009"%char k).
(** minidom's Element.writexml and Text.writexml, with indentation by [k] tabs. *)
Fixpoint writexml (k : nat) (d : dom) : string :=
  match d with
  | DText s => escaping domChar (tabs k ++ s ++ lineFeed)
  | DElem tag attrs children =>
      (tabs k ++ "<" ++ tag ++ attrsText domChar attrs ++
       match children with
       | [] => "/>" ++ lineFeed
       | [DText s] => ">" ++ escaping domChar s ++ "</" ++ tag ++ ">" ++ lineFeed
       | _ => ">" ++ lineFeed ++ String.concat "" (map (writexml (S k)) children) ++ tabs k ++ "</" ++ tag ++ ">" ++ lineFeed
       end)%string
  end.
Definition toprettyxml (d : dom) : string := ("<?xml version=""1.0"" ?>" ++ lineFeed ++ writexml 0 d)%string.

(* ------------------------------------------------------------------ *)
(** * Parsing *)

(** Expat turns every line end into a line feed. *)
Fixpoint lineEnds (l : list ascii) : list ascii :=
  match l with
  | [] => []
  | a :: t =>
      if Ascii.eqb a "013" then
        "010"%char :: match t with
                      | b :: t' => if Ascii.eqb b "010" then lineEnds t' else lineEnds t
                      | [] => []
                      end
      else a :: lineEnds t
  end.

Definition isXmlSpace (a : ascii) : bool := let n := N_of_ascii a in ((n =? 9) || (n =? 10) || (n =? 13) || (n =? 32))%N.
(** The characters of a document, in ASCII. *)
Definition isXmlChar (a : ascii) : bool := let n := N_of_ascii a in (isXmlSpace a || ((32 <=? n) && (n <=? 127))%N).
Definition isLetter (a : ascii) : bool := let n := N_of_ascii (lowerChar a) in ((97 <=? n) && (n <=? 122))%N.
Definition nameStart (a : ascii) : bool := isLetter a || Ascii.eqb a "_" || Ascii.eqb a ":".
Definition nameChar (a : ascii) : bool := nameStart a || isDigit a || Ascii.eqb a "-" || Ascii.eqb a ".".

(** What "&name;" stands for. *)
Definition charOf (n : N) : option ascii :=
  if (n <? 256)%N then let a := ascii_of_N n in if isXmlChar a then Some a else None else None.
Definition reference (name : string) : option ascii :=
  if String.eqb name "amp" then Some "&"%char
  else if String.eqb name "lt" then Some "<"%char
  else if String.eqb name "gt" then Some ">"%char
  else if String.eqb name "quot" then Some """"%char
  else if String.eqb name "apos" then Some "'"%char
  else match chars name with
       | h :: x :: t =>
           if Ascii.eqb h "#" then
             if Ascii.eqb x "x" then
               match t, readHexDigits t with _ :: _, Some n => charOf n | _, _ => None end
             else if forallb isDigit (x :: t) then charOf (readDigits (x :: t)) else None
           else None
       | _ => None
       end.

(** An element being read: what is complete of it, last first, and the text since. *)
Record frame : Type := { f_tag : string; f_attrs : list (string * string); f_done : list dom; f_text : list ascii }.
(** The open elements, innermost first, and the root when it is complete. *)
Definition place : Type := list frame * option dom.

Definition settle (f : frame) : frame :=
  {| f_tag := f_tag f; f_attrs := f_attrs f;
     f_done := match f_text f with [] => f_done f | t => DText (text (rev t)) :: f_done f end; f_text := [] |}.
Definition addText (a : ascii) (p : place) : option place :=
  match p with
  | ([], root) => if isXmlSpace a then Some p else None
  | (f :: fs, root) =>
      Some ({| f_tag := f_tag f; f_attrs := f_attrs f; f_done := f_done f; f_text := a :: f_text f |} :: fs, root)
  end.
(** A complete element. *)
Definition putElem (d : dom) (p : place) : option place :=
  match p with
  | ([], None) => Some ([], Some d)
  | ([], Some _) => None
  | (f :: fs, root) =>
      let f := settle f in
      Some ({| f_tag := f_tag f; f_attrs := f_attrs f; f_done := d :: f_done f; f_text := [] |} :: fs, root)
  end.
Fixpoint distinct (l : list string) : bool :=
  match l with [] => true | x :: t => negb (existsb (String.eqb x) t) && distinct t end.
Definition openTag (tag : string) (attrs : list (string * string)) (p : place) : option place :=
  if distinct (map fst attrs) then
    Some ({| f_tag := tag; f_attrs := attrs; f_done := []; f_text := [] |} :: fst p, snd p)
  else None.
Definition closeTag (tag : string) (p : place) : option place :=
  match p with
  | (f :: fs, root) =>
      if String.eqb (f_tag f) tag then putElem (DElem tag (f_attrs f) (rev (f_done (settle f)))) (fs, root) else None
  | _ => None
  end.

(** Where the tokenizer stands. Names, values and references are kept reversed; [as_] are
    the attributes so far, last first. *)
Inductive mode : Type :=
| Content
| Lt
| OpenName (n : list ascii)
| InTag (tag : string) (as_ : list (string * string)) (space : bool)
| AttrName (tag : string) (as_ : list (string * string)) (n : list ascii)
| AfterName (tag : string) (as_ : list (string * string)) (k : string)
| BeforeValue (tag : string) (as_ : list (string * string)) (k : string)
| Value (tag : string) (as_ : list (string * string)) (k : string) (quote : ascii) (v : list ascii)
| ValueRef (tag : string) (as_ : list (string * string)) (k : string) (quote : ascii) (v r : list ascii)
| Slash (tag : string) (as_ : list (string * string))
| CloseStart
| CloseName (n : list ascii)
| CloseEnd (tag : string)
| Ref (r : list ascii)
| Bang (b : list ascii)
| CommentText (dashes : nat)
| Cdata (brackets : nat)
| Pi (question : bool).

Definition name (n : list ascii) : string := text (rev n).
Definition still (m : mode) (p : place) : option (mode * place) := Some (m, p).
Definition within (m : mode) (p : option place) : option (mode * place) := match p with Some p => Some (m, p) | None => None end.

(** After the name, an attribute or a space in a tag. *)
Definition inTag (tag : string) (as_ : list (string * string)) (space : bool) (a : ascii) (p : place) : option (mode * place) :=
  if isXmlSpace a then still (InTag tag as_ true) p
  else if Ascii.eqb a ">" then within Content (openTag tag (rev as_) p)
  else if Ascii.eqb a "/" then still (Slash tag as_) p
  else if space && nameStart a then still (AttrName tag as_ [a]) p
  else None.

Definition step (m : mode) (p : place) (a : ascii) : option (mode * place) :=
  if isXmlChar a then
    match m with
    | Content =>
        if Ascii.eqb a "<" then still Lt p
        else if Ascii.eqb a "&" then match fst p with [] => None | _ => still (Ref []) p end
        else within Content (addText a p)
    | Lt =>
        if Ascii.eqb a "/" then still CloseStart p
        else if Ascii.eqb a "!" then still (Bang []) p
        else if Ascii.eqb a "?" then still (Pi false) p
        else if nameStart a then still (OpenName [a]) p
        else None
    | OpenName n => if nameChar a then still (OpenName (a :: n)) p else inTag (name n) [] false a p
    | InTag tag as_ space => inTag tag as_ space a p
    | AttrName tag as_ n =>
        if nameChar a then still (AttrName tag as_ (a :: n)) p
        else if Ascii.eqb a "=" then still (BeforeValue tag as_ (name n)) p
        else if isXmlSpace a then still (AfterName tag as_ (name n)) p
        else None
    | AfterName tag as_ k =>
        if isXmlSpace a then still m p else if Ascii.eqb a "=" then still (BeforeValue tag as_ k) p else None
    | BeforeValue tag as_ k =>
        if isXmlSpace a then still m p
        else if Ascii.eqb a """" || Ascii.eqb a "'" then still (Value tag as_ k a []) p
        else None
    | Value tag as_ k quote v =>
        if Ascii.eqb a quote then still (InTag tag ((k, name v) :: as_) false) p
        else if Ascii.eqb a "<" then None
        else if Ascii.eqb a "&" then still (ValueRef tag as_ k quote v []) p
        else still (Value tag as_ k quote ((if isXmlSpace a then " "%char else a) :: v)) p
    | ValueRef tag as_ k quote v r =>
        if Ascii.eqb a ";" then
          match reference (name r) with Some c => still (Value tag as_ k quote (c :: v)) p | None => None end
        else still (ValueRef tag as_ k quote v (a :: r)) p
    | Slash tag as_ =>
        if Ascii.eqb a ">" then
          within Content (match openTag tag (rev as_) p with Some p => closeTag tag p | None => None end)
        else None
    | CloseStart => if nameStart a then still (CloseName [a]) p else None
    | CloseName n =>
        if nameChar a then still (CloseName (a :: n)) p
        else if isXmlSpace a then still (CloseEnd (name n)) p
        else if Ascii.eqb a ">" then within Content (closeTag (name n) p)
        else None
    | CloseEnd tag =>
        if isXmlSpace a then still m p else if Ascii.eqb a ">" then within Content (closeTag tag p) else None
    | Ref r =>
        if Ascii.eqb a ";" then
          match reference (name r) with Some c => within Content (addText c p) | None => None end
        else still (Ref (a :: r)) p
    | Bang b =>
        let b := a :: b in
        if String.eqb (name b) "--" then still (CommentText 0) p
        else if String.eqb (name b) "[CDATA[" then match fst p with [] => None | _ => still (Cdata 0) p end
        else if String.prefix (name b) "--" || String.prefix (name b) "[CDATA[" then still (Bang b) p
        else None
    | CommentText dashes =>
        match dashes with
        | 2 => if Ascii.eqb a ">" then still Content p else None
        | _ => still (CommentText (if Ascii.eqb a "-" then S dashes else 0)) p
        end
    | Cdata brackets =>
        if Ascii.eqb a "]" then
          if Nat.ltb brackets 2 then still (Cdata (S brackets)) p else within (Cdata 2) (addText a p)
        else if Ascii.eqb a ">" && Nat.eqb brackets 2 then still Content p
        else
          within (Cdata 0) (match Nat.iter brackets (fun q => match q with Some q => addText "]"%char q | None => None end) (Some p) with
                            | Some p => addText a p
                            | None => None
                            end)
    | Pi question => if question && Ascii.eqb a ">" then still Content p else still (Pi (Ascii.eqb a "?")) p
    end
  else None.

Fixpoint run (m : mode) (p : place) (l : list ascii) : option (mode * place) :=
  match l with
  | [] => Some (m, p)
  | a :: t => match step m p a with Some (m, p) => run m p t | None => None end
  end.
(** The tree of a document; [None] when it is not well-formed. *)
Definition parseDom (s : string) : option dom :=
  match run Content ([], None) (lineEnds (chars s)) with
  | Some (Content, ([], Some d)) => Some d
  | _ => None
  end.

(* ------------------------------------------------------------------ *)
(** * ElementTree's tree *)

(** A name is its prefix and the rest. *)
Definition splitName (s : string) : option string * string :=
  match splitAt ":" s with
  | [p; k] => (Some p, k)
  | _ => (None, s)
  end.
(** The namespaces an element declares; "" is the prefix of names without one. *)
Definition declared (attrs : list (string * string)) : list (string * string) :=
  flat_map (fun '(k, v) => if String.eqb k "xmlns" then [("", v)]
                           else match splitName k with (Some p, q) => if String.eqb p "xmlns" then [(q, v)] else [] | _ => [] end) attrs.
Definition expanded (uri local : string) : string := if String.eqb uri "" then local else ("{" ++ uri ++ "}" ++ local)%string.
Definition elementName (env : list (string * string)) (s : string) : option string :=
  match splitName s with
  | (None, k) => Some (expanded (match dget env "" with Some u => u | None => "" end) k)
  | (Some p, k) => match dget env p with Some u => Some (expanded u k) | None => None end
  end.
Definition attrName (env : list (string * string)) (s : string) : option string :=
  match splitName s with (None, k) => Some k | (Some p, k) => elementName env s end.

(** An element's text is what comes before its first child; what comes after a child is
    not looked at by this library. *)
Fixpoint elements (env : list (string * string)) (d : dom) {struct d} : option xelem :=
  match d with
  | DText _ => None
  | DElem tag attrs children =>
      let env := declared attrs ++ env in
      let own := filter (fun '(k, _) => match declared [(k, "")] with [] => true | _ => false end) attrs in
      match elementName env tag,
            fold_right (fun '(k, v) r => match attrName env k, r with Some k, Some r => Some ((k, v) :: r) | _, _ => None end) (Some []) own,
            (fix go (ch : list dom) : option (list xelem) :=
               match ch with
               | [] => Some []
               | DText _ :: t => go t
               | c :: t => match elements env c, go t with Some e, Some es => Some (e :: es) | _, _ => None end
               end) children with
      | Some tag, Some attrs, Some es => Some (XElem tag attrs (match children with DText s :: _ => Some s | _ => None end) es)
      | _, _, _ => None
      end
  end.
Definition xmlPrefix : list (string * string) := [("xml", "http://www.w3.org/XML/1998/namespace")].

(** etree.parse. *)
Definition etreeParse (s : string) : option xelem :=
  match parseDom s with Some d => elements xmlPrefix d | None => None end.

Definition isAscii (s : string) : bool := forallb (fun a => (N_of_ascii a <? 128)%N) (chars s).
(** ProcessList.py 67-76: xmlPrettify. minidom's parser knows namespaces too. *)
Definition xmlPrettify (e : xelem) : res string :=
  let documentString := tostring e in
  if isAscii documentString then
    match parseDom documentString with
    | None => Err ParseError
    | Some d => match elements xmlPrefix d with None => Err ParseError | Some _ => Ok (toprettyxml d) end
    end
  else Err ValueError.

(** The libraries on a disk of texts; gzip's format is left open. *)
Definition textFiles (zip : string -> string) (unzip : string -> option string) : fileLib string :=
  {| pretty := xmlPrettify; parseXml := etreeParse; gzip := zip; gunzip := unzip; accepts := isAscii; nothing := "";
     prefixes := fun s => map (fun n => text (firstn n (chars s))) (seq 0 (String.length s)) |}.
