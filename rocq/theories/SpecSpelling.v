(** The ways of writing one XML document: what may be chosen differently without changing
    the document. Texts are ASCII. *)
From Coq Require Import List String Ascii NArith.
From Verif Require Export SpecXmlText.
Import ListNotations.
Local Open Scope string_scope.
Local Open Scope list_scope.

(** Blanks between the parts of a tag. *)
Definition white (l : list ascii) : Prop := Forall (fun a => isTab a \/ isLineFeed a \/ a = " "%char) l.
(** A character that may stand in a document as it is. *)
Definition plain (a : ascii) : Prop := printable a \/ isTab a \/ isLineFeed a.
(** The text nowhere contains [s]. *)
Definition without (s : string) (l : list ascii) : Prop := ~ exists a b, l = a ++ chars s ++ b.

(** Numerals: one digit or more, most significant first; zeros in front do not matter. *)
Definition digitOf (base : N) (d : ascii) (n : N) : Prop :=
  (n < base)%N /\ (nth_error (chars "0123456789abcdef") (N.to_nat n) = Some d \/ nth_error (chars "0123456789ABCDEF") (N.to_nat n) = Some d).
Inductive digitsOf (base : N) : list ascii -> N -> Prop :=
| digits_one d n : digitOf base d n -> digitsOf base [d] n
| digits_more ds m d n : digitsOf base ds m -> digitOf base d n -> digitsOf base (ds ++ [d]) (base * m + n).

(** A reference to a character: by name, or by its code in decimal or hexadecimal. A
    carriage return can be had in this way only. *)
Inductive referenceTo (a : ascii) : list ascii -> Prop :=
| by_name nm : In (nm, a) [("amp", "&"%char); ("lt", "<"%char); ("gt", ">"%char); ("quot", """"%char); ("apos", "'"%char)] ->
    referenceTo a (chars ("&" ++ nm ++ ";")%string)
| by_decimal ds : plain a \/ a = "013"%char -> digitsOf 10 ds (N_of_ascii a) -> referenceTo a (chars "&#" ++ ds ++ [";"%char])
| by_hexadecimal ds : plain a \/ a = "013"%char -> digitsOf 16 ds (N_of_ascii a) -> referenceTo a (chars "&#x" ++ ds ++ [";"%char]).

(** ** Attributes *)

(** A character of a value between quotes [q]. *)
Inductive valueChar (q a : ascii) : list ascii -> Prop :=
| value_itself : printable a -> a <> q -> a <> "<"%char -> a <> "&"%char -> valueChar q a [a]
| value_blank b : a = " "%char -> isTab b \/ isLineFeed b -> valueChar q a [b]
| value_reference l : referenceTo a l -> valueChar q a l.
(** An attribute with the blanks before it, between single or double quotes. *)
Inductive attrSpelled : string * string -> list ascii -> Prop :=
| attr_spelled k v w1 w2 w3 q cs :
    xmlName k \/ k = "xmlns" -> white w1 -> w1 <> [] -> white w2 -> white w3 -> q = """"%char \/ q = "'"%char ->
    Forall2 (valueChar q) (chars v) cs ->
    attrSpelled (k, v) (w1 ++ chars k ++ w2 ++ ["="%char] ++ w3 ++ [q] ++ List.concat cs ++ [q]).

(** ** Texts *)

Definition comment (l : list ascii) : Prop :=
  exists c, Forall plain c /\ without "--" (c ++ ["-"%char]) /\ l = chars "<!--" ++ c ++ chars "-->".
Definition instruction (l : list ascii) : Prop :=
  exists a c, In a (chars firstLetters) /\ Forall plain c /\ without "?>" (a :: c) /\
    (forall x m l' r, a :: c = [x; m; l'] ++ r -> lower (text [x; m; l']) <> "xml") /\ l = chars "<?" ++ (a :: c) ++ chars "?>".

(** A text: characters as they are or by reference, CDATA sections, and comments and
    processing instructions, which leave nothing. "]]>" may not stand as it is. *)
Inductive textSpelled : string -> list ascii -> Prop :=
| text_nothing : textSpelled "" []
| text_itself a s r : plain a -> a <> "<"%char -> a <> "&"%char -> (a = "]"%char -> ~ exists r', r = chars "]>" ++ r') ->
    textSpelled s r -> textSpelled (String a s) (a :: r)
| text_reference a l s r : referenceTo a l -> textSpelled s r -> textSpelled (String a s) (l ++ r)
| text_cdata c s r : Forall plain (chars c) -> without "]]>" (chars c) -> textSpelled s r ->
    textSpelled (c ++ s)%string (chars "<![CDATA[" ++ chars c ++ chars "]]>" ++ r)
| text_comment l s r : comment l -> textSpelled s r -> textSpelled s (l ++ r)
| text_instruction l s r : instruction l -> textSpelled s r -> textSpelled s (l ++ r).
(** An empty text is none. *)
Definition textOf (s : string) : option string := match s with "" => None | _ => Some s end.

(** ** Elements *)

(** What comes after "<": the name and the attributes. *)
Definition startSpelled (tag : string) (attrs : list (string * string)) (l : list ascii) : Prop :=
  exists ls w, xmlName tag /\ NoDup (map fst attrs) /\ Forall2 attrSpelled attrs ls /\ white w /\ l = chars tag ++ List.concat ls ++ w.
(** Elements with a start and an end tag, or with an empty tag. The text of an element is
    what comes before its first child; after a child there can be any. *)
Inductive elemSpelled : xelem -> list ascii -> Prop :=
| elem_tags tag attrs s children start l body w :
    startSpelled tag attrs start -> textSpelled s l -> childrenSpelled children body -> white w ->
    elemSpelled (XElem tag attrs (textOf s) children) (["<"%char] ++ start ++ [">"%char] ++ l ++ body ++ chars "</" ++ chars tag ++ w ++ [">"%char])
| elem_empty tag attrs start :
    startSpelled tag attrs start -> elemSpelled (XElem tag attrs None []) (["<"%char] ++ start ++ chars "/>")
with childrenSpelled : list xelem -> list ascii -> Prop :=
| no_children : childrenSpelled [] []
| more_children e es l s r rest : elemSpelled e l -> textSpelled s r -> childrenSpelled es rest -> childrenSpelled (e :: es) (l ++ r ++ rest).

(** ** Documents *)

(** The declaration: the version, and perhaps an encoding that agrees with ASCII. *)
Definition declaration (l : list ascii) : Prop :=
  exists version encoding w, attrSpelled ("version", "1.0") version /\ white w /\
    (encoding = [] \/ exists e, In e ["UTF-8"; "utf-8"; "US-ASCII"; "us-ascii"] /\ attrSpelled ("encoding", e) encoding) /\
    without "?>" (version ++ encoding ++ w) /\ l = chars "<?xml" ++ version ++ encoding ++ w ++ chars "?>".
(** What may stand before and after the root. *)
Inductive outside : list ascii -> Prop :=
| outside_nothing : outside []
| outside_white w l : white w -> outside l -> outside (w ++ l)
| outside_comment c l : comment c -> outside l -> outside (c ++ l)
| outside_instruction c l : instruction c -> outside l -> outside (c ++ l).
Definition documentSpelled (e : xelem) (t : string) : Prop :=
  exists d before root after, (d = [] \/ declaration d) /\ outside before /\ elemSpelled e root /\ outside after /\
    chars t = d ++ before ++ root ++ after.

(** The document with "xmlns" understood: it names the namespace of the element and of what
    is in it, and is no attribute. Attributes are in none. *)
Fixpoint inNamespace (uri : string) (e : xelem) : xelem :=
  match e with
  | XElem tag attrs x children =>
      let uri := match find (fun kv => String.eqb (fst kv) "xmlns") attrs with Some kv => snd kv | None => uri end in
      XElem (if String.eqb uri "" then tag else "{" ++ uri ++ "}" ++ tag)%string
        (filter (fun kv => negb (String.eqb (fst kv) "xmlns")) attrs) x (map (inNamespace uri) children)
  end.
(** Every line feed of the text as a carriage return and a line feed, or as a carriage
    return. *)
Definition withReturns (both : bool) (t : string) : string :=
  text (flat_map (fun a => if Ascii.eqb a "010" then if both then ["013"; "010"]%char else ["013"]%char else [a]) (chars t)).

(** The document without its "xmlns". *)
Fixpoint bare (e : xelem) : xelem :=
  match e with
  | XElem tag attrs x children => XElem tag (filter (fun kv => negb (String.eqb (fst kv) "xmlns")) attrs) x (map bare children)
  end.
(** No namespace has a brace in its name. *)
Fixpoint namespacesOk (e : xelem) : Prop :=
  match e with
  | XElem tag attrs x children =>
      Forall (fun kv => fst kv = "xmlns" -> ~ In "}"%char (chars (snd kv))) attrs /\
      (fix all (ch : list xelem) : Prop := match ch with [] => True | c :: t => namespacesOk c /\ all t end) children
  end.

(** Elements that differ, they and what is in them, in nothing but namespaces and the
    characters '-' and '_' of the tags. *)
Inductive sameTypes : xelem -> xelem -> Prop :=
| same_types tag tag' attrs x ch ch' :
    elementType tag = elementType tag' -> Forall2 sameTypes ch ch' -> sameTypes (XElem tag attrs x ch) (XElem tag' attrs x ch').
