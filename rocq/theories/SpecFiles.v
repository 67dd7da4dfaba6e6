(** Vocabulary for the properties of files and references. *)
From Coq Require Import Relations.
From Verif Require Export MFiles SpecWrite.
Local Open Scope string_scope.
Local Open Scope list_scope.

(** The value of an attribute; of two with one name the later counts. *)
Definition attributeOf (k : string) (at_ : list (string * string)) : string :=
  match dget (rev at_) k with Some v => v | None => "" end.
(** The file a Reference element names. A path True or False is read as a boolean and
    names nothing. *)
Definition linkPath (at_ : list (string * string)) : option string :=
  let isBool s := String.eqb s "True" || String.eqb s "False" in
  let p := attributeOf "path" at_ in
  let b := attributeOf "basePath" at_ in
  if isBool p then None
  else if startsSlash p then Some p
  else if isBool b then None
  else Some (if endsSlash b then b ++ p else b ++ "/" ++ p)%string.

(** Element [e] is a Reference to [p], or a Group with one inside. *)
Inductive linksTo (p : string) : xelem -> Prop :=
| link_here tag at_ x ch : elementType tag = "Reference" -> linkPath at_ = Some p -> linksTo p (XElem tag at_ x ch)
| link_inside tag at_ x ch e : elementType tag = "Group" -> In e ch -> linksTo p e -> linksTo p (XElem tag at_ x ch).

Section Disk.
  Context {B : Type} (io : fileLib B).

  (** The file at [p] holds the document [root], plainly or gzipped. *)
  Definition holds (fs : disk B) (p : string) (root : xelem) : Prop :=
    exists b, fs p = Some b /\
      (parseXml io b = Some root \/ exists b', gunzip io b = Some b' /\ parseXml io b' = Some root).
  (** The document that reading [p] under the features [c] finds. *)
  Definition opensAs (c : Z) (fs : disk B) (p : string) (root : xelem) : Prop :=
    exists b, fs p = Some b /\
      (parseXml io b = Some root \/ (duiker_on c = true /\ exists b', gunzip io b = Some b' /\ parseXml io b' = Some root)).
  (** The file at [p] refers to the path [q]. *)
  Definition refersTo (fs : disk B) (p q : string) : Prop :=
    exists root e, holds fs p root /\ In e (x_children root) /\ linksTo q e.

  (** Gzip data is not XML. *)
  Definition gzipNotXml : Prop := forall b b', gunzip io b = Some b' -> parseXml io b = None.
End Disk.

(** [e'] is [e] up to the text of elements with children, where printing puts line
    breaks and indentation. *)
Fixpoint sameTree (e e' : xelem) : Prop :=
  match e, e' with
  | XElem t a x ch, XElem t' a' x' ch' =>
      t' = t /\ a' = a /\ (ch = [] -> x' = x) /\
      (fix all (ch ch' : list xelem) : Prop :=
         match ch, ch' with
         | [], [] => True
         | c :: ch, c' :: ch' => sameTree c c' /\ all ch ch'
         | _, _ => False
         end) ch ch'
  end.

(** The library keeps the document [root]: printing it and parsing the text gives it back up
    to indentation, the text is not gzip data, and gzip gives back the text. *)
Definition keepsDocument {B} (io : fileLib B) (root : xelem) : Prop :=
  exists text root', pretty io root = Ok text /\ accepts io text = true /\ parseXml io text = Some root' /\ sameTree root root' /\
    gunzip io text = None /\ gunzip io (gzip io text) = Some text.

(** What writing can leave in a file that held [old]: its content until the new file
    is opened, then one of the contents [writeFile] goes through. *)
Definition crashContents {B} (old : option B) (steps : list B) : list (option B) := old :: map Some steps.
(** The disk with new content at a path. *)
Definition putFile {B} (fs : disk B) (path : string) (b : B) : disk B := fun p => if String.eqb p path then Some b else fs p.
(** What a Reference gets for a path: nothing for a missing file, otherwise the list in it, read leniently. *)
Definition loadFrom {T} {NM : Num T} {X : NumText T} {B} (io : fileLib B) (limit : nat) (c : Z) (fs : disk B)
  : string -> res (option (plist T)) :=
  fun q => match fs q with None => Ok None | Some _ => let* l := openList io limit c fs false q in Ok (Some l) end.
