(** Vocabulary for the text of documents. *)
From Verif Require Export MXmlText SpecFiles.
Local Open Scope string_scope.
Local Open Scope list_scope.

Definition firstLetters : string := "ABCDEFGHIJKLMNOPQRSTUVWXYZabcdefghijklmnopqrstuvwxyz_".
Definition laterLetters : string := firstLetters ++ "0123456789-.".
(** A name XML accepts, without a prefix; "xmlns" means something else. *)
Definition xmlName (s : string) : Prop :=
  match chars s with
  | [] => False
  | a :: t => In a (chars firstLetters) /\ Forall (fun b => In b (chars laterLetters)) t
  end /\ s <> "xmlns".

(** Printable ASCII, and the two blank characters that a text keeps. *)
Definition printable (a : ascii) : Prop := (32 <= N_of_ascii a <= 126)%N.
Definition isTab (a : ascii) : Prop := a = "009"%char.
Definition isLineFeed (a : ascii) : Prop := a = "010"%char.
Definition lineText (s : string) : Prop := Forall printable (chars s).
Definition bodyText (s : string) : Prop := Forall (fun a => printable a \/ isTab a \/ isLineFeed a) (chars s).

(** Names are names, attributes differ, characters are in ASCII and no control characters;
    no element has an empty text, or both a text and children. *)
Fixpoint plainDocument (e : xelem) : Prop :=
  match e with
  | XElem tag attrs x children =>
      xmlName tag /\ NoDup (map fst attrs) /\ Forall (fun kv => xmlName (fst kv) /\ bodyText (snd kv)) attrs /\
      match x with None => True | Some s => s <> "" /\ bodyText s /\ children = [] end /\
      (fix all (ch : list xelem) : Prop := match ch with [] => True | c :: t => plainDocument c /\ all t end) children
  end.

(** The document with each tab and line feed of an attribute made a blank. *)
Definition blanks (s : string) : string :=
  text (map (fun a => if Ascii.eqb a "009" || Ascii.eqb a "010" then " "%char else a) (chars s)).
Fixpoint blankAttributes (e : xelem) : xelem :=
  match e with
  | XElem tag attrs x children => XElem tag (map (fun kv => (fst kv, blanks (snd kv))) attrs) x (map blankAttributes children)
  end.
(** No attribute has one. *)
Fixpoint lineAttributes (e : xelem) : Prop :=
  match e with
  | XElem tag attrs x children =>
      Forall (fun kv => lineText (snd kv)) attrs /\
      (fix all (ch : list xelem) : Prop := match ch with [] => True | c :: t => lineAttributes c /\ all t end) children
  end.

(** ** Lists *)

(** A text that is there says something, in plain characters. *)
Definition cleanText (x : option string) : Prop := match x with None => True | Some s => s <> "" /\ bodyText s end.
Definition cleanNote (e : plelem) : Prop :=
  match e with
  | PEComment k x => xmlName k /\ cleanText x
  | PEInfo cs => Forall (fun kx => xmlName (fst kx) /\ cleanText (snd kx)) cs
  end.

Section Lists.
  Context {T : Type} {NM : Num T} {X : NumText T}.

  Definition cleanElement (e : element T) : Prop :=
    match e with
    | EDesc x => cleanText x
    | EArray _ => True
    | EIndexMap m => im_in m <> []
    | EMisc p => cleanNote p
    end.
  Definition cleanHeader (h : header T) : Prop :=
    NoDup (map fst (h_attrs h)) /\ Forall (fun kv => xmlName (fst kv) /\ lineText (avalText (snd kv))) (h_attrs h) /\
    Forall (fun kv => xmlName (fst kv)) (h_vals h) /\ Forall lineText (h_dyn h) /\ Forall cleanElement (h_elems h).
  Definition cleanChannel (ch : option string) : Prop := match ch with None => True | Some s => lineText s end.
  Definition cleanCdl (v : cdl T) : Prop := c_slope v <> Some [] /\ c_offset v <> Some [] /\ c_power v <> Some [].
  (** A Reference is written as an element or, if [deep], as the nodes it refers to. *)
  Fixpoint cleanNode (deep : bool) (n : node T) : Prop :=
    match n with
    | Node h b =>
        cleanHeader h /\
        match b with
        | BCDL v | BColorCorrection v => cleanCdl v
        | BGamma ps => Forall (fun p => cleanChannel (g_chan p)) ps
        | BLog ps => Forall (fun p => cleanChannel (l_chan p)) ps
        | BReference _ (Some (PList _ _ _ ps)) =>
            deep = true ->
            (fix all (ps : list (node T)) : Prop := match ps with [] => True | p :: t => cleanNode deep p /\ all t end) ps
        | BGroup ps =>
            (fix all (ps : list (node T)) : Prop := match ps with [] => True | p :: t => cleanNode deep p /\ all t end) ps
        | _ => True
        end
    end.
  Definition cleanList (deep : bool) (l : plist T) : Prop :=
    match l with
    | PList attrs vals elems procs =>
        NoDup (map fst attrs) /\ Forall (fun kv => xmlName (fst kv) /\ lineText (snd kv)) attrs /\
        Forall (fun kv => xmlName (fst kv)) vals /\ Forall cleanNote elems /\ Forall (cleanNode deep) procs
    end.
End Lists.

(** Gzip gives back what it packed, and does not take an XML text for packed data. *)
Definition gzipWorks (zip : string -> string) (unzip : string -> option string) : Prop :=
  (forall t, unzip (zip t) = Some t) /\ forall t, unzip ("<?xml" ++ t)%string = None.

(** ** Characters a document cannot have *)

(** The character is in a name, a value or a text of the document. *)
Inductive occurs (a : ascii) : xelem -> Prop :=
| occurs_name tag attrs x ch : In a (chars tag) -> occurs a (XElem tag attrs x ch)
| occurs_key tag attrs x ch k v : In (k, v) attrs -> In a (chars k) -> occurs a (XElem tag attrs x ch)
| occurs_value tag attrs x ch k v : In (k, v) attrs -> In a (chars v) -> occurs a (XElem tag attrs x ch)
| occurs_text tag attrs s ch : In a (chars s) -> occurs a (XElem tag attrs (Some s) ch)
| occurs_inside tag attrs x ch e : In e ch -> occurs a e -> occurs a (XElem tag attrs x ch).
(** Control characters other than tab, line feed and carriage return. *)
Definition control (a : ascii) : Prop := (N_of_ascii a < 32 /\ N_of_ascii a <> 9 /\ N_of_ascii a <> 10 /\ N_of_ascii a <> 13)%N.
Definition outsideAscii (a : ascii) : Prop := (128 <= N_of_ascii a)%N.
