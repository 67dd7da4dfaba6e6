(** What the elements of a document written by hand say (C95). *)
From Coq Require Import Permutation.
From Verif Require Export MXml SpecMeta.

(** The attributes a node has when its element does not give them (the defaults of the
    constructors). *)
Definition usual : list (string * string) := [("inBitDepth", "16f"); ("outBitDepth", "16f"); ("id", ""); ("name", "")].
Definition defaultsOf (ty : string) : list (string * string) :=
  if String.eqb ty "LUT1D" then usual ++ [("interpolation", "linear")]
  else if String.eqb ty "LUT3D" then usual ++ [("interpolation", "trilinear")]
  else if String.eqb ty "ASCCDL" then usual ++ [("style", "Fwd")]
  else if String.eqb ty "Gamma" then usual ++ [("style", "basicFwd")]
  else if String.eqb ty "Log" then usual ++ [("style", "log10")]
  else if String.eqb ty "ExposureContrast" then usual ++ [("style", "linear")]
  else if String.eqb ty "ColorCorrection" then [("id", "")]
  else usual.
(** The value of an attribute: the words True and False are booleans. *)
Definition valueWritten (s : string) (v : aval) : Prop :=
  (s = "True" /\ v = ABool true) \/ (s = "False" /\ v = ABool false) \/ (s <> "True" /\ s <> "False" /\ v = AStr s).

Fixpoint lastOne {A} (l : list A) : option A :=
  match l with [] => None | a :: t => match lastOne t with Some b => Some b | None => Some a end end.
(** The texts of the children with a given tag, and the children of the children with one (in
    any case). *)
Definition childTexts (ty : string) (children : list xelem) : list (option string) :=
  map x_text (filter (fun e => String.eqb (elementType (x_tag e)) ty) children).
Definition childAttributes (ty : string) (children : list xelem) : list (list (string * string)) :=
  map x_attrib (filter (fun e => String.eqb (elementType (x_tag e)) ty) children).
Definition inside (ty : string) (children : list xelem) : list xelem :=
  flat_map (fun e => if String.eqb (lower (elementType (x_tag e))) ty then x_children e else []) children.

Section Numbers.
  Context {T : Type} {NM : Num T} {X : NumText T}.

  (** The last text is a number, or the last text is a list of numbers; there may be no text. *)
  Definition numberWritten (texts : list (option string)) (o : option T) : Prop :=
    match lastOne texts with
    | None => o = None
    | Some t => exists s v, t = Some s /\ parseFloat s = Ok v /\ o = Some v
    end.
  Definition numbersWritten (texts : list (option string)) (o : option (list T)) : Prop :=
    match lastOne texts with
    | None => o = None
    | Some t => exists s vs, t = Some s /\ mapM parseFloat (MNumText.split s) = Ok vs /\ o = Some vs
    end.
  (** An attribute is a number, or else the number is [usually]. *)
  Definition said (attrs : list (string * string)) (k : string) (usually v : T) : Prop :=
    match dget attrs k with Some s => parseFloat s = Ok v | None => v = usually end.
  Definition gammaSaid attrs (p : gparam T) : Prop :=
    said attrs "gamma" (nofZ 0) (g_gamma p) /\ said attrs "offset" (nofZ 0) (g_offset p) /\ g_chan p = dget attrs "channel".
  Definition logSaid attrs (p : lparam T) : Prop :=
    said attrs "gamma" (nlit 6 10) (l_gamma p) /\ said attrs "refWhite" (nofZ 685) (l_white p) /\ said attrs "refBlack" (nofZ 95) (l_black p) /\
    said attrs "highlight" (nofZ 1) (l_high p) /\ said attrs "shadow" (nofZ 0) (l_shadow p) /\ l_chan p = dget attrs "channel".
  Definition exposureSaid attrs (p : eparam T) : Prop :=
    said attrs "exposure" (nofZ 0) (e_exposure p) /\ said attrs "contrast" (nofZ 1) (e_contrast p) /\ said attrs "pivot" (nofZ 1) (e_pivot p).
  (** The numbers of a CDL are in the SOPNode and SatNode elements. *)
  Definition cdlSaid (children : list xelem) (v : cdl T) : Prop :=
    numbersWritten (childTexts "Slope" (inside "sopnode" children)) (c_slope v) /\ numbersWritten (childTexts "Offset" (inside "sopnode" children)) (c_offset v) /\
    numbersWritten (childTexts "Power" (inside "sopnode" children)) (c_power v) /\ numberWritten (childTexts "Saturation" (inside "satnode" children)) (c_sat v).
  (** A table: its dimensions, and its numbers rounded to single precision unless an encoding is
      named. *)
  Definition arraySaid (e : xelem) (a : array T) : Prop :=
    match dget (x_attrib e) "dim" with
    | Some s => Forall2 (fun w n => parseInt w = Ok (Z.of_nat n)) (MNumText.split s) (a_dims a)
    | None => a_dims a = []
    end /\
    exists s, x_text e = Some s /\
      (dget (x_attrib e) "floatEncoding" = None \/ dget (x_attrib e) "floatEncoding" = Some "string" ->
       Forall2 (fun w v => exists x, parseFloat w = Ok x /\ v = nf32 x) (MNumText.split s) (a_vals a)).
  (** An index map: pairs of numbers with @ between them. *)
  Definition imapSaid (e : xelem) (m : imap T) : Prop :=
    match dget (x_attrib e) "dim" with
    | Some s => exists n, parseInt s = Ok (Z.of_nat n) /\ im_dim m = Some n
    | None => im_dim m = None
    end /\
    exists s, x_text e = Some s /\
      Forall2 (fun w v => exists a b rest, splitAt "@" w = a :: b :: rest /\ parseFloat a = Ok v) (MNumText.split s) (im_in m) /\
      Forall2 (fun w v => exists a b rest, splitAt "@" w = a :: b :: rest /\ parseFloat b = Ok v) (MNumText.split s) (im_out m).
  Definition arraysIn (h : header T) : list (array T) := flat_map (fun x => match x with EArray a => [a] | _ => [] end) (h_elems h).
  Definition imapsIn (h : header T) : list (imap T) := flat_map (fun x => match x with EIndexMap m => [m] | _ => [] end) (h_elems h).
End Numbers.
Definition childrenOf (ty : string) (children : list xelem) : list xelem := filter (fun e => String.eqb (elementType (x_tag e)) ty) children.

(** * The order of attributes *)

(** The attributes of an XML element have different names. The second document has the
    attributes in another order, anywhere. *)
Inductive reordered : xelem -> xelem -> Prop :=
| Reordered tag attrs attrs' x children children' : NoDup (map fst attrs) -> Permutation attrs attrs' -> Forall2 reordered children children' ->
    reordered (XElem tag attrs x children) (XElem tag attrs' x children').

(** Lists that compute the same colours, with the same attributes and elements of their own. *)
Definition sameList {T} (l l' : plist T) : Prop :=
  match l, l' with
  | PList attrs vals elems _, PList attrs' vals' elems' _ =>
      (forall k, dget attrs k = dget attrs' k) /\ vals = vals' /\ elems = elems' /\ alikeLists l l'
  end.
Definition sameOutcome {A} (R : A -> A -> Prop) (r r' : res A) : Prop :=
  match r, r' with Ok a, Ok a' => R a a' | Err w, Err w' => w = w' | _, _ => False end.
