(** Vocabulary for the properties of the LUT file formats. *)
From Coq Require Import Reals.
From Flocq Require Import Core BinarySingleNaN.
From Verif Require Export MLut NumFText.
Local Open Scope string_scope.
Local Open Scope list_scope.

(** [y] is the double nearest to [x] printed with [k] decimals. *)
Definition atDecimals (k : nat) (x y : fl) : Prop :=
  if is_finite x then
    exists n : Z,
      (Rabs (IZR n / 10 ^ k - B2R x) <= / 2 / 10 ^ k)%R /\
      is_finite y = true /\ B2R y = round radix2 (FLT_exp (-1074) 53) ZnearestE (IZR n / 10 ^ k)%R /\ Bsign y = Bsign x
  else y = x.

Section Lut.
  Context {T : Type} {N : Num T} {X : NumText T}.

  (** A number after printing with [k] decimals and float(). *)
  Definition viaFixed (k : nat) (x : T) : T := tround (tfixed k x).

  (** [str x] is one word and float() reads it as [kept x]. *)
  Definition printsAs (str : T -> string) (kept : T -> T) (x : T) : Prop :=
    MNumText.split (str x) = [str x] /\ parseFloat (str x) = Ok (kept x).

  (** The nodes that reading builds. *)
  Definition halfHeader (id : string) (attrs : list (string * aval)) (vals : list (string * T)) (elems : list (element T)) : header T :=
    {| h_attrs := [("inBitDepth", AStr "16f"); ("outBitDepth", AStr "16f"); ("id", AStr id); ("name", AStr id)] ++ attrs;
       h_vals := vals; h_dyn := []; h_elems := elems |}.
  Definition interpolationAttr (interpolation : string) : list (string * aval) :=
    if String.eqb interpolation "" then [] else [("interpolation", AStr interpolation)].
  Definition floatTable (dims : list nat) (vals : list T) : array T :=
    {| a_dims := dims; a_vals := vals; a_dt := DtList; a_raw := false; a_int := false; a_enc := "string" |}.
  (** A Range from [lo, hi] to [0, 1]. *)
  Definition rangeNode (id : string) (lo hi : T) : node T :=
    Node (halfHeader id [] [("minInValue", lo); ("maxInValue", hi); ("minOutValue", n0); ("maxOutValue", n1)] []) BRange.
  Definition lut1dNode (id interpolation : string) (rows cols : nat) (vals : list T) : node T :=
    Node (halfHeader id (interpolationAttr interpolation) [] [EArray (floatTable [rows; cols] vals)]) BLUT1D.
  Definition lut3dNode (id interpolation : string) (r0 r1 r2 : nat) (vals : list T) : node T :=
    Node (halfHeader id (interpolationAttr interpolation) [] [EArray (floatTable [r0; r1; r2; 3] vals)]) BLUT3D.

  (** The first [k] values of each of [n] rows of [channels] values. *)
  Definition firstOfRows (n channels k : nat) (data : list T) : list T :=
    List.concat (map (fun i => firstn k (skipn (i * channels) data)) (seq 0 n)).
  (** [data[r][g][b]] is the colour [f r g b] of three values, for all indices within
      the resolutions. *)
  Definition latticeOf (data : lattice T) (r0 r1 r2 : nat) (f : nat -> nat -> nat -> list T) : Prop :=
    forall r g b, r < r0 -> g < r1 -> b < r2 -> latticeGet data r g b = Ok (f r g b) /\ List.length (f r g b) = 3.
  (** [vals] are the colours of an r0 x r1 x r2 table with blue varying fastest. *)
  Definition tableOf (vals : list T) (r0 r1 r2 : nat) (f : nat -> nat -> nat -> list T) : Prop :=
    List.length vals = r0 * r1 * r2 * 3 /\
    forall r g b, r < r0 -> g < r1 -> b < r2 ->
      slice vals (((r * r1 + g) * r2 + b) * 3) (((r * r1 + g) * r2 + b) * 3 + 3) = f r g b.

  (** All values of the colours [f r g b], blue varying fastest. *)
  Definition colourList (r0 r1 r2 : nat) (f : nat -> nat -> nat -> list T) : list T :=
    flat_map (fun r => flat_map (fun g => flat_map (fun b => f r g b) (seq 0 r2)) (seq 0 r1)) (seq 0 r0).

  (** The text after the first line [from] up to the line [upto], as lines. *)
  Fixpoint between (from upto : string) (ls : list string) : list string :=
    match ls with
    | [] => []
    | l :: t => if String.eqb l from then
                  (fix until ls := match ls with [] => [] | l :: t => if String.eqb l upto then [] else l :: until t end) t
                else between from upto t
    end.
  (** Lines with a comma after every one but the last. *)
  Fixpoint commaLines (ls : list string) : list string :=
    match ls with
    | [] => []
    | [l] => [l]
    | l :: t => (l ++ ",")%string :: commaLines t
    end.
  (** The words of a text when braces and commas count as blanks. *)
  Definition bareWords (s : string) : list string :=
    MNumText.split (text (map (fun a => if Ascii.eqb a "{" || Ascii.eqb a "}" || Ascii.eqb a "," then " "%char else a) (chars s))).
End Lut.

(** A text without line ends, and lines that all end with [e]. *)
Definition noLineEnd (s : string) : Prop := Forall (fun a => a <> "010"%char /\ a <> "013"%char) (chars s).
Definition lineEnds : list string := [text ["010"%char]; text ["013"%char]; text ["013"%char; "010"%char]].
Fixpoint endedBy (e : string) (ls : list string) : string :=
  match ls with [] => "" | l :: t => (l ++ e ++ endedBy e t)%string end.
(** [l'] is [l] with blanks after it. *)
Definition blanksAfter (l l' : string) : Prop := exists w, l' = (l ++ w)%string /\ Forall (fun a => isSpace a = true) (chars w).

(** A CTL program that brings its four inputs to its four outputs, the colour through [apply]. *)
Definition ctlProgram (apply : list string) : list string :=
  ["void main"; "("] ++ map (fun c => "  input varying float " ++ c ++ "In,")%string ["r"; "g"; "b"; "a"] ++
  map (fun c => "  output varying float " ++ c ++ "Out,")%string ["r"; "g"; "b"] ++ ["  output varying float aOut"; ")"; "{"] ++
  map (fun c => "  float " ++ c ++ " = " ++ c ++ "In;")%string ["r"; "g"; "b"] ++ [""; "  // Apply LUT"] ++ apply ++ [""] ++
  map (fun c => "  " ++ c ++ "Out = " ++ c ++ ";")%string ["r"; "g"; "b"] ++ ["  aOut = aIn;"; "}"].
(** Each channel through the table named for it. *)
Definition ctlLookups (tables : list string) : list string :=
  map (fun '(c, table) => ("  " ++ c ++ " = lookup1D(" ++ table ++ ", min1d, max1d, " ++ c ++ ");")%string) (combine ["r"; "g"; "b"] tables).
(** The interval a CTL table covers. *)
Definition ctlBound {T} {X : NumText T} (name : string) (x : T) : string := ("const float " ++ name ++ " = " ++ padLeft 3 (formatFixed 9 x) ++ ";")%string.
Definition ctlBound3 {T} {X : NumText T} (name : string) (x : T) : string :=
  let t := padLeft 3 (formatFixed 9 x) in ("const float " ++ name ++ "[3] = {" ++ (t ++ ", " ++ t ++ ", " ++ t) ++ "};")%string.
