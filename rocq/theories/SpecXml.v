(** Vocabulary for the properties of written and read documents. *)
From Coq Require Import Reals.
From Flocq Require Import Core BinarySingleNaN.
From Verif Require Export NumFText MXml SpecNum.
Local Open Scope R_scope.
Local Open Scope list_scope.

(** [y] is the double [x] rounded to the nearest number (ties to even) of the binary
    format with [p] digits and largest exponent [e]; too large a number becomes
    an infinity. *)
Definition roundedTo (p e : Z) (x y : fl) : Prop :=
  match x with
  | B754_nan => y = B754_nan
  | B754_infinity s => y = B754_infinity s
  | _ =>
      let r := round radix2 (FLT_exp (3 - e - p) p) ZnearestE (B2R x) in
      if Rlt_bool (Rabs r) (bpow radix2 e) then is_finite y = true /\ B2R y = r /\ Bsign y = Bsign x
      else y = B754_infinity (Bsign x)
  end.

(** [y] is [x] after printing with nine decimals, reading as a double and storing
    as a float32. *)
Definition throughDecimals (x y : fl) : Prop :=
  if is_finite x then
    exists (n : Z) (d : fl),
      Rabs (IZR n / 10 ^ 9 - B2R x) <= / 2 / 10 ^ 9 /\
      is_finite d = true /\ B2R d = round radix2 (FLT_exp (-1074) 53) ZnearestE (IZR n / 10 ^ 9) /\ Bsign d = Bsign x /\
      roundedTo 24 128 d y
  else y = x.

(** What an array keeps of a value. *)
Definition arrayKeeps (raw : bool) (enc : string) (x y : fl) : Prop :=
  if raw then roundedTo 11 16 x y
  else if inList enc ["integer16bit"; "hex16bit"] then roundedTo 11 16 x y
  else if inList enc ["integer32bit"; "hex32bit"] then roundedTo 24 128 x y
  else if inList enc ["integer64bit"; "hex64bit"] then y = x
  else throughDecimals x y.

(** The number of values in a row of the text: the last of two or four dimensions,
    otherwise the second. *)
Definition rowLength (dims : list nat) : option nat :=
  match dims with
  | [_; k] => Some k
  | [_; _; _; k] => Some k
  | _ :: k :: _ => Some k
  | _ => None
  end.
(** The complete rows. *)
Definition completeRows {T} (k : nat) (vs : list T) : list T := firstn (List.length vs - List.length vs mod k) vs.

(** The same array with the integer flag set or cleared. *)
Definition withIntegers {T} (b : bool) (a : array T) : array T :=
  {| a_dims := a_dims a; a_vals := a_vals a; a_dt := a_dt a; a_raw := a_raw a; a_int := b; a_enc := a_enc a |}.

(** An element of a given (normalised) type occurs in the tree. *)
Fixpoint mentions (ty : string) (e : xelem) : bool :=
  match e with
  | XElem tag _ _ children => String.eqb (elementType tag) ty || existsb (mentions ty) children
  end.

(** Neither NaN nor an infinity. *)
Definition finite {T} {N : Num T} (x : T) : Prop := nisnan x = false /\ nisinf x = false.
Definition rowsFinite {T} {N : Num T} (a : array T) : Prop :=
  forall k, rowLength (a_dims a) = Some k -> Forall finite (completeRows k (a_vals a)).

(** The element types a document may use at its top level. *)
Definition knownTypes : list string :=
  ["Comment"; "Description"; "InputDescriptor"; "OutputDescriptor"; "Info"; "ProcessNode"; "Range"; "Matrix"; "LUT1D"; "LUT3D";
   "ASCCDL"; "ColorCorrection"; "Gamma"; "Log"; "ExposureContrast"; "Reference"; "Group"]%string.

(** A node type needing a feature that is switched off. *)
Definition featureMissing (c : Z) (ty : string) : Prop :=
  (In ty ["ExposureContrast"; "Gamma"; "Log"; "Reference"]%string /\ autodesk_on c = false) \/
  (ty = "Group"%string /\ duiker_on c = false).
