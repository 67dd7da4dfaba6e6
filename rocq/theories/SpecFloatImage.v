(** Vocabulary for filterImageWithCLF on half and float images. *)
From Coq Require Import ZArith List String Reals.
From Flocq Require Import Core BinarySingleNaN.
From Verif Require Export NumF SpecFilterTool.
Import ListNotations.
Local Open Scope string_scope.

(** Numbers a half or a float32 sample can hold. *)
Definition isHalf (x : fl) : Prop := exists h : binary_float 11 16, x = f64 h.
Definition isSingle (x : fl) : Prop := exists h : binary_float 24 128, x = f64 h.

(** The numbers in an image of half or float samples, and its depth. *)
Inductive holdsNumbers (s : stored fl) : string -> list fl -> Prop :=
| NumbersHalf xs : o_samples s = SHalf xs -> Forall isHalf xs -> holdsNumbers s "16f" xs
| NumbersFloat xs : o_samples s = SFloat xs -> Forall isSingle xs -> holdsNumbers s "32f" xs.
(** Numbers as written at the two float depths. *)
Definition writtenNumbers (d : string) (xs : list fl) : packed fl := if String.eqb d "16f" then PHalfs xs else PFloats xs.
Definition floatDepth (d : string) : Prop := d = "16f" \/ d = "32f".

(** [y] is the number [r] in half (p = 11, e = 16) or float32 (p = 24, e = 128) precision:
    rounded to the nearest representable number, to even in the middle. *)
Definition nearest (p e : Z) (r : R) (y : fl) : Prop :=
  is_finite y = true /\ B2R y = round radix2 (FLT_exp (3 - e - p) p) ZnearestE r.
(** [y] is [x] as a half: nearest, infinite from 65520 on, and the same if not finite. *)
Definition asHalf (x y : fl) : Prop :=
  isHalf y /\
  (is_finite x = true -> (Rabs (B2R x) < 65520)%R -> nearest 11 16 (B2R x) y) /\
  (is_finite x = true -> (65520 <= Rabs (B2R x))%R -> y = B754_infinity (Bsign x)) /\
  (is_finite x = false -> y = x).

(** [k] is [x] times [t] rounded down, give or take the rounding of the product. *)
Definition codeFor (t : Z) (x : fl) (k : Z) : Prop :=
  isCode t k /\ (B2R x * IZR t - 33 / 32 < IZR k <= B2R x * IZR t + 1 / 32)%R.

(** Two images of the same size. *)
Definition sameSize (s s' : stored fl) : Prop := o_width s' = o_width s /\ o_height s' = o_height s /\ o_channels s' = o_channels s.
