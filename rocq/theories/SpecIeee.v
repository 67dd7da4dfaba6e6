(** Vocabulary for the properties of half-float codes and of IEEE results. *)
From Coq Require Import Reals.
From Flocq Require Import Core BinarySingleNaN.
From Verif Require Export NumF SpecNum.
Local Open Scope R_scope.

(** The number a 16-bit half-float code stands for: five exponent bits, ten
    fraction bits, then the sign. *)
Definition halfMagnitude (k : Z) : R :=
  if (k <? 1024)%Z then IZR k * bpow radix2 (-24)
  else IZR (1024 + k mod 1024) * bpow radix2 (k / 1024 - 25).
Definition halfNumber (k : Z) : R :=
  if (k <? 32768)%Z then halfMagnitude k else - halfMagnitude (k - 32768).
(** Codes of the finite numbers. *)
Definition finiteCode (k : Z) : Prop := (0 <= k < 31744 \/ 32768 <= k < 64512)%Z.
Definition negativeCode (k : Z) : bool := (32768 <=? k)%Z.

(** Equal numbers, or both NaN (the sign of a zero is ignored). *)
Definition sameNumber (x y : fl) : Prop := x = y \/ (is_finite x = true /\ is_finite y = true /\ B2R x = 0 /\ B2R y = 0).

(** A LUT1D node with halfDomain set and a full table of 65536 entries, used
    without index maps. *)
Definition isHalfLUT (h : header fl) (dIn : aval) (a : array fl) : Prop :=
  dget (h_attrs h) "inBitDepth" = Some dIn /\ (exists d, dget (h_attrs h) "outBitDepth" = Some d) /\
  dget (h_attrs h) "interpolation" <> Some (AStr "cubic") /\ flagSet h "halfDomain" = true /\
  indexMaps (h_elems h) = [] /\ lastArray (h_elems h) = Some a /\ wellFormed1D a /\
  exists n, hd_error (a_dims a) = Some n /\ Z.of_nat n = 65536%Z.

(** The table entry at a code. *)
Definition entryAt (L : libm) (a : array fl) (k : Z) (ch : nat) : fl :=
  entry1D (N := ieeeNum L) a (Z.to_nat k) ch.

(** [p] is read between the halfs of codes [k1] and [k2] with weight [r] on the
    second: [k1] is the code of a nearest half, [k2] the neighbouring code on the
    other side of [p], [r] the float32 quotient of the exact distances. Beyond the largest
    half, and at zero, only the first code has weight. *)
Definition halfWeight (L : libm) (p : fl) (k1 k2 : Z) (r : fl) : Prop :=
  finiteCode k1 /\ finiteCode k2 /\ is_finite r = true /\ 0 <= B2R r <= 1 /\
  negativeCode k1 = Bsign p /\
  (forall k, finiteCode k -> Rabs (B2R p - halfNumber k1) <= Rabs (B2R p - halfNumber k)) /\
  (B2R p = halfNumber k1 -> B2R r = 0) /\
  (B2R p <> 0 -> Rabs (B2R p) < 65504 ->
     (k2 = k1 + 1 \/ k2 = k1 - 1)%Z /\ negativeCode k2 = negativeCode k1 /\
     (halfNumber k1 <= B2R p <= halfNumber k2 \/ halfNumber k2 <= B2R p <= halfNumber k1) /\
     exists d g, is_finite d = true /\ is_finite g = true /\
       B2R d = B2R p - halfNumber k1 /\ B2R g = halfNumber k2 - halfNumber k1 /\
       r = @nf32 _ (ieeeNum L) (@ndiv _ (ieeeNum L) d g)) /\
  (65504 <= Rabs (B2R p) -> Rabs (halfNumber k1) = 65504 /\ B2R r = 0) /\
  (B2R p = 0 -> halfNumber k1 = 0 /\ B2R r = 0).

(** A LUT1D node that looks its table of [n] entries up linearly, without index
    maps. *)
Definition isLinearLUT (h : header fl) (dIn : aval) (a : array fl) (n : nat) : Prop :=
  dget (h_attrs h) "inBitDepth" = Some dIn /\ (exists d, dget (h_attrs h) "outBitDepth" = Some d) /\
  dget (h_attrs h) "interpolation" <> Some (AStr "cubic") /\ flagSet h "halfDomain" = false /\
  indexMaps (h_elems h) = [] /\ lastArray (h_elems h) = Some a /\ wellFormed1D a /\ hd_error (a_dims a) = Some n.
