(** Vocabulary for rounding errors: how far a float32 result is from the exact one. *)
From Coq Require Import Reals ZArith List String.
From Flocq Require Import Core BinarySingleNaN.
From Verif Require Export NumF SpecReal.
Import ListNotations.
Local Open Scope string_scope.
Local Open Scope R_scope.

(** [z] is finite and within [k] units of float32 precision of [r], for terms of total
    size [m]: 2^-23 is the spacing of float32 numbers relative to their size, and 2^-148
    accounts for underflow. *)
Definition within (k m r : R) (z : fl) : Prop :=
  is_finite z = true /\ Rabs (B2R z - r) <= k * (bpow radix2 (-23) * m + bpow radix2 (-148)).

(** The data of a Matrix node in any arithmetic: [n] rows of [n] coefficients, and offsets if
    there is a further column. *)
Definition isMatrixOf {T} {N : Num T} (h : header T) (n : nat) (coef : nat -> nat -> T) (offset : option (nat -> T)) : Prop :=
  exists a cols rest,
    hasDepths h /\ lastArray (h_elems h) = Some a /\ a_dims a = n :: cols :: rest /\
    (n * cols <= List.length (a_vals a))%nat /\
    (forall i j, (i < n)%nat -> (j < n)%nat -> nth (i * cols + j) (a_vals a) n0 = coef i j) /\
    match offset with
    | None => cols = n
    | Some o => (cols = n + 1)%nat /\ forall i, (i < n)%nat -> nth (i * cols + n) (a_vals a) n0 = o i
    end.

(** A row applied to a pixel exactly, and the total size of its terms. *)
Definition rowExact (n : nat) (row : nat -> fl) (offset : option fl) (px : list fl) : R :=
  sumTo n (fun j => B2R (row j) * B2R (nth j px (B754_zero false))) + match offset with None => 0 | Some o => B2R o end.
Definition rowSize (n : nat) (row : nat -> fl) (offset : option fl) (px : list fl) : R :=
  sumTo n (fun j => Rabs (B2R (row j) * B2R (nth j px (B754_zero false)))) + match offset with None => 0 | Some o => Rabs (B2R o) end.
(** The row and the samples it uses hold no infinities or NaN. *)
Definition rowFinite (n : nat) (row : nat -> fl) (offset : option fl) (px : list fl) : Prop :=
  (forall j, (j < n)%nat -> is_finite (row j) = true /\ is_finite (nth j px (B754_zero false)) = true) /\
  match offset with None => True | Some o => is_finite o = true end.

(** A Range node with all four limits, clamping or not. *)
Definition fourLimits {T} (h : header T) (dIn dOut : aval) (clamps : bool) (minIn maxIn minOut maxOut : T) : Prop :=
  dget (h_attrs h) "inBitDepth" = Some dIn /\ dget (h_attrs h) "outBitDepth" = Some dOut /\
  (clamps = true <-> dget (h_attrs h) "style" = None \/ dget (h_attrs h) "style" = Some (AStr "clamp")) /\
  dget (h_vals h) "minInValue" = Some minIn /\ dget (h_vals h) "maxInValue" = Some maxIn /\
  dget (h_vals h) "minOutValue" = Some minOut /\ dget (h_vals h) "maxOutValue" = Some maxOut.
(** Limits of moderate size. *)
Definition moderate (v : fl) : Prop := is_finite v = true /\ Rabs (B2R v) <= 16777216.

(** A LUT3D node without index maps in any arithmetic: interpolation, input depth, table and
    entries per side. *)
Definition isCube {T} {N : Num T} (h : header T) (interpolation : string) (dIn : aval) (a : array T) (n : nat) : Prop :=
  dget (h_attrs h) "inBitDepth" = Some dIn /\ (exists d, dget (h_attrs h) "outBitDepth" = Some d) /\
  dget (h_attrs h) "interpolation" = Some (AStr interpolation) /\
  lastArray (h_elems h) = Some a /\ wellFormed3D a n /\ indexMaps (h_elems h) = [].
Definition component {A} (ch : nat) (c : A * A * A) : A :=
  let '(r, g, b) := c in match ch with O => r | 1%nat => g | _ => b end.

(** Neighbours along any axis of a cube of [n] entries per side differ by at most [D]. *)
Definition smooth (n : nat) (D : R) (e : nat -> nat -> nat -> R) : Prop :=
  forall i j k, (i + 1 < n)%nat -> (j < n)%nat -> (k < n)%nat ->
    Rabs (e (i + 1)%nat j k - e i j k) <= D /\ Rabs (e j (i + 1)%nat k - e j i k) <= D /\ Rabs (e j k (i + 1)%nat - e j k i) <= D.
