(** Vocabulary for LUT files that are written from a list and read back. *)
From Coq Require Import Reals ZArith List String.
From Flocq Require Import Core BinarySingleNaN.
From Verif Require Export SpecClose SpecLut SpecSampling.
Import ListNotations.
Local Open Scope R_scope.

(** [x] is the double nearest to i / (n - 1), the position of entry [i] of [n]. *)
Definition isGridPoint (n i : nat) (x : fl) : Prop :=
  is_finite x = true /\ B2R x = round radix2 (FLT_exp (-1074) 53) ZnearestE (INR i / INR (n - 1)) /\ Bsign x = false.

(** Every number prints as one word that reads as [kept x], within half a unit of float32
    precision of it. *)
Definition accurateText (str : fl -> string) (kept : fl -> fl) : Prop :=
  forall x, printsAs str kept x /\
    (is_finite x = true -> Rabs (B2R x) <= bpow radix2 125 ->
     is_finite (kept x) = true /\ Rabs (B2R (kept x) - B2R x) <= bpow radix2 (-24) * Rabs (B2R x) + bpow radix2 (-1074)).

(** The channels of the colours given for [n] entries are finite numbers of size at most [M],
    and those of neighbouring entries differ by at most [D]. *)
Definition tameCurve (n : nat) (M D : R) (colour : nat -> list fl) : Prop :=
  forall ch, (ch < 3)%nat ->
    let e i := nth ch (colour i) (B754_zero false) in
    (forall i, (i < n)%nat -> is_finite (e i) = true /\ Rabs (B2R (e i)) <= M) /\
    (forall i, (i + 1 < n)%nat -> Rabs (B2R (e (i + 1)%nat) - B2R (e i)) <= D).
Definition tameCube (n : nat) (M D : R) (colour : nat -> nat -> nat -> list fl) : Prop :=
  forall ch, (ch < 3)%nat ->
    let e i j k := nth ch (colour i j k) (B754_zero false) in
    (forall i j k, (i < n)%nat -> (j < n)%nat -> (k < n)%nat -> is_finite (e i j k) = true /\ Rabs (B2R (e i j k)) <= M) /\
    smooth n D (fun i j k => B2R (e i j k)).
