(** Vocabulary for inputs outside the range of a table. *)
From Coq Require Import Reals ZArith.
From Flocq Require Import Core BinarySingleNaN.
From Verif Require Export SpecBounds.
Local Open Scope R_scope.

(** NaN, minus infinity, or a number of moderate size at or below zero. *)
Definition below (x : fl) : Prop :=
  x = B754_nan \/ x = B754_infinity true \/ (is_finite x = true /\ Rabs (B2R x) <= bpow radix2 126 /\ B2R x <= 0).

(** Infinity, or a number of moderate size at or above [full]. *)
Definition above (full : R) (x : fl) : Prop :=
  x = B754_infinity false \/ (is_finite x = true /\ Rabs (B2R x) <= bpow radix2 126 /\ full <= B2R x).

(** The same input as far as a table over [0, full] is concerned. *)
Definition sameInput (full : R) (x y : fl) : Prop := x = y \/ (below x /\ below y) \/ (above full x /\ above full y).
