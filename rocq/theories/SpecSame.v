(** Vocabulary for nodes that should leave samples alone. *)
From Coq Require Import Reals ZArith List.
From Flocq Require Import Core BinarySingleNaN.
From Verif Require Export SpecIeee SpecClose.
Local Open Scope R_scope.

(** A finite number of 24 bits, as the float32 sample buffers hold them. *)
Definition isSingle (x : fl) : Prop :=
  is_finite x = true /\ generic_format radix2 (FLT_exp (-149) 24) (B2R x) /\ Rabs (B2R x) < bpow radix2 128.

(** The coefficients of the identity matrix, by value. *)
Definition identityCoef (coef : nat -> nat -> fl) (n : nat) : Prop :=
  forall i j, (i < n)%nat -> (j < n)%nat -> is_finite (coef i j) = true /\ B2R (coef i j) = if Nat.eqb i j then 1 else 0.
Definition zeroOffset (offset : option (nat -> fl)) (n : nat) : Prop :=
  match offset with None => True | Some o => forall i, (i < n)%nat -> is_finite (o i) = true /\ B2R (o i) = 0 end.

(** Entry [k] of a table of [2^j + 1] entries is [k / 2^j]. *)
Definition evenEntry (j : nat) (k : nat) (e : fl) : Prop := is_finite e = true /\ B2R e = INR k / bpow radix2 (Z.of_nat j).
