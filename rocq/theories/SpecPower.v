(** Vocabulary for nodes that use the power function. *)
From Coq Require Import Reals ZArith List String.
From Flocq Require Import Core BinarySingleNaN.
From Verif Require Export SpecErrors.
Import ListNotations.
Local Open Scope R_scope.

(** The library's power function is within [d] of the exact one for bases in [0, 1] and
    exponents of at least 1. *)
Definition powWithin (L : libm) (d : R) : Prop :=
  forall x y : fl, is_finite x = true -> is_finite y = true -> 0 <= B2R x <= 1 -> 1 <= B2R y ->
    is_finite (m_pow L x y) = true /\ Rabs (B2R (m_pow L x y) - Rpow (B2R x) (B2R y)) <= d.

(** Every number a CDL holds is finite. *)
Definition cdlFinite (v : cdl fl) : Prop :=
  Forall (fun x => is_finite x = true) (valueOr (c_slope v) []) /\ Forall (fun x => is_finite x = true) (valueOr (c_offset v) []) /\
  Forall (fun x => is_finite x = true) (valueOr (c_power v) []) /\ (forall x, c_sat v = Some x -> is_finite x = true).

(** A library whose power function is correctly rounded. *)
Definition roundedReal (r : R) : fl :=
  binary_normalize 53 1024 eq_refl eq_refl mode_NE (ZnearestE (scaled_mantissa radix2 (FLT_exp (-1074) 53) r)) (cexp radix2 (FLT_exp (-1074) 53) r) false.
Definition roundedPow : libm := {| m_pow := fun x y => roundedReal (Rpow (B2R x) (B2R y)); m_log10 := fun x => roundedReal (ln (B2R x) / ln 10) |}.
