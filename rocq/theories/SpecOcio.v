(** Vocabulary for the OCIO conversion: what an OCIO matrix does to an RGBA pixel. *)
From Coq Require Import Reals.
From Verif Require Export MOcio SpecReal.
Local Open Scope R_scope.

(** Row-major entries of a table with [w] columns. *)
Definition cell (w : nat) (m : list R) (i j : nat) : R := nth (i * w + j) m 0.
Definition offsetOf (off : list R) (i : nat) : R := nth i off 0.

(** The OCIO MatrixTransform: a 4x4 matrix and an offset, on RGBA. *)
Definition ocioApply (m off : list R) (px : list R) : list R := affine 4 (cell 4 m) (offsetOf off) px.

(** The test the code makes before it shrinks a 4x4 matrix. *)
Definition alphaLooksTrivial (m : list R) : Prop :=
  List.length m = 16%nat /\ cell 4 m 0 3 = 0 /\ cell 4 m 1 3 = 0 /\ cell 4 m 3 0 = 0 /\ cell 4 m 3 1 = 0 /\ cell 4 m 0 0 <> 0.

(** Parts of a transform that are converted to nothing. *)
Inductive dropped {T : Type} : ocio T -> Prop :=
| dropped_matrix m off d : d <> "forward"%string -> dropped (OMatrix m off d)
| dropped_log b d : b <> 10%Z -> b <> 2%Z -> dropped (OLog b d)
| dropped_other : dropped OOther.
