(** Vocabulary for tables that are never left. *)
From Coq Require Import Reals.
From Flocq Require Import Core BinarySingleNaN.
From Verif Require Export SpecSame.
Local Open Scope R_scope.

(** A finite number between two others, both included. *)
Definition liesBetween (lo hi z : fl) : Prop := is_finite z = true /\ B2R lo <= B2R z <= B2R hi.
