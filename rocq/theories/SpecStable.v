(** Vocabulary for saving a list again. *)
From Flocq Require Import BinarySingleNaN.
From Verif Require Export SpecWrite.
Local Open Scope list_scope.

(** The values of a table of integers are finite. *)
Definition finiteIntegers (e : element fl) : Prop :=
  match e with EArray a => a_int a = true -> Forall (fun x => is_finite x = true) (a_vals a) | _ => True end.
