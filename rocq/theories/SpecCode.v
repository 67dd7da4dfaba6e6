(** Vocabulary for code values of integer bit depths. *)
From Coq Require Import ZArith List String.
From Verif Require Export SpecNum MBuild.
Local Open Scope string_scope.

(** The largest code of an integer depth. *)
Definition largestCode (d : aval) : option Z :=
  match d with
  | AStr "8i" => Some 255
  | AStr "10i" => Some 1023
  | AStr "12i" => Some 4095
  | AStr "16i" => Some 65535
  | _ => None
  end%Z.
Definition isCode (s k : Z) : Prop := (0 <= k <= s)%Z.

(** A Range without limits, which only changes the depth: [Range(dIn, dOut)], as
    filterImageWithCLF puts before and behind a list (MFilter [adapter]). *)
Definition depthChange {T} (dIn dOut : aval) : node T := newRange dIn dOut (AStr "") (AStr "") (AStr "") ANone.
