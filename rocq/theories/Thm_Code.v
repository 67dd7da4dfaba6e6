(** Code values of integer depths through changes of depth, in the arithmetic of the code (C82). *)
From Coq Require Import List String ZArith Lia Reals.
From Flocq Require Import BinarySingleNaN.
From Verif Require Import PBase NumF SpecCode PCode.
Import ListNotations.
Local Open Scope string_scope.
Local Open Scope list_scope.

(** A Range from a depth to itself keeps every code. *)
Theorem C82_codes_kept :
  forall (L : libm), let N := ieeeNum L in
  forall c d s (codes : list Z) st,
    largestCode d = Some s -> Forall (isCode s) codes ->
    outcome (nodeProcess c (depthChange d d) (map nofZ codes) st) = Ok (map nofZ codes).
Proof. exact codes_kept. Qed.
Print Assumptions C82_codes_kept.

(** Codes changed to another depth and back are the codes again, if the other depth is
    floating or an integer depth with at least as many codes. *)
Theorem C82_codes_survive :
  forall (L : libm), let N := ieeeNum L in
  forall c d d' s (codes : list Z) st o,
    largestCode d = Some s -> (forall s', largestCode d' = Some s' -> (s <= s')%Z) -> Forall (isCode s) codes ->
    nodeProcess c (depthChange d d') (map nofZ codes) st = Ok o ->
    outcome (nodeProcess c (depthChange d' d) (po_out o) st) = Ok (map nofZ codes).
Proof. exact codes_back. Qed.
Print Assumptions C82_codes_survive.

(** From 8 to 16 bits code k becomes exactly 257 k. *)
Theorem C82_8_to_16 :
  forall (L : libm), let N := ieeeNum L in
  forall c (codes : list Z) st,
    Forall (isCode 255) codes ->
    outcome (nodeProcess c (depthChange (AStr "8i") (AStr "16i")) (map nofZ codes) st) = Ok (map (fun k => nofZ (257 * k)) codes).
Proof. exact codes_8_16. Qed.
Print Assumptions C82_8_to_16.

(** A depth with fewer codes need not give them back, although nothing is rounded to integers
    on the way: code 999 of 10 bits through 8 bits. *)
Theorem C82_narrower_refuted :
  forall (L : libm), let N := ieeeNum L in
  exists d d' s k c st o,
    largestCode d = Some s /\ isCode s k /\
    nodeProcess c (depthChange d d') [nofZ k] st = Ok o /\
    outcome (nodeProcess c (depthChange d' d) (po_out o) st) <> Ok [nofZ k].
Proof. exact narrower. Qed.
Print Assumptions C82_narrower_refuted.

Example C82_case :
  Forall (isCode 1023) [0; 1; 512; 1023]%Z /\ largestCode (AStr "10i") = Some 1023%Z /\ largestCode (AStr "16f") = None /\
  (forall s', largestCode (AStr "12i") = Some s' -> (1023 <= s')%Z).
Proof. split; [repeat constructor; unfold isCode; lia|]. split; [reflexivity|]. split; [reflexivity|]. intros s' H. injection H as <-. lia. Qed.
Example C82_survive_case :
  forall (L : libm), let N := ieeeNum L in
  forall c st, is_ok (nodeProcess c (depthChange (AStr "10i") (AStr "16f")) (map nofZ [0; 1; 512; 1023]%Z) st).
Proof. intros. eexists. reflexivity. Qed.
