(** Arrays as text: encodings (C42), the integer flag (C43), the feature gate (C44). *)
From Coq Require Import Reals.
From Flocq Require Import BinarySingleNaN.
From Verif Require Import SpecXml PXmlIeee PXmlGate PXmlRead.
Local Open Scope list_scope.

(** * C42 *)

(** Reading a written array gives the dimensions and the values of the complete
    rows, each as the encoding keeps it. *)
Theorem C42_array_round_trip :
  forall (L : libm), let N := ieeeNum L in
  forall c (a : array fl) e,
    arrayWrite c a = Ok e ->
    exists k a', rowLength (a_dims a) = Some k /\ k <> 0%nat /\
      arrayRead (emptyArray (a_raw a)) e = Ok a' /\ a_dims a' = a_dims a /\
      Forall2 (arrayKeeps (a_raw a) (a_enc a)) (completeRows k (a_vals a)) (a_vals a').
Proof. exact array_round_trip. Qed.
Print Assumptions C42_array_round_trip.

(** And exactly these arrays can be written. *)
Theorem C42_writable :
  forall (L : libm), let N := ieeeNum L in
  forall c (a : array fl),
    is_ok (arrayWrite c a) <->
    exists k, rowLength (a_dims a) = Some k /\ k <> 0%nat /\
      (completeRows k (a_vals a) <> [] -> a_enc a = "string"%string \/ duiker_on c = true) /\
      (a_int a = true -> forall x, In x (completeRows k (a_vals a)) -> is_finite x = true) /\
      (a_raw a = false -> a_enc a = "hex32bit"%string -> forall x y, In x (completeRows k (a_vals a)) ->
         is_finite x = true -> roundedTo 24 128 x y -> is_finite y = true).
Proof. exact array_writes. Qed.
Print Assumptions C42_writable.

(** Two rows of three and an incomplete one, as hexadecimal words. *)
Definition sampleArray (L : libm) (enc : string) : array fl :=
  let q a b := @nlit fl (ieeeNum L) a b in
  {| a_dims := [2; 3]%nat; a_vals := [q 1 2; q 1 3; q (-7) 1; q 0 1; q 65504 1; q 1 10; q 1 1]%Z;
     a_dt := DtList; a_raw := false; a_int := false; a_enc := enc |}.
Example C42_case (L : libm) : let N := ieeeNum L in
  exists e, arrayWrite 15 (sampleArray L "hex16bit") = Ok e /\ x_attrib e = [("dim", "2 3"); ("floatEncoding", "hex16bit")]%string /\
    completeRows 3 (a_vals (sampleArray L "hex16bit")) = firstn 6 (a_vals (sampleArray L "hex16bit")) /\
    MNumText.split (match x_text e with Some t => t | None => "" end) = ["3800"; "3555"; "c700"; "0000"; "7bff"; "2e66"]%string.
Proof. eexists. split; [vm_compute; reflexivity|]. repeat split. Qed.

(** * C43 *)

Theorem C43_integer_flag_ignored :
  forall {T} {N : Num T} {X : NumText T} c (a : array T),
    rowsFinite a -> arrayWrite c (withIntegers true a) = arrayWrite c (withIntegers false a).
Proof. exact @integers_ignored. Qed.
Print Assumptions C43_integer_flag_ignored.

(** With NaN or an infinity in a complete row the flag makes writing fail. *)
Theorem C43_nonfinite_raises :
  forall {T} {N : Num T} {X : NumText T} c (a : array T) k x,
    rowLength (a_dims a) = Some k -> k <> 0%nat -> In x (completeRows k (a_vals a)) -> ~ finite x ->
    exists e, arrayWrite c (withIntegers true a) = Err e.
Proof. exact @integers_raise. Qed.
Print Assumptions C43_nonfinite_raises.

Example C43_case (L : libm) : let N := ieeeNum L in
  rowsFinite (sampleArray L "string") /\
  arrayWrite 15 (withIntegers true (sampleArray L "string")) = arrayWrite 15 (sampleArray L "string") /\
  (exists e, arrayWrite 15 (sampleArray L "string") = Ok e /\
     MNumText.split (match x_text e with Some t => t | None => "" end) =
     ["0.500000000"; "0.333333333"; "-7.000000000"; "0.000000000"; "65504.000000000"; "0.100000000"]%string) /\
  let nan := withIntegers false {| a_dims := [1; 1]%nat; a_vals := [B754_nan]; a_dt := DtList; a_raw := false; a_int := false; a_enc := "string" |} in
  is_ok (arrayWrite 15 nan) /\ arrayWrite 15 (withIntegers true nan) = Err ValueError.
Proof.
  split.
  - intros k [= <-]. repeat constructor.
  - split; [vm_compute; reflexivity|]. split; [eexists; split; [vm_compute; reflexivity|reflexivity]|].
    split; [eexists; vm_compute; reflexivity|reflexivity].
Qed.

(** * C44 *)

Theorem C44_set_encoding :
  forall {T} c (a : array T) enc,
    (duiker_on c = true -> exists a', setFloatEncoding c a enc = (a', Ok tt) /\ a_enc a' = enc) /\
    (duiker_on c = false -> exists a', setFloatEncoding c a enc = (a', Err UnsupportedExtensionError) /\ a_enc a' = "string"%string).
Proof. exact @set_encoding. Qed.
Print Assumptions C44_set_encoding.

Theorem C44_writing_refused :
  forall {T} {N : Num T} {X : NumText T} c (a : array T) k,
    duiker_on c = false -> a_enc a <> "string"%string ->
    rowLength (a_dims a) = Some k -> k <> 0%nat -> completeRows k (a_vals a) <> [] ->
    (a_int a = true -> Forall finite (completeRows k (a_vals a))) ->
    arrayWrite c a = Err UnsupportedExtensionError.
Proof. exact @encoding_refused. Qed.
Print Assumptions C44_writing_refused.

(** An array without a complete row is written under any features and encoding. *)
Theorem C44_empty_written :
  forall {T} {N : Num T} {X : NumText T} c (a : array T) k,
    rowLength (a_dims a) = Some k -> k <> 0%nat -> completeRows k (a_vals a) = [] -> is_ok (arrayWrite c a).
Proof. exact @encoding_empty. Qed.
Print Assumptions C44_empty_written.

(** Reading a node does not depend on the features (DynamicParameter elements
    apart), whatever encoding its array uses. *)
Theorem C44_reading_ungated :
  forall {T} {N : Num T} {X : NumText T} c c' load strict strict' e,
    mentions "DynamicParameter" e = false -> readItem c load strict e = readItem c' load strict' e.
Proof. exact @readItem_features. Qed.
Print Assumptions C44_reading_ungated.

Example C44_case (L : libm) : let N := ieeeNum L in
  duiker_on 1 = false /\ arrayWrite 1 (sampleArray L "hex16bit") = Err UnsupportedExtensionError /\
  is_ok (arrayWrite 1 (sampleArray L "string")) /\
  exists e n, arrayWrite 2 (sampleArray L "hex16bit") = Ok e /\
    readItem 0 (fun _ => Ok None) true (XElem "Matrix" [] None [e]) = Ok (INode n).
Proof.
  split; [reflexivity|]. split; [vm_compute; reflexivity|]. split; [eexists; vm_compute; reflexivity|].
  eexists. eexists. split; [vm_compute; reflexivity|]. reflexivity.
Qed.
