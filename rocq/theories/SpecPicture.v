(** Vocabulary for a whole image filtered through a list: the exact picture, and how sizes and
    rounding errors travel from the image to the written samples. *)
From Coq Require Import Reals ZArith List String.
From Flocq Require Import Core BinarySingleNaN.
From Verif Require Export SpecErrors SpecFilterTool SpecFloatImage.
Import ListNotations.
Local Open Scope R_scope.

(** The depths of a list: what its first node takes and its last node gives. *)
Definition entryDepth {T} (l : plist T) : aval := match procs_of l with [] => ANone | p :: _ => getInBitDepth p end.
Definition exitDepth {T} (l : plist T) : aval := last (map getOutBitDepth (procs_of l)) ANone.

(** One colour of an image of depth [d], through the list and out at depth [d'], without any
    rounding. *)
Definition exactPixel (c : Z) (l : plist fl) (d d' : string) (px : list fl) : res (list R) :=
  let* ys := colourThrough c (exactList l) (map (fun x => B2R x / fullScale (AStr d) * fullScale (entryDepth l)) px) in
  Ok (map (fun y => y / fullScale (exitDepth l) * fullScale (AStr d')) ys).

(** Size and error of colours that are stored in single precision, and of colours a Range
    without limits takes to a depth with [K] times as large codes. *)
Definition stored32 (s : R * R) : R * R :=
  let r := bpow radix2 (-23) * fst s + bpow radix2 (-149) in (fst s + r, snd s + r).
Definition rescaledBy (K : R) (s : R * R) : R * R :=
  let r := 3 * bpow radix2 (-23) * (K * fst s) + bpow radix2 (-132) in (K * fst s + r, K * snd s + r).

(** Colours of size [B] go into the filter; colours of size [B'] come out, with error [e']. *)
Definition pictureBudget {N : Num fl} (c : Z) (l : plist fl) (d d' : string) (B B' e' : R) : Prop :=
  B <= bpow radix2 99 /\
  let s := stored32 (rescaledBy (fullScale (entryDepth l) / fullScale (AStr d)) (stored32 (B, 0))) in
  exists Bl el, budget c (procs_of l) (fst s) (snd s) Bl el /\ Bl <= bpow radix2 100 /\
    (B', e') = stored32 (rescaledBy (fullScale (AStr d') / fullScale (exitDepth l)) (Bl, el)).

(** The samples of an RGB image, colour by colour. *)
Definition hasColours {A} {T} (s : stored T) (pxs : list (list A)) : Prop :=
  o_channels s = 3%nat /\ (2 <= o_height s)%nat /\ (o_width s <> 0)%nat /\ List.length pxs = (o_width s * o_height s)%nat /\
  Forall (fun px => List.length px = 3%nat) pxs.

(** A code written for an exact sample [y]: less than one code and the rounding error away. *)
Definition codeNear (e : R) (k : Z) (y : R) : Prop := Rabs (IZR k - y) < 1 + e.

(** The numbers in an image, codes taken as numbers, colour by colour. *)
Definition showsColours {N : Num fl} (s : stored fl) (d : string) (pxs : list (list fl)) : Prop :=
  hasColours s pxs /\ (holdsNumbers s d (List.concat pxs) \/ exists ks, holdsCodes s d ks /\ List.concat pxs = map nofZ ks).
