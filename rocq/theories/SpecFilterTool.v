(** Vocabulary for filterImageWithCLF on images of integer codes. *)
From Coq Require Import ZArith List String.
From Verif Require Export Spec SpecCode SpecTools MFilterTool.
Import ListNotations.
Local Open Scope string_scope.
Local Open Scope Z_scope.

Section Codes.
  Context {T : Type}.

  (** The codes in an image and the depth they are taken to have: 8 bit samples; 16 bit
      samples; or the upper bits of 16 bit samples, as many as oiio:BitsPerSample says,
      which count as 10 or 12 bit codes for 10 and 12 and as 16 bit codes otherwise. *)
  Inductive holdsCodes (s : stored T) : string -> list Z -> Prop :=
  | Codes8 ks : o_samples s = SUInt8 ks -> Forall (isCode 255) ks -> holdsCodes s "8i" ks
  | Codes16 ks : o_samples s = SUInt16 ks -> o_bits s = None -> Forall (isCode 65535) ks -> holdsCodes s "16i" ks
  | CodesUpper b vs :
      o_samples s = SUInt16 vs -> o_bits s = Some b -> 1 <= b <= 16 -> Forall (isCode 65535) vs ->
      holdsCodes s (if b =? 10 then "10i" else if b =? 12 then "12i" else "16i") (map (fun v => v / 2 ^ (16 - b)) vs).

  (** Codes in an image to be written: bytes at 8i, otherwise the upper bits of 16 bit samples. *)
  Definition writtenCodes (d : string) (ks : list Z) : packed T :=
    if String.eqb d "8i" then PInts 8 ks
    else if String.eqb d "10i" then PInts 16 (map (fun k => k * 64) ks)
    else if String.eqb d "12i" then PInts 16 (map (fun k => k * 16) ks)
    else PInts 16 ks.
  Definition writtenBits (d : string) : Z :=
    if String.eqb d "8i" then 8 else if String.eqb d "10i" then 10 else if String.eqb d "12i" then 12 else 16.

  (** An image has rows and samples. *)
  Definition hasPicture {A} (s : stored T) (ks : list A) : Prop :=
    (2 <= o_height s)%nat /\ (o_width s * o_channels s <> 0)%nat /\
    List.length ks = (o_height s * (o_width s * o_channels s))%nat.
  (** The depth of the output: the one asked for, or that of the image. *)
  Definition asked (dImg : string) (o : option string) (d : string) : Prop := o = Some d \/ o = None /\ d = dImg.
End Codes.

(** Code [k] of a depth with codes up to [s], as a code of a depth with codes up to [t]: the
    exact ratio rounded down, except for two codes that land one higher. *)
Definition newCode (s t k : Z) : Z :=
  k * t / s + (if (t =? 65535) && ((s =? 1023) && (k =? 617) || (s =? 4095) && (k =? 2183)) then 1 else 0).

(** A depth the command line accepts. *)
Definition knownDepth (d : string) : Prop := In d ["8i"; "10i"; "12i"; "16i"; "16f"; "32f"].
