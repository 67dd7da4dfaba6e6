(** filterImageWithCLF on half and float images (C86). *)
From Coq Require Import List String ZArith Lia Reals Lra.
From Flocq Require Import Core BinarySingleNaN.
From Verif Require Import NumF PFilterFloat2 SpecFloatImage.
Import ListNotations.
Local Open Scope string_scope.
Local Open Scope list_scope.
Local Open Scope nat_scope.

(** At its own depth, or as floats, every number is written as it was read. *)
Theorem C86_kept :
  forall (L : libm), let N := ieeeNum L in
  forall c (l : plist fl) (s : stored fl) d xs o d' k,
    holdsNumbers s d xs -> o_bits s = None -> hasPicture s xs -> asked d o d' -> d' = d \/ d' = "32f" -> procs_of l = [] -> 2 <= k ->
    filterCall c l (Some s) o k (TWrites (writtenNumbers d' xs) None) /\
    forall e, filterCall c l (Some s) o k e -> e = TWrites (writtenNumbers d' xs) None \/ e = TNothing.
Proof. exact numbers_kept. Qed.
Print Assumptions C86_kept.

(** Floats as halfs. *)
Theorem C86_float_to_half :
  forall (L : libm), let N := ieeeNum L in
  forall c (l : plist fl) (s : stored fl) xs o k,
    holdsNumbers s "32f" xs -> o_bits s = None -> hasPicture s xs -> asked "32f" o "16f" -> procs_of l = [] -> 2 <= k ->
    exists ys, Forall2 asHalf xs ys /\
      filterCall c l (Some s) o k (TWrites (PHalfs ys) None) /\
      forall e, filterCall c l (Some s) o k e -> e = TWrites (PHalfs ys) None \/ e = TNothing.
Proof. exact to_half. Qed.
Print Assumptions C86_float_to_half.

(** Codes as floats: the quotient, rounded once. *)
Theorem C86_codes_to_float :
  forall (L : libm), let N := ieeeNum L in
  forall c (l : plist fl) (s : stored fl) d ks a o k,
    holdsCodes s d ks -> o_bits s = None -> hasPicture s ks -> asked d o "32f" -> largestCode (AStr d) = Some a -> procs_of l = [] -> 2 <= k ->
    exists ys, Forall2 (fun n y => nearest 24 128 (IZR n / IZR a) y) ks ys /\
      filterCall c l (Some s) o k (TWrites (PFloats ys) None) /\
      forall e, filterCall c l (Some s) o k e -> e = TWrites (PFloats ys) None \/ e = TNothing.
Proof. exact codes_to_float. Qed.
Print Assumptions C86_codes_to_float.

(** The floats written for codes come back as those codes. *)
Theorem C86_float_and_back :
  forall (L : libm), let N := ieeeNum L in
  forall c (l : plist fl) (s s' : stored fl) d ks a ys t k c' (l' : plist fl) k',
    holdsCodes s d ks -> o_bits s = None -> hasPicture s ks -> largestCode (AStr d) = Some a -> procs_of l = [] -> 2 <= k ->
    filterCall c l (Some s) (Some "32f") k (TWrites (PFloats ys) t) ->
    sameSize s s' -> o_samples s' = SFloat ys -> procs_of l' = [] -> 2 <= k' ->
    filterCall c' l' (Some s') (Some d) k' (TWrites (writtenCodes d ks) (Some (writtenBits d))) /\
    forall e, filterCall c' l' (Some s') (Some d) k' e -> e = TWrites (writtenCodes d ks) (Some (writtenBits d)) \/ e = TNothing.
Proof. exact float_and_back. Qed.
Print Assumptions C86_float_and_back.

(** Halfs do not bring the codes back. *)
Theorem C86_half_and_back_refuted :
  forall (L : libm), let N := ieeeNum L in
  exists (s s' : stored fl) d ks ys c l k e,
    holdsCodes s d ks /\ hasPicture s ks /\ procs_of l = [] /\ 2 <= k /\
    filterCall c l (Some s) (Some "16f") k (TWrites (PHalfs ys) None) /\
    sameSize s s' /\ o_samples s' = SHalf ys /\
    filterCall c l (Some s') (Some d) k e /\ e <> TNothing /\ forall t, e <> TWrites (writtenCodes d ks) t.
Proof. exact half_loses. Qed.
Print Assumptions C86_half_and_back_refuted.

(** The half written for a code need not be the nearest one to the quotient: another half is
    closer, as the code rounds to float32 first. *)
Theorem C86_nearest_half_refuted :
  forall (L : libm), let N := ieeeNum L in
  exists (s : stored fl) d ks ys a c l k n y h,
    holdsCodes s d ks /\ hasPicture s ks /\ largestCode (AStr d) = Some a /\ procs_of l = [] /\ 2 <= k /\
    filterCall c l (Some s) (Some "16f") k (TWrites (PHalfs ys) None) /\
    In (n, y) (combine ks ys) /\ isHalf h /\ is_finite h = true /\ (Rabs (B2R h - IZR n / IZR a) < Rabs (B2R y - IZR n / IZR a))%R.
Proof. exact not_nearest. Qed.
Print Assumptions C86_nearest_half_refuted.

(** Numbers between 0 and 1 as codes. *)
Theorem C86_numbers_to_codes :
  forall (L : libm), let N := ieeeNum L in
  forall c (l : plist fl) (s : stored fl) d xs o d' t k,
    holdsNumbers s d xs -> Forall (fun x => is_finite x = true /\ (0 <= B2R x <= 1)%R) xs -> hasPicture s xs -> asked d o d' ->
    largestCode (AStr d') = Some t -> procs_of l = [] -> 2 <= k ->
    exists ks, Forall2 (codeFor t) xs ks /\
      filterCall c l (Some s) o k (TWrites (writtenCodes d' ks) (Some (writtenBits d'))) /\
      forall e, filterCall c l (Some s) o k e -> e = TWrites (writtenCodes d' ks) (Some (writtenBits d')) \/ e = TNothing.
Proof. exact numbers_to_codes. Qed.
Print Assumptions C86_numbers_to_codes.

(** NaN and infinities have no code: nothing is written. *)
Theorem C86_no_code :
  forall (L : libm), let N := ieeeNum L in
  forall c (l : plist fl) (s : stored fl) d xs o d' t k x,
    holdsNumbers s d xs -> In x xs -> is_finite x = false -> hasPicture s xs -> asked d o d' ->
    largestCode (AStr d') = Some t -> procs_of l = [] -> 2 <= k ->
    forall e, filterCall c l (Some s) o k e -> (exists x, e = TRaises x) \/ e = TNothing.
Proof. exact special_not_written. Qed.
Print Assumptions C86_no_code.

(** An image with a bits-per-sample attribute is not written at a float depth, whatever the
    list and the number of workers. *)
Theorem C86_tagged :
  forall (T : Type) (N : Num T) c (l : plist T) (s : stored T) o k e b,
    o_bits s = Some b -> (exists d, o = Some d /\ floatDepth d) \/ (o = None /\ exists xs, o_samples s = SHalf xs \/ o_samples s = SFloat xs) ->
    filterCall c l (Some s) o k e -> forall p t, e <> TWrites p t.
Proof. exact @tagged_not_float. Qed.
Print Assumptions C86_tagged.

(** Packing halfs and unpacking them; an odd number of them before version 1.8. *)
Theorem C86_packing :
  forall (L : libm), let N := ieeeNum L in
  forall old (xs : list fl), Forall isHalf xs ->
    (old = false \/ Nat.Even (List.length xs) -> exists ws, npHalfArrayToOIIOFloatPixels old xs = Ok ws /\ oiioFloatPixelsToNPHalfArray old ws = xs) /\
    (old = true -> Nat.Odd (List.length xs) -> npHalfArrayToOIIOFloatPixels old xs = Err ValueError).
Proof. exact packing. Qed.
Print Assumptions C86_packing.
Theorem C86_pairs :
  forall (L : libm), let N := ieeeNum L in
  forall x y : fl, isHalf x -> isHalf y -> floatToHalfs (halfsToFloat x y) = (x, y).
Proof. exact packing_pair. Qed.
Print Assumptions C86_pairs.

(** A float image of two rows with a NaN, an infinity, 65520 and a third, and one with numbers
    between 0 and 1 only. *)
Definition third : fl := f64 (f32of (binary_normalize 53 1024 eq_refl eq_refl mode_NE 11184811 (-25) false)).
Definition floats (L : libm) : list fl := [B754_nan; B754_infinity false; @nofZ fl (ieeeNum L) 65520; third].
Definition floatImage (L : libm) : stored fl := {| o_width := 2; o_height := 2; o_channels := 1; o_bits := None; o_samples := SFloat (floats L) |}.
Definition greyImage (L : libm) : stored fl := {| o_width := 1; o_height := 2; o_channels := 1; o_bits := None; o_samples := SFloat [third; @nofZ fl (ieeeNum L) 1] |}.
Example C86_case :
  forall L : libm, holdsNumbers (floatImage L) "32f" (floats L) /\ hasPicture (floatImage L) (floats L) /\
  holdsNumbers (greyImage L) "32f" [third; @nofZ fl (ieeeNum L) 1] /\ hasPicture (greyImage L) [third; @nofZ fl (ieeeNum L) 1] /\
  Forall (fun x => is_finite x = true /\ (0 <= B2R x <= 1)%R) [third; @nofZ fl (ieeeNum L) 1].
Proof.
  intro L.
  assert (S1 : isSingle third) by (eexists; reflexivity).
  assert (S2 : forall n, @nofZ fl (ieeeNum L) n = f64 (f32of (@nofZ fl (ieeeNum L) n)) -> isSingle (@nofZ fl (ieeeNum L) n)) by (intros n E; eexists; exact E).
  split; [apply NumbersFloat; [reflexivity|repeat apply Forall_cons; [now exists B754_nan|now exists (B754_infinity false)| |exact S1|constructor]]|].
  { apply S2. apply B2SF_inj. vm_compute. reflexivity. }
  split; [split; [cbn; lia|split; [cbn; lia|reflexivity]]|].
  split; [apply NumbersFloat; [reflexivity|repeat apply Forall_cons; [exact S1| |constructor]]|].
  { apply S2. apply B2SF_inj. vm_compute. reflexivity. }
  split; [split; [cbn; lia|split; [cbn; lia|reflexivity]]|].
  repeat apply Forall_cons; [| |constructor].
  - split; [vm_compute; reflexivity|]. rewrite <- SF2R_B2SF. assert (E : B2SF third = SpecFloat.S754_finite false 6004799682117632 (-54)) by (vm_compute; reflexivity).
    rewrite E. cbn [SF2R]. unfold F2R. cbn [Fnum Fexp cond_Zopp]. change (bpow radix2 (-54)) with (/ 18014398509481984)%R. lra.
  - split; [vm_compute; reflexivity|]. rewrite <- SF2R_B2SF. assert (E : B2SF (@nofZ fl (ieeeNum L) 1) = SpecFloat.S754_finite false 4503599627370496 (-52)) by (vm_compute; reflexivity).
    rewrite E. cbn [SF2R]. unfold F2R. cbn [Fnum Fexp cond_Zopp]. change (bpow radix2 (-52)) with (/ 4503599627370496)%R. lra.
Qed.
(** An 8 bit image meets the hypotheses about codes; a 10 bit one has the attribute. *)
Definition eightBits : stored fl := {| o_width := 1; o_height := 3; o_channels := 1; o_bits := None; o_samples := SUInt8 [0; 1; 255]%Z |}.
Example C86_codes_case : holdsCodes eightBits "8i" [0; 1; 255]%Z /\ hasPicture eightBits [0; 1; 255]%Z /\ largestCode (AStr "8i") = Some 255%Z.
Proof. split; [apply Codes8; [reflexivity|repeat constructor; unfold isCode; lia]|split; [split; [cbn; lia|split; [cbn; lia|reflexivity]]|reflexivity]]. Qed.
Example C86_packing_case :
  forall L : libm, let N := ieeeNum L in
  npHalfArrayToOIIOFloatPixels true [@nofZ fl N 1; @nofZ fl N 2] = Ok [1073757184]%Z /\ npHalfArrayToOIIOFloatPixels true [@nofZ fl N 1] = Err ValueError.
Proof. intros L N. split; vm_compute; reflexivity. Qed.
