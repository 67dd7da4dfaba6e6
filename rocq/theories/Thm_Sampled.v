(** Tables sampled from a function, in the arithmetic of the code (C91). *)
From Coq Require Import List String ZArith Lia Reals Lra.
From Flocq Require Import Core BinarySingleNaN.
From Verif Require Import MBuild PBase SpecIeee SpecClose SpecErrors PIeeeArith PHalfCode PSampledIeee PSampledCube.
Import ListNotations.
Local Open Scope string_scope.
Local Open Scope list_scope.
Local Open Scope R_scope.

(** simpleSampledLUTHalfDomain: one entry for each of the 65536 half codes. *)
Theorem C91_half_table :
  forall (L : libm), let N := ieeeNum L in
  forall id tid ch (f : fl -> fl) raw dIn dOut, (ch = 1 \/ ch = 3)%nat ->
    exists h a, simpleSampledLUTHalfDomain id tid ch f raw dIn dOut = Ok (Node h BLUT1D) /\ isHalfLUT h dIn a /\
      forall k i, (0 <= k < 65536)%Z -> (i < 3)%nat -> entryAt L a k i = f (nhalf k).
Proof. exact half_table. Qed.
Print Assumptions C91_half_table.

(** Processing with it gives the function at every half, at NaN and beyond the largest half. *)
Theorem C91_half_sampled :
  forall (L : libm), let N := ieeeNum L in
  forall c id tid ch (f : fl -> fl) raw dIn dOut, (ch = 1 \/ ch = 3)%nat ->
    exists node g, simpleSampledLUTHalfDomain id tid ch f raw dIn dOut = Ok node /\ actsPerChannel c node g /\
      forall i x, (i < 3)%nat ->
        let p := nf32 (bitDepthToNormalized x dIn) in
        (is_nan p = true -> g i x = nf32 (f B754_nan)) /\
        (Bleb (nofZ 65520) p = true -> g i x = nf32 (f (B754_infinity false))) /\
        (Bleb p (nofZ (-65520)) = true -> g i x = nf32 (f (B754_infinity true))) /\
        ((forall j, finiteCode j -> is_finite (f (nhalf j)) = true) ->
         forall k, finiteCode k -> is_finite p = true -> B2R p = halfNumber k -> Bsign p = negativeCode k ->
           sameNumber (g i x) (nf32 (f (nhalf k)))).
Proof. exact half_sampled. Qed.
Print Assumptions C91_half_sampled.

(** Its default function, the identity, returns every half, NaN and infinity unchanged. *)
Theorem C91_half_identity :
  forall (L : libm), let N := ieeeNum L in
  forall c id tid ch raw dIn dOut, (ch = 1 \/ ch = 3)%nat -> dIn = AStr "16f" \/ dIn = AStr "32f" ->
    exists node g, simpleSampledLUTHalfDomain id tid ch (fun x : fl => x) raw dIn dOut = Ok node /\ actsPerChannel c node g /\
      forall i, (i < 3)%nat ->
        (forall x k, finiteCode k -> is_finite x = true -> B2R x = halfNumber k -> Bsign x = negativeCode k -> sameNumber (g i x) x) /\
        g i B754_nan = B754_nan /\ (forall s, g i (B754_infinity s) = B754_infinity s).
Proof. exact half_identity. Qed.
Print Assumptions C91_half_identity.

(** The half of code 15360 is 1, the function that doubles is finite on all halfs. *)
Example C91_case (L : libm) : let N := ieeeNum L in
  finiteCode 15360 /\ B2R (nofZ 1 : fl) = halfNumber 15360 /\ Bsign (nofZ 1 : fl) = negativeCode 15360 /\
  (forall j, finiteCode j -> is_finite (nhalf j : fl) = true).
Proof.
  split; [left; lia|]. split; [|split; [vm_compute; reflexivity|intros j H; exact (proj1 (value_code j H))]].
  destruct (ofZ_exact L 1) as [_ E]; [lia|]. rewrite E. unfold halfNumber, halfMagnitude. cbn. lra.
Qed.

(** simpleSampledLUT: entry k is the function at k / (n - 1), the quotient rounded. *)
Theorem C91_linear_table :
  forall (L : libm), let N := ieeeNum L in
  forall id tid ch n (f : fl -> fl) dIn dOut, (2 <= n)%nat -> (Z.of_nat n <= 2 ^ 53)%Z -> (ch = 1 \/ ch = 3)%nat ->
    exists h a, simpleSampledLUT id tid ch n f dIn dOut = Ok (Node h BLUT1D) /\ isLinearLUT h dIn a n /\
      forall k i, (k < n)%nat -> (i < 3)%nat -> entry1D a k i = f (ndiv (nofZ (Z.of_nat k)) (nofZ (Z.of_nat n - 1))).
Proof. exact linear_table. Qed.
Print Assumptions C91_linear_table.

(** If the function computes F within d at the sampled positions, and F changes by at most K per
    unit, the node gives F within d, half a step of K, and a few roundings; without the half
    step if F is a straight line. *)
Theorem C91_sampled_error :
  forall (L : libm), let N := ieeeNum L in
  forall c id tid ch n (f : fl -> fl) (F : R -> R) dIn dOut d K M,
    (2 <= n)%nat -> (Z.of_nat n <= 2 ^ 50)%Z -> (ch = 1 \/ ch = 3)%nat -> 0 <= K ->
    (forall k, (k < n)%nat -> let y := f (ndiv (nofZ (Z.of_nat k)) (nofZ (Z.of_nat n - 1))) in
       is_finite y = true /\ Rabs (B2R y - F (INR k / INR (n - 1))) <= d) ->
    (forall x, 0 <= x <= 1 -> Rabs (F x) <= M) ->
    (forall x y, 0 <= x <= 1 -> 0 <= y <= 1 -> Rabs (F x - F y) <= K * Rabs (x - y)) ->
    M + d <= bpow radix2 125 ->
    let E := 2 * unit32 (M + d + K + 2 * INR (n - 1) * d) in
    exists node g, simpleSampledLUT id tid ch n f dIn dOut = Ok node /\ actsPerChannel c node g /\
      forall i x, (i < 3)%nat -> is_finite x = true -> 0 <= B2R x <= fullScale dIn ->
        is_finite (g i x) = true /\
        Rabs (B2R (g i x) - F (B2R x / fullScale dIn)) <= d + K / (2 * INR (n - 1)) + E /\
        ((exists p q, forall x, F x = p * x + q) -> Rabs (B2R (g i x) - F (B2R x / fullScale dIn)) <= d + E).
Proof. exact sampled_error. Qed.
Print Assumptions C91_sampled_error.

(** Its default function, the identity: within five units of single precision, whatever the
    number of entries.  This is a case of the theorem before. *)
Theorem C91_identity_error :
  forall (L : libm), let N := ieeeNum L in
  forall c id tid ch n dIn dOut, (2 <= n)%nat -> (Z.of_nat n <= 2 ^ 50)%Z -> (ch = 1 \/ ch = 3)%nat ->
    exists node g, simpleSampledLUT id tid ch n (fun x : fl => x) dIn dOut = Ok node /\ actsPerChannel c node g /\
      forall i x, (i < 3)%nat -> is_finite x = true -> 0 <= B2R x <= fullScale dIn ->
        is_finite (g i x) = true /\ Rabs (B2R (g i x) - B2R x / fullScale dIn) <= 5 * bpow radix2 (-23).
Proof. exact identity_error. Qed.
Print Assumptions C91_identity_error.

(** simple3DLUT with equal resolutions. *)
Theorem C91_cube_table :
  forall (L : libm), let N := ieeeNum L in
  forall id tid n (f : fl -> fl -> fl -> list fl) dIn dOut,
    (2 <= n)%nat -> (Z.of_nat n <= 2 ^ 53)%Z -> (forall r g b, List.length (f r g b) = 3%nat) ->
    let pos i : fl := ndiv (nofZ (Z.of_nat i)) (nofZ (Z.of_nat n - 1)) in
    exists h a, simple3DLUT id tid n n n f dIn dOut = Ok (Node h BLUT3D) /\ isCube h "trilinear" dIn a n /\
      forall i j k ch, (i < n)%nat -> (j < n)%nat -> (k < n)%nat -> (ch < 3)%nat -> entry3D a n i j k ch = nth ch (f (pos i) (pos j) (pos k)) n0.
Proof. exact cube_table. Qed.
Print Assumptions C91_cube_table.

(** If the function computes F within d at the grid points, and F changes by at most K per unit
    along each axis, the node gives F within d, half a step of K for each axis, and a few
    roundings; without the half steps if F is affine. *)
Theorem C91_cube_error :
  forall (L : libm), let N := ieeeNum L in
  forall c id tid n (f : fl -> fl -> fl -> list fl) (F : nat -> R -> R -> R -> R) dIn dOut d K M,
    (2 <= n)%nat -> (Z.of_nat n <= 2 ^ 53)%Z -> 0 <= K -> (forall r g b, List.length (f r g b) = 3%nat) ->
    let pos i : fl := ndiv (nofZ (Z.of_nat i)) (nofZ (Z.of_nat n - 1)) in
    (forall i j k ch, (i < n)%nat -> (j < n)%nat -> (k < n)%nat -> (ch < 3)%nat -> let y := nth ch (f (pos i) (pos j) (pos k)) n0 in
       is_finite y = true /\ Rabs (B2R y - F ch (INR i / INR (n - 1)) (INR j / INR (n - 1)) (INR k / INR (n - 1))) <= d) ->
    (forall ch x y z, (ch < 3)%nat -> 0 <= x <= 1 -> 0 <= y <= 1 -> 0 <= z <= 1 -> Rabs (F ch x y z) <= M) ->
    (forall ch x y z x' y' z', (ch < 3)%nat -> 0 <= x <= 1 -> 0 <= y <= 1 -> 0 <= z <= 1 -> 0 <= x' <= 1 -> 0 <= y' <= 1 -> 0 <= z' <= 1 ->
       Rabs (F ch x y z - F ch x' y' z') <= K * (Rabs (x - x') + Rabs (y - y') + Rabs (z - z'))) ->
    M + d <= bpow radix2 125 ->
    let E := 4 * unit32 (M + d + K + 2 * INR (n - 1) * d) in
    exists node G, simple3DLUT id tid n n n f dIn dOut = Ok node /\ actsPerColour c node G /\
      forall r g b ch, (ch < 3)%nat -> is_finite r = true -> is_finite g = true -> is_finite b = true ->
        0 <= B2R r <= fullScale dIn -> 0 <= B2R g <= fullScale dIn -> 0 <= B2R b <= fullScale dIn ->
        let y := component ch (G r g b) in let e := Rabs (B2R y - F ch (B2R r / fullScale dIn) (B2R g / fullScale dIn) (B2R b / fullScale dIn)) in
        is_finite y = true /\ e <= d + 3 * (K / (2 * INR (n - 1))) + E /\
        ((exists p q s t, forall x y z, F ch x y z = p * x + q * y + s * z + t) -> e <= d + E).
Proof. exact cube_error. Qed.
Print Assumptions C91_cube_error.

(** Its default function, the identity: within nine units of single precision, whatever the
    resolution.  This is a case of the theorem before. *)
Theorem C91_cube_identity_error :
  forall (L : libm), let N := ieeeNum L in
  forall c id tid n dIn dOut, (2 <= n)%nat -> (Z.of_nat n <= 2 ^ 50)%Z ->
    exists node G, simple3DLUT id tid n n n (fun r g b : fl => [r; g; b]) dIn dOut = Ok node /\ actsPerColour c node G /\
      forall r g b ch, (ch < 3)%nat -> is_finite r = true -> is_finite g = true -> is_finite b = true ->
        0 <= B2R r <= fullScale dIn -> 0 <= B2R g <= fullScale dIn -> 0 <= B2R b <= fullScale dIn ->
        is_finite (component ch (G r g b)) = true /\
        Rabs (B2R (component ch (G r g b)) - B2R (component ch (r, g, b)) / fullScale dIn) <= 9 * bpow radix2 (-23).
Proof. exact cube_identity_error. Qed.
Print Assumptions C91_cube_identity_error.

(** With unequal resolutions colours land in the wrong places, and the table may be too long:
    the place of a colour is computed with the wrong two of the three resolutions. *)
Theorem C91_uneven_place_refuted :
  forall (L : libm), let N := ieeeNum L in
  exists r0 r1 r2 r g b (f : fl -> fl -> fl -> list fl) h a,
    (2 <= r0)%nat /\ (2 <= r1)%nat /\ (2 <= r2)%nat /\ (r < r0)%nat /\ (g < r1)%nat /\ (b < r2)%nat /\
    (forall x y z, List.length (f x y z) = 3%nat) /\
    simple3DLUT (AStr "i") (AStr "i") r0 r1 r2 f (AStr "16f") (AStr "16f") = Ok (Node h BLUT3D) /\ lastArray (h_elems h) = Some a /\
    a_dims a = [r0; r1; r2; 3]%nat /\
    let pos i n : fl := ndiv (nofZ (Z.of_nat i)) (nofZ (Z.of_nat n - 1)) in
    let at_ := (((r * r1 + g) * r2 + b) * 3)%nat in
    slice (a_vals a) at_ (at_ + 3) <> f (pos r r0) (pos g r1) (pos b r2).
Proof. exact uneven_place. Qed.
Print Assumptions C91_uneven_place_refuted.
Theorem C91_uneven_length_refuted :
  forall (L : libm), let N := ieeeNum L in
  exists r0 r1 r2 (f : fl -> fl -> fl -> list fl) h a,
    (2 <= r0)%nat /\ (2 <= r1)%nat /\ (2 <= r2)%nat /\ (forall x y z, List.length (f x y z) = 3%nat) /\
    simple3DLUT (AStr "i") (AStr "i") r0 r1 r2 f (AStr "16f") (AStr "16f") = Ok (Node h BLUT3D) /\ lastArray (h_elems h) = Some a /\
    a_dims a = [r0; r1; r2; 3]%nat /\ List.length (a_vals a) <> (r0 * r1 * r2 * 3)%nat.
Proof. exact uneven_length. Qed.
Print Assumptions C91_uneven_length_refuted.

(** A cube of three entries per side whose colours have their channels exchanged. *)
Example C91_cube_case (L : libm) : let N := ieeeNum L in
  exists h a, simple3DLUT (AStr "i") (AStr "i") 3 3 3 (fun r g b : fl => [b; r; g]) (AStr "16f") (AStr "16f") = Ok (Node h BLUT3D) /\
    lastArray (h_elems h) = Some a /\ entry3D a 3 2 0 1 1 = ndiv (nofZ 2) (nofZ 2) /\ entry3D a 3 2 0 1 2 = ndiv (nofZ 0) (nofZ 2).
Proof.
  destruct (C91_cube_table L (AStr "i") (AStr "i") 3 (fun r g b : fl => [b; r; g]) (AStr "16f") (AStr "16f") ltac:(lia) ltac:(lia) ltac:(reflexivity)) as (h & a & E & C & H).
  exists h, a. split; [exact E|]. split; [apply C|]. split; [apply (H 2 0 1 1)%nat; lia|apply (H 2 0 1 2)%nat; lia].
Qed.
