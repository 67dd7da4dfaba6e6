(** How far rounding takes the results from the exact ones, and the order it keeps (C81). *)
From Coq Require Import List String ZArith Lia Reals Lra.
From Flocq Require Import Core BinarySingleNaN.
From Verif Require Import PBase SpecIeee SpecCode SpecClose PIeeeArith PClose PCloseLut PCloseRange PClose3D.
Import ListNotations.
Local Open Scope string_scope.
Local Open Scope list_scope.
Local Open Scope R_scope.

(** A row of a Matrix of n columns, applied to finite samples, is within n + 3 units of the
    exact sum, relative to the total size of its terms. *)
Theorem C81_matrix :
  forall (L : libm), let N := ieeeNum L in
  forall c (h : header fl) n coef offset st,
    isMatrixOf h n coef offset -> (n <= 1000)%nat -> (1 <= st)%nat -> (n <= st)%nat ->
    exists F, actsPerPixel c (Node h BMatrix) st F /\ forall px, List.length px = st ->
      List.length (F px) = st /\
      (forall i, (n <= i)%nat -> nth_error (F px) i = nth_error px i) /\
      forall i, (i < n)%nat -> exists y, nth_error (F px) i = Some y /\
        let o := option_map (fun o => o i) offset in
        (rowFinite n (coef i) o px -> rowSize n (coef i) o px <= bpow radix2 125 ->
         within (INR n + 3) (rowSize n (coef i) o px) (rowExact n (coef i) o px) y).
Proof. exact matrix_close. Qed.
Print Assumptions C81_matrix.

(** A linear LUT1D of n entries of size at most M and steps of at most D: within two units of
    the exact interpolation, relative to M + (n - 1) D. *)
Theorem C81_lut1d :
  forall (L : libm), let N := ieeeNum L in
  forall c h dIn a n,
    isLinearLUT h dIn a n -> (2 <= n)%nat -> (Z.of_nat n <= 2 ^ 53)%Z ->
    exists f, actsPerChannel c (Node h BLUT1D) f /\
      forall ch M D, (ch < 3)%nat ->
        (forall k, (k < n)%nat -> is_finite (entry1D a k ch) = true /\ Rabs (B2R (entry1D a k ch)) <= M) -> M <= bpow radix2 125 ->
        (forall k, (k + 1 < n)%nat -> Rabs (B2R (entry1D a (k + 1) ch) - B2R (entry1D a k ch)) <= D) ->
        forall x k w, is_finite x = true -> inCell dIn n k w (B2R x) ->
          within 2 (M + INR (n - 1) * D) ((1 - w) * B2R (entry1D a k ch) + w * B2R (entry1D a (k + 1) ch)) (f ch x).
Proof. exact lut1d_close. Qed.
Print Assumptions C81_lut1d.

(** A LUT3D of n entries per side, of size at most M and steps of at most D along each axis: for
    every input, in range or not, and for both interpolations, within four units of what the node
    with the same table gives in exact arithmetic, relative to M + (n - 1) D. *)
Theorem C81_lut3d :
  forall (L : libm), let N := ieeeNum L in
  forall c (h : header fl) (h' : header R) tet dIn a a' n,
    isCube h (kindOf tet) dIn a n -> isCube h' (kindOf tet) dIn a' n -> a_vals a' = map B2R (a_vals a) -> (2 <= n)%nat -> (Z.of_nat n <= 2 ^ 53)%Z ->
    exists F F', actsPerColour c (Node h BLUT3D) F /\ actsPerColour c (Node h' BLUT3D) F' /\
      forall ch M D, (ch < 3)%nat ->
        (forall i j k, (i < n)%nat -> (j < n)%nat -> (k < n)%nat -> is_finite (entry3D a n i j k ch) = true /\ Rabs (B2R (entry3D a n i j k ch)) <= M) ->
        M <= bpow radix2 125 -> smooth n D (fun i j k => B2R (entry3D a n i j k ch)) ->
        forall r g b, is_finite r = true -> is_finite g = true -> is_finite b = true ->
          Rabs (B2R r) <= bpow radix2 126 -> Rabs (B2R g) <= bpow radix2 126 -> Rabs (B2R b) <= bpow radix2 126 ->
          within 4 (M + INR (n - 1) * D) (component ch (F' (B2R r) (B2R g) (B2R b))) (component ch (F r g b)).
Proof. exact lut3d_close. Qed.
Print Assumptions C81_lut3d.

(** A change of depth is within three units of the exact ratio, plus 2^-132 for underflow. *)
Theorem C81_depth_change :
  forall (L : libm), let N := ieeeNum L in
  forall c d d',
    exists f, actsPerSample c (depthChange d d') f /\
      forall x, is_finite x = true ->
        Rabs (B2R x / fullScale d) <= bpow radix2 125 -> Rabs (B2R x / fullScale d * fullScale d') <= bpow radix2 125 ->
        is_finite (f x) = true /\
        Rabs (B2R (f x) - B2R x / fullScale d * fullScale d')
          <= 3 * bpow radix2 (-23) * Rabs (B2R x / fullScale d * fullScale d') + bpow radix2 (-132).
Proof. exact change_close. Qed.
Print Assumptions C81_depth_change.

(** A Range with four limits keeps the order of samples, in spite of eight roundings. *)
Theorem C81_range_order :
  forall (L : libm), let N := ieeeNum L in
  forall c h dIn dOut clamps minIn maxIn minOut maxOut,
    fourLimits h dIn dOut clamps minIn maxIn minOut maxOut ->
    moderate minIn -> moderate maxIn -> moderate minOut -> moderate maxOut ->
    B2R minIn + / 1024 <= B2R maxIn -> B2R minOut <= B2R maxOut ->
    exists f, actsPerSample c (Node h BRange) f /\
      forall x x', is_finite x = true -> is_finite x' = true ->
        Rabs (B2R x) <= bpow radix2 126 -> Rabs (B2R x') <= bpow radix2 126 ->
        B2R x <= B2R x' -> Bleb (f x) (f x') = true.
Proof. exact range_order. Qed.
Print Assumptions C81_range_order.

(** A Matrix of three rows with offsets and three samples. *)
Definition closeVals (L : libm) : list fl :=
  let N := ieeeNum L in map nofZ [1; 2; 0; 5;  0; 1; 0; 0;  -1; 0; 3; 7]%Z.
Definition closeMatrix (L : libm) : node fl :=
  let N := ieeeNum L in setMatrix (newMatrix (AStr "8i") (AStr "16f") (AStr "m") (AStr "m")) [3; 4; 3]%nat (closeVals L) "string".
Definition closeCoef (L : libm) (i j : nat) : fl := nth (i * 4 + j) (closeVals L) (B754_zero false).
Definition closeOffset (L : libm) (i : nat) : fl := nth (i * 4 + 3) (closeVals L) (B754_zero false).
Definition closePixel (L : libm) : list fl := let N := ieeeNum L in map nofZ [10; -20; 30]%Z.
Example C81_matrix_case (L : libm) : let N := ieeeNum L in
  isMatrixOf (nheader (closeMatrix L)) 3 (closeCoef L) (Some (closeOffset L)) /\
  rowFinite 3 (closeCoef L 2) (Some (closeOffset L 2)) (closePixel L) /\
  rowExact 3 (closeCoef L 2) (Some (closeOffset L 2)) (closePixel L) = 87 /\
  rowSize 3 (closeCoef L 2) (Some (closeOffset L 2)) (closePixel L) = 107.
Proof.
  split; [|split].
  - exists (mkArray [3; 4; 3]%nat (closeVals L) false false "string"), 4%nat, [3%nat].
    split; [split; eexists; reflexivity|]. split; [reflexivity|]. split; [reflexivity|]. split; [cbn; lia|].
    split; [intros; reflexivity|]. split; [reflexivity|intros; reflexivity].
  - split; [|vm_compute; reflexivity]. intros j Hj. destruct j as [|[|[|j]]]; [| | |lia]; split; vm_compute; reflexivity.
  - assert (E : forall z, (Z.abs z < 2 ^ 53)%Z -> B2R (@nofZ fl (ieeeNum L) z) = IZR z) by (intros z Hz; apply (ofZ_exact L z Hz)).
    unfold rowExact, rowSize, closeCoef, closeOffset, closeVals, closePixel, sumTo. cbn [nth map Nat.mul Nat.add seq fold_left fold_right].
    rewrite !E by lia. unfold Rabs. repeat destruct (Rcase_abs _); split; lra.
Qed.

(** A LUT1D of three entries at 10i, and a sample in its second cell. *)
Definition closeArray (L : libm) : array fl :=
  let N := ieeeNum L in
  {| a_dims := [3%nat; 1%nat]; a_vals := map nofZ [0; 3; 4]%Z; a_dt := DtF32; a_raw := false; a_int := false; a_enc := "string" |}.
Definition closeLUT (L : libm) : header fl :=
  {| h_attrs := [("inBitDepth", AStr "10i"); ("outBitDepth", AStr "32f")]; h_vals := []; h_dyn := []; h_elems := [EArray (closeArray L)] |}.
Example C81_lut1d_case (L : libm) : let N := ieeeNum L in
  isLinearLUT (closeLUT L) (AStr "10i") (closeArray L) 3 /\
  (forall k, (k < 3)%nat -> is_finite (entry1D (closeArray L) k 1) = true /\ Rabs (B2R (entry1D (closeArray L) k 1)) <= 4) /\
  (forall k, (k + 1 < 3)%nat -> Rabs (B2R (entry1D (closeArray L) (k + 1) 1) - B2R (entry1D (closeArray L) k 1)) <= 3) /\
  inCell (AStr "10i") 3 1 (53 / 341) (B2R (nofZ 591 : fl)).
Proof.
  assert (E : forall z, (Z.abs z < 2 ^ 53)%Z -> B2R (@nofZ fl (ieeeNum L) z) = IZR z) by (intros z Hz; apply (ofZ_exact L z Hz)).
  split; [|split; [|split]].
  - repeat split; try reflexivity; try discriminate; [eexists; reflexivity|].
    exists 3%nat, 1%nat, []. repeat split; cbn; lia.
  - intros k Hk. destruct k as [|[|[|k]]]; [| | |lia]; (split; [vm_compute; reflexivity|]); unfold entry1D, closeArray; cbn [a_dims a_vals nth map Nat.mul Nat.add Nat.eqb Nat.leb Nat.ltb];
    rewrite E by lia; unfold Rabs; destruct (Rcase_abs _); lra.
  - intros k Hk. destruct k as [|[|k]]; [| |lia]; unfold entry1D, closeArray; cbn [a_dims a_vals nth map Nat.mul Nat.add Nat.eqb Nat.leb Nat.ltb];
    rewrite !E by lia; unfold Rabs; destruct (Rcase_abs _); lra.
  - unfold inCell. rewrite E by lia. split; [lia|]. split; [lra|]. unfold codeAt, fullScale. cbn [Nat.add Nat.sub INR]. lra.
Qed.

(** Code 1000 of 10 bits as a 16 bit code. *)
Example C81_depth_case (L : libm) : let N := ieeeNum L in
  is_finite (nofZ 1000 : fl) = true /\ B2R (nofZ 1000 : fl) / fullScale (AStr "10i") * fullScale (AStr "16i") = 1000 / 1023 * 65535.
Proof. split; [vm_compute; reflexivity|]. destruct (ofZ_exact L 1000) as [_ E]; [lia|]. cbv zeta. rewrite E. reflexivity. Qed.

(** The legal range of 8 bits to full range, clamped and not. *)
Definition closeRange (L : libm) (style : string) : node fl :=
  let N := ieeeNum L in
  setMaxOutValue (setMinOutValue (setMaxInValue (setMinInValue
    (newRange (AStr "8i") (AStr "10i") (AStr "r") (AStr "r") (AStr style) (AStr "")) (nofZ 16)) (nofZ 235)) (nofZ 0)) (nofZ 1023).
Example C81_range_case (L : libm) : let N := ieeeNum L in
  fourLimits (nheader (closeRange L "clamp")) (AStr "8i") (AStr "10i") true (nofZ 16) (nofZ 235) (nofZ 0) (nofZ 1023) /\
  fourLimits (nheader (closeRange L "noClamp")) (AStr "8i") (AStr "10i") false (nofZ 16) (nofZ 235) (nofZ 0) (nofZ 1023) /\
  moderate (nofZ 16) /\ moderate (nofZ 1023) /\ B2R (nofZ 16 : fl) + / 1024 <= B2R (nofZ 235 : fl).
Proof.
  assert (E : forall z, (Z.abs z < 2 ^ 53)%Z -> B2R (@nofZ fl (ieeeNum L) z) = IZR z) by (intros z Hz; apply (ofZ_exact L z Hz)).
  split; [|split; [|split; [|split]]].
  - repeat split; try reflexivity. intros _. right. reflexivity.
  - repeat split; try reflexivity; [discriminate|]. intros [H|H]; discriminate.
  - split; [vm_compute; reflexivity|]. cbv zeta. rewrite E by lia. unfold Rabs. destruct (Rcase_abs _); lra.
  - split; [vm_compute; reflexivity|]. cbv zeta. rewrite E by lia. unfold Rabs. destruct (Rcase_abs _); lra.
  - cbv zeta. rewrite !E by lia. lra.
Qed.

(** A cube of two entries per side at 10i, in both arithmetics. *)
Definition closeCodes : list Z := [0; 0; 0;  1; 0; 2;  0; 3; 0;  1; 3; 2;  4; 1; 0;  5; 1; 2;  4; 4; 1;  5; 4; 7]%Z.
Definition closeCube {T} {N : Num T} (dt : dtype) (tet : bool) (vals : list T) : array T * header T :=
  let a := {| a_dims := [2; 2; 2; 3]%nat; a_vals := vals; a_dt := dt; a_raw := false; a_int := false; a_enc := "string" |} in
  (a, {| h_attrs := [("inBitDepth", AStr "10i"); ("outBitDepth", AStr "32f"); ("interpolation", AStr (kindOf tet))]; h_vals := []; h_dyn := [];
         h_elems := [EArray a] |}).
Example C81_lut3d_case (L : libm) tet : let N := ieeeNum L in
  let a := closeCube DtF32 tet (map nofZ closeCodes) in let a' := closeCube DtF32 tet (map IZR closeCodes) in
  isCube (snd a) (kindOf tet) (AStr "10i") (fst a) 2 /\ isCube (snd a') (kindOf tet) (AStr "10i") (fst a') 2 /\
  a_vals (fst a') = map B2R (a_vals (fst a)) /\
  (forall i j k, (i < 2)%nat -> (j < 2)%nat -> (k < 2)%nat -> is_finite (entry3D (fst a) 2 i j k 2) = true /\ Rabs (B2R (entry3D (fst a) 2 i j k 2)) <= 7) /\
  smooth 2 6 (fun i j k => B2R (entry3D (fst a) 2 i j k 2)).
Proof.
  assert (E : forall z, (Z.abs z < 2 ^ 53)%Z -> B2R (@nofZ fl (ieeeNum L) z) = IZR z) by (intros z Hz; apply (ofZ_exact L z Hz)).
  cbv zeta. split; [|split; [|split; [|split]]].
  - repeat split; try (eexists; reflexivity); cbn; lia.
  - repeat split; try (eexists; reflexivity); cbn; lia.
  - unfold closeCube, closeCodes. cbn [fst a_vals map]. rewrite !E by lia. reflexivity.
  - intros i j k Hi Hj Hk. destruct i as [|[|i]]; [| |lia]; (destruct j as [|[|j]]; [| |lia]); (destruct k as [|[|k]]; [| |lia]);
      (split; [vm_compute; reflexivity|]); unfold entry3D, closeCube, closeCodes; cbn [fst a_vals nth map Nat.mul Nat.add];
      rewrite E by lia; unfold Rabs; destruct (Rcase_abs _); lra.
  - intros i j k Hi Hj Hk. destruct i as [|i]; [|lia]. destruct j as [|[|j]]; [| |lia]; (destruct k as [|[|k]]; [| |lia]);
      unfold entry3D, closeCube, closeCodes; cbn [fst a_vals nth map Nat.mul Nat.add]; rewrite !E by lia; unfold Rabs; repeat destruct (Rcase_abs _); lra.
Qed.
