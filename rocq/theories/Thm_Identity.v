(** Nodes that should not change samples, in IEEE arithmetic (C84). *)
From Coq Require Import List String ZArith Lia Reals Lra.
From Flocq Require Import Core BinarySingleNaN.
From Verif Require Import PBase SpecSame MBuild PIeeeArith PIdentity PIdentityCases.
Import ListNotations.
Local Open Scope string_scope.
Local Open Scope list_scope.
Local Open Scope R_scope.

(** An identity Matrix of any size returns finite float32 samples unchanged, except for the sign
    of zeros. An infinite or NaN sample makes every other channel of its pixel NaN. *)
Theorem C84_matrix :
  forall (L : libm), let N := ieeeNum L in
  forall c (h : header fl) n coef offset st,
    isMatrixOf h n coef offset -> (1 <= st)%nat -> (n <= st)%nat -> identityCoef coef n -> zeroOffset offset n ->
    exists F, actsPerPixel c (Node h BMatrix) st F /\ forall px, List.length px = st ->
      (Forall isSingle (firstn n px) -> Forall2 sameNumber px (F px)) /\
      (forall i j x, (i < n)%nat -> (j < n)%nat -> i <> j -> nth_error px j = Some x -> is_finite x = false ->
         exists y, nth_error (F px) i = Some y /\ is_nan y = true).
Proof. exact matrix_same. Qed.
Print Assumptions C84_matrix.

(** An identity LUT1D of 2^j + 1 entries returns the float32 numbers between 0 and 1 unchanged. *)
Theorem C84_lut1d :
  forall (L : libm), let N := ieeeNum L in
  forall c (h : header fl) dIn a j,
    isLinearLUT h dIn a (2 ^ j + 1) -> fullScale dIn = 1 -> (j <= 24)%nat ->
    (forall k ch, (k <= 2 ^ j)%nat -> (ch < 3)%nat -> evenEntry j k (entry1D a k ch)) ->
    exists f, actsPerChannel c (Node h BLUT1D) f /\
      forall ch x, (ch < 3)%nat -> isSingle x -> 0 <= B2R x <= 1 -> sameNumber x (f ch x).
Proof. exact lut1d_same. Qed.
Print Assumptions C84_lut1d.

(** So does an identity LUT3D of 2^j + 1 entries per side (17, 33, 65, ...), with either
    interpolation. *)
Theorem C84_lut3d :
  forall (L : libm), let N := ieeeNum L in
  forall c (h : header fl) tet dIn a j,
    isCube h (kindOf tet) dIn a (2 ^ j + 1) -> fullScale dIn = 1 -> (j <= 24)%nat ->
    (forall x y z ch, (x <= 2 ^ j)%nat -> (y <= 2 ^ j)%nat -> (z <= 2 ^ j)%nat -> (ch < 3)%nat ->
       evenEntry j (component ch (x, y, z)) (entry3D a (2 ^ j + 1) x y z ch)) ->
    exists F, actsPerColour c (Node h BLUT3D) F /\
      forall ch r g b, (ch < 3)%nat -> isSingle r -> isSingle g -> isSingle b ->
        0 <= B2R r <= 1 -> 0 <= B2R g <= 1 -> 0 <= B2R b <= 1 ->
        sameNumber (component ch (r, g, b)) (component ch (F r g b)).
Proof. exact lut3d_same. Qed.
Print Assumptions C84_lut3d.

(** Other sizes are not exact: an identity LUT1D of eight entries changes a sample. *)
Theorem C84_lut1d_refuted :
  forall (L : libm), let N := ieeeNum L in
  forall c, exists f, actsPerChannel c (Node (identityLUT L 7) BLUT1D) f /\
    exists x, isSingle x /\ 0 <= B2R x <= 1 /\ ~ sameNumber x (f 0%nat x).
Proof. exact eight_entries. Qed.
Print Assumptions C84_lut1d_refuted.

(** The eight entries are the float32 numbers nearest to the sevenths. *)
Example C84_lut1d_refuted_case (L : libm) : let N := ieeeNum L in
  isLinearLUT (identityLUT L 7) (AStr "32f") (identityTable L 7) 8 /\
  forall k, (k < 8)%nat -> entry1D (identityTable L 7) k 0 = nf32 (ndiv (nofZ (Z.of_nat k)) (nofZ 7)).
Proof.
  split; [exact (identityLUT_linear L 7)|]. intros k Hk. do 8 (destruct k as [|k]; [reflexivity|]). lia.
Qed.

(** The identity Matrix of three rows and offsets of zero. *)
Definition sameVals (L : libm) : list fl :=
  let N := ieeeNum L in map nofZ [1; 0; 0; 0;  0; 1; 0; 0;  0; 0; 1; 0]%Z.
Definition sameMatrix (L : libm) : node fl :=
  let N := ieeeNum L in setMatrix (newMatrix (AStr "32f") (AStr "32f") (AStr "m") (AStr "m")) [3; 4; 3]%nat (sameVals L) "string".
Example C84_matrix_case (L : libm) : let N := ieeeNum L in
  isMatrixOf (nheader (sameMatrix L)) 3 (fun i j => nth (i * 4 + j) (sameVals L) n0) (Some (fun i => nth (i * 4 + 3) (sameVals L) n0)) /\
  identityCoef (fun i j => nth (i * 4 + j) (sameVals L) n0) 3 /\ zeroOffset (Some (fun i => nth (i * 4 + 3) (sameVals L) n0)) 3.
Proof.
  assert (E : forall z, (Z.abs z < 2 ^ 53)%Z -> B2R (@nofZ fl (ieeeNum L) z) = IZR z) by (intros z Hz; apply (ofZ_exact L z Hz)).
  split; [|split].
  - exists (mkArray [3; 4; 3]%nat (sameVals L) false false "string"), 4%nat, [3%nat].
    split; [split; eexists; reflexivity|]. split; [reflexivity|]. split; [reflexivity|]. split; [cbn; lia|].
    split; [intros; reflexivity|]. split; [reflexivity|intros; reflexivity].
  - intros i j Hi Hj. destruct i as [|[|[|i]]]; [| | |lia]; (destruct j as [|[|[|j]]]; [| | |lia]); (split; [vm_compute; reflexivity|]);
      unfold sameVals; cbn [nth map Nat.mul Nat.add Nat.eqb]; now rewrite E by lia.
  - intros i Hi. destruct i as [|[|[|i]]]; [| | |lia]; (split; [vm_compute; reflexivity|]); unfold sameVals; cbn [nth map Nat.mul Nat.add]; now rewrite E by lia.
Qed.

(** Tables of 2^j + 1 entries filled with the fractions meet the hypotheses, for every j. *)
Example C84_lut1d_case (L : libm) j : let N := ieeeNum L in (j <= 24)%nat ->
  isLinearLUT (identityLUT L (2 ^ j)) (AStr "32f") (identityTable L (2 ^ j)) (2 ^ j + 1) /\ fullScale (AStr "32f") = 1 /\
  forall k ch, (k <= 2 ^ j)%nat -> (ch < 3)%nat -> evenEntry j k (entry1D (identityTable L (2 ^ j)) k ch).
Proof.
  intros N Hj. split; [rewrite Nat.add_1_r; apply identityLUT_linear|]. split; [reflexivity|].
  intros k ch Hk _. exact (evenly_entry L j k Hj Hk).
Qed.

(** A cube of three entries per side. *)
Definition sameCube (L : libm) (tet : bool) : array fl * header fl :=
  let N := ieeeNum L in
  let e k := nth k (evenly L 2) n0 in
  let a := {| a_dims := [3; 3; 3; 3]%nat;
              a_vals := flat_map (fun x => flat_map (fun y => flat_map (fun z => [e x; e y; e z]) (seq 0 3)) (seq 0 3)) (seq 0 3);
              a_dt := DtF32; a_raw := false; a_int := false; a_enc := "string" |} in
  (a, {| h_attrs := [("inBitDepth", AStr "16f"); ("outBitDepth", AStr "32f"); ("interpolation", AStr (kindOf tet))]; h_vals := []; h_dyn := [];
         h_elems := [EArray a] |}).
Example C84_lut3d_case (L : libm) tet : let N := ieeeNum L in
  isCube (snd (sameCube L tet)) (kindOf tet) (AStr "16f") (fst (sameCube L tet)) (2 ^ 1 + 1) /\ fullScale (AStr "16f") = 1 /\
  (forall x y z ch, (x <= 2 ^ 1)%nat -> (y <= 2 ^ 1)%nat -> (z <= 2 ^ 1)%nat -> (ch < 3)%nat ->
     evenEntry 1 (component ch (x, y, z)) (entry3D (fst (sameCube L tet)) (2 ^ 1 + 1) x y z ch)).
Proof.
  cbv zeta. split; [|split; [reflexivity|]].
  - repeat split; try (eexists; reflexivity); cbn; lia.
  - cbn [Nat.pow Nat.mul Nat.add]. intros x y z ch Hx Hy Hz Hch.
    assert (Q : @entry3D fl (ieeeNum L) (fst (sameCube L tet)) 3 x y z ch = nth (component ch (x, y, z)) (evenly L 2) (@n0 fl (ieeeNum L))).
    { destruct x as [|[|[|x]]]; [| | |lia]; (destruct y as [|[|[|y]]]; [| | |lia]); (destruct z as [|[|[|z]]]; [| | |lia]); (destruct ch as [|[|[|ch]]]; [| | |lia]); reflexivity. }
    rewrite Q. apply (evenly_entry L 1); [lia|]. destruct ch as [|[|[|ch]]]; cbn [component Nat.pow Nat.mul Nat.add]; lia.
Qed.
