(** Rounding errors of a whole list (C88): a list run in the code's arithmetic beside the same
    list run in exact arithmetic. *)
From Coq Require Import List String ZArith Lia Reals Lra.
From Flocq Require Import Core BinarySingleNaN.
From Verif Require Import PBase SpecIeee SpecCode SpecClose SpecErrors SpecPower PIeeeArith PErrors PErrorsLut PErrorsRange PErrorsNest PErrorsCdl.
Import ListNotations.
Local Open Scope string_scope.
Local Open Scope list_scope.
Local Open Scope R_scope.

(** A list, none of whose nodes is bypassed: if the errors of its nodes add up to e', every
    colour of size at most B comes out within e' of what exact arithmetic gives. *)
Theorem C88_list :
  forall (L : libm), let N := ieeeNum L in
  forall c l B B' e', B <= bpow radix2 126 ->
    let e := bpow radix2 (-23) * B + bpow radix2 (-149) in
    budget c (procs_of l) (B + e) e B' e' ->
    forall px, sized B px ->
      exists ys ys', colourThrough c l px = Ok ys /\ colourThrough c (exactList l) (map B2R px) = Ok ys' /\
        sized B' ys /\ apart e' ys ys'.
Proof. exact list_follows. Qed.
Print Assumptions C88_list.

(** A Matrix whose rows have coefficients of total size at most K and offsets of at most O. *)
Theorem C88_matrix :
  forall (L : libm), let N := ieeeNum L in
  forall c h coef offset B K O,
    isMatrixOf h 3 coef offset ->
    (forall i j, (i < 3)%nat -> (j < 3)%nat -> is_finite (coef i j) = true) ->
    (forall i, (i < 3)%nat -> sumTo 3 (fun j => Rabs (B2R (coef i j))) <= K) ->
    match offset with None => O = 0 | Some o => forall i, (i < 3)%nat -> is_finite (o i) = true /\ Rabs (B2R (o i)) <= O end ->
    K * B + O <= bpow radix2 125 ->
    follows c (Node h BMatrix) B K (6 * unit32 (K * B + O)) (K * B + O + 6 * unit32 (K * B + O)).
Proof. exact matrix_follows. Qed.
Print Assumptions C88_matrix.

(** A linear LUT1D of n entries of size at most M and steps of at most D, on every input. *)
Theorem C88_lut1d :
  forall (L : libm), let N := ieeeNum L in
  forall c h dIn a n B M D,
    isLinearLUT h dIn a n -> (2 <= n)%nat -> (Z.of_nat n <= 2 ^ 53)%Z ->
    (forall ch k, (ch < 3)%nat -> (k < n)%nat -> is_finite (entry1D a k ch) = true /\ Rabs (B2R (entry1D a k ch)) <= M) -> M <= bpow radix2 125 ->
    (forall ch k, (ch < 3)%nat -> (k + 1 < n)%nat -> Rabs (B2R (entry1D a (k + 1) ch) - B2R (entry1D a k ch)) <= D) ->
    B / fullScale dIn * INR (n - 1) <= bpow radix2 51 ->
    let E := 2 * unit32 (M + INR (n - 1) * D) in
    follows c (Node h BLUT1D) B (INR (n - 1) * D / fullScale dIn) E (M + E).
Proof. exact lut1d_follows. Qed.
Print Assumptions C88_lut1d.

(** A LUT3D of n entries per side, of size at most M and steps of at most D along each axis. *)
Theorem C88_lut3d :
  forall (L : libm), let N := ieeeNum L in
  forall c (h : header fl) tet dIn a n B M D,
    isCube h (kindOf tet) dIn a n -> (2 <= n)%nat -> (Z.of_nat n <= 2 ^ 53)%Z ->
    (forall ch i j k, (ch < 3)%nat -> (i < n)%nat -> (j < n)%nat -> (k < n)%nat ->
       is_finite (entry3D a n i j k ch) = true /\ Rabs (B2R (entry3D a n i j k ch)) <= M) ->
    M <= bpow radix2 125 -> (forall ch, (ch < 3)%nat -> smooth n D (fun i j k => B2R (entry3D a n i j k ch))) ->
    B <= bpow radix2 126 ->
    let E := 4 * unit32 (M + INR (n - 1) * D) in
    follows c (Node h BLUT3D) B (3 * (INR (n - 1) * D / fullScale dIn)) E (M + E).
Proof. exact lut3d_follows. Qed.
Print Assumptions C88_lut3d.

(** A Range with four limits, clamping or not, between any two depths. *)
Theorem C88_range :
  forall (L : libm), let N := ieeeNum L in
  forall c (h : header fl) dIn dOut clamps minIn maxIn minOut maxOut B,
    fourLimits h dIn dOut clamps minIn maxIn minOut maxOut ->
    moderate minIn -> moderate maxIn -> moderate minOut -> moderate maxOut ->
    B2R minIn + / 1024 <= B2R maxIn -> wide minIn maxIn -> wide minOut maxOut ->
    let k := (B2R maxOut - B2R minOut) / (B2R maxIn - B2R minIn) in
    let S := k * (B + Rabs (B2R minIn)) + Rabs (B2R minOut) + Rabs (B2R maxOut) in
    B <= bpow radix2 125 -> S <= bpow radix2 100 ->
    let E := 5 * (bpow radix2 (-23) * S + bpow radix2 (-132) * (1 + k)) in
    follows c (Node h BRange) B k E (S + E).
Proof. exact range_follows. Qed.
Print Assumptions C88_range.

(** A CDL node of the "Fwd" style (ASC_CDL or ColorCorrection) with exponents of at least 1,
    given a power function accurate to d. *)
Theorem C88_cdl :
  forall (L : libm), let N := ieeeNum L in
  forall c (h : header fl) v n dIn dOut s B S O P d,
    n = Node h (BCDL v) \/ n = Node h (BColorCorrection v) ->
    isCDL (exactHeader h) (exactCdl v) "Fwd" dIn dOut s -> cdlFinite v ->
    (forall i, (i < 3)%nat -> Rabs (cdSlope s i) <= S /\ Rabs (cdOffset s i) <= O /\ 1 <= cdPower s i <= P) ->
    powWithin L d -> d <= 1 ->
    let b := B / fullScale dIn in let M := S * b + O in let W := Rabs (1 - cdSat s) + Rabs (cdSat s) in
    S <= bpow radix2 20 -> P <= bpow radix2 20 -> W <= bpow radix2 20 -> b <= bpow radix2 100 -> M <= bpow radix2 60 ->
    let E := fullScale dOut * W * (5 * P * (M + 1) * bpow radix2 (-23) + 2 * d) in
    follows c n B (fullScale dOut * W * (P * S / fullScale dIn)) E (fullScale dOut + E).
Proof. exact cdl_follows. Qed.
Print Assumptions C88_cdl.

(** A Group follows as its nodes do, one after the other. *)
Theorem C88_group :
  forall (L : libm), let N := ieeeNum L in
  forall c h ps B K E B',
    (forall e, budget c ps B e B' (K * e + E)) ->
    follows c (Node h (BGroup ps)) B K E B'.
Proof. exact group_follows. Qed.
Print Assumptions C88_group.

(** A Reference whose file was found first stores the colour in single precision, as a list
    does; then it follows as the nodes of that file. *)
Theorem C88_reference :
  forall (L : libm), let N := ieeeNum L in
  forall c h w a v els ps B K E B', B <= bpow radix2 126 ->
    let e0 := bpow radix2 (-23) * B + bpow radix2 (-149) in
    (forall e, budget c ps (B + e0) e B' (K * e + E)) ->
    follows c (Node h (BReference w (Some (PList a v els ps)))) B K (K * e0 + E) B'.
Proof. exact reference_follows. Qed.
Print Assumptions C88_reference.

(** The legal range of 8 bits to 10 bits and then a table of three entries: colours of size at
    most 255 come out within 1/50000. *)
Definition errorRange (L : libm) : node fl :=
  let N := ieeeNum L in
  setMaxOutValue (setMinOutValue (setMaxInValue (setMinInValue
    (newRange (AStr "8i") (AStr "10i") (AStr "r") (AStr "r") (AStr "clamp") (AStr "")) (nofZ 16)) (nofZ 235)) (nofZ 0)) (nofZ 1023).
Definition errorArray (L : libm) : array fl :=
  let N := ieeeNum L in
  {| a_dims := [3%nat; 1%nat]; a_vals := map nofZ [0; 3; 4]%Z; a_dt := DtF32; a_raw := false; a_int := false; a_enc := "string" |}.
Definition errorLUT (L : libm) : header fl :=
  {| h_attrs := [("inBitDepth", AStr "10i"); ("outBitDepth", AStr "32f")]; h_vals := []; h_dyn := []; h_elems := [EArray (errorArray L)] |}.
Definition errorList (L : libm) : plist fl := PList [] [] [] [errorRange L; Node (errorLUT L) BLUT1D].

Example C88_range_case (L : libm) : let N := ieeeNum L in
  fourLimits (nheader (errorRange L)) (AStr "8i") (AStr "10i") true (nofZ 16) (nofZ 235) (nofZ 0) (nofZ 1023) /\
  moderate (nofZ 16) /\ moderate (nofZ 235) /\ moderate (nofZ 0) /\ moderate (nofZ 1023) /\
  B2R (nofZ 16 : fl) + / 1024 <= B2R (nofZ 235 : fl) /\ wide (nofZ 16) (nofZ 235) /\ wide (nofZ 0) (nofZ 1023).
Proof.
  assert (E : forall z, (Z.abs z < 2 ^ 53)%Z -> B2R (@nofZ fl (ieeeNum L) z) = IZR z) by (intros z Hz; apply (ofZ_exact L z Hz)).
  assert (M : forall z, (0 <= z < 2 ^ 20)%Z -> moderate (@nofZ fl (ieeeNum L) z)).
  { intros z Hz. destruct (ofZ_exact L z) as [F Ez]; [lia|]. split; [exact F|]. rewrite Ez, Rabs_pos_eq by (apply IZR_le; lia). apply IZR_le. lia. }
  split; [repeat split; try reflexivity; intros _; right; reflexivity|].
  split; [apply M; lia|]. split; [apply M; lia|]. split; [apply M; lia|]. split; [apply M; lia|]. cbv zeta. unfold wide. rewrite !E by lia.
  rewrite !Rabs_pos_eq by lra. lra.
Qed.
Example C88_lut1d_case (L : libm) : let N := ieeeNum L in
  isLinearLUT (errorLUT L) (AStr "10i") (errorArray L) 3 /\
  (forall ch k, (ch < 3)%nat -> (k < 3)%nat -> is_finite (entry1D (errorArray L) k ch) = true /\ Rabs (B2R (entry1D (errorArray L) k ch)) <= 4) /\
  (forall ch k, (ch < 3)%nat -> (k + 1 < 3)%nat -> Rabs (B2R (entry1D (errorArray L) (k + 1) ch) - B2R (entry1D (errorArray L) k ch)) <= 3).
Proof.
  assert (E : forall z, (Z.abs z < 2 ^ 53)%Z -> B2R (@nofZ fl (ieeeNum L) z) = IZR z) by (intros z Hz; apply (ofZ_exact L z Hz)).
  split; [|split].
  - repeat split; try reflexivity; try discriminate; [eexists; reflexivity|].
    exists 3%nat, 1%nat, []. repeat split; cbn; lia.
  - intros ch k Hch Hk. change (@entry1D fl (ieeeNum L) (errorArray L) k ch) with (@entry1D fl (ieeeNum L) (errorArray L) k 0).
    destruct k as [|[|[|k]]]; [| | |lia]; (split; [vm_compute; reflexivity|]); unfold entry1D, errorArray; cbn [a_dims a_vals nth map Nat.mul Nat.add Nat.eqb Nat.leb Nat.ltb];
    rewrite E by lia; unfold Rabs; destruct (Rcase_abs _); lra.
  - intros ch k Hch Hk. change (@entry1D fl (ieeeNum L) (errorArray L) k ch) with (@entry1D fl (ieeeNum L) (errorArray L) k 0). change (@entry1D fl (ieeeNum L) (errorArray L) (k + 1) ch) with (@entry1D fl (ieeeNum L) (errorArray L) (k + 1) 0).
    destruct k as [|[|k]]; [| |lia]; unfold entry1D, errorArray; cbn [a_dims a_vals nth map Nat.mul Nat.add Nat.eqb Nat.leb Nat.ltb];
    rewrite !E by lia; unfold Rabs; destruct (Rcase_abs _); lra.
Qed.
Example C88_list_case (L : libm) c : let N := ieeeNum L in
  let e := bpow radix2 (-23) * 255 + bpow radix2 (-149) in
  exists B' e', budget c (procs_of (errorList L)) (255 + e) e B' e' /\ e' <= 1 / 50000.
Proof.
  intros N e.
  assert (E : forall z, (Z.abs z < 2 ^ 53)%Z -> B2R (@nofZ fl (ieeeNum L) z) = IZR z) by (intros z Hz; apply (ofZ_exact L z Hz)).
  destruct (C88_range_case L) as (R1 & R2 & R3 & R4 & R5 & R6 & R7 & R8). destruct (C88_lut1d_case L) as (L1 & L2 & L3).
  assert (P23 : bpow radix2 (-23) = / 8388608) by reflexivity.
  assert (P132 : 0 < bpow radix2 (-132) <= / 8388608) by (split; [apply bpow_gt_0|rewrite <- P23; apply bpow_le; lia]).
  assert (P149 : 0 < bpow radix2 (-149) <= / 8388608) by (split; [apply bpow_gt_0|rewrite <- P23; apply bpow_le; lia]).
  assert (P148 : 0 < bpow radix2 (-148) <= / 8388608 / 16).
  { split; [apply bpow_gt_0|]. replace (/ 8388608 / 16) with (bpow radix2 (-27)) by (change (bpow radix2 (-27)) with (/ 134217728); field). apply bpow_le; lia. }
  assert (T40 : bpow radix2 40 = 1099511627776) by reflexivity.
  assert (T100 : bpow radix2 40 <= bpow radix2 100) by (apply bpow_le; lia). assert (T125 : bpow radix2 40 <= bpow radix2 125) by (apply bpow_le; lia).
  assert (T51 : bpow radix2 40 <= bpow radix2 51) by (apply bpow_le; lia).
  assert (He : 0 < e <= 256 * / 8388608) by (unfold e; rewrite P23; lra).
  eexists. eexists. split.
  - eapply budget_cons; [reflexivity| |].
    + refine (range_follows L c _ _ _ _ _ _ _ _ (255 + e) R1 R2 R3 R4 R5 R6 R7 R8 _ _); [lra|].
      rewrite !E by lia. rewrite !Rabs_pos_eq by lra. lra.
    + eapply budget_cons; [reflexivity| |apply budget_nil].
      refine (lut1d_follows L c _ _ _ 3 _ 4 3 L1 _ _ L2 _ L3 _); [lia|lia|lra|].
      rewrite !E by lia. rewrite !Rabs_pos_eq by lra. rewrite P23. cbn [Nat.sub INR fullScale]. lra.
  - rewrite !E by lia. rewrite !Rabs_pos_eq by lra. unfold unit32. rewrite P23. cbn [Nat.sub INR fullScale]. lra.
Qed.
(** The same two nodes held by a Group or by the file of a Reference. *)
Example C88_nest_case (L : libm) c B : let N := ieeeNum L in 0 <= B <= 256 ->
  exists K E B', 0 < K /\ forall e, budget c (procs_of (errorList L)) B e B' (K * e + E).
Proof.
  intros N HB.
  assert (E : forall z, (Z.abs z < 2 ^ 53)%Z -> B2R (@nofZ fl (ieeeNum L) z) = IZR z) by (intros z Hz; apply (ofZ_exact L z Hz)).
  destruct (C88_range_case L) as (R1 & R2 & R3 & R4 & R5 & R6 & R7 & R8). destruct (C88_lut1d_case L) as (L1 & L2 & L3).
  assert (P23 : bpow radix2 (-23) = / 8388608) by reflexivity.
  assert (P132 : 0 < bpow radix2 (-132) <= / 8388608) by (split; [apply bpow_gt_0|rewrite <- P23; apply bpow_le; lia]).
  assert (T40 : bpow radix2 40 = 1099511627776) by reflexivity.
  assert (T100 : bpow radix2 40 <= bpow radix2 100) by (apply bpow_le; lia). assert (T125 : bpow radix2 40 <= bpow radix2 125) by (apply bpow_le; lia).
  assert (T51 : bpow radix2 40 <= bpow radix2 51) by (apply bpow_le; lia).
  pose proof (range_follows L c _ _ _ _ _ _ _ _ B R1 R2 R3 R4 R5 R6 R7 R8) as F. cbv zeta beta in F. rewrite !E in F by lia. rewrite !Rabs_pos_eq in F by lra.
  specialize (F ltac:(lra) ltac:(lra)). set (k := (1023 - 0) / (235 - 16)) in *.
  set (S := k * (B + 16) + 0 + 1023) in *. set (E1 := 5 * (bpow radix2 (-23) * S + bpow radix2 (-132) * (1 + k))) in *.
  assert (Hk : k = 1023 / 219) by (unfold k; lra). assert (HS : 0 <= S <= 3000) by (unfold S; rewrite Hk; lra).
  assert (HE1 : 0 <= E1 <= 1) by (unfold E1; rewrite P23, Hk; lra).
  pose proof (lut1d_follows L c _ _ _ 3 (S + E1) 4 3 L1 ltac:(lia) ltac:(lia) L2 ltac:(lra) L3) as G. cbv zeta beta in G.
  specialize (G ltac:(cbn [Nat.sub INR fullScale]; lra)).
  set (K2 := INR (3 - 1) * 3 / fullScale (AStr "10i")) in *. assert (HK2 : K2 = 6 / 1023) by (unfold K2; cbn [Nat.sub INR fullScale]; lra).
  set (E2 := 2 * unit32 (4 + INR (3 - 1) * 3)) in *.
  exists (K2 * k), (K2 * E1 + E2), (4 + E2). split; [rewrite HK2, Hk; lra|]. intro e.
  replace (K2 * k * e + (K2 * E1 + E2)) with (K2 * (k * e + E1) + E2) by ring.
  eapply budget_cons; [reflexivity|exact F|]. eapply budget_cons; [reflexivity|exact G|]. apply budget_nil.
Qed.
(** The legal white of 8 bits: the table's last entry comes out, within 1/50000. *)
Example C88_sized_case (L : libm) : let N := ieeeNum L in sized 255 [nofZ 235; nofZ 16; nofZ 128].
Proof.
  assert (M : forall z, (0 <= z <= 255)%Z -> is_finite (@nofZ fl (ieeeNum L) z) = true /\ Rabs (B2R (@nofZ fl (ieeeNum L) z)) <= 255).
  { intros z Hz. destruct (ofZ_exact L z) as [F Ez]; [lia|]. split; [exact F|]. rewrite Ez, Rabs_pos_eq by (apply IZR_le; lia). apply IZR_le. lia. }
  split; [reflexivity|]. constructor; [apply M; lia|]. constructor; [apply M; lia|]. constructor; [apply M; lia|constructor].
Qed.

(** A Matrix of three rows with offsets: rows of size at most 4, offsets of at most 7. *)
Definition errorVals (L : libm) : list fl :=
  let N := ieeeNum L in map nofZ [1; 2; 0; 5;  0; 1; 0; 0;  -1; 0; 3; 7]%Z.
Definition errorMatrix (L : libm) : node fl :=
  let N := ieeeNum L in setMatrix (newMatrix (AStr "8i") (AStr "16f") (AStr "m") (AStr "m")) [3; 4; 3]%nat (errorVals L) "string".
Definition errorCoef (L : libm) (i j : nat) : fl := nth (i * 4 + j) (errorVals L) (B754_zero false).
Definition errorOffset (L : libm) (i : nat) : fl := nth (i * 4 + 3) (errorVals L) (B754_zero false).
Example C88_matrix_case (L : libm) : let N := ieeeNum L in
  isMatrixOf (nheader (errorMatrix L)) 3 (errorCoef L) (Some (errorOffset L)) /\
  (forall i j, (i < 3)%nat -> (j < 3)%nat -> is_finite (errorCoef L i j) = true) /\
  (forall i, (i < 3)%nat -> sumTo 3 (fun j => Rabs (B2R (errorCoef L i j))) <= 4) /\
  (forall i, (i < 3)%nat -> is_finite (errorOffset L i) = true /\ Rabs (B2R (errorOffset L i)) <= 7).
Proof.
  assert (E : forall z, (Z.abs z < 2 ^ 53)%Z -> B2R (@nofZ fl (ieeeNum L) z) = IZR z) by (intros z Hz; apply (ofZ_exact L z Hz)).
  split; [|split; [|split]].
  - exists (mkArray [3; 4; 3]%nat (errorVals L) false false "string"), 4%nat, [3%nat].
    split; [split; eexists; reflexivity|]. split; [reflexivity|]. split; [reflexivity|]. split; [cbn; lia|].
    split; [intros; reflexivity|]. split; [reflexivity|intros; reflexivity].
  - intros i j Hi Hj. destruct i as [|[|[|i]]]; [| | |lia]; (destruct j as [|[|[|j]]]; [| | |lia]); vm_compute; reflexivity.
  - intros i Hi. destruct i as [|[|[|i]]]; [| | |lia]; unfold errorCoef, errorVals, sumTo; cbn [nth map Nat.mul Nat.add seq fold_left fold_right];
      rewrite !E by lia; unfold Rabs; repeat destruct (Rcase_abs _); lra.
  - intros i Hi. destruct i as [|[|[|i]]]; [| | |lia]; (split; [vm_compute; reflexivity|]); unfold errorOffset, errorVals; cbn [nth map Nat.mul Nat.add];
      rewrite !E by lia; unfold Rabs; repeat destruct (Rcase_abs _); lra.
Qed.

(** A cube of two entries per side at 10i. *)
Definition errorCube (L : libm) (tet : bool) : array fl * header fl :=
  let N := ieeeNum L in
  let a := {| a_dims := [2; 2; 2; 3]%nat; a_vals := map nofZ [0; 0; 0;  1; 0; 2;  0; 3; 0;  1; 3; 2;  4; 1; 0;  5; 1; 2;  4; 4; 1;  5; 4; 7]%Z;
              a_dt := DtF32; a_raw := false; a_int := false; a_enc := "string" |} in
  (a, {| h_attrs := [("inBitDepth", AStr "10i"); ("outBitDepth", AStr "32f"); ("interpolation", AStr (kindOf tet))]; h_vals := []; h_dyn := [];
         h_elems := [EArray a] |}).
Example C88_lut3d_case (L : libm) tet : let N := ieeeNum L in let a := fst (errorCube L tet) in
  isCube (snd (errorCube L tet)) (kindOf tet) (AStr "10i") a 2 /\
  (forall ch i j k, (ch < 3)%nat -> (i < 2)%nat -> (j < 2)%nat -> (k < 2)%nat -> is_finite (entry3D a 2 i j k ch) = true /\ Rabs (B2R (entry3D a 2 i j k ch)) <= 7) /\
  (forall ch, (ch < 3)%nat -> smooth 2 6 (fun i j k => B2R (entry3D a 2 i j k ch))).
Proof.
  assert (E : forall z, (Z.abs z < 2 ^ 53)%Z -> B2R (@nofZ fl (ieeeNum L) z) = IZR z) by (intros z Hz; apply (ofZ_exact L z Hz)).
  cbv zeta. split; [|split].
  - repeat split; try (eexists; reflexivity); cbn; lia.
  - intros ch i j k Hc Hi Hj Hk. destruct ch as [|[|[|ch]]]; [| | |lia]; (destruct i as [|[|i]]; [| |lia]); (destruct j as [|[|j]]; [| |lia]); (destruct k as [|[|k]]; [| |lia]);
      (split; [vm_compute; reflexivity|]); unfold entry3D, errorCube; cbn [fst a_vals nth map Nat.mul Nat.add];
      rewrite E by lia; unfold Rabs; destruct (Rcase_abs _); lra.
  - intros ch Hc i j k Hi Hj Hk. destruct ch as [|[|[|ch]]]; [| | |lia]; (destruct i as [|i]; [|lia]); (destruct j as [|[|j]]; [| |lia]); (destruct k as [|[|k]]; [| |lia]);
      unfold entry3D, errorCube; cbn [fst a_vals nth map Nat.mul Nat.add]; rewrite !E by lia; unfold Rabs; repeat destruct (Rcase_abs _); lra.
Qed.

(** A grade of 10-bit colours into 8 bits, with a correctly rounded power: every colour of the
    whole 10-bit range is within 1/100 of an 8-bit step of the exact grade. *)
Definition errorGrade : node fl := let N := ieeeNum roundedPow in
  Node {| h_attrs := [("inBitDepth", AStr "10i"); ("outBitDepth", AStr "8i"); ("style", AStr "Fwd")]; h_vals := []; h_dyn := []; h_elems := [] |}
    (BCDL {| c_slope := Some [nofZ 2; nofZ 1; nofZ 1]; c_offset := None; c_power := Some [nofZ 1; nofZ 2; nofZ 2]; c_sat := Some (nofZ 2) |}).
Definition errorSettings : cdlSettings :=
  {| cdSlope := fun i => match i with O => 2 | _ => 1 end; cdOffset := fun _ => 0; cdPower := fun i => match i with O => 1 | _ => 2 end; cdSat := 2 |}.
Example C88_cdl_case c : let N := ieeeNum roundedPow in powWithin roundedPow (bpow radix2 (-52)) /\
  exists K E B', follows c errorGrade 1023 K E B' /\ K <= 4 /\ E <= / 100.
Proof.
  intros N. split; [exact roundedPow_within|].
  assert (Q : forall z, (Z.abs z < 2 ^ 53)%Z -> B2R (@nofZ fl (ieeeNum roundedPow) z) = IZR z) by (intros z Hz; apply (ofZ_exact roundedPow z Hz)).
  assert (F : forall z, (Z.abs z < 2 ^ 53)%Z -> is_finite (@nofZ fl (ieeeNum roundedPow) z) = true) by (intros z Hz; apply (ofZ_exact roundedPow z Hz)).
  assert (f10 : fullScale (AStr "10i") = 1023) by (unfold fullScale; cbn; lra). assert (f8 : fullScale (AStr "8i") = 255) by (unfold fullScale; cbn; lra).
  assert (W3 : Rabs (1 - 2) + Rabs 2 = 3) by (rewrite Rabs_left, Rabs_pos_eq by lra; lra).
  assert (p20 : bpow radix2 20 = 1048576) by reflexivity. assert (p100 : bpow radix2 20 <= bpow radix2 100) by (apply bpow_le; lia). assert (p60 : bpow radix2 20 <= bpow radix2 60) by (apply bpow_le; lia).
  assert (p23 : bpow radix2 (-23) = / 8388608) by reflexivity. assert (p52 : bpow radix2 (-52) <= / 8388608) by (rewrite <- p23; apply bpow_le; lia).
  eexists. eexists. eexists. split.
  - refine (C88_cdl roundedPow c _ _ errorGrade (AStr "10i") (AStr "8i") errorSettings 1023 2 0 2 (bpow radix2 (-52)) _ _ _ _ roundedPow_within _ _ _ _ _ _).
    + left. reflexivity.
    + repeat split; cbn [exactCdl c_slope c_offset c_power c_sat option_map valueOr map]; rewrite ?Q by lia; reflexivity.
    + split; [|split; [|split]]; cbn [c_slope c_offset c_power c_sat valueOr]; try (repeat (constructor; [apply F; lia|]); constructor).
      intros x E. assert (E' : @nofZ fl (ieeeNum roundedPow) 2 = x) by (apply (f_equal (fun o => match o with Some y => y | None => x end)) in E; exact E). rewrite <- E'. apply F; lia.
    + intros i Hi. destruct i; cbn; rewrite ?Rabs_R0, ?Rabs_pos_eq by lra; lra.
    + lra.
    + lra.
    + lra.
    + cbn [cdSat errorSettings]. lra.
    + rewrite f10. lra.
    + rewrite f10. lra.
  - cbn [cdSat errorSettings]. rewrite f10, f8, W3, p23. split; lra.
Qed.
