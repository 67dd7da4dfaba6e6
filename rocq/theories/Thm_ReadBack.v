(** LUT files written from a list and read back agree with it at the grid points (C87). *)
From Coq Require Import Reals Lra Lia ZArith List String Permutation.
From Flocq Require Import Core BinarySingleNaN.
From Verif Require Import NumF NumFText MConvert SpecConvert SpecWrite SpecTools SpecFiles SpecReadBack PNumText PTextIeee PConvertIeee PXmlWrite
  PReadBack PReadBack3 PReadBackTools Thm_Convert.
Import ListNotations.
Local Open Scope string_scope.
Local Open Scope list_scope.
Local Open Scope R_scope.

(** * The text of the numbers *)

(** The twelve digits of str() are accurate enough. *)
Theorem C87_twelve_digits : accurateText formatStr viaStr.
Proof. exact (digits_accurate {| m_pow := fun x _ => x; m_log10 := fun x => x |}). Qed.
Print Assumptions C87_twelve_digits.

(** * .spi1d *)

(** A list that takes grid point i of n between 0 and 1 to colour i, written to a .spi1d
    file with n entries and read back: every channel at every grid point is within four
    units of float32 precision, measured against the size [M] of the entries and the
    slope (n - 1) D of the curve, of the channel the list gives. *)
Theorem C87_spi1d :
  forall (L : libm), let N := ieeeNum L in
  forall str io compat kept formats c (l : plist fl) path a ra fs n colour,
    accurateText str kept -> Permutation formats (allFormats str io compat) -> extensionOf path = "spi1d" -> wa_style a = "1D" ->
    ra_inverse ra = false -> ra_interpolation ra <> "cubic" -> wa_n1d a = n -> wa_inputMin a = n0 -> wa_inputMax a = n1 ->
    (2 <= n)%nat -> (Z.of_nat n <= 65536)%Z ->
    (forall i x, (i < n)%nat -> isGridPoint n i x -> colourThrough c l [x; x; x] = Ok (colour i)) ->
    exists t l', let fs' := putFile fs path t in
      writeWith formats c l path a fs = (Ok LNone, fs') /\ readWith formats path ra false fs' = (Ok (LList l'), fs') /\
      forall c' M D, tameCurve n M D colour -> M <= bpow radix2 124 ->
        forall (i : nat -> nat) (x : nat -> fl), (forall ch, (ch < 3)%nat -> (i ch < n)%nat /\ isGridPoint n (i ch) (x ch)) ->
          exists ys, colourThrough c' l' (map x (seq 0 3)) = Ok ys /\ List.length ys = 3%nat /\
            forall ch, (ch < 3)%nat ->
              within 4 (M + INR (n - 1) * D) (B2R (nth ch (colour (i ch)) (B754_zero false))) (nth ch ys (B754_zero false)).
Proof. exact spi1d_grid. Qed.
Print Assumptions C87_spi1d.

(** * .spi3d *)

(** The same for a .spi3d file of n by n by n entries, read for trilinear or for
    tetrahedral interpolation: seven units. *)
Theorem C87_spi3d :
  forall (L : libm), let N := ieeeNum L in
  forall str io compat kept formats c (l : plist fl) path a ra fs n colour tet,
    accurateText str kept -> Permutation formats (allFormats str io compat) -> extensionOf path = "spi3d" -> wa_style a = "3D" ->
    (ra_interpolation ra = kindOf tet \/ (ra_interpolation ra = "linear" /\ tet = false)) ->
    wa_n3d a = n -> wa_inputMin a = n0 -> wa_inputMax a = n1 -> (2 <= n)%nat -> (Z.of_nat n <= 65536)%Z ->
    (forall r g b xr xg xb, (r < n)%nat -> (g < n)%nat -> (b < n)%nat -> isGridPoint n r xr -> isGridPoint n g xg -> isGridPoint n b xb ->
       colourThrough c l [xr; xg; xb] = Ok (colour r g b)) ->
    exists t l', let fs' := putFile fs path t in
      writeWith formats c l path a fs = (Ok LNone, fs') /\ readWith formats path ra false fs' = (Ok (LList l'), fs') /\
      forall c' M D, tameCube n M D colour -> M <= bpow radix2 124 ->
        forall r g b xr xg xb, (r < n)%nat -> (g < n)%nat -> (b < n)%nat -> isGridPoint n r xr -> isGridPoint n g xg -> isGridPoint n b xb ->
          exists ys, colourThrough c' l' [xr; xg; xb] = Ok ys /\ List.length ys = 3%nat /\
            forall ch, (ch < 3)%nat ->
              within 7 (M + INR (n - 1) * D) (B2R (nth ch (colour r g b) (B754_zero false))) (nth ch ys (B754_zero false)).
Proof. exact spi3d_grid. Qed.
Print Assumptions C87_spi3d.

(** A matrix that halves red, negates green and swaps blue with it, at three grid
    points. *)
Definition backMatrix (L : libm) : plist fl := let N := ieeeNum L in
  PList [("id", "look")] [] []
    [setMatrix (newMatrix (AStr "16f") (AStr "16f") (AStr "m") (AStr "m")) [3; 3; 3]%nat
       [ndiv n1 (nofZ 2); n0; n0; n0; n0; nofZ (-1); n0; n1; n0] "string"].
Definition backPoint (L : libm) (i : nat) : fl := let N := ieeeNum L in ndiv (nofZ (Z.of_nat i)) (nofZ 2).
Definition backColour (L : libm) (r g b : nat) : list fl := let N := ieeeNum L in
  match colourThrough 15 (backMatrix L) [backPoint L r; backPoint L g; backPoint L b] with Ok ys => ys | Err _ => [] end.

Definition backArgs (L : libm) (style : string) : writeArgs fl := let N := ieeeNum L in
  {| wa_style := style; wa_n1d := 3; wa_n3d := 3; wa_1d3d1d := (3, 3, 3)%nat; wa_inputMin := n0; wa_inputMax := n1;
     wa_shaperIn := (None, n0, n1); wa_shaperOut := (None, n0, n1) |}.
Definition backRead (interpolation : string) : readArgs :=
  {| ra_inverse := false; ra_interpolation := interpolation; ra_useIndexMaps := false; ra_useHalfDomain := false |}.
Example C87_colours (L : libm) : let N := ieeeNum L in
  (forall r g b xr xg xb, (r < 3)%nat -> (g < 3)%nat -> (b < 3)%nat -> isGridPoint 3 r xr -> isGridPoint 3 g xg -> isGridPoint 3 b xb ->
     colourThrough 15 (backMatrix L) [xr; xg; xb] = Ok (backColour L r g b)) /\
  tameCube 3 1 2 (backColour L) /\ tameCurve 3 1 2 (fun i => backColour L i i i).
Proof.
  intro N.
  assert (P : forall i x, (i < 3)%nat -> isGridPoint 3 i x -> x = backPoint L i).
  { intros i x Hi G. apply (grid_unique 3 i); [exact G|]. apply (grid_point L 3 i); lia. }
  assert (Okb : forall r g b, (r < 3)%nat -> (g < 3)%nat -> (b < 3)%nat ->
    match colourThrough 15 (backMatrix L) [backPoint L r; backPoint L g; backPoint L b] with Ok _ => true | _ => false end = true).
  { intros r g b Hr Hg Hb. destruct r as [|[|[|r]]], g as [|[|[|g]]], b as [|[|[|b]]]; try lia; vm_compute; reflexivity. }
  assert (Sm : forall r g b ch, (r < 3)%nat -> (g < 3)%nat -> (b < 3)%nat -> (ch < 3)%nat -> smallNumber L (nth ch (backColour L r g b) (B754_zero false)) = true).
  { intros r g b ch Hr Hg Hb Hch. destruct ch as [|[|[|ch]]]; try lia; destruct r as [|[|[|r]]], g as [|[|[|g]]], b as [|[|[|b]]]; try lia; vm_compute; reflexivity. }
  split; [|split].
  - intros r g b xr xg xb Hr Hg Hb Gr Gg Gb. rewrite (P r xr), (P g xg), (P b xb) by assumption. unfold backColour.
    specialize (Okb r g b Hr Hg Hb). fold N in Okb. destruct (colourThrough 15 (backMatrix L) _) as [ys|]; [reflexivity|discriminate].
  - apply (small_cube L). exact Sm.
  - apply (small_curve L). intros i ch Hi Hch. now apply Sm.
Qed.
Example C87_case (L : libm) : let N := ieeeNum L in let io := oneDocument emptyDocument in let formats := allFormats formatStr io 15 in
  (exists l' fs' ys, writeWith formats 15 (backMatrix L) "x.spi1d" (backArgs L "1D") (fun _ => None) = (Ok LNone, fs') /\
     readWith formats "x.spi1d" (backRead "linear") false fs' = (Ok (LList l'), fs') /\
     colourThrough 15 l' [backPoint L 0; backPoint L 1; backPoint L 2] = Ok ys /\
     forall ch, (ch < 3)%nat -> within 4 5 (B2R (nth ch (backColour L ch ch ch) (B754_zero false))) (nth ch ys (B754_zero false))) /\
  (exists l' fs' ys, writeWith formats 15 (backMatrix L) "x.spi3d" (backArgs L "3D") (fun _ => None) = (Ok LNone, fs') /\
     readWith formats "x.spi3d" (backRead "tetrahedral") false fs' = (Ok (LList l'), fs') /\
     colourThrough 15 l' [backPoint L 0; backPoint L 1; backPoint L 2] = Ok ys /\
     forall ch, (ch < 3)%nat -> within 7 5 (B2R (nth ch (backColour L 0 1 2) (B754_zero false))) (nth ch ys (B754_zero false))).
Proof.
  intros N io formats. destruct (C87_colours L) as (Col & T3 & T1).
  assert (G : forall i, (i < 3)%nat -> isGridPoint 3 i (backPoint L i)) by (intros i Hi; apply (grid_point L 3 i); lia).
  assert (B : 1 <= bpow radix2 124) by (change 1 with (bpow radix2 0); apply bpow_le; lia).
  replace 5 with (1 + INR (3 - 1) * 2) by (cbn; lra). split.
  - destruct (C87_spi1d L formatStr io 15 viaStr formats 15 (backMatrix L) "x.spi1d" (backArgs L "1D") (backRead "linear") (fun _ => None) 3 (fun i => backColour L i i i)
                C87_twelve_digits (Permutation_refl _) eq_refl eq_refl eq_refl ltac:(discriminate) eq_refl eq_refl eq_refl ltac:(lia) ltac:(lia)) as (t & l' & W & Rd & Acc).
    { intros i x Hi Gx. now apply Col. }
    destruct (Acc 15%Z 1 2 T1 B (fun i => i) (backPoint L)) as (ys & E & _ & Bd); [intros ch Hch; split; [exact Hch|now apply G]|].
    exists l', (putFile (fun _ => None) "x.spi1d" t), ys. repeat split; try assumption; apply Bd; assumption.
  - destruct (C87_spi3d L formatStr io 15 viaStr formats 15 (backMatrix L) "x.spi3d" (backArgs L "3D") (backRead "tetrahedral") (fun _ => None) 3 (backColour L) true
                C87_twelve_digits (Permutation_refl _) eq_refl eq_refl (or_introl eq_refl) eq_refl eq_refl eq_refl ltac:(lia) ltac:(lia) Col) as (t & l' & W & Rd & Acc).
    destruct (Acc 15%Z 1 2 T3 B 0%nat 1%nat 2%nat (backPoint L 0) (backPoint L 1) (backPoint L 2)) as (ys & E & _ & Bd); try lia; try (apply G; lia).
    exists l', (putFile (fun _ => None) "x.spi3d" t), ys. repeat split; try assumption; apply Bd; assumption.
Qed.

(** * Both converters *)

(** convertCLFtoLUT to .spi1d, then convertLUTtoCLF: the .clf opens as a list that
    agrees with the first one at the grid points, up to four units and the nine decimals
    of the document. *)
Theorem C87_spi1d_and_back :
  forall (L : libm), let N := ieeeNum L in
  forall str io compat kept limit formats (o : exportOptions fl) clf lut (l : plist fl) fs n colour,
    accurateText str kept -> Permutation formats (allFormats str io compat) -> shaperReadable (T := fl) (eo_shaperIn o) -> shaperReadable (T := fl) (eo_shaperOut o) ->
    eo_clf o = Some clf -> eo_lut o = Some lut -> lutKindOf o = Only1D -> extensionOf lut = "spi1d" ->
    eo_res1d o = n -> eo_min o = n0 -> eo_max o = n1 -> (2 <= n)%nat -> (Z.of_nat n <= 65536)%Z ->
    openList io limit compat fs false clf = Ok l ->
    (forall i x, (i < n)%nat -> isGridPoint n i x -> colourThrough compat l [x; x; x] = Ok (colour i)) ->
    exists t lr root, let fs1 := putFile fs lut t in
      exportMain io compat limit formats o fs = (Ok tt, fs1) /\
      (forall maps half, readWith formats lut {| ra_inverse := false; ra_interpolation := "linear"; ra_useIndexMaps := maps; ra_useHalfDomain := half |} false fs1 =
                         (Ok (LList lr), fs1)) /\
      listWrite compat false lr = Ok root /\
      (keepsDocument io root ->
       forall clf2 maps half, exists t2, let fs2 := putFile fs1 clf2 t2 in
         importMain io compat formats (Some lut) (Some clf2) false maps half fs1 = (Ok tt, fs2) /\
         exists l2, (forall c limit2 strict, autodesk_on c = true -> duiker_on c = true -> openList io (S limit2) c fs2 strict clf2 = Ok l2) /\
           forall c M D, tameCurve n M D colour -> M <= bpow radix2 124 ->
             forall (i : nat -> nat) (x : nat -> fl), (forall ch, (ch < 3)%nat -> (i ch < n)%nat /\ isGridPoint n (i ch) (x ch)) ->
               exists ys, colourThrough c l2 (map x (seq 0 3)) = Ok ys /\ List.length ys = 3%nat /\
                 forall ch, (ch < 3)%nat -> is_finite (nth ch ys (B754_zero false)) = true /\
                   Rabs (B2R (nth ch ys (B754_zero false)) - B2R (nth ch (colour (i ch)) (B754_zero false))) <=
                     4 * (bpow radix2 (-23) * (M + INR (n - 1) * D)) + / 10 ^ 9).
Proof. exact spi1d_tools. Qed.
Print Assumptions C87_spi1d_and_back.

(** The empty list, through both converters. *)
Definition lookColour (L : libm) (i : nat) : list fl := let N := ieeeNum L in
  match colourThrough 15 (PList [("id", "look")] [] [] []) (repeat (backPoint L i) 3) with Ok ys => ys | Err _ => [] end.
Example C87_and_back_case (L : libm) : let N := ieeeNum L in
  exists root fs1 fs2 l2 ys, let io := twoDocuments emptyDocument root in let formats := allFormats formatStr io 15 in
    exportMain io 15 1 formats (exampleOptions L false "x.spi1d") exampleDisk = (Ok tt, fs1) /\
    importMain io 15 formats (Some "x.spi1d") (Some "y.clf") false true false fs1 = (Ok tt, fs2) /\
    openList io 1 15 fs2 true "y.clf" = Ok l2 /\ colourThrough 15 l2 [backPoint L 1; backPoint L 2; backPoint L 0] = Ok ys /\
    Rabs (B2R (nth 0 ys (B754_zero false)) - B2R (nth 0 (lookColour L 1) (B754_zero false))) <= 20 * bpow radix2 (-23) + / 10 ^ 9.
Proof.
  intro N. destruct (ok_of (sample1D 15 (PList [("id", "look")] [] [] []) 3 (n0 : fl) n1)) as [s Es]; [vm_compute; reflexivity|].
  destruct (lut1d_node_writes L 15 3 3 "lut1d" "linear" (map viaStr s) [("id", "Converted lut"); ("compCLFversion", "1.0"); ("name", "Converted lut")] [] [] ltac:(discriminate)) as [root Wr].
  pose (io := twoDocuments emptyDocument root). pose (formats := allFormats formatStr io 15).
  destruct (C73_spi1d L formatStr io 15 viaStr 1 formats (exampleOptions L false "x.spi1d") "look.clf" "x.spi1d"
              (PList [("id", "look")] [] [] []) s exampleDisk) as (t0 & W0 & R0); try reflexivity; try exact I; try exact Es.
  { apply Forall_forall. intros x _. apply (PLutIeee.lut_numbers L). }
  destruct (C87_spi1d_and_back L formatStr io 15 viaStr 1 formats (exampleOptions L false "x.spi1d") "look.clf" "x.spi1d" (PList [("id", "look")] [] [] []) exampleDisk 3 (lookColour L)
              C87_twelve_digits (Permutation_refl _)) as (t & lr & root' & W & Rd & Wr' & Go); try reflexivity; try exact I; try lia.
  { intros i x Hi G. assert (x = backPoint L i) as -> by (apply (grid_unique 3 i); [exact G|]; apply (grid_point L 3 i); lia).
    unfold lookColour. cbn [repeat].
    assert (E : match colourThrough 15 (PList [("id", "look")] [] [] []) [backPoint L i; backPoint L i; backPoint L i] with Ok _ => true | _ => false end = true)
      by (destruct i as [|[|[|i]]]; try lia; vm_compute; reflexivity).
    fold N in E. destruct (colourThrough 15 _ _) as [ys|]; [reflexivity|discriminate]. }
  assert (Ef : putFile exampleDisk "x.spi1d" t = putFile exampleDisk "x.spi1d" t0).
  { assert (Ee : (Ok tt, putFile exampleDisk "x.spi1d" t) = (Ok tt, putFile exampleDisk "x.spi1d" t0)) by exact (eq_trans (eq_sym W) W0). congruence. }
  assert (Er : root' = root).
  { assert (Rl : (Ok (LList lr), putFile exampleDisk "x.spi1d" t) = (Ok (LList (convertedList [lut1dNode "lut1d" "linear" 3 3 (map viaStr s)])), putFile exampleDisk "x.spi1d" t)).
    { refine (eq_trans (eq_sym (Rd false true)) _). rewrite Ef. refine (eq_trans (R0 "linear" false true false) _).
      match goal with |- context [if ?b then _ else _] => replace b with false by (vm_compute; reflexivity) end. reflexivity. }
    injection Rl as ->. apply PBase.Ok_inj. exact (eq_trans (eq_sym Wr') Wr). }
  subst root'.
  destruct (Go (ex_intro _ "exported" (ex_intro _ root (conj eq_refl (conj eq_refl (conj eq_refl (conj (sameTree_refl root) (conj eq_refl eq_refl))))))) "y.clf" true false)
    as (t2 & Im & l2 & Op & Acc).
  assert (Tm : tameCurve 3 1 2 (lookColour L)).
  { apply (small_curve L). intros i ch Hi Hch. destruct i as [|[|[|i]]], ch as [|[|[|ch]]]; try lia; vm_compute; reflexivity. }
  destruct (Acc 15%Z 1 2 Tm) with (i := fun ch => nth ch [1; 2; 0]%nat 0%nat) (x := fun ch => backPoint L (nth ch [1; 2; 0]%nat 0%nat)) as (ys & Ey & _ & By).
  - change 1 with (bpow radix2 0). apply bpow_le. lia.
  - intros ch Hch. destruct ch as [|[|[|ch]]]; try lia; (split; [cbn; lia|apply (grid_point L 3); cbn; lia]).
  - exists root, (putFile exampleDisk "x.spi1d" t), (putFile (putFile exampleDisk "x.spi1d" t) "y.clf" t2), l2, ys.
    split; [exact W|]. split; [exact Im|]. split; [apply Op; reflexivity|]. split; [exact Ey|].
    destruct (By 0%nat ltac:(lia)) as [_ Bd]. eapply Rle_trans; [exact Bd|]. cbn [Nat.sub INR]. lra.
Qed.

(** The same through a .spi3d file; asking for the inverse changes nothing. *)
Theorem C87_spi3d_and_back :
  forall (L : libm), let N := ieeeNum L in
  forall str io compat kept limit formats (o : exportOptions fl) clf lut (l : plist fl) fs n colour,
    accurateText str kept -> Permutation formats (allFormats str io compat) -> shaperReadable (T := fl) (eo_shaperIn o) -> shaperReadable (T := fl) (eo_shaperOut o) ->
    eo_clf o = Some clf -> eo_lut o = Some lut -> lutKindOf o = Only3D -> extensionOf lut = "spi3d" ->
    size3D o = n -> eo_min o = n0 -> eo_max o = n1 -> (2 <= n)%nat -> (Z.of_nat n <= 65536)%Z ->
    openList io limit compat fs false clf = Ok l ->
    (forall r g b xr xg xb, (r < n)%nat -> (g < n)%nat -> (b < n)%nat -> isGridPoint n r xr -> isGridPoint n g xg -> isGridPoint n b xb ->
       colourThrough compat l [xr; xg; xb] = Ok (colour r g b)) ->
    exists t lr root, let fs1 := putFile fs lut t in
      exportMain io compat limit formats o fs = (Ok tt, fs1) /\
      (forall inverse maps half, readWith formats lut {| ra_inverse := inverse; ra_interpolation := "linear"; ra_useIndexMaps := maps; ra_useHalfDomain := half |} false fs1 =
                         (Ok (LList lr), fs1)) /\
      listWrite compat false lr = Ok root /\
      (keepsDocument io root ->
       forall clf2 inverse maps half, exists t2, let fs2 := putFile fs1 clf2 t2 in
         importMain io compat formats (Some lut) (Some clf2) inverse maps half fs1 = (Ok tt, fs2) /\
         exists l2, (forall c limit2 strict, autodesk_on c = true -> duiker_on c = true -> openList io (S limit2) c fs2 strict clf2 = Ok l2) /\
           forall c M D, tameCube n M D colour -> M <= bpow radix2 124 ->
             forall r g b xr xg xb, (r < n)%nat -> (g < n)%nat -> (b < n)%nat -> isGridPoint n r xr -> isGridPoint n g xg -> isGridPoint n b xb ->
               exists ys, colourThrough c l2 [xr; xg; xb] = Ok ys /\ List.length ys = 3%nat /\
                 forall ch, (ch < 3)%nat -> is_finite (nth ch ys (B754_zero false)) = true /\
                   Rabs (B2R (nth ch ys (B754_zero false)) - B2R (nth ch (colour r g b) (B754_zero false))) <=
                     7 * (bpow radix2 (-23) * (M + INR (n - 1) * D)) + / 10 ^ 9).
Proof. exact spi3d_tools. Qed.
Print Assumptions C87_spi3d_and_back.

Definition lookCube (L : libm) (r g b : nat) : list fl := let N := ieeeNum L in
  match colourThrough 15 (PList [("id", "look")] [] [] []) (map (fun i => nofZ (Z.of_nat i)) [r; g; b]) with Ok ys => ys | Err _ => [] end.
Example C87_spi3d_and_back_case (L : libm) : let N := ieeeNum L in
  exists root fs1 fs2 l2 ys, let io := twoDocuments emptyDocument root in let formats := allFormats formatStr io 15 in
    exportMain io 15 1 formats (exampleOptions L true "x.spi3d") exampleDisk = (Ok tt, fs1) /\
    importMain io 15 formats (Some "x.spi3d") (Some "y.clf") true true false fs1 = (Ok tt, fs2) /\
    openList io 1 15 fs2 true "y.clf" = Ok l2 /\ colourThrough 15 l2 [nofZ 1; nofZ 0; nofZ 1] = Ok ys /\
    Rabs (B2R (nth 0 ys (B754_zero false)) - B2R (nth 0 (lookCube L 1 0 1) (B754_zero false))) <= 21 * bpow radix2 (-23) + / 10 ^ 9.
Proof.
  intro N. destruct (ok_of (sample3D 15 (PList [("id", "look")] [] [] []) 2 2 2 (n0 : fl) n1)) as [s Es]; [vm_compute; reflexivity|].
  pose (vals := colourList 2 2 2 (fun r g b => map viaStr (cellOf s r g b))).
  destruct (lut3d_node_writes L 15 2 "lut3d" "trilinear" vals [("id", "Converted lut"); ("compCLFversion", "1.0"); ("name", "Converted lut")] [] []) as [root Wr].
  pose (io := twoDocuments emptyDocument root). pose (formats := allFormats formatStr io 15).
  assert (G : forall i, (i < 2)%nat -> isGridPoint 2 i (nofZ (Z.of_nat i))).
  { intros i Hi. replace (@nofZ fl N (Z.of_nat i)) with (ndiv (nofZ (Z.of_nat i)) (nofZ (Z.of_nat 2 - 1)) : fl); [apply (grid_point L 2 i); lia|].
    apply B2R_Bsign_inj; destruct i as [|[|i]]; try lia; vm_compute; reflexivity. }
  assert (Col : forall r g b, (r < 2)%nat -> (g < 2)%nat -> (b < 2)%nat ->
    match colourThrough 15 (PList [("id", "look")] [] [] []) (map (fun i => nofZ (Z.of_nat i)) [r; g; b]) with Ok _ => true | _ => false end = true)
    by (intros r g b Hr Hg Hb; destruct r as [|[|r]], g as [|[|g]], b as [|[|b]]; try lia; vm_compute; reflexivity).
  assert (Sh : forall r g b, (r < 2)%nat -> (g < 2)%nat -> (b < 2)%nat -> List.length (cellOf s r g b) = 3%nat).
  { assert (E : match sample3D 15 (PList [("id", "look")] [] [] []) 2 2 2 (n0 : fl) n1 with
                | Ok s => forallb (fun r => forallb (fun g => forallb (fun b => Nat.eqb (List.length (cellOf s r g b)) 3) (seq 0 2)) (seq 0 2)) (seq 0 2) | _ => false end = true)
      by (vm_compute; reflexivity).
    fold N in E. rewrite Es in E. intros r g b Hr Hg Hb. rewrite forallb_forall in E. specialize (E r ltac:(apply in_seq; lia)). cbv beta in E.
    rewrite forallb_forall in E. specialize (E g ltac:(apply in_seq; lia)). cbv beta in E. rewrite forallb_forall in E. specialize (E b ltac:(apply in_seq; lia)). now apply Nat.eqb_eq. }
  destruct (C73_spi3d L formatStr io 15 viaStr 1 formats (exampleOptions L true "x.spi3d") "look.clf" "x.spi3d"
              (PList [("id", "look")] [] [] []) s exampleDisk) as (t0 & W0 & R0); try reflexivity; try exact I; try exact Es.
  { intros. apply Forall_forall. intros x _. apply (PLutIeee.lut_numbers L). }
  destruct (C87_spi3d_and_back L formatStr io 15 viaStr 1 formats (exampleOptions L true "x.spi3d") "look.clf" "x.spi3d" (PList [("id", "look")] [] [] []) exampleDisk 2 (lookCube L)
              C87_twelve_digits (Permutation_refl _)) as (t & lr & root' & W & Rd & Wr' & Go); try reflexivity; try exact I; try lia.
  { intros r g b xr xg xb Hr Hg Hb Gr Gg Gb.
    rewrite (grid_unique 2 r xr _ Gr (G r Hr)), (grid_unique 2 g xg _ Gg (G g Hg)), (grid_unique 2 b xb _ Gb (G b Hb)).
    unfold lookCube. specialize (Col r g b Hr Hg Hb). cbn [map] in *. fold N in Col. destruct (colourThrough 15 _ _) as [ys|]; [reflexivity|discriminate]. }
  assert (Ef : putFile exampleDisk "x.spi3d" t = putFile exampleDisk "x.spi3d" t0).
  { assert (Ee : (Ok tt, putFile exampleDisk "x.spi3d" t) = (Ok tt, putFile exampleDisk "x.spi3d" t0)) by exact (eq_trans (eq_sym W) W0). congruence. }
  assert (Er : root' = root).
  { destruct (R0 {| ra_inverse := true; ra_interpolation := "linear"; ra_useIndexMaps := true; ra_useHalfDomain := false |} false) as (vals' & R1 & T1).
    assert (Ev : vals' = vals).
    { apply (table_unique 2 _ _ (fun r g b => map viaStr (cellOf s r g b))); [lia|exact T1|]. apply table_of_two.
      intros r g b Hr Hg Hb. rewrite map_length. now apply Sh. }
    assert (Rl : (Ok (LList lr), putFile exampleDisk "x.spi3d" t) = (Ok (LList (convertedList [lut3dNode "lut3d" "trilinear" 2 2 2 vals])), putFile exampleDisk "x.spi3d" t)).
    { refine (eq_trans (eq_sym (Rd true true false)) _). rewrite Ef. refine (eq_trans R1 _). rewrite Ev. reflexivity. }
    injection Rl as ->. apply PBase.Ok_inj. exact (eq_trans (eq_sym Wr') Wr). }
  subst root'.
  destruct (Go (ex_intro _ "exported" (ex_intro _ root (conj eq_refl (conj eq_refl (conj eq_refl (conj (sameTree_refl root) (conj eq_refl eq_refl))))))) "y.clf" true true false)
    as (t2 & Im & l2 & Op & Acc).
  assert (Tm : tameCube 2 1 2 (lookCube L)).
  { apply (small_cube L). intros r g b ch Hr Hg Hb Hch. destruct r as [|[|r]], g as [|[|g]], b as [|[|b]]; try lia; destruct ch as [|[|[|ch]]]; try lia; vm_compute; reflexivity. }
  destruct (Acc 15%Z 1 2 Tm) with (r := 1%nat) (g := 0%nat) (b := 1%nat) (xr := @nofZ fl N 1) (xg := @nofZ fl N 0) (xb := @nofZ fl N 1) as (ys & Ey & _ & By); try lia.
  - change 1 with (bpow radix2 0). apply bpow_le. lia.
  - apply (G 1%nat). lia.
  - apply (G 0%nat). lia.
  - apply (G 1%nat). lia.
  - exists root, (putFile exampleDisk "x.spi3d" t), (putFile (putFile exampleDisk "x.spi3d" t) "y.clf" t2), l2, ys.
    split; [exact W|]. split; [exact Im|]. split; [apply Op; reflexivity|]. split; [exact Ey|].
    destruct (By 0%nat ltac:(lia)) as [_ Bd]. eapply Rle_trans; [exact Bd|]. cbn [Nat.sub INR]. lra.
Qed.
