(** Properties of single nodes that hold for any arithmetic:
    C05, C06, C09, C11, C21, C23, C24, C32, C36, C41. *)
From Verif Require Import NumF NumZ PIeee Thm_Lists.

(** * C05 *)

(** One scalar function, given by the header alone, is applied to every element. *)
Theorem C05_range_elementwise :
  forall (T : Type) (N : Num T) c (h : header T) dIn dOut,
    dget (h_attrs h) "inBitDepth" = Some dIn -> dget (h_attrs h) "outBitDepth" = Some dOut ->
    exists f : T -> res T, forall values st,
      nodeProcess c (Node h BRange) values st =
      match mapM f values with
      | Ok out => Ok {| po_in := out; po_out := out; po_same := true |}
      | Err e => Err e
      end.
Proof. exact @range_elementwise. Qed.
Print Assumptions C05_range_elementwise.

Example C05_case :
  nodeProcess 0 (shiftBy 5) [1; 2; 3; 4; 5]%Z 4 =
  Ok {| po_in := [6; 7; 8; 9; 10]%Z; po_out := [6; 7; 8; 9; 10]%Z; po_same := true |}.
Proof. reflexivity. Qed.

(** * C06 *)

Theorem C06_range_fails :
  forall (T : Type) (N : Num T) c (h : header T) dIn dOut values st e,
    dget (h_attrs h) "inBitDepth" = Some dIn -> dget (h_attrs h) "outBitDepth" = Some dOut ->
    nodeProcess c (Node h BRange) values st = Err e <->
    e = ZeroDivisionError /\ values <> [] /\
    exists minIn maxIn minOut maxOut,
      limitIs h dIn "minInValue" n0 minIn /\ limitIs h dIn "maxInValue" n1 maxIn /\
      limitIs h dOut "minOutValue" n0 minOut /\ limitIs h dOut "maxOutValue" n1 maxOut /\
      neqb (nsub maxIn minIn) n0 = true.
Proof. exact @range_fails. Qed.
Print Assumptions C06_range_fails.

Definition fullRange (a b c d : Z) : node Z :=
  setMaxOutValue (setMinOutValue (setMaxInValue (setMinInValue
    (newRange z32 z32 (AStr "a") (AStr "a") (AStr "") (AStr "")) a) b) c) d.
Example C06_case :
  nodeProcess 0 (fullRange 3 3 0 1) [1; 2]%Z 1 = Err ZeroDivisionError /\
  is_ok (nodeProcess 0 (fullRange 3 3 0 1) [] 1) /\ is_ok (nodeProcess 0 (fullRange 3 4 0 1) [1; 2]%Z 1).
Proof. split; [reflexivity|split; eexists; reflexivity]. Qed.

(** * C09 *)

Theorem C09_matrix_fails :
  forall (T : Type) (N : Num T) c (h : header T) a d0 d1 rest values st,
    hasDepths h -> lastArray (h_elems h) = Some a ->
    a_dims a = d0 :: d1 :: rest -> (d1 = d0 \/ d1 = d0 + 1) -> List.length (a_vals a) = d0 * d1 ->
    1 <= st -> st <= List.length values ->
    (d0 <= st -> is_ok (nodeProcess c (Node h BMatrix) values st)) /\
    (st < d0 -> nodeProcess c (Node h BMatrix) values st = Err IndexError).
Proof. exact @matrix_succeeds. Qed.
Print Assumptions C09_matrix_fails.

Example C09_case :
  nodeProcess 0 swapRG [1; 2; 3; 4]%Z 2 = Err IndexError /\
  outcome (nodeProcess 0 swapRG [1; 2; 3; 4]%Z 4) = Ok [2; 1; 3; 4]%Z.
Proof. split; reflexivity. Qed.

(** * C11 *)

Theorem C11_extra_channels :
  forall (T : Type) (N : Num T) c h b (values : list T) st o p k,
    colourNode b -> nodeProcess c (Node h b) values st = Ok o ->
    p < List.length values / st -> 3 <= k < st ->
    nth_error (po_out o) (p * st + k) = nth_error values (p * st + k).
Proof. exact @extra_channels. Qed.
Print Assumptions C11_extra_channels.

(** ExposureContrast copies the first pixel's extra channels everywhere. *)
Theorem C11_extra_channels_exposure_contrast :
  forall (T : Type) (N : Num T) c h p0 (values : list T) st o p k,
    nodeProcess c (Node h (BExposureContrast p0)) values st = Ok o ->
    p < List.length values / st -> 3 <= k < st ->
    nth_error (po_out o) (p * st + k) = nth_error values k.
Proof. exact @extra_channels_ec. Qed.
Print Assumptions C11_extra_channels_exposure_contrast.

Definition ecEx : node Z := newExposureContrast z32 z32 (AStr "e") (AStr "e") (AStr "linear").
Example C11_case :
  outcome (nodeProcess 0 lutEx [1; 0; 0; 4; 0; 0; 1; 8]%Z 4) = Ok [30; 10; 10; 4; 10; 10; 30; 8]%Z /\
  outcome (nodeProcess 0 ecEx [1; 0; 0; 4; 0; 0; 1; 8]%Z 4) = Ok [1; 0; 0; 4; 0; 0; 1; 4]%Z.
Proof. split; reflexivity. Qed.

(** * C21 *)

(** Changing other channels (or other pixels) does not change this one. *)
Theorem C21_channels_independent :
  forall (T : Type) (N : Num T) c h (v1 v2 : list T) st o1 o2 i,
    nodeProcess c (Node h BLUT1D) v1 st = Ok o1 -> nodeProcess c (Node h BLUT1D) v2 st = Ok o2 ->
    List.length v1 = List.length v2 -> nth_error v1 i = nth_error v2 i ->
    nth_error (po_out o1) i = nth_error (po_out o2) i.
Proof. exact @lut1d_local. Qed.
Print Assumptions C21_channels_independent.

(** Two channels with the same value come out the same when the table is not
    a three-channel one. *)
Theorem C21_flat_table :
  forall (T : Type) (N : Num T) c h a d0 d1 rest (values : list T) st o p i j,
    lastArray (h_elems h) = Some a -> a_dims a = d0 :: d1 :: rest -> d1 <> 3 ->
    List.length (indexMaps (h_elems h)) <= 1 ->
    nodeProcess c (Node h BLUT1D) values st = Ok o ->
    p < List.length values / st -> i < 3 -> j < 3 -> i < st -> j < st ->
    nth_error values (p * st + i) = nth_error values (p * st + j) ->
    nth_error (po_out o) (p * st + i) = nth_error (po_out o) (p * st + j).
Proof. exact @lut1d_flat. Qed.
Print Assumptions C21_flat_table.

Definition lut3ch : node Z :=
  addElement (newLUT1D z32 z32 (AStr "l") (AStr "l") (AStr "linear") (AStr "") (AStr ""))
    (EArray (mkArray [2; 3] [10; 11; 12; 20; 21; 22]%Z false false "string")).
Example C21_case :
  outcome (nodeProcess 0 lut3ch [1; 0; 1]%Z 3) = Ok [20; 11; 22]%Z /\
  outcome (nodeProcess 0 lut3ch [0; 0; 0]%Z 3) = Ok [10; 11; 12]%Z /\
  outcome (nodeProcess 0 lutEx [1; 0; 1]%Z 3) = Ok [30; 10; 30]%Z.
Proof. repeat split. Qed.

(** * C23 *)

Theorem C23_lut1d_never_fails :
  forall (T : Type) (N : Num T) (O : OrdLaws T) c h a (values : list T) st,
    hasDepths h -> lastArray (h_elems h) = Some a -> wellFormed1D a -> goodMaps (indexMaps (h_elems h)) ->
    dget (h_attrs h) "interpolation" <> Some (AStr "cubic") ->
    1 <= st -> is_ok (nodeProcess c (Node h BLUT1D) values st).
Proof. intros. eapply lut1d_total; eauto using goodMaps_total. Qed.
Print Assumptions C23_lut1d_never_fails.

(** For IEEE arithmetic: NaN and infinite values in the buffer, the table or
    the map outputs included. *)
Theorem C23_ieee_lut1d_never_fails :
  forall (L : libm) c h a (values : list fl) st,
    let N := ieeeNum L in
    hasDepths h -> lastArray (h_elems h) = Some a -> wellFormed1D a -> goodMaps (indexMaps (h_elems h)) ->
    dget (h_attrs h) "interpolation" <> Some (AStr "cubic") ->
    1 <= st -> is_ok (nodeProcess c (Node h BLUT1D) values st).
Proof. intros L c h a values st N. intros. eapply lut1d_total; eauto. apply (goodMaps_total (O := ieee_ord L)). assumption. Qed.
Print Assumptions C23_ieee_lut1d_never_fails.

Example C23_case :
  hasDepths (nheader lutEx) /\ (exists a, lastArray (h_elems (nheader lutEx)) = Some a /\ wellFormed1D a) /\
  goodMaps (N := intNum) [mkIndexMap [0; 4; 8]%Z [0; 1; 2]%Z].
Proof.
  split; [split; eexists; reflexivity|]. split.
  - eexists. split; [reflexivity|]. exists 2, 1, []. repeat split; lia.
  - split; [left; simpl; lia|]. constructor; [|constructor]. split; [discriminate|]. split; [reflexivity|].
    repeat constructor.
Qed.

(** * C24 *)

Theorem C24_cubic_never_works :
  forall (T : Type) (N : Num T) c h (values : list T) st,
    dget (h_attrs h) "interpolation" = Some (AStr "cubic") -> 1 <= st -> st <= List.length values ->
    exists e, nodeProcess c (Node h BLUT1D) values st = Err e.
Proof. exact @lut1d_cubic_fails. Qed.
Print Assumptions C24_cubic_never_works.

Theorem C24_cubic_name_error :
  forall (T : Type) (N : Num T) c h a (values : list T) st,
    hasDepths h -> lastArray (h_elems h) = Some a -> a_dims a <> [] -> indexMaps (h_elems h) = [] ->
    dget (h_attrs h) "interpolation" = Some (AStr "cubic") -> 1 <= st -> st <= List.length values ->
    nodeProcess c (Node h BLUT1D) values st = Err NameError.
Proof. exact @lut1d_cubic_name. Qed.
Print Assumptions C24_cubic_name_error.

Example C24_case :
  nodeProcess 0 (setAttribute lutEx "interpolation" (AStr "cubic")) [1; 0; 1]%Z 3 = Err NameError.
Proof. reflexivity. Qed.

(** * C32 *)

Theorem C32_lut3d_never_fails :
  forall (T : Type) (N : Num T) (O : OrdLaws T) c h a n (values : list T) st,
    hasDepths h -> lastArray (h_elems h) = Some a -> wellFormed3D a n -> goodMaps (indexMaps (h_elems h)) ->
    3 <= st -> is_ok (nodeProcess c (Node h BLUT3D) values st).
Proof. intros. eapply lut3d_total; eauto using goodMaps_total. Qed.
Print Assumptions C32_lut3d_never_fails.

Theorem C32_ieee_lut3d_never_fails :
  forall (L : libm) c h a n (values : list fl) st,
    let N := ieeeNum L in
    hasDepths h -> lastArray (h_elems h) = Some a -> wellFormed3D a n -> goodMaps (indexMaps (h_elems h)) ->
    3 <= st -> is_ok (nodeProcess c (Node h BLUT3D) values st).
Proof. intros L c h a n values st N. intros. eapply lut3d_total; eauto. apply (goodMaps_total (O := ieee_ord L)). assumption. Qed.
Print Assumptions C32_ieee_lut3d_never_fails.

(** An interpolation name the node does not know: colours are only normalised. *)
Theorem C32_unknown_interpolation :
  forall (T : Type) (N : Num T) c h a d (values : list T) st o i x,
    lastArray (h_elems h) = Some a -> indexMaps (h_elems h) = [] ->
    dget (h_attrs h) "inBitDepth" = Some d ->
    dget (h_attrs h) "interpolation" <> Some (AStr "trilinear") ->
    dget (h_attrs h) "interpolation" <> Some (AStr "tetrahedral") ->
    1 <= st -> nodeProcess c (Node h BLUT3D) values st = Ok o ->
    i < List.length values / st * st -> nth_error values i = Some x ->
    nth_error (po_out o) i = Some (if Nat.ltb (i mod st) 3 then nf32 (bitDepthToNormalized x d) else x).
Proof. exact @lut3d_unknown. Qed.
Print Assumptions C32_unknown_interpolation.

Definition lut3dEx (interp : string) : node Z :=
  setArray3D (newLUT3D (AStr "8i") z32 (AStr "l") (AStr "l") (AStr interp)) [2; 2; 2]
    [0;0;0; 0;0;9; 0;9;0; 0;9;9; 9;0;0; 9;0;9; 9;9;0; 9;9;9]%Z "string".
Example C32_case :
  (exists a, lastArray (h_elems (nheader (lut3dEx "tetrahedral"))) = Some a /\ wellFormed3D a 2) /\
  outcome (nodeProcess 0 (lut3dEx "tetrahedral") [255; 0; 300; 7]%Z 4) = Ok [9; 0; 9; 7]%Z /\
  outcome (nodeProcess 0 (lut3dEx "nearest") [255; 0; 300; 7]%Z 4) = Ok [1; 0; 1; 7]%Z.
Proof.
  split; [|split; reflexivity]. eexists. split; [reflexivity|]. split; [exists [3]; reflexivity|]. split; [lia|reflexivity].
Qed.

(** * C36 *)

(** Autodesk style names. *)
Theorem C36_style_gate :
  forall (T : Type) (N : Num T) c h v s s' (values : list T) st,
    In (s, s') autodeskCDL -> hasDepths h ->
    (autodesk_on c = true ->
       nodeProcess c (Node (withStyle h s) (BCDL v)) values st = nodeProcess c (Node (withStyle h s') (BCDL v)) values st) /\
    (autodesk_on c = false -> 3 <= st ->
       nodeProcess c (Node (withStyle h s) (BCDL v)) values st = Err UnsupportedExtensionError).
Proof. exact @cdl_style_gate. Qed.
Print Assumptions C36_style_gate.

Theorem C36_unknown_style :
  forall (T : Type) (N : Num T) c h v s (values : list T) st o,
    dget (h_attrs h) "style" = Some (AStr s) -> ~ In s knownCDL -> 1 <= st ->
    nodeProcess c (Node h (BCDL v)) values st = Ok o ->
    forall i, i < List.length values / st * st -> nth_error (po_out o) i = nth_error values i.
Proof. exact @cdl_unknown_style. Qed.
Print Assumptions C36_unknown_style.

Theorem C36_color_correction_fails :
  forall (T : Type) (N : Num T) c dIn dOut id name style (values : list T) st,
    3 <= st -> nodeProcess c (newColorCorrection dIn dOut id name style) values st = Err KeyError.
Proof. exact @color_correction_fails. Qed.
Print Assumptions C36_color_correction_fails.

Definition cdlEx (style : string) : node Z :=
  setOffset (setSlope (newASCCDL z32 z32 (AStr "c") (AStr "c") (AStr style)) 2%Z 3%Z 4%Z) 1%Z 1%Z 1%Z.
Example C36_case :
  nodeProcess 0 (cdlEx "noClampFwd") [1; 2; 3]%Z 3 = Err UnsupportedExtensionError /\
  nodeProcess 1 (cdlEx "noClampFwd") [1; 2; 3]%Z 3 = nodeProcess 1 (cdlEx "FwdNoClamp") [1; 2; 3]%Z 3 /\
  is_ok (nodeProcess 1 (cdlEx "FwdNoClamp") [1; 2; 3]%Z 3) /\
  outcome (nodeProcess 1 (cdlEx "forward") [1; 2; 3]%Z 3) = Ok [1; 2; 3]%Z.
Proof.
  split; [vm_compute; reflexivity|]. split; [vm_compute; reflexivity|].
  split; [eexists; vm_compute; reflexivity|vm_compute; reflexivity].
Qed.

(** * C41 *)

Theorem C41_needs_three_channels :
  forall (T : Type) (N : Num T) c h b s (values : list T) st,
    dget (h_attrs h) "style" = Some s -> knownStyle b s -> 1 <= st < 3 -> st <= List.length values ->
    exists e, nodeProcess c (Node h b) values st = Err e.
Proof. exact @needs_three. Qed.
Print Assumptions C41_needs_three_channels.

(** ASC_CDL hands short pixels back. *)
Theorem C41_cdl_accepts_short_pixels :
  forall (T : Type) (N : Num T) c h v (values : list T) st,
    1 <= st < 3 -> nodeProcess c (Node h (BCDL v)) values st = Ok {| po_in := values; po_out := values; po_same := true |}.
Proof. exact @cdl_few_channels. Qed.
Print Assumptions C41_cdl_accepts_short_pixels.

(** Matrix accepts them if it is small enough (LUT1D: [C23_lut1d_never_fails],
    Range: [C06_range_fails]). *)
Theorem C41_matrix_accepts_short_pixels :
  forall (T : Type) (N : Num T) c (h : header T) values st a d0 d1 rest,
    hasDepths h -> lastArray (h_elems h) = Some a ->
    a_dims a = d0 :: d1 :: rest -> (d1 = d0 \/ d1 = d0 + 1) -> List.length (a_vals a) = d0 * d1 ->
    d0 <= st -> 1 <= st -> is_ok (nodeProcess c (Node h BMatrix) values st).
Proof. exact @accepts_short. Qed.
Print Assumptions C41_matrix_accepts_short_pixels.

Example C41_case :
  nodeProcess 0 ecEx [1; 2]%Z 2 = Err IndexError /\
  nodeProcess 0 (newLog z32 z32 (AStr "l") (AStr "l") (AStr "log10")) [1; 2]%Z 2 = Err IndexError /\
  nodeProcess 0 (newGamma z32 z32 (AStr "l") (AStr "l") (AStr "basicFwd")) [1]%Z 1 = Err IndexError.
Proof. repeat split. Qed.
