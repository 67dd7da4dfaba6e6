(** ASC CDL: C33 - C35. *)
From Coq Require Import Reals Lra.
From Flocq Require Import BinarySingleNaN.
From Verif Require Import PIeeeCdl PCdl.
Local Open Scope R_scope.
Local Open Scope list_scope.

(** * C33 *)

(** In the clamping styles every colour sample returned lies in the range of the
    output depth. *)
Theorem C33_in_range :
  forall c h v n (values : list R) st o dOut i y,
    cdlNode h v n -> (3 <= st)%nat -> dget (h_attrs h) "outBitDepth" = Some dOut ->
    (exists s, dget (h_attrs h) "style" = Some (AStr s) /\ In s ["Fwd"; "v1.2_Fwd"; "Rev"; "v1.2_Rev"]%string) ->
    nodeProcess c n values st = Ok o -> (i mod st < 3)%nat -> nth_error (po_out o) i = Some y ->
    0 <= y <= fullScale dOut.
Proof. exact cdl_in_range. Qed.
Print Assumptions C33_in_range.

(** The same in IEEE arithmetic for any bit patterns whatever (NaN and infinities,
    in the pixels and in the parameters), and any pow of the C library. *)
Theorem C33_ieee_in_range :
  forall (L : libm) c (h : header fl) v n values st o dOut i y,
    let N := ieeeNum L in
    (n = Node h (BCDL v) \/ n = Node h (BColorCorrection v)) -> (3 <= st)%nat -> dget (h_attrs h) "outBitDepth" = Some dOut ->
    (exists s, dget (h_attrs h) "style" = Some (AStr s) /\ In s ["Fwd"; "v1.2_Fwd"; "Rev"; "v1.2_Rev"]%string) ->
    nodeProcess c n values st = Ok o -> (i mod st < 3)%nat -> nth_error (po_out o) i = Some y ->
    Bleb (nofZ 0) y = true /\ Bleb y (bitDepthSize dOut) = true.
Proof. exact cdl_in_range_ieee. Qed.
Print Assumptions C33_ieee_in_range.

(** A Rev CDL from 8i to 10i fed NaN, infinity and -7: it returns 0, 1023 and 0. *)
Definition pow1 : libm := {| m_pow := fun x _ => x; m_log10 := fun x => x |}.
Example C33_case :
  let N := ieeeNum pow1 in
  let n := setSaturation (newASCCDL (AStr "8i") (AStr "10i") (AStr "c") (AStr "c") (AStr "Rev")) (nofZ 1) in
  match nodeProcess 0 n [B754_nan; B754_infinity false; nofZ (-7); nofZ 9] 4 with
  | Ok o => map B2SF (po_out o) = map B2SF [nofZ 0; nofZ 1023; nofZ 0; nofZ 9]
  | Err _ => False
  end.
Proof. vm_compute. reflexivity. Qed.

(** * C34 *)

(** A FwdNoClamp CDL [n] against the same one with saturation 1, [m]: same luma;
    [n] is [m] followed by the saturation formula; [m] grades each channel. *)
Theorem C34_luma :
  forall c h v n h1 v1 m dIn dOut s s1,
    cdlNode h v n -> cdlNode h1 v1 m -> isCDL h v "FwdNoClamp" dIn dOut s -> isCDL h1 v1 "FwdNoClamp" dIn dOut s1 ->
    cdSat s1 = 1 ->
    (forall i, (i < 3)%nat -> cdSlope s1 i = cdSlope s i /\ cdOffset s1 i = cdOffset s i /\ cdPower s1 i = cdPower s i) ->
    exists F F1, actsPerColour c n F /\ actsPerColour c m F1 /\
      forall r g b, luma709 (F r g b) = luma709 (F1 r g b) /\
        F r g b = saturate (cdSat s) (F1 r g b) /\
        F1 r g b = mapColour (fun i x => gradeFree s i (x / fullScale dIn) * fullScale dOut) (r, g, b).
Proof. exact cdl_luma. Qed.
Print Assumptions C34_luma.

Theorem C34_neutral :
  forall c h v n dIn dOut s style,
    cdlNode h v n -> isCDL h v style dIn dOut s -> neutral s ->
    (style = "FwdNoClamp"%string -> actsPerChannel c n (fun _ x => x / fullScale dIn * fullScale dOut)) /\
    (style = "Fwd"%string -> actsPerChannel c n (fun _ x => unit01 (x / fullScale dIn) * fullScale dOut)).
Proof. exact cdl_neutral. Qed.
Print Assumptions C34_neutral.

Definition grade1 (style : string) (dIn dOut : aval) (sat : R) : node R :=
  setSaturation (setPower (setOffset (setSlope (newASCCDL dIn dOut (AStr "c") (AStr "c") (AStr style)) 2 2 2) 0 0 0) 2 2 2) sat.
Definition settings1 (sat : R) : cdlSettings := {| cdSlope := fun _ => 2; cdOffset := fun _ => 0; cdPower := fun _ => 2; cdSat := sat |}.
Definition cdlOf (n : node R) : cdl R := match n with Node _ (BCDL v) => v | _ => cdlEmpty end.
Example C34_case : forall style dIn dOut sat,
  cdlNode (nheader (grade1 style dIn dOut sat)) (cdlOf (grade1 style dIn dOut sat)) (grade1 style dIn dOut sat) /\
  isCDL (nheader (grade1 style dIn dOut sat)) (cdlOf (grade1 style dIn dOut sat)) style dIn dOut (settings1 sat).
Proof. intros. split; [left; reflexivity|]. repeat split. Qed.
Definition plain (style : string) (dIn dOut : aval) : node R := newASCCDL dIn dOut (AStr "c") (AStr "c") (AStr style).
Definition settings0 : cdlSettings := {| cdSlope := fun _ => 1; cdOffset := fun _ => 0; cdPower := fun _ => 1; cdSat := 1 |}.
Example C34_neutral_case : forall style dIn dOut,
  cdlNode (nheader (plain style dIn dOut)) (cdlOf (plain style dIn dOut)) (plain style dIn dOut) /\
  isCDL (nheader (plain style dIn dOut)) (cdlOf (plain style dIn dOut)) style dIn dOut settings0 /\ neutral settings0.
Proof. intros. split; [left; reflexivity|]. repeat split. Qed.

(** * C35 *)

(** Where nothing is clamped on the way, Rev undoes Fwd. *)
Theorem C35_rev_undoes_fwd :
  forall c hF vF nF hR vR nR dA dB s,
    cdlNode hF vF nF -> cdlNode hR vR nR -> isCDL hF vF "Fwd" dA dB s -> isCDL hR vR "Rev" dB dA s -> invertible s ->
    exists F G, actsPerColour c nF F /\ actsPerColour c nR G /\
      forall r g b,
        everyChannel (fun _ x => 0 <= x <= fullScale dA) (r, g, b) ->
        everyChannel (fun i x => 0 <= x / fullScale dA * cdSlope s i + cdOffset s i <= 1) (r, g, b) ->
        everyChannel (fun _ y => 0 <= y <= 1)
          (saturate (cdSat s) (mapColour (fun i x => Rpow (x / fullScale dA * cdSlope s i + cdOffset s i) (cdPower s i)) (r, g, b))) ->
        let '(r', g', b') := F r g b in G r' g' b' = (r, g, b).
Proof. exact cdl_rev_fwd. Qed.
Print Assumptions C35_rev_undoes_fwd.

(** RevNoClamp after FwdNoClamp, for every pixel: each channel's slope*x+offset is
    held in [0, 1] on the way back, so the pixel returns exactly when it already
    was there. *)
Theorem C35_noclamp_clamps :
  forall c hF vF nF hR vR nR dA dB s,
    cdlNode hF vF nF -> cdlNode hR vR nR -> isCDL hF vF "FwdNoClamp" dA dB s -> isCDL hR vR "RevNoClamp" dB dA s -> invertible s ->
    exists F G, actsPerColour c nF F /\ actsPerColour c nR G /\
      forall r g b, let '(r', g', b') := F r g b in
        G r' g' b' = mapColour (fun i x => (unit01 (x / fullScale dA * cdSlope s i + cdOffset s i) - cdOffset s i) / cdSlope s i * fullScale dA) (r, g, b).
Proof. exact cdl_revNoClamp. Qed.
Print Assumptions C35_noclamp_clamps.

(** The pixel (0.5, 0.25, 0.125) with slope 2, power 2 and saturation 1/2 meets the
    conditions of the first theorem; (2, 0.5, 0.25) with neutral parameters comes
    back as (1, 0.5, 0.25). *)
Example C35_case :
  invertible (settings1 (1 / 2)) /\
  everyChannel (fun i x => 0 <= x / fullScale (AStr "32f") * 2 + 0 <= 1) (1 / 2, 1 / 4, 1 / 8) /\
  everyChannel (fun _ y => 0 <= y <= 1) (saturate (1 / 2) (1, 1 / 4, 1 / 16)).
Proof.
  split; [split; [cbn; lra|intros; cbn; lra]|]. cbn. lra.
Qed.
Theorem C35_noclamp_refuted : forall c,
  exists F G, actsPerColour c (plain "FwdNoClamp" (AStr "32f") (AStr "32f")) F /\
    actsPerColour c (plain "RevNoClamp" (AStr "32f") (AStr "32f")) G /\
    exists r g b, let '(r', g', b') := F r g b in G r' g' b' = (1, 1 / 2, 1 / 4) /\ (r, g, b) = (2, 1 / 2, 1 / 4).
Proof.
  intro c. destruct (C34_neutral_case "FwdNoClamp" (AStr "32f") (AStr "32f")) as [A1 [A2 _]].
  destruct (C34_neutral_case "RevNoClamp" (AStr "32f") (AStr "32f")) as [B1 [B2 _]].
  destruct (cdl_revNoClamp c _ _ _ _ _ _ _ _ _ A1 B1 A2 B2) as [F [G [HF [HG H]]]].
  { split; [cbn; lra|intros; cbn; lra]. }
  exists F, G. split; [exact HF|]. split; [exact HG|]. exists 2, (1 / 2), (1 / 4).
  specialize (H 2 (1 / 2) (1 / 4)). destruct (F 2 (1 / 2) (1 / 4)) as [[r' g'] b']. split; [|reflexivity].
  rewrite H. unfold mapColour, unit01. cbn [settings0 cdSlope cdOffset]. cbn [fullScale].
  rewrite (Rmax_right 0 (2 / 1 * 1 + 0)), (Rmin_left 1 (2 / 1 * 1 + 0)) by lra.
  rewrite (Rmax_right 0 (1 / 2 / 1 * 1 + 0)), (Rmin_right 1 (1 / 2 / 1 * 1 + 0)) by lra.
  rewrite (Rmax_right 0 (1 / 4 / 1 * 1 + 0)), (Rmin_right 1 (1 / 4 / 1 * 1 + 0)) by lra.
  f_equal; [f_equal|]; field.
Qed.
Print Assumptions C35_noclamp_refuted.
