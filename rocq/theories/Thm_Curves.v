(** Gamma, Log and ExposureContrast: C37 - C40. *)
From Coq Require Import Reals Lra.
From Verif Require Import PEC.
Local Open Scope R_scope.
Local Open Scope list_scope.

(** * C37 *)

(** basicFwd from depth [dA] to [dB] and basicRev back, with the same gamma. *)
Theorem C37_basic_gamma :
  forall c hF psF hR psR dA dB gamma oF oR,
    isGamma hF psF "basicFwd" dA dB gamma oF -> isGamma hR psR "basicRev" dB dA gamma oR ->
    (forall ch, (ch < 3)%nat -> 0 < gamma ch) ->
    exists f g, actsPerChannel c (Node hF (BGamma psF)) f /\ actsPerChannel c (Node hR (BGamma psR)) g /\
      forall ch, (ch < 3)%nat ->
        (forall x, 0 < x -> f ch x = Rpower (x / fullScale dA) (gamma ch) * fullScale dB) /\
        (forall x, x <= 0 -> f ch x = 0) /\
        (forall x, 0 <= x -> g ch (f ch x) = x) /\
        (forall x, x < 0 -> g ch (f ch x) = 0) /\
        (forall y, 0 <= y -> f ch (g ch y) = y) /\
        (forall x y, x <= y -> f ch x <= f ch y).
Proof. exact gamma_basic. Qed.
Print Assumptions C37_basic_gamma.

(** A Gamma with gamma 2.4 for all channels, then 2.2 for green. *)
Definition gammaParamsOf (n : node R) : list (gparam R) := match n with Node _ (BGamma ps) => ps | _ => [] end.
Definition gammaNode (style : string) (dIn dOut : aval) : node R :=
  setGamma (setGamma (newGamma dIn dOut (AStr "g") (AStr "g") (AStr style)) (24 / 10) (55 / 1000) None) (22 / 10) (99 / 1000) (Some "G"%string).
Definition gammas (ch : nat) : R := match ch with 1%nat => 22 / 10 | _ => 24 / 10 end.
Definition offsets (ch : nat) : R := match ch with 1%nat => 99 / 1000 | _ => 55 / 1000 end.
Example C37_case : forall style dIn dOut,
  isGamma (nheader (gammaNode style dIn dOut)) (gammaParamsOf (gammaNode style dIn dOut)) style dIn dOut gammas offsets /\
  forall ch, (ch < 3)%nat -> 1 < gammas ch /\ 0 < offsets ch /\ offsets ch <> gammas ch - 1.
Proof.
  intros. split.
  - split; [reflexivity|]. split; [reflexivity|]. split; [reflexivity|]. split.
    + constructor; [left; reflexivity|constructor; [right; right; left; reflexivity|constructor]].
    + intros ch Hc. destruct ch as [|[|[|]]]; try (split; reflexivity); lia.
  - intros ch Hc. destruct ch as [|[|[|]]]; cbn; try lra; lia.
Qed.

(** * C38 *)

(** moncurveRev against moncurveFwd. With [breakpoint] = offset/(gamma-1): values up
    to it return; so do values whose image exceeds it; every value above it whose
    image does not exceed it comes back too large; unless offset = gamma - 1 there
    are such values. *)
Theorem C38_moncurve :
  forall c hF psF hR psR dA dB gamma offset,
    isGamma hF psF "moncurveFwd" dA dB gamma offset -> isGamma hR psR "moncurveRev" dB dA gamma offset ->
    (forall ch, (ch < 3)%nat -> 1 < gamma ch /\ 0 < offset ch) ->
    exists f g, actsPerChannel c (Node hF (BGamma psF)) f /\ actsPerChannel c (Node hR (BGamma psR)) g /\
      forall ch, (ch < 3)%nat ->
        let breakpoint := offset ch / (gamma ch - 1) in
        (forall x, x <= breakpoint * fullScale dA -> g ch (f ch x) = x) /\
        (forall x, breakpoint * fullScale dA < x -> breakpoint * fullScale dB < f ch x -> g ch (f ch x) = x) /\
        (forall x, breakpoint * fullScale dA < x -> f ch x <= breakpoint * fullScale dB -> x < g ch (f ch x)) /\
        (offset ch <> gamma ch - 1 -> exists x, breakpoint * fullScale dA < x /\ f ch x <= breakpoint * fullScale dB).
Proof. exact gamma_moncurve. Qed.
Print Assumptions C38_moncurve.

(** The forward curve itself. *)
Theorem C38_forward_curve :
  forall c h ps dIn dOut gamma offset,
    isGamma h ps "moncurveFwd" dIn dOut gamma offset -> (forall ch, (ch < 3)%nat -> 1 < gamma ch /\ 0 < offset ch) ->
    exists f, actsPerChannel c (Node h (BGamma ps)) f /\
      forall ch x, (ch < 3)%nat ->
        let breakpoint := offset ch / (gamma ch - 1) in
        let curve u := Rpower ((u + offset ch) / (1 + offset ch)) (gamma ch) in
        (breakpoint < x / fullScale dIn -> f ch x = curve (x / fullScale dIn) * fullScale dOut) /\
        (x / fullScale dIn <= breakpoint -> f ch x = x / fullScale dIn / breakpoint * curve breakpoint * fullScale dOut).
Proof. exact gamma_moncurve_fwd. Qed.
Print Assumptions C38_forward_curve.

(** * C39 *)

(** The pure logarithms, base 10 and base 2. *)
Theorem C39_log_antilog :
  forall c hL psL hA psA (b : R) styleL styleA dA dB sL sA,
    (b = 10 /\ styleL = "log10"%string /\ styleA = "antiLog10"%string) \/ (b = 2 /\ styleL = "log2"%string /\ styleA = "antiLog2"%string) ->
    isLog hL psL styleL dA dB sL -> isLog hA psA styleA dB dA sA ->
    exists f g, actsPerChannel c (Node hL (BLog psL)) (fun _ => f) /\ actsPerChannel c (Node hA (BLog psA)) (fun _ => g) /\
      (forall x, f x = ln (Rmax (x / fullScale dA) floatMin) / ln b * fullScale dB) /\
      (forall y, g y = Rpower b (y / fullScale dB) * fullScale dA) /\
      (forall x, floatMin * fullScale dA <= x -> g (f x) = x) /\
      (forall x, x < floatMin * fullScale dA -> g (f x) = floatMin * fullScale dA) /\
      (forall y, floatMin <= Rpower b (y / fullScale dB) -> f (g y) = y).
Proof. exact log_pure. Qed.
Print Assumptions C39_log_antilog.

(** The Cineon styles. *)
Theorem C39_cineon :
  forall c hT psT hF psF dA dB s,
    isLog hT psT "logToLin" dA dB s -> isLog hF psF "linToLog" dB dA s ->
    (forall ch, (ch < 3)%nat -> lsGamma s ch <> 0 /\ lsHigh s ch <> lsShadow s ch) ->
    exists f g, actsPerChannel c (Node hT (BLog psT)) f /\ actsPerChannel c (Node hF (BLog psF)) g /\
      forall ch, (ch < 3)%nat ->
        let exposure x := Rpower 10 ((1023 * (x / fullScale dA) - lsWhite s ch) * (2 / 1000) / lsGamma s ch) in
        let relative y := blackExposure s ch + (y / fullScale dB - lsShadow s ch) / logGain s ch in
        (forall x, f ch x = ((exposure x - blackExposure s ch) * logGain s ch + lsShadow s ch) * fullScale dB) /\
        (forall y, g ch y = (lsWhite s ch + ln (Rmax floatMin (relative y)) / ln 10 * lsGamma s ch / (2 / 1000)) / 1023 * fullScale dA) /\
        (forall x, floatMin <= exposure x -> g ch (f ch x) = x) /\
        (forall y, floatMin <= relative y -> f ch (g ch y) = y).
Proof. exact log_cineon. Qed.
Print Assumptions C39_cineon.

(** A Log node without parameters, with the defaults in force. *)
Definition logParamsOf (n : node R) : list (lparam R) := match n with Node _ (BLog ps) => ps | _ => [] end.
Definition logNode (style : string) (dIn dOut : aval) : node R := newLog dIn dOut (AStr "l") (AStr "l") (AStr style).
Definition cineonDefault : logSettings :=
  {| lsGamma := fun _ => 6 / 10; lsWhite := fun _ => 685; lsBlack := fun _ => 95; lsHigh := fun _ => 1; lsShadow := fun _ => 0 |}.
Example C39_case : forall style dIn dOut,
  isLog (nheader (logNode style dIn dOut)) (logParamsOf (logNode style dIn dOut)) style dIn dOut cineonDefault /\
  forall ch, (ch < 3)%nat -> lsGamma cineonDefault ch <> 0 /\ lsHigh cineonDefault ch <> lsShadow cineonDefault ch.
Proof.
  intros. split; [|intros; cbn; lra]. split; [reflexivity|]. split; [reflexivity|]. split; [reflexivity|]. split; [constructor|].
  intros. repeat split; reflexivity.
Qed.

(** * C40 *)

(** Style linear maps the colour of every pixel with one curve; the further
    channels of every pixel become those of the first one. *)
Theorem C40_linear :
  forall c h p dIn dOut,
    isEC h "linear" dIn dOut -> 0 < e_pivot p -> 0 < e_contrast p ->
    exists f,
      (forall st values, (3 <= st)%nat -> (st <= List.length values)%nat ->
         outcome (nodeProcess c (Node h (BExposureContrast p)) values st) =
         Ok (perPixel st (fun px => map f (firstn 3 px) ++ skipn 3 (firstn st values)) values)) /\
      (forall x, 0 < x -> f x = e_pivot p * Rpower (Rpower 2 (e_exposure p) * (x / fullScale dIn) / e_pivot p) (e_contrast p) * fullScale dOut) /\
      (forall x, x <= 0 -> f x = 0) /\
      (e_exposure p = 0 -> f (e_pivot p * fullScale dIn) = e_pivot p * fullScale dOut) /\
      (e_exposure p = 0 -> e_contrast p = 1 -> forall x, 0 <= x -> f x = x / fullScale dIn * fullScale dOut).
Proof. exact ec_linear. Qed.
Print Assumptions C40_linear.

(** The pivot is fixed whatever the contrast (also zero or negative). *)
Theorem C40_pivot :
  forall c h p dIn dOut px,
    isEC h "linear" dIn dOut -> 0 < e_pivot p -> e_exposure p = 0 -> (3 <= List.length px)%nat ->
    firstn 3 px = repeat (e_pivot p * fullScale dIn) 3 ->
    outcome (nodeProcess c (Node h (BExposureContrast p)) px (List.length px)) =
    Ok (repeat (e_pivot p * fullScale dOut) 3 ++ skipn 3 px).
Proof. exact ec_pivot. Qed.
Print Assumptions C40_pivot.

Theorem C40_video_fails :
  forall c h p st values dIn dOut,
    isEC h "video" dIn dOut -> 0 < e_pivot p -> (1 <= st)%nat -> (st <= List.length values)%nat ->
    nodeProcess c (Node h (BExposureContrast p)) values st = Err TypeError.
Proof. exact ec_video. Qed.
Print Assumptions C40_video_fails.

(** In any arithmetic and for any parameters. *)
Theorem C40_video_always_fails :
  forall (T : Type) (N : Num T) c (h : header T) p st values,
    hasDepths h -> dget (h_attrs h) "style" = Some (AStr "video") -> (1 <= st)%nat -> (st <= List.length values)%nat ->
    exists e, nodeProcess c (Node h (BExposureContrast p)) values st = Err e.
Proof. exact @ec_video_any. Qed.
Print Assumptions C40_video_always_fails.

Theorem C40_log_fails :
  forall (T : Type) (N : Num T) c (h : header T) p st values,
    hasDepths h -> dget (h_attrs h) "style" = Some (AStr "log") -> (1 <= st)%nat -> (st <= List.length values)%nat ->
    nodeProcess c (Node h (BExposureContrast p)) values st = Err NameError.
Proof. exact @ec_log_any. Qed.
Print Assumptions C40_log_fails.

Definition ecNode (style : string) (contrast : R) : node R :=
  setExposureContrastPivot (newExposureContrast (AStr "8i") (AStr "10i") (AStr "e") (AStr "e") (AStr style)) 0 contrast (18 / 100).
Example C40_case : forall style contrast,
  isEC (nheader (ecNode style contrast)) style (AStr "8i") (AStr "10i") /\ hasDepths (nheader (ecNode style contrast)) /\
  ecNode style contrast = Node (nheader (ecNode style contrast)) (BExposureContrast {| e_exposure := 0; e_contrast := contrast; e_pivot := 18 / 100 |}).
Proof. intros. split; [repeat split|]. split; [split; eexists; reflexivity|reflexivity]. Qed.
