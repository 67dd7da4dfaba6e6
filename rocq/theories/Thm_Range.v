(** Bit depths and Range: C01 - C04. *)
From Coq Require Import Reals Lra.
From Flocq Require Import BinarySingleNaN.
From Verif Require Import PRange PIeeeRange.
Local Open Scope R_scope.

(** * C01 *)

Theorem C01_normalize_roundtrip :
  forall (v : R) d,
    normalizedToBitDepth (bitDepthToNormalized v d) d = v /\ bitDepthToNormalized (normalizedToBitDepth v d) d = v.
Proof. exact depth_roundtrip. Qed.
Print Assumptions C01_normalize_roundtrip.

Theorem C01_full_scale :
  forall (v : R) d,
    bitDepthSize d = fullScale d /\ bitDepthToNormalized v d = v / fullScale d /\ bitDepthToNormalized (bitDepthSize d) d = 1.
Proof. exact full_scale. Qed.
Print Assumptions C01_full_scale.

Theorem C01_unknown_depth :
  forall (T : Type) (N : Num T) (v : T) d,
    ~ In d [AStr "8i"; AStr "10i"; AStr "12i"; AStr "16i"]%string ->
    bitDepthToNormalized v d = v /\ normalizedToBitDepth v d = v /\ bitDepthSize d = n1.
Proof. exact @unknown_depth. Qed.
Print Assumptions C01_unknown_depth.

Example C01_case : bitDepthToNormalized 51 (AStr "8i") = / 5 /\ ~ In (AStr "16f") [AStr "8i"; AStr "10i"; AStr "12i"; AStr "16i"]%string.
Proof.
  split; [rewrite (proj1 (proj2 (full_scale 51 (AStr "8i")))); cbn; lra|].
  cbn. intros [H|[H|[H|[H|[]]]]]; discriminate.
Qed.

(** * C02 *)

(** A legal-range Range from 8i to 10i, used in the cases below. *)
Definition legal (style : aval) : node R :=
  setMaxOutValue (setMinOutValue (setMaxInValue (setMinInValue
    (newRange (AStr "8i") (AStr "10i") (AStr "r") (AStr "r") style (AStr "")) 16) 235) 0) 1023.
Definition legalData (b : bool) : rangeData :=
  {| r_in := AStr "8i"; r_out := AStr "10i"; r_clamps := b; r_default := false;
     r_minIn := Some 16; r_maxIn := Some 235; r_minOut := Some 0; r_maxOut := Some 1023 |}.
Example C02_data : isRange (nheader (legal (AStr "clamp"))) (legalData true) /\ isRange (nheader (legal (AStr "noClamp"))) (legalData false).
Proof.
  split; (split; [reflexivity|]; split; [reflexivity|]; split; [|split; [|repeat split; reflexivity]]).
  - split; [intros _; right; reflexivity|reflexivity].
  - split; [discriminate|]. intro H. exfalso. apply H. reflexivity.
  - split; [discriminate|]. intros [H|H]; discriminate.
  - split; [discriminate|]. intro H. exfalso. apply H. reflexivity.
Qed.

Theorem C02_range_stays_inside :
  forall c h r (values : list R) st o minOut maxOut,
    isRange h r -> r_clamps r = true -> r_minIn r <> None -> r_maxIn r <> None ->
    r_minOut r = Some minOut -> r_maxOut r = Some maxOut -> minOut <= maxOut ->
    nodeProcess c (Node h BRange) values st = Ok o -> Forall (fun y => minOut <= y <= maxOut) (po_out o).
Proof. exact range_inside. Qed.
Print Assumptions C02_range_stays_inside.

(** IEEE arithmetic, any inputs (NaN and infinities included), any limits that
    compare: results are numbers between the two stored limits, and NaN goes to
    the lower one. *)
Theorem C02_ieee_range_stays_inside :
  forall (L : libm) c (h : header fl) dIn dOut minIn maxIn minOut maxOut values st o,
    let N := ieeeNum L in
    dget (h_attrs h) "inBitDepth" = Some dIn -> dget (h_attrs h) "outBitDepth" = Some dOut ->
    (dget (h_attrs h) "style" = None \/ dget (h_attrs h) "style" = Some (AStr "clamp")) ->
    dget (h_vals h) "minInValue" = Some minIn -> dget (h_vals h) "maxInValue" = Some maxIn ->
    dget (h_vals h) "minOutValue" = Some minOut -> dget (h_vals h) "maxOutValue" = Some maxOut ->
    Bleb minOut maxOut = true ->
    nodeProcess c (Node h BRange) values st = Ok o ->
    forall i x y, nth_error values i = Some x -> nth_error (po_out o) i = Some y ->
      Bleb (limitSample dOut minOut) y = true /\ Bleb y (limitSample dOut maxOut) = true /\
      (is_nan x = true -> Bleb y (limitSample dOut minOut) = true).
Proof. exact range_inside_ieee. Qed.
Print Assumptions C02_ieee_range_stays_inside.

(** NaN, -infinity, +infinity and 1e300 through a clamping 8i to 8i Range. *)
Example C02_case : forall L : libm,
  let N := ieeeNum L in
  let n := setMaxOutValue (setMinOutValue (setMaxInValue (setMinInValue
     (newRange (AStr "8i") (AStr "8i") (AStr "r") (AStr "r") (AStr "clamp") (AStr "")) (nofZ 16)) (nofZ 235)) (nofZ 0)) (nofZ 255) in
  match nodeProcess 0 n [B754_nan; B754_infinity true; B754_infinity false; nofZ (10 ^ 300)] 1 with
  | Ok o => map B2SF (po_out o) = map B2SF [nofZ 0; nofZ 0; nofZ 255; nofZ 255]
  | Err _ => False
  end.
Proof. intro L. vm_compute. reflexivity. Qed.

(** * C03 *)

(** In noClamp style: the affine map through the anchors, in code values; the bit
    depths do not enter. *)
Theorem C03_affine :
  forall c h r minIn maxIn minOut maxOut,
    isRange h r -> r_minIn r = Some minIn -> r_maxIn r = Some maxIn -> r_minOut r = Some minOut -> r_maxOut r = Some maxOut ->
    r_clamps r = false -> minIn <> maxIn ->
    actsPerSample c (Node h BRange) (through minIn minOut maxIn maxOut).
Proof. exact range_affine. Qed.
Print Assumptions C03_affine.

Theorem C03_clamping :
  forall c h r minIn maxIn minOut maxOut,
    isRange h r -> r_minIn r = Some minIn -> r_maxIn r = Some maxIn -> r_minOut r = Some minOut -> r_maxOut r = Some maxOut ->
    r_clamps r = true -> minIn < maxIn -> minOut <= maxOut ->
    exists f, actsPerSample c (Node h BRange) f /\ f minIn = minOut /\ f maxIn = maxOut /\
      (forall x, minIn <= x <= maxIn -> f x = through minIn minOut maxIn maxOut x) /\
      (forall x, x <= minIn -> f x = minOut) /\ (forall x, maxIn <= x -> f x = maxOut) /\
      (forall x y, x <= y -> f x <= f y).
Proof. exact range_clamped. Qed.
Print Assumptions C03_clamping.

Theorem C03_exchanged_is_inverse :
  forall c h h' r minIn maxIn minOut maxOut st values o,
    isRange h r -> isRange h' (exchanged r) ->
    r_minIn r = Some minIn -> r_maxIn r = Some maxIn -> r_minOut r = Some minOut -> r_maxOut r = Some maxOut ->
    minIn < maxIn -> minOut < maxOut ->
    (r_clamps r = true -> Forall (fun x => minIn <= x <= maxIn) values) ->
    nodeProcess c (Node h BRange) values st = Ok o ->
    outcome (nodeProcess c (Node h' BRange) (po_out o) st) = Ok values.
Proof. exact range_inverse. Qed.
Print Assumptions C03_exchanged_is_inverse.

(** With reversed output limits a clamping Range is the constant maxOutValue. *)
Theorem C03_reversed_clamp_is_constant :
  forall c h r minIn maxIn minOut maxOut,
    isRange h r -> r_minIn r = Some minIn -> r_maxIn r = Some maxIn -> r_minOut r = Some minOut -> r_maxOut r = Some maxOut ->
    r_clamps r = true -> minIn <> maxIn -> maxOut < minOut ->
    actsPerSample c (Node h BRange) (fun _ => maxOut).
Proof. exact range_reversed. Qed.
Print Assumptions C03_reversed_clamp_is_constant.

Example C03_case : forall c, outcome (nodeProcess c (legal (AStr "noClamp")) [16; 235; 254] 3%nat) = Ok [0; 1023; 1023 + 19 * 1023 / 219].
Proof.
  intro c. pose proof (range_affine c _ _ 16 235 0 1023 (proj2 C02_data) eq_refl eq_refl eq_refl eq_refl eq_refl ltac:(lra) 3%nat [16; 235; 254]) as H.
  change (nodeProcess c (legal (AStr "noClamp"))) with (nodeProcess c (Node (nheader (legal (AStr "noClamp"))) BRange)).
  rewrite H. cbn [map]. unfold through. do 2 f_equal; [field|f_equal; [field|f_equal; field]].
Qed.

(** * C04 *)

(** Both minimum limits, but not both maximum limits. *)
Theorem C04_only_minimum :
  forall c h r minIn minOut,
    isRange h r -> r_default r = false -> r_minIn r = Some minIn -> r_minOut r = Some minOut ->
    (r_maxIn r = None \/ r_maxOut r = None) ->
    actsPerSample c (Node h BRange)
      (fun x => let y := minOut + (x - minIn) * (fullScale (r_out r) / fullScale (r_in r)) in
                if r_clamps r then Rmax minOut y else y).
Proof. exact range_only_min. Qed.
Print Assumptions C04_only_minimum.

Theorem C04_only_maximum :
  forall c h r maxIn maxOut,
    isRange h r -> r_default r = false -> r_maxIn r = Some maxIn -> r_maxOut r = Some maxOut ->
    (r_minIn r = None \/ r_minOut r = None) ->
    actsPerSample c (Node h BRange)
      (fun x => let y := maxOut + (x - maxIn) * (fullScale (r_out r) / fullScale (r_in r)) in
                if r_clamps r then Rmin maxOut y else y).
Proof. exact range_only_max. Qed.
Print Assumptions C04_only_maximum.

Theorem C04_no_pair_only_converts :
  forall c h r,
    isRange h r -> r_default r = false -> (r_minIn r = None \/ r_minOut r = None) ->
    (r_maxIn r = None \/ r_maxOut r = None) ->
    actsPerSample c (Node h BRange) (fun x => x * (fullScale (r_out r) / fullScale (r_in r))).
Proof. exact range_no_pair. Qed.
Print Assumptions C04_no_pair_only_converts.

(** With defaultRange, missing limits count as set to 0 and full scale. *)
Theorem C04_default_range :
  forall c h h' r values st,
    isRange h r -> r_default r = true ->
    isRange h' {| r_in := r_in r; r_out := r_out r; r_clamps := r_clamps r; r_default := false;
                  r_minIn := orElse (r_minIn r) 0; r_maxIn := orElse (r_maxIn r) (fullScale (r_in r));
                  r_minOut := orElse (r_minOut r) 0; r_maxOut := orElse (r_maxOut r) (fullScale (r_out r)) |} ->
    nodeProcess c (Node h BRange) values st = nodeProcess c (Node h' BRange) values st.
Proof. exact range_default. Qed.
Print Assumptions C04_default_range.

Example C04_case :
  isRange (nheader (setMinOutValue (setMinInValue (newRange (AStr "8i") (AStr "8i") (AStr "r") (AStr "r") (AStr "clamp") (AStr "")) 16) 0))
    {| r_in := AStr "8i"; r_out := AStr "8i"; r_clamps := true; r_default := false;
       r_minIn := Some 16; r_maxIn := None; r_minOut := Some 0; r_maxOut := None |} /\
  isRange (nheader (setMinOutValue (newRange (AStr "8i") (AStr "16f") (AStr "r") (AStr "r") (AStr "clamp") (AStr "all")) (1/2)))
    {| r_in := AStr "8i"; r_out := AStr "16f"; r_clamps := true; r_default := true;
       r_minIn := None; r_maxIn := None; r_minOut := Some (1/2); r_maxOut := None |}.
Proof.
  split; (split; [reflexivity|]; split; [reflexivity|]; split; [|split; [|repeat split; reflexivity]]).
  - split; [intros _; right; reflexivity|reflexivity].
  - split; [discriminate|]. intro H. exfalso. apply H. reflexivity.
  - split; [intros _; right; reflexivity|reflexivity].
  - split; [intros _; discriminate|reflexivity].
Qed.
