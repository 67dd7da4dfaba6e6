(** LUT1D nodes in IEEE arithmetic: half domain (C26), non-finite values (C23). *)
From Coq Require Import Reals Lra.
From Flocq Require Import BinarySingleNaN.
From Verif Require Import PHalfLut.
Local Open Scope R_scope.

(** * C26 *)

(** The colour channels of every pixel are looked up one by one; for a value [x]
    that normalises to the float32 [p]: *)
Theorem C26_half_domain :
  forall (L : libm), let N := ieeeNum L in
  forall c h dIn a,
    isHalfLUT h dIn a ->
    exists f, actsPerChannel c (Node h BLUT1D) f /\
      forall ch x, (ch < 3)%nat ->
        let p := nf32 (bitDepthToNormalized x dIn) in
        (is_nan p = true -> f ch x = nf32 (entryAt L a 31745 ch)) /\
        (Bleb (nofZ 65520) p = true -> f ch x = nf32 (entryAt L a 31744 ch)) /\
        (Bleb p (nofZ (-65520)) = true -> f ch x = nf32 (entryAt L a 64512 ch)) /\
        (is_finite p = true -> Rabs (B2R p) < 65520 ->
           exists k1 k2 r, halfWeight L p k1 k2 r /\
             f ch x = nf32 (nadd (nmul (nsub n1 r) (entryAt L a k1 ch)) (amul (a_dt a) r (entryAt L a k2 ch)))).
Proof. exact half_domain. Qed.
Print Assumptions C26_half_domain.

(** A value that is exactly a half gets the entry of its code, when the entries
    are finite. *)
Theorem C26_exact_halfs :
  forall (L : libm), let N := ieeeNum L in
  forall c h dIn a,
    isHalfLUT h dIn a ->
    exists f, actsPerChannel c (Node h BLUT1D) f /\
      forall ch x k, (ch < 3)%nat -> finiteCode k ->
        (forall j, finiteCode j -> is_finite (entryAt L a j ch) = true) ->
        let p := nf32 (bitDepthToNormalized x dIn) in
        is_finite p = true -> B2R p = halfNumber k -> Bsign p = negativeCode k ->
        sameNumber (f ch x) (nf32 (entryAt L a k ch)).
Proof. exact half_exact. Qed.
Print Assumptions C26_exact_halfs.

(** Without that condition it is false: an infinite neighbouring entry turns the
    entry of an exact half into NaN. *)
Theorem C26_exact_halfs_refuted :
  forall (L : libm), let N := ieeeNum L in
  forall c, exists h a k x,
    isHalfLUT h (AStr "32f") a /\ finiteCode k /\ is_finite x = true /\ B2R x = halfNumber k /\ Bsign x = negativeCode k /\
    is_finite (entryAt L a k 0) = true /\
    exists f, actsPerChannel c (Node h BLUT1D) f /\ is_nan (f 0%nat x) = true.
Proof. exact half_spike. Qed.
Print Assumptions C26_exact_halfs_refuted.

(** A table of 65536 ones on a header asking for the half domain. *)
Definition flatArray (L : libm) : array fl :=
  {| a_dims := [(256 * 256)%nat; 1%nat]; a_vals := repeat (@n1 fl (ieeeNum L)) (256 * 256);
     a_dt := DtList; a_raw := false; a_int := false; a_enc := "string" |}.
Example C26_case (L : libm) :
  isHalfLUT (halfHeader (flatArray L)) (AStr "32f") (flatArray L) /\
  (forall j, finiteCode j -> is_finite (entryAt L (flatArray L) j 0) = true) /\
  finiteCode 15360 /\ halfNumber 15360 = 1 /\ halfNumber 48640 = - (3 / 2) /\
  B2R (@n1 fl (ieeeNum L)) = halfNumber 15360 /\ Bsign (@n1 fl (ieeeNum L)) = negativeCode 15360.
Proof.
  split; [apply halfHeader_is|].
  - exists (256 * 256)%nat, 1%nat, []. cbn [flatArray a_dims a_vals]. rewrite repeat_length. repeat split; lia.
  - reflexivity.
  - split.
    + intros j Hj. unfold entryAt, entry1D, flatArray. cbn [a_dims a_vals].
      rewrite (nth_indep _ _ (@n1 fl (ieeeNum L))) by (rewrite repeat_length; destruct Hj; lia).
      rewrite nth_repeat. vm_compute. reflexivity.
    + split; [left; lia|]. assert (E : halfNumber 15360 = 1) by (unfold halfNumber, halfMagnitude; cbn; lra).
      split; [exact E|]. split; [unfold halfNumber, halfMagnitude; cbn; lra|]. split; [|vm_compute; reflexivity].
      rewrite E. destruct (ofZ_exact L 1) as [_ F]; [lia|exact F].
Qed.

(** * C23 *)

(** Under linear interpolation NaN gives NaN and an infinity gives that infinity
    (NaN for a table of one entry). *)
Theorem C23_ieee_nonfinite :
  forall (L : libm), let N := ieeeNum L in
  forall c h dIn a n,
    isLinearLUT h dIn a n ->
    exists f, actsPerChannel c (Node h BLUT1D) f /\
      forall ch x, (ch < 3)%nat ->
        let p := nf32 (bitDepthToNormalized x dIn) in
        (is_nan p = true -> f ch x = B754_nan) /\
        (forall s, p = B754_infinity s -> f ch x = if (n <=? 1)%nat then B754_nan else B754_infinity s).
Proof. exact linear_nonfinite. Qed.
Print Assumptions C23_ieee_nonfinite.

Definition rampArray (L : libm) : array fl :=
  {| a_dims := [2%nat; 1%nat]; a_vals := [@n0 fl (ieeeNum L); @n1 fl (ieeeNum L)];
     a_dt := DtF32; a_raw := false; a_int := false; a_enc := "string" |}.
Definition rampHeader (L : libm) : header fl :=
  {| h_attrs := [("inBitDepth", AStr "10i"); ("outBitDepth", AStr "32f")]; h_vals := []; h_dyn := []; h_elems := [EArray (rampArray L)] |}.
Example C23_ieee_case (L : libm) :
  isLinearLUT (rampHeader L) (AStr "10i") (rampArray L) 2 /\
  @nf32 fl (ieeeNum L) (bitDepthToNormalized (N := ieeeNum L) (B754_infinity true) (AStr "10i")) = B754_infinity true.
Proof.
  split; [|apply B2SF_inj; vm_compute; reflexivity].
  repeat split; try reflexivity; try discriminate; [eexists; reflexivity|].
  exists 2%nat, 1%nat, []. repeat split; cbn; lia.
Qed.
