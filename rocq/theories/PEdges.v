(** Inputs outside the range of a LUT3D, infinities and NaN. *)
From Coq Require Import Reals Lra Lia ZArith List String Psatz Arith.
From Flocq Require Import Core BinarySingleNaN.
From Verif Require Import SpecEdges PBase PFacts PAct PReal PIeee PIeeeArith PRound PClose PCloseLut PCloseRange PClose3D PErrorsLut PRelative PPack PIdentity PLut1D PHalfLut PLut3D PBounds.
Import ListNotations.
Local Open Scope string_scope.
Local Open Scope list_scope.
Local Open Scope R_scope.

Section Edges.
  Context (L : libm).
  #[local] Hint Extern 0 (Num fl) => exact (ieeeNum L) : typeclass_instances.

  Lemma clamp_of_nan : clamp (B754_nan : fl) = nofZ 0.
  Proof. reflexivity. Qed.
  Lemma clamp_of_inf b : clamp (B754_infinity b : fl) = if b then nofZ 0 else nofZ 1.
  Proof. destruct b; reflexivity. Qed.
  Lemma clamp_low (p : fl) : is_finite p = true -> B2R p <= 0 -> clamp p = nofZ 0.
  Proof.
    intros F H. destruct (ofZ_exact L 0) as [F0 E0]; [lia|]. unfold clamp, pymin, pymax.
    assert (X : nltb n0 p = false) by (change (Bltb (@nofZ fl (ieeeNum L) 0) p = false); rewrite Bltb_correct by assumption; rewrite E0; apply Rlt_bool_false; exact H).
    rewrite X. reflexivity.
  Qed.
  Lemma clamp_high (p : fl) : is_finite p = true -> 1 <= B2R p -> clamp p = nofZ 1.
  Proof.
    intros F H. destruct (ofZ_exact L 0) as [F0 E0]; [lia|]. destruct (ofZ_exact L 1) as [F1 E1]; [lia|]. unfold clamp, pymin, pymax.
    assert (X : nltb n0 p = true) by (change (Bltb (@nofZ fl (ieeeNum L) 0) p = true); rewrite Bltb_correct by assumption; rewrite E0; apply Rlt_bool_true; lra).
    rewrite X.
    assert (Y : nltb p n1 = false) by (change (Bltb p (@nofZ fl (ieeeNum L) 1) = false); rewrite Bltb_correct by assumption; rewrite E1; apply Rlt_bool_false; exact H).
    rewrite Y. reflexivity.
  Qed.

  Lemma normal_nan d : nf32 (bitDepthToNormalized (B754_nan : fl) d) = B754_nan.
  Proof. unfold bitDepthToNormalized. repeat match goal with |- context [if aval_eqb d ?x then _ else _] => destruct (aval_eqb d x) end; vm_compute; reflexivity. Qed.
  Lemma normal_inf d b : nf32 (bitDepthToNormalized (B754_infinity b : fl) d) = B754_infinity b.
  Proof. unfold bitDepthToNormalized. repeat match goal with |- context [if aval_eqb d ?x then _ else _] => destruct (aval_eqb d x) end; destruct b; vm_compute; reflexivity. Qed.

  Lemma same_position d x y : sameInput (fullScale d) x y ->
    clamp (nf32 (bitDepthToNormalized x d)) = clamp (nf32 (bitDepthToNormalized y d)).
  Proof.
    assert (Lo : forall w, below w -> clamp (nf32 (bitDepthToNormalized w d)) = nofZ 0).
    { intros w [-> |[-> |(F & B & H)]]; [rewrite normal_nan; apply clamp_of_nan|rewrite normal_inf; apply (clamp_of_inf true)|].
      destruct (position_size L d w F B) as (Fp & _ & P & _). apply clamp_low; [exact Fp|exact (P H)]. }
    assert (Hi : forall w, above (fullScale d) w -> clamp (nf32 (bitDepthToNormalized w d)) = nofZ 1).
    { intros w [-> |(F & B & H)]; [rewrite normal_inf; apply (clamp_of_inf false)|].
      destruct (position_size L d w F B) as (Fp & _ & _ & P). apply clamp_high; [exact Fp|exact (P H)]. }
    intros [-> |[[Hx Hy]|[Hx Hy]]]; [reflexivity|rewrite (Lo x Hx), (Lo y Hy); reflexivity|rewrite (Hi x Hx), (Hi y Hy); reflexivity].
  Qed.

  Lemma look_same tet (a : array fl) px px' : (forall k, (k < 3)%nat -> axis a px k = axis a px' k) -> look tet a px = look tet a px'.
  Proof.
    intro H. destruct tet; unfold look; [unfold lookup3DTetrahedral|unfold lookup3DTrilinear];
      rewrite (H 0%nat), (H 1%nat), (H 2%nat) by lia; reflexivity.
  Qed.

  Theorem lut3d_edges c (h : header fl) tet dIn a n :
    isCube h (kindOf tet) dIn a n ->
    exists F, actsPerColour c (Node h BLUT3D) F /\
      forall r g b r' g' b', sameInput (fullScale dIn) r r' -> sameInput (fullScale dIn) g g' -> sameInput (fullScale dIn) b b' -> F r g b = F r' g' b'.
  Proof.
    intro H. exists (cubeFun L tet a dIn). split; [now apply (cube_acts L c h dIn a n)|]. intros r g b r' g' b' Hr Hg Hb.
    set (p := fun x : fl => nf32 (bitDepthToNormalized x dIn)).
    assert (E : look tet a [p r; p g; p b] = look tet a [p r'; p g'; p b']).
    { apply look_same. intros k Hk. pose proof (same_position dIn _ _ Hr) as Er. pose proof (same_position dIn _ _ Hg) as Eg. pose proof (same_position dIn _ _ Hb) as Eb.
      change (clamp (p r) = clamp (p r')) in Er. change (clamp (p g) = clamp (p g')) in Eg. change (clamp (p b) = clamp (p b')) in Eb.
      unfold axis. destruct k as [|[|[|k]]]; [| | |lia]; cbn [getn nth_error bind]; [rewrite Er|rewrite Eg|rewrite Eb]; reflexivity. }
    change (cubeFun L tet a dIn r g b) with (match look tet a [p r; p g; p b] with Ok [x; y; z] => (nf32 x, nf32 y, nf32 z) | _ => (n0, n0, n0) end).
    rewrite E. reflexivity.
  Qed.
End Edges.

Lemma edge_inputs (L : libm) : let N := ieeeNum L in
  sameInput (fullScale (AStr "16f")) B754_nan (B754_zero false) /\ sameInput (fullScale (AStr "16f")) (B754_infinity true) (B754_zero false) /\
  sameInput (fullScale (AStr "16f")) (B754_infinity false) (nofZ 2) /\ ~ sameInput (fullScale (AStr "16f")) (B754_zero false) (nofZ 1).
Proof.
  cbv zeta. change (fullScale (AStr "16f")) with 1.
  destruct (ofZ_exact L 1) as [F1 E1]; [lia|]. destruct (ofZ_exact L 2) as [F2 E2]; [lia|].
  assert (Z : below (B754_zero false)).
  { right. right. split; [reflexivity|]. change (B2R (B754_zero false)) with 0. rewrite Rabs_R0. split; [apply bpow_ge_0|lra]. }
  split; [right; left; split; [now left|exact Z]|]. split; [right; left; split; [right; now left|exact Z]|]. split.
  - right. right. split; [now left|]. right. split; [exact F2|]. rewrite E2. split; [|lra].
    rewrite Rabs_pos_eq by lra. change 2 with (bpow radix2 1). apply bpow_le. lia.
  - intros [H|[[_ H]|[H _]]].
    + apply (f_equal B2R) in H. rewrite E1 in H. cbn [B2R] in H. lra.
    + destruct H as [H|[H|(_ & _ & H)]]; [rewrite H in F1; discriminate F1|rewrite H in F1; discriminate F1|rewrite E1 in H; lra].
    + destruct H as [H|(_ & _ & H)]; [discriminate H|change (B2R (B754_zero false)) with 0 in H; lra].
Qed.
