(** A table of doubles that float32 results leave. *)
From Coq Require Import Reals Lra Lia ZArith List String.
From Flocq Require Import Core BinarySingleNaN.
From Verif Require Import SpecBounds PBase PHalfLut PIeee PIeeeArith PIdentityCases.
From Verif Require PIdentity PCloseLut.
Import ListNotations.
Local Open Scope string_scope.
Local Open Scope list_scope.
Local Open Scope R_scope.

Section Third.
  Variable L : libm.
  #[local] Instance NBc : Num fl := ieeeNum L.
  Definition third : fl := ndiv (nofZ 1) (nofZ 3).
  Definition thirdTable : array fl :=
    {| a_dims := [2; 1]%nat; a_vals := [third; third]; a_dt := DtList; a_raw := false; a_int := false; a_enc := "string" |}.
  Definition thirdLUT : header fl :=
    {| h_attrs := [("inBitDepth", AStr "32f"); ("outBitDepth", AStr "32f")]; h_vals := []; h_dyn := []; h_elems := [EArray thirdTable] |}.
  Lemma third_linear : isLinearLUT thirdLUT (AStr "32f") thirdTable 2.
  Proof.
    repeat split; try reflexivity; try discriminate; [eexists; reflexivity|].
    exists 2%nat, 1%nat, []. repeat split; cbn; lia.
  Qed.
  Lemma third_left c : exists f, actsPerChannel c (Node thirdLUT BLUT1D) f /\
    exists x, isSingle x /\ 0 <= B2R x <= 1 /\ ~ liesBetween (entry1D thirdTable 0 0) (entry1D thirdTable 1 0) (f 0%nat x).
  Proof.
    exists (linFun L thirdTable (AStr "32f")). split; [exact (linear_acts L c thirdLUT _ _ _ third_linear)|].
    exists (B754_zero false). split; [|split; [cbn; lra|]].
    - split; [reflexivity|]. split; [cbn; apply generic_format_0|]. change (Rabs 0 < bpow radix2 128). rewrite Rabs_R0. apply bpow_gt_0.
    - intros [F [_ H]].
      assert (C : Bltb (entry1D thirdTable 1 0) (linFun L thirdTable (AStr "32f") 0 (B754_zero false)) = true) by (vm_compute; reflexivity).
      assert (F1 : is_finite (entry1D thirdTable 1 0) = true) by (vm_compute; reflexivity).
      rewrite Bltb_correct in C by assumption. destruct (Rlt_bool_spec (B2R (entry1D thirdTable 1 0)) (B2R (linFun L thirdTable (AStr "32f") 0 (B754_zero false)))); [lra|discriminate].
  Qed.
End Third.

Lemma single_zero : isSingle (B754_zero false).
Proof. split; [reflexivity|]. split; [cbn; apply generic_format_0|]. change (Rabs 0 < bpow radix2 128). rewrite Rabs_R0. apply bpow_gt_0. Qed.
Lemma single_one (L : libm) : isSingle (@nofZ fl (ieeeNum L) 1).
Proof.
  destruct (ofZ_exact L 1) as [F E]; [lia|]. split; [exact F|]. rewrite E. split.
  - change 1 with (bpow radix2 0). apply generic_format_bpow. unfold FLT_exp. lia.
  - rewrite Rabs_R1. change 1 with (bpow radix2 0). apply bpow_lt. lia.
Qed.
Lemma fraction_between (L : libm) j k e : evenEntry j k e -> (k <= 2 ^ j)%nat -> liesBetween (B754_zero false) (@nofZ fl (ieeeNum L) 1) e.
Proof.
  intros [F E] H. destruct (ofZ_exact L 1) as [_ E1]; [lia|]. split; [exact F|]. rewrite E, E1. cbn [B2R].
  pose proof (PIdentity.two_power j) as W. rewrite <- W. assert (P : 0 < IZR (Z.of_nat (2 ^ j))) by (rewrite W; apply bpow_gt_0).
  rewrite <- INR_IZR_INZ in *. split; [apply PCloseLut.div_nonneg; [apply pos_INR|exact P]|].
  apply Rmult_le_reg_r with (INR (2 ^ j)); [exact P|]. unfold Rdiv. rewrite Rmult_assoc, Rinv_l, Rmult_1_r, Rmult_1_l by lra. now apply le_INR.
Qed.
