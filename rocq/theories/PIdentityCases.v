(** Identity tables that are not exact, and concrete identities. *)
From Coq Require Import Reals Lra Lia ZArith List String.
From Flocq Require Import Core BinarySingleNaN.
From Verif Require Import SpecSame PBase PHalfLut PIeee PIeeeArith PRound PRelative PIdentity.
Import ListNotations.
Local Open Scope string_scope.
Local Open Scope list_scope.
Local Open Scope R_scope.

Section Cases.
  Variable L : libm.
  #[local] Instance NIc : Num fl := ieeeNum L.

  (** The float32 numbers nearest to 0, 1/m, ..., 1. *)
  Definition evenly (m : nat) : list fl := map (fun k => nf32 (ndiv (nofZ (Z.of_nat k)) (nofZ (Z.of_nat m)))) (seq 0 (S m)).
  Definition identityTable (m : nat) : array fl :=
    {| a_dims := [S m; 1%nat]; a_vals := evenly m; a_dt := DtF32; a_raw := false; a_int := false; a_enc := "string" |}.
  Definition identityLUT (m : nat) : header fl :=
    {| h_attrs := [("inBitDepth", AStr "32f"); ("outBitDepth", AStr "32f")]; h_vals := []; h_dyn := []; h_elems := [EArray (identityTable m)] |}.
  Lemma identityLUT_linear m : isLinearLUT (identityLUT m) (AStr "32f") (identityTable m) (S m).
  Proof.
    repeat split; try reflexivity; try discriminate; [eexists; reflexivity|].
    exists (S m), 1%nat, []. repeat split; try lia. cbn [a_vals identityTable]. unfold evenly. rewrite map_length, seq_length. cbn. lia.
  Qed.

  (** The sample 16777209 / 2^29. *)
  Definition awkward : fl := ndiv (nofZ 16777209) (nofZ 536870912).
  Lemma quotient_value k j : (Z.abs k <= 2 ^ 24)%Z -> (0 <= j < 53)%Z ->
    sg (IZR k * bpow radix2 (- j)) /\ is_finite (ndiv (nofZ k) (nofZ (2 ^ j))) = true /\ B2R (ndiv (nofZ k) (nofZ (2 ^ j)) : fl) = IZR k * bpow radix2 (- j).
  Proof.
    intros Hk Hj. assert (P : (0 < 2 ^ j < 2 ^ 53)%Z) by (split; [apply Z.pow_pos_nonneg; lia|apply Z.pow_lt_mono_r; lia]).
    destruct (ofZ_exact L k) as [Fk Ek]; [lia|]. destruct (ofZ_exact L (2 ^ j)) as [Fd Ed]; [lia|].
    assert (W : IZR (2 ^ j) = bpow radix2 j) by (change (2 ^ j)%Z with (radix2 ^ j)%Z; apply IZR_Zpower; lia). rewrite W in Ed.
    assert (B := bpow_gt_0 radix2 j). assert (I : / bpow radix2 j = bpow radix2 (- j)) by (symmetry; apply bpow_opp).
    assert (S : sg (IZR k * bpow radix2 (- j))).
    { destruct (Z.eq_dec (Z.abs k) (2 ^ 24)) as [E|N]; [|exists k, (- j)%Z; split; [reflexivity|lia]].
      exists (Z.sgn k), (24 - j)%Z. split; [|lia]. rewrite <- (Z.abs_sgn k) at 1. rewrite E, mult_IZR. change (IZR (2 ^ 24)) with (bpow radix2 24).
      unfold Z.sub. rewrite bpow_plus. ring. }
    split; [exact S|].
    assert (H : Rounds (p := 53) (e := 1024) (ndiv (nofZ k) (nofZ (2 ^ j))) (IZR k * bpow radix2 (- j))).
    { replace (IZR k * bpow radix2 (- j)) with (B2R (nofZ k : fl) / B2R (nofZ (2 ^ j) : fl)); [apply div_Rounds; [exact Fk|exact Fd|]; change (B2R (@nofZ fl (ieeeNum L) (2 ^ j)) <> 0); rewrite Ed; lra|].
      change (B2R (@nofZ fl (ieeeNum L) k) / B2R (@nofZ fl (ieeeNum L) (2 ^ j)) = IZR k * bpow radix2 (- j)). rewrite Ek, Ed. unfold Rdiv. now rewrite I. }
    destruct (Rounds_finite _ _ 24 H) as [F E]; [|lia|lia|].
    - rewrite Rabs_mult, (Rabs_pos_eq (bpow _ _)) by apply bpow_ge_0. rewrite <- (Rmult_1_r (bpow radix2 24)). apply Rmult_le_compat; try apply Rabs_pos; try apply bpow_ge_0.
      + rewrite <- abs_IZR. change (bpow radix2 24) with (IZR (2 ^ 24)). now apply IZR_le.
      + change 1 with (bpow radix2 0). apply bpow_le. lia.
    - split; [exact F|]. rewrite E. apply rnd_format. apply sg_format; [exact S|lia|lia].
  Qed.
  (** Tables of 2^j + 1 such entries hold the fractions exactly. *)
  Lemma evenly_entry j k : (j <= 24)%nat -> (k <= 2 ^ j)%nat -> evenEntry j k (nth k (evenly (2 ^ j)) n0).
  Proof.
    intros Hj Hk. unfold evenly. set (f := fun k => nf32 (ndiv (nofZ (Z.of_nat k)) (nofZ (Z.of_nat (2 ^ j))))).
    rewrite (nth_indep _ n0 (f 0%nat)) by (rewrite map_length, seq_length; lia). rewrite map_nth, seq_nth by lia. unfold f. cbn [Nat.add].
    pose proof (two_power j) as W. pose proof (power_small j Hj) as P.
    assert (Ej : Z.of_nat (2 ^ j) = (2 ^ Z.of_nat j)%Z) by (apply eq_IZR; rewrite W; change (2 ^ Z.of_nat j)%Z with (radix2 ^ Z.of_nat j)%Z; symmetry; apply IZR_Zpower; lia).
    rewrite Ej. destruct (quotient_value (Z.of_nat k) (Z.of_nat j)) as (S & F & E); [lia|lia|].
    assert (B : Rabs (IZR (Z.of_nat k) * bpow radix2 (- Z.of_nat j)) < bpow radix2 128).
    { apply Rle_lt_trans with (bpow radix2 24 * 1); [|rewrite Rmult_1_r; apply bpow_lt; lia].
      rewrite Rabs_mult, (Rabs_pos_eq (bpow _ _)) by apply bpow_ge_0. apply Rmult_le_compat; try apply Rabs_pos; try apply bpow_ge_0.
      + rewrite <- abs_IZR. change (bpow radix2 24) with (IZR (2 ^ 24)). apply IZR_le. lia.
      + change 1 with (bpow radix2 0). apply bpow_le. lia. }
    destruct (single_f32 L (ndiv (nofZ (Z.of_nat k)) (nofZ (2 ^ Z.of_nat j)))) as [F1 E1].
    - apply sg_single; [exact F|now rewrite E|now rewrite E].
    - split; [exact F1|]. transitivity (B2R (ndiv (nofZ (Z.of_nat k)) (nofZ (2 ^ Z.of_nat j)) : fl)); [exact E1|]. rewrite E, INR_IZR_INZ, bpow_opp. reflexivity.
  Qed.

  Lemma awkward_value : is_finite awkward = true /\ B2R awkward = IZR 16777209 * bpow radix2 (-29).
  Proof. apply (quotient_value 16777209 29); lia. Qed.
  Lemma awkward_changes : Beqb awkward (linFun L (identityTable 7) (AStr "32f") 0 awkward) = false.
  Proof. vm_compute. reflexivity. Qed.

  Lemma eight_entries c : exists f, actsPerChannel c (Node (identityLUT 7) BLUT1D) f /\
    exists x, isSingle x /\ 0 <= B2R x <= 1 /\ ~ sameNumber x (f 0%nat x).
  Proof.
    exists (linFun L (identityTable 7) (AStr "32f")). split; [apply (linear_acts L c _ _ _ 8); exact (identityLUT_linear 7)|].
    destruct awkward_value as [F E]. exists awkward.
    assert (B : bpow radix2 (-29) = / 536870912) by reflexivity.
    assert (S : sg (B2R awkward)) by (exists 16777209%Z, (-29)%Z; split; [exact E|split; lia]).
    assert (B128 : 1 < bpow radix2 128) by (change 1 with (bpow radix2 0); apply bpow_lt; lia).
    assert (R01 : 0 <= B2R awkward <= 1) by (rewrite E, B; lra).
    split; [split; [exact F|split; [exact (sg_format 24 128 _ S ltac:(lia) ltac:(lia))|rewrite Rabs_pos_eq; lra]]|]. split; [exact R01|].
    intros [H|(_ & _ & H & _)].
    - pose proof awkward_changes as A. rewrite <- H in A. rewrite Beqb_refl in A. rewrite (PIeee.finite_not_nan _ F) in A. discriminate.
    - rewrite E, B in H. lra.
  Qed.
End Cases.
