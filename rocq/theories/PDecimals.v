(** Printing with a number of decimals and reading, as IEEE doubles. *)
From Coq Require Import Reals Lra Psatz ZArith Bool.
From Flocq Require Import Core BinarySingleNaN.
From Verif Require Import PIeee PIeeeArith PTextIeee PXmlIeee SpecLut.
Local Open Scope R_scope.

Lemma ten_pow k : IZR (10 ^ Z.of_nat k) = 10 ^ k.
Proof. rewrite pow_IZR. reflexivity. Qed.
Lemma ten_pos k : 1 <= 10 ^ k.
Proof. apply pow_R1_Rle. lra. Qed.

Lemma fixed_near_k k s m e B : let x := (B754_finite s m e B : fl) in
  let z := rneDiv (fracNum m e * 10 ^ Z.of_nat k) (fracDen e) in
  (0 <= z)%Z /\ Rabs (signed s (IZR z) / 10 ^ k - B2R x) <= / 2 / 10 ^ k /\
  ((0 <= e)%Z -> signed s (IZR z) / 10 ^ k = B2R x).
Proof.
  intros x z. pose proof (fracNum_pos m e) as Hn. pose proof (fracDen_pos e) as Hd.
  pose proof (ten_pow k) as T. pose proof (ten_pos k) as P.
  split; [apply rneDiv_nonneg; [|exact Hd]; apply Z.mul_nonneg_nonneg; [lia|apply Z.pow_nonneg; lia]|].
  subst x. rewrite frac_value, signed_div. split.
  - rewrite signed_abs. pose proof (rneDiv_near (fracNum m e * 10 ^ Z.of_nat k) (fracDen e) Hd) as N. fold z in N.
    apply IZR_le in N. rewrite abs_IZR, mult_IZR, minus_IZR, !mult_IZR in N. rewrite T in N.
    apply IZR_lt in Hd. set (d := IZR (fracDen e)) in *. set (n := IZR (fracNum m e)) in *. set (v := IZR z) in *.
    set (t := 10 ^ k) in *. clearbody t.
    replace (v / t - n / d) with ((2 * (v * d - n * t)) * (/ 2 / t / d)) by (field; lra).
    assert (Q : 0 < / 2 / t / d) by (apply Rdiv_lt_0_compat; [apply Rdiv_lt_0_compat; lra|exact Hd]).
    rewrite Rabs_mult, (Rabs_pos_eq (/ 2 / t / d)) by lra.
    apply Rle_trans with (d * (/ 2 / t / d)); [apply Rmult_le_compat_r; [lra|exact N]|right; field; lra].
  - intro E. f_equal. subst z. unfold fracDen. replace (Z.max 0 (- e)) with 0%Z by lia. change (2 ^ 0)%Z with 1%Z.
    rewrite rneDiv_1, mult_IZR, T. field. lra.
Qed.

Lemma fixed_kept k (x : fl) : atDecimals k x (flRound (flFixed k x)).
Proof.
  unfold atDecimals. pose proof (ten_pos k) as P. destruct x as [s|s| |s m e B]; cbn [is_finite].
  - exists 0%Z. cbn [flFixed flRound B2R is_finite Bsign]. repeat split.
    + replace (0 / 10 ^ k - 0) with 0 by (field; lra). rewrite Rabs_R0. apply Rlt_le, Rdiv_lt_0_compat; lra.
    + replace (IZR 0 / 10 ^ k) with 0 by (field; lra). symmetry. apply round_0. apply valid_rnd_N.
  - reflexivity.
  - reflexivity.
  - cbn [flFixed]. set (z := rneDiv (fracNum m e * 10 ^ Z.of_nat k) (fracDen e)).
    destruct (fixed_near_k k s m e B) as (Hz & Near & Exact). fold z in Hz, Near, Exact.
    destruct (flRound_dec s (Z.to_N z) (- Z.of_nat k)) as [R S]. set (d := flRound (NumDec s (Z.to_N z) (- Z.of_nat k))) in *.
    assert (V : signed s (decR (Z.to_N z) (- Z.of_nat k)) = signed s (IZR z) / 10 ^ k).
    { rewrite signed_div. f_equal. unfold decR. rewrite Z2N.id by exact Hz. unfold Rdiv. f_equal.
      rewrite powerRZ_neg' by lra. f_equal. symmetry. apply pow_powerRZ. }
    rewrite V in R. exists (if s then - z else z)%Z. rewrite <- signed_IZR.
    assert (F : Rabs (rnd (p:=53) (e:=1024) (signed s (IZR z) / 10 ^ k)) < bpow radix2 1024).
    { destruct (Z_lt_le_dec e 0) as [E|E].
      - assert (X : Rabs (B2R (B754_finite s m e B : fl)) <= bpow radix2 52).
        { cbn [B2R]. rewrite <- F2R_Zabs. rewrite abs_cond_Zopp. unfold F2R. cbn [Fnum Fexp].
          destruct (float_bounds _ _ B) as (M & _). apply Rle_trans with (IZR (2 ^ 53) * bpow radix2 (-1)).
          - apply Rmult_le_compat; [apply IZR_le; lia|apply bpow_ge_0|apply IZR_le; cbn [Z.abs]; lia|apply bpow_le; lia].
          - change (IZR (2 ^ 53)) with (bpow radix2 53). rewrite <- bpow_plus. apply bpow_le. lia. }
        assert (Y : Rabs (signed s (IZR z) / 10 ^ k) <= bpow radix2 53).
        { change (bpow radix2 53) with 9007199254740992 in *. change (bpow radix2 52) with 4503599627370496 in X.
          pose proof (Rabs_triang_inv (signed s (IZR z) / 10 ^ k) (B2R (B754_finite s m e B : fl))).
          assert (/ 2 / 10 ^ k <= 1); [|lra]. apply Rmult_le_reg_r with (10 ^ k); [lra|].
          unfold Rdiv. rewrite Rmult_assoc, Rinv_l by lra. lra. }
        apply Rle_lt_trans with (bpow radix2 53); [|apply bpow_lt; lia].
        apply abs_round_le_generic; [apply fexp_valid|apply valid_rnd_N| |exact Y].
        apply generic_format_bpow. unfold SpecFloat.fexp, SpecFloat.emin. lia.
      - rewrite (Exact E). rewrite rnd_id. apply abs_B2R_lt_emax. }
    unfold Rounds in R. rewrite Rlt_bool_true in R by exact F. destruct R as [Fd Bd].
    split; [exact Near|]. split; [exact Fd|]. split; [exact Bd|exact S].
Qed.
