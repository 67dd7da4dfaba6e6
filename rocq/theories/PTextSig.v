(** str() of a double: the nearest decimal of twelve digits, and why printing what
    was read prints the same. *)
From Coq Require Import Reals Lra Lia ZArith NArith Nnat Psatz.
From Flocq Require Import Core BinarySingleNaN.
From Verif Require Import NumFText PIeee PNumText PTextIeee PXmlIeee SpecWrite PIeeeArith PPack.
Local Open Scope R_scope.

Notation P10 := (powerRZ 10).
Lemma P10_pos k : 0 < P10 k. Proof. apply powerRZ_lt. lra. Qed.
Lemma P10_add a b : P10 (a + b) = P10 a * P10 b. Proof. apply powerRZ_add. lra. Qed.
Lemma P10_le a b : (a <= b)%Z -> P10 a <= P10 b.
Proof.
  intro H. replace b with (a + (b - a))%Z by lia. rewrite P10_add, (powerRZ_Z (b - a)) by lia.
  rewrite <- (Rmult_1_r (P10 a)) at 1. apply Rmult_le_compat_l; [apply Rlt_le, P10_pos|].
  apply IZR_le. pose proof (Z.pow_pos_nonneg 10 (b - a)). lia.
Qed.

Lemma decLength_spec n : (0 < n)%Z -> (0 < decLength n)%Z /\ (10 ^ (decLength n - 1) <= n < 10 ^ decLength n)%Z.
Proof.
  intro H. unfold decLength. pose proof (decimal_length (Z.to_N n) ltac:(lia)) as D.
  pose proof (decimal_nonempty (Z.to_N n)) as Ne.
  assert (L : (0 < List.length (decimal (Z.to_N n)))%nat) by (destruct (decimal (Z.to_N n)); [contradiction|cbn; lia]).
  set (l := List.length (decimal (Z.to_N n))) in *. clearbody l. split; [lia|].
  destruct D as [D1 D2]. apply N2Z.inj_le in D1. apply N2Z.inj_lt in D2. rewrite !N2Z.inj_pow in *.
  rewrite !Z2N.id in D1, D2 by lia. rewrite N2Z.inj_sub in D1 by lia. rewrite nat_N_Z in *. auto.
Qed.

Lemma decExp_spec n d : (0 < n)%Z -> (0 < d)%Z -> P10 (decExp n d) * IZR d <= IZR n < P10 (decExp n d + 1) * IZR d.
Proof.
  intros Hn Hd. unfold decExp. destruct (Z.leb_spec d n) as [L|L].
  - assert (Q : (0 < n / d)%Z) by (apply Z.div_str_pos; lia). destruct (decLength_spec _ Q) as [Lp [L1 L2]].
    replace (decLength (n / d) - 1 + 1)%Z with (decLength (n / d)) by lia. rewrite !powerRZ_Z by lia. rewrite <- !mult_IZR.
    pose proof (Z.div_mod n d ltac:(lia)) as DM. pose proof (Z.mod_pos_bound n d Hd).
    split; [apply IZR_le|apply IZR_lt]; nia.
  - assert (Q : (0 < (d - 1) / n)%Z) by (apply Z.div_str_pos; lia). destruct (decLength_spec _ Q) as [Lp [L1 L2]].
    set (l := decLength ((d - 1) / n)) in *. clearbody l.
    pose proof (Z.div_mod (d - 1) n ltac:(lia)) as DM. pose proof (Z.mod_pos_bound (d - 1) n Hn).
    assert (A : (d <= n * 10 ^ l)%Z) by nia. assert (B : (n * 10 ^ (l - 1) < d)%Z) by nia.
    apply IZR_le in A. apply IZR_lt in B. rewrite mult_IZR in A, B. rewrite <- powerRZ_Z in A, B by lia.
    pose proof (P10_pos l) as Pl. pose proof (P10_pos (l - 1)) as Pl1.
    assert (E1 : P10 (- l) * P10 l = 1) by (rewrite <- P10_add; replace (- l + l)%Z with 0%Z by lia; reflexivity).
    assert (E2 : P10 (- l + 1) * P10 (l - 1) = 1) by (rewrite <- P10_add; replace (- l + 1 + (l - 1))%Z with 0%Z by lia; reflexivity).
    pose proof (P10_pos (- l)) as P1. pose proof (P10_pos (- l + 1)) as P2. split.
    + apply Rle_trans with (P10 (- l) * (IZR n * P10 l)); [apply Rmult_le_compat_l; lra|]. right.
      replace (P10 (- l) * (IZR n * P10 l)) with (IZR n * (P10 (- l) * P10 l)) by ring. rewrite E1. ring.
    + apply Rle_lt_trans with (P10 (- l + 1) * (IZR n * P10 (l - 1))); [right|apply Rmult_lt_compat_l; lra].
      replace (P10 (- l + 1) * (IZR n * P10 (l - 1))) with (IZR n * (P10 (- l + 1) * P10 (l - 1))) by ring. rewrite E2. ring.
Qed.

Lemma toUnit_near n d k : (0 < d)%Z -> Rabs (IZR (toUnit n d k) * P10 k - IZR n / IZR d) <= P10 k / 2.
Proof.
  intro Hd. unfold toUnit. set (a := Z.max 0 (- k)). set (b := Z.max 0 k).
  assert (Ha : (0 < 10 ^ a)%Z) by (apply Z.pow_pos_nonneg; lia). assert (Hb : (0 < 10 ^ b)%Z) by (apply Z.pow_pos_nonneg; lia).
  pose proof (rneDiv_near (n * 10 ^ a) (d * 10 ^ b) ltac:(nia)) as N. set (v := rneDiv _ _) in *. clearbody v.
  apply IZR_le in N. rewrite abs_IZR, mult_IZR, minus_IZR, !mult_IZR in N. rewrite <- !powerRZ_Z in N by lia.
  assert (E : P10 b = P10 k * P10 a) by (rewrite <- P10_add; f_equal; lia).
  pose proof (P10_pos a) as Pa. pose proof (P10_pos k) as Pk. apply IZR_lt in Hd. rewrite E in N.
  replace (IZR v * P10 k - IZR n / IZR d) with
    ((2 * (IZR v * (IZR d * (P10 k * P10 a)) - IZR n * P10 a)) * (/ (2 * IZR d * P10 a))) by (field; lra).
  rewrite Rabs_mult, (Rabs_pos_eq (/ _)) by (apply Rlt_le, Rinv_0_lt_compat; nra).
  apply Rle_trans with (IZR d * (P10 k * P10 a) * / (2 * IZR d * P10 a)).
  - apply Rmult_le_compat_r; [apply Rlt_le, Rinv_0_lt_compat; nra|exact N].
  - right. field. lra.
Qed.
Lemma toUnit_best n d k z : (0 < d)%Z ->
  Rabs (IZR (toUnit n d k) * P10 k - IZR n / IZR d) <= Rabs (IZR z * P10 k - IZR n / IZR d).
Proof.
  intro Hd. pose proof (toUnit_near n d k Hd) as N. set (v := toUnit n d k) in *. clearbody v. set (q := IZR n / IZR d) in *. clearbody q.
  destruct (Z.eq_dec z v) as [->|Ne]; [apply Rle_refl|]. pose proof (P10_pos k) as Pk.
  assert (D : P10 k <= Rabs (IZR z * P10 k - IZR v * P10 k)).
  { rewrite <- Rmult_minus_distr_r, Rabs_mult, (Rabs_pos_eq (P10 k)) by lra. rewrite <- minus_IZR, <- abs_IZR.
    assert (1 <= IZR (Z.abs (z - v))) by (apply IZR_le; lia). nra. }
  pose proof (Rabs_triang_inv (IZR z * P10 k - IZR v * P10 k) (q - IZR v * P10 k)) as Tr.
  replace (IZR z * P10 k - IZR v * P10 k - (q - IZR v * P10 k)) with (IZR z * P10 k - q) in Tr by ring.
  rewrite (Rabs_minus_sym q) in Tr. lra.
Qed.

(** Twelve digits, nearest among all decimals of twelve digits. *)
Lemma sig_spec s m e B : let q := IZR (fracNum m e) / IZR (fracDen e) in
  exists v k, flSig 12 (B754_finite s m e B) = NumDec s v k /\ (10 ^ 11 <= v < 10 ^ 12)%N /\
    Rabs (decR v k - q) <= P10 k / 2 /\ (forall w j, (w <= 10 ^ 12)%N -> Rabs (decR v k - q) <= Rabs (decR w j - q)).
Proof.
  intro q. pose proof (fracNum_pos m e) as Hn. pose proof (fracDen_pos e) as Hd. cbn [flSig].
  set (n := fracNum m e) in *. set (d := fracDen e) in *. destruct (decExp_spec n d Hn Hd) as [E1 E2].
  set (E := decExp n d) in *. change (12 - 1)%Z with 11%Z. set (k := (E - 11)%Z).
  pose proof (toUnit_near n d k Hd) as Near. pose proof (fun z => toUnit_best n d k z Hd) as Best. set (v := toUnit n d k) in *.
  fold q in Near, Best. clearbody v. apply IZR_lt in Hd, Hn.
  assert (Q1 : P10 E <= q) by (apply (Rmult_le_reg_r (IZR d)); [exact Hd|]; unfold q; replace (IZR n / IZR d * IZR d) with (IZR n) by (field; lra); exact E1).
  assert (Q2 : q < P10 (E + 1)) by (apply (Rmult_lt_reg_r (IZR d)); [exact Hd|]; unfold q; replace (IZR n / IZR d * IZR d) with (IZR n) by (field; lra); exact E2).
  clearbody q. pose proof (P10_pos k) as Pk.
  assert (T11 : P10 E = IZR (10 ^ 11) * P10 k).
  { rewrite <- (powerRZ_Z 11) by lia. rewrite <- P10_add. f_equal. unfold k. lia. }
  assert (T12 : P10 (E + 1) = IZR (10 ^ 12) * P10 k).
  { rewrite <- (powerRZ_Z 12) by lia. rewrite <- P10_add. f_equal. unfold k. lia. }
  assert (V1 : (10 ^ 11 <= v)%Z).
  { apply Znot_gt_le. intro G. assert (IZR v <= IZR (10 ^ 11) - 1) by (rewrite <- minus_IZR; apply IZR_le; lia).
    apply Rabs_le_inv in Near. nra. }
  assert (V2 : (v <= 10 ^ 12)%Z).
  { apply Znot_gt_le. intro G. assert (IZR (10 ^ 12) + 1 <= IZR v) by (rewrite <- plus_IZR; apply IZR_le; lia).
    apply Rabs_le_inv in Near. nra. }
  assert (Dv : decR (Z.to_N v) k = IZR v * P10 k) by (unfold decR; rewrite Z2N.id by lia; reflexivity).
  assert (All : forall w j, (w <= 10 ^ 12)%N -> Rabs (IZR v * P10 k - q) <= Rabs (decR w j - q)).
  { intros w j Hw. destruct (Z_le_gt_dec k j) as [L|L].
    - specialize (Best (Z.of_N w * 10 ^ (j - k))%Z). eapply Rle_trans; [exact Best|]. right. f_equal. f_equal. unfold decR.
      rewrite mult_IZR, <- powerRZ_Z by lia. rewrite Rmult_assoc, <- P10_add. do 2 f_equal. lia.
    - specialize (Best (10 ^ 11)%Z). rewrite <- T11 in Best. eapply Rle_trans; [exact Best|].
      assert (Dw : decR w j <= P10 E).
      { unfold decR. apply Rle_trans with (IZR (10 ^ 12) * P10 j).
        - apply Rmult_le_compat_r; [apply Rlt_le, P10_pos|]. apply IZR_le. lia.
        - rewrite <- (powerRZ_Z 12) by lia. rewrite <- P10_add. apply P10_le. unfold k in L. lia. }
      rewrite !Rabs_left1 by lra. lra. }
  destruct (Z.eqb_spec v (10 ^ 12)) as [Ev|Ev].
  - exists (Z.to_N (10 ^ 11)), (k + 1)%Z. split; [reflexivity|]. split; [split; [reflexivity|reflexivity]|].
    assert (D' : decR (Z.to_N (10 ^ 11)) (k + 1) = IZR v * P10 k).
    { unfold decR. rewrite Z2N.id by lia. rewrite P10_add, Ev. change (P10 1) with (10 * 1).
      replace (IZR (10 ^ 12)) with (IZR (10 ^ 11) * 10) by (rewrite <- mult_IZR; reflexivity). ring. }
    rewrite D'. split; [|exact All]. apply Rle_trans with (P10 k / 2); [exact Near|].
    pose proof (P10_le k (k + 1) ltac:(lia)). lra.
  - exists (Z.to_N v), k. split; [reflexivity|]. split; [split; lia|]. rewrite Dv. auto.
Qed.

Lemma digits_kept (x : fl) : throughDigits x (flRound (flSig 12 x)).
Proof.
  destruct x as [s|s| |s m e B]; try reflexivity. cbn [throughDigits].
  destruct (sig_spec s m e B) as (v & k & E & V & Near & _). rewrite E. exists (Z.of_N v), k. split; [lia|]. cbv zeta.
  change (IZR (Z.of_N v) * P10 k) with (decR v k).
  assert (Q : Rabs (B2R (B754_finite s m e B : fl)) = IZR (fracNum m e) / IZR (fracDen e)).
  { rewrite frac_value. pose proof (IZR_lt _ _ (fracNum_pos m e)). pose proof (IZR_lt _ _ (fracDen_pos e)).
    assert (0 < IZR (fracNum m e) / IZR (fracDen e)) by (apply Rdiv_lt_0_compat; assumption).
    destruct s; cbn [signed]; rewrite ?Rabs_Ropp; apply Rabs_pos_eq; lra. }
  rewrite Q. split; [exact Near|]. destruct (flRound_dec s v k) as [R S]. unfold Rounds, rnd in R.
  change (SpecFloat.fexp 53 1024) with (FLT_exp (-1074) 53) in R. unfold signed in R. destruct (Rlt_bool _ _).
  - destruct R. auto.
  - rewrite R in *. cbn [Bsign] in S. now rewrite S.
Qed.
Lemma int_kept (L : libm) (x : fl) : is_finite x = true ->
  let y := @viaInt fl (ieeeNum L) ieeeText x in is_finite y = true /\ B2R y = IZR (Ztrunc (B2R x)).
Proof.
  intros F y. subst y. unfold viaInt. cbn [tround ieeeText]. rewrite (ntrunc_R L) by exact F. set (z := Ztrunc (B2R x)).
  destruct (flRound_dec (z <? 0)%Z (Z.abs_N z) 0) as [R _]. set (y := flRound _) in *.
  assert (V : signed (z <? 0)%Z (decR (Z.abs_N z) 0) = IZR z).
  { unfold decR. cbn [powerRZ]. rewrite Rmult_1_r. destruct (Z.ltb_spec z 0); cbn [signed]; rewrite <- ?opp_IZR; f_equal; lia. }
  rewrite V in R.
  assert (G : generic_format radix2 (SpecFloat.fexp 53 1024) (IZR z)).
  { pose proof (generic_format_B2R 53 1024 x) as Gx. unfold z.
    destruct (Rle_lt_dec (bpow radix2 52) (Rabs (B2R x))) as [Big|Small].
    - replace (IZR (Ztrunc (B2R x))) with (B2R x); [exact Gx|]. symmetry.
      destruct x as [s|s| |s m e B]; try (cbn [B2R]; change 0 with (IZR 0); now rewrite Ztrunc_IZR).
      assert (E0 : (0 <= e)%Z).
      { destruct (Z_lt_le_dec e 0) as [E|E]; [exfalso|exact E]. cbn [B2R] in Big. rewrite <- F2R_Zabs, abs_cond_Zopp in Big.
        unfold F2R in Big. cbn [Fnum Fexp Z.abs] in Big. destruct (float_bounds _ _ B) as (M & _).
        assert (IZR (Zpos m) * bpow radix2 e < IZR (2 ^ 53) * bpow radix2 (-1)).
        { apply Rle_lt_trans with (IZR (Zpos m) * bpow radix2 (-1)).
          - apply Rmult_le_compat_l; [apply IZR_le; lia|apply bpow_le; lia].
          - apply Rmult_lt_compat_r; [apply bpow_gt_0|apply IZR_lt; lia]. }
        change (IZR (2 ^ 53)) with (bpow radix2 53) in H. rewrite <- bpow_plus in H. change (53 + -1)%Z with 52%Z in H. apply (Rlt_not_le _ _ H). exact Big. }
      cbn [B2R]. unfold F2R. cbn [Fnum Fexp]. rewrite <- IZR_Zpower by exact E0. rewrite <- mult_IZR, Ztrunc_IZR. reflexivity.
    - apply generic_format_FLT. apply FLT_spec with (f := Float radix2 z 0).
      + unfold F2R. symmetry. apply Rmult_1_r.
      + cbn [Fnum]. apply lt_IZR. rewrite abs_IZR. unfold z. apply Rle_lt_trans with (Rabs (B2R x)).
        * unfold Ztrunc. pose proof (Zfloor_lb (B2R x)). pose proof (Zceil_ub (B2R x)).
          destruct (Rlt_bool_spec (B2R x) 0).
          -- assert (IZR (Zceil (B2R x)) <= 0) by (apply IZR_le, Zceil_glb; lra). rewrite !Rabs_left1 by lra. lra.
          -- assert (0 <= IZR (Zfloor (B2R x))) by (apply IZR_le, Zfloor_lub; lra). rewrite !Rabs_pos_eq by lra. lra.
        * change (IZR (radix2 ^ 53)) with (bpow radix2 53). eapply Rlt_le_trans; [exact Small|apply bpow_le; lia].
      + cbn. lia. }
  unfold Rounds in R. rewrite (rnd_format _ G) in R. rewrite Rlt_bool_true in R; [exact R|].
  apply Rle_lt_trans with (Rabs (B2R x)); [|apply abs_B2R_lt_emax]. unfold z, Ztrunc.
  pose proof (Zfloor_lb (B2R x)). pose proof (Zceil_ub (B2R x)).
  destruct (Rlt_bool_spec (B2R x) 0).
  - assert (IZR (Zceil (B2R x)) <= 0) by (apply IZR_le, Zceil_glb; lra). rewrite !Rabs_left1 by lra. lra.
  - assert (0 <= IZR (Zfloor (B2R x))) by (apply IZR_le, Zfloor_lub; lra). rewrite !Rabs_pos_eq by lra. lra.
Qed.
