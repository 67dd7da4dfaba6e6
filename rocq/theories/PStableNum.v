(** A number written and read a second time does not change again. *)
From Coq Require Import Reals Lra Lia ZArith NArith Znumtheory Zpow_facts Psatz.
From Flocq Require Import Core BinarySingleNaN.
From Verif Require Import NumFText PIeee PNumText PTextIeee PXmlIeee SpecWrite PIeeeArith PPack PTextSig PXmlWrite.
Local Open Scope R_scope.

Notation F64 := (FLT_exp (-1074) 53).
Notation F32 := (FLT_exp (-149) 24).
Notation near64 := (round radix2 F64 ZnearestE).
Notation near32 := (round radix2 F32 ZnearestE).

(* ------------------------------------------------------------------ *)
(** * Twelve significant digits *)

Lemma digits_gap v k v' k' : (10 ^ 11 <= v < 10 ^ 12)%N -> (10 ^ 11 <= v' < 10 ^ 12)%N -> decR v k < decR v' k' ->
  (k <= k')%Z /\ P10 k <= decR v' k' - decR v k.
Proof.
  intros V V' H. unfold decR in *. pose proof (P10_pos k) as Pk. pose proof (P10_pos k') as Pk'.
  assert (A : 10 ^ 11 <= IZR (Z.of_N v) <= 10 ^ 12 - 1).
  { replace (10 ^ 11) with (IZR (10 ^ 11)) by (rewrite pow_IZR; reflexivity). replace (10 ^ 12) with (IZR (10 ^ 12)) by (rewrite pow_IZR; reflexivity).
    rewrite <- minus_IZR. split; apply IZR_le; lia. }
  assert (A' : 10 ^ 11 <= IZR (Z.of_N v') <= 10 ^ 12 - 1).
  { replace (10 ^ 11) with (IZR (10 ^ 11)) by (rewrite pow_IZR; reflexivity). replace (10 ^ 12) with (IZR (10 ^ 12)) by (rewrite pow_IZR; reflexivity).
    rewrite <- minus_IZR. split; apply IZR_le; lia. }
  destruct (Z.lt_trichotomy k k') as [L|[<-|L]].
  - split; [lia|]. assert (P10 (k + 1) <= P10 k') by (apply P10_le; lia). rewrite P10_add in H0. change (P10 1) with (10 * 1) in H0. nra.
  - split; [lia|]. assert (G : (Z.of_N v < Z.of_N v')%Z) by (apply lt_IZR; nra).
    assert (IZR (Z.of_N v) + 1 <= IZR (Z.of_N v')) by (rewrite <- plus_IZR; apply IZR_le; lia). nra.
  - exfalso. assert (P10 (k' + 1) <= P10 k) by (apply P10_le; lia). rewrite P10_add in H0. change (P10 1) with (10 * 1) in H0. nra.
Qed.

Lemma digits_less v k v' k' q : (10 ^ 11 <= v < 10 ^ 12)%N -> (10 ^ 11 <= v' < 10 ^ 12)%N -> 0 < q ->
  Rabs (decR v k - q) <= q * bpow radix2 (-53) -> Rabs (decR v' k' - q) <= q * bpow radix2 (-53) -> ~ decR v k < decR v' k'.
Proof.
  intros V V' Q E E' H. destruct (digits_gap v k v' k' V V' H) as [_ G].
  assert (U : decR v k < 10 ^ 12 * P10 k).
  { unfold decR. apply Rmult_lt_compat_r; [apply P10_pos|]. replace (10 ^ 12) with (IZR (10 ^ 12)) by (rewrite pow_IZR; reflexivity).
    apply IZR_lt. lia. }
  apply Rabs_le_inv in E, E'. change (bpow radix2 (-53)) with (/ 9007199254740992) in *.
  pose proof (P10_pos k). assert (q <= 2 * decR v k) by lra. lra.
Qed.

Lemma tie_free v k m : (10 ^ 11 <= v < 10 ^ 12)%N -> decR v k < bpow radix2 (-1000) ->
  decR v k <> (2 * IZR m + 1) * bpow radix2 (-1075).
Proof.
  intros V S E. assert (Vr : 10 ^ 11 <= IZR (Z.of_N v)).
  { replace (10 ^ 11) with (IZR (10 ^ 11)) by (rewrite pow_IZR; reflexivity). apply IZR_le. lia. }
  assert (B1 : bpow radix2 (-1000) < / 10 ^ 6).
  { apply Rlt_trans with (bpow radix2 (-20)); [apply bpow_lt; lia|]. change (bpow radix2 (-20)) with (/ 1048576). apply Rinv_lt_contravar; lra. }
  destruct (Z_le_gt_dec (-17) k) as [K|K].
  - assert (P : P10 (-17) <= P10 k) by (now apply P10_le). change (P10 (-17)) with (/ 10 ^ 17) in P. unfold decR in S.
    assert (10 ^ 11 * / 10 ^ 17 <= IZR (Z.of_N v) * P10 k) by (apply Rmult_le_compat; try lra). 
    replace (10 ^ 11 * / 10 ^ 17) with (/ 10 ^ 6) in H by (field_simplify; lra). lra.
  - set (j := (- k)%Z). assert (Kj : k = (- j)%Z) by lia.
    assert (Ez : (Z.of_N v * 2 ^ 1075 = (2 * m + 1) * 10 ^ j)%Z).
    { apply eq_IZR. rewrite !mult_IZR, plus_IZR, mult_IZR. rewrite <- (powerRZ_Z j) by lia.
      change (2 ^ 1075)%Z with (Zpower radix2 1075). rewrite IZR_Zpower by lia. unfold decR in E.
      assert (I1 : P10 k * P10 j = 1) by (rewrite <- P10_add, Kj; replace (- j + j)%Z with 0%Z by lia; reflexivity).
      assert (I2 : bpow radix2 (-1075) * bpow radix2 1075 = 1) by (rewrite <- bpow_plus; reflexivity).
      replace (IZR (Z.of_N v) * bpow radix2 1075) with (IZR (Z.of_N v) * P10 k * P10 j * bpow radix2 1075).
      - rewrite E. replace ((2 * IZR m + 1) * bpow radix2 (-1075) * P10 j * bpow radix2 1075)
          with ((2 * IZR m + 1) * P10 j * (bpow radix2 (-1075) * bpow radix2 1075)) by ring. rewrite I2. ring.
      - replace (IZR (Z.of_N v) * P10 k * P10 j * bpow radix2 1075) with (IZR (Z.of_N v) * bpow radix2 1075 * (P10 k * P10 j)) by ring.
        rewrite I1. ring. }
    assert (D : (5 ^ j | Z.of_N v)%Z).
    { apply Gauss with (2 ^ 1075)%Z.
      - exists ((2 * m + 1) * 2 ^ j)%Z. rewrite Z.mul_comm, Ez. change 10%Z with (2 * 5)%Z. rewrite Z.pow_mul_l. ring.
      - apply Zpow_facts.rel_prime_Zpower; try lia. apply Zgcd_1_rel_prime. reflexivity. }
    assert (L : (5 ^ j <= Z.of_N v)%Z) by (apply Z.divide_pos_le; [lia|exact D]).
    assert (5 ^ 18 <= 5 ^ j)%Z by (apply Z.pow_le_mono_r; lia). change (5 ^ 18)%Z with 3814697265625%Z in H. lia.
Qed.

Lemma digits_again_real v k v' k' q : (10 ^ 11 <= v < 10 ^ 12)%N -> (10 ^ 11 <= v' < 10 ^ 12)%N -> 0 < q ->
  near64 (decR v k) = q -> Rabs (decR v' k' - q) <= Rabs (decR v k - q) -> near64 (decR v' k') = q.
Proof.
  intros V V' Q R C. pose proof (error_le_half_ulp_round radix2 F64 (fun x => negb (Z.even x)) (decR v k)) as Er.
  change (round radix2 F64 (Znearest (fun x => negb (Z.even x))) (decR v k)) with (near64 (decR v k)) in Er.
  rewrite R, Rabs_minus_sym in Er.
  destruct (Rle_lt_dec (bpow radix2 (-1022)) q) as [N|N].
  - pose proof (ulp_FLT_le radix2 (-1074) 53 q) as U. rewrite (Rabs_pos_eq q) in U by lra.
    specialize (U N). change (1 - 53)%Z with (-52)%Z in U.
    assert (H52 : bpow radix2 (-52) = 2 * bpow radix2 (-53)) by (change (-52)%Z with (1 + -53)%Z; rewrite bpow_plus; reflexivity).
    rewrite H52 in U.
    assert (E : Rabs (decR v k - q) <= q * bpow radix2 (-53)) by lra.
    assert (E' : Rabs (decR v' k' - q) <= q * bpow radix2 (-53)) by lra.
    pose proof (digits_less v k v' k' q V V' Q E E') as L1. pose proof (digits_less v' k' v k q V' V Q E' E) as L2.
    replace (decR v' k') with (decR v k) by lra. exact R.
  - assert (Uq : ulp radix2 F64 q = bpow radix2 (-1074)).
    { apply (ulp_FLT_small radix2 (-1074) 53). rewrite Rabs_pos_eq by lra. apply Rlt_trans with (bpow radix2 (-1022)); [exact N|apply bpow_lt; lia]. }
    rewrite Uq in Er. assert (H75 : bpow radix2 (-1074) = 2 * bpow radix2 (-1075)) by (change (-1074)%Z with (1 + -1075)%Z; rewrite bpow_plus; reflexivity).
    assert (H22 : bpow radix2 (-1021) = 2 * bpow radix2 (-1022)) by (change (-1021)%Z with (1 + -1022)%Z; rewrite bpow_plus; reflexivity).
    assert (Hlt : bpow radix2 (-1075) < bpow radix2 (-1022)) by (apply bpow_lt; lia).
    pose proof (bpow_gt_0 radix2 (-1074)) as P74.
    assert (Small : forall w j, (10 ^ 11 <= w < 10 ^ 12)%N -> Rabs (decR w j - q) <= Rabs (decR v k - q) ->
              near64 (decR w j) = IZR (ZnearestE (decR w j * bpow radix2 1074)) * bpow radix2 (-1074)).
    { intros w j W Cw. assert (Pw : 0 < decR w j) by (unfold decR; apply Rmult_lt_0_compat; [apply IZR_lt; lia|apply P10_pos]).
      unfold round, scaled_mantissa, F2R. cbn [Fnum Fexp].
      assert (Ce : cexp radix2 F64 (decR w j) = (-1074)%Z).
      { unfold cexp, FLT_exp. apply Z.max_r. assert (mag radix2 (decR w j) <= -1021)%Z; [|lia].
        apply mag_le_bpow; [lra|]. rewrite Rabs_pos_eq by lra.
        assert (Rabs (decR w j - q) <= bpow radix2 (-1075)) by lra. apply Rabs_le_inv in H. lra. }
      rewrite Ce. reflexivity. }
    pose proof (Small v k V (Rle_refl _)) as Rv. pose proof (Small v' k' V' C) as Rv'. rewrite R in Rv.
    set (n := ZnearestE (decR v k * bpow radix2 1074)) in *. clearbody n. rewrite Rv'.
    assert (I74 : bpow radix2 (-1074) * bpow radix2 1074 = 1) by (rewrite <- bpow_plus; reflexivity).
    rewrite (Znearest_imp _ _ n); [symmetry; exact Rv|].
    assert (Strict : Rabs (decR v k - q) < bpow radix2 (-1075)).
    { apply Rnot_le_lt. intro G. assert (Eq : Rabs (decR v k - q) = bpow radix2 (-1075)) by lra.
      assert (S : decR v k < bpow radix2 (-1000)).
      { apply Rlt_trans with (bpow radix2 (-1021)); [|apply bpow_lt; lia]. apply Rabs_le_inv in Er. lra. }
      destruct (Rle_dec 0 (decR v k - q)) as [D|D].
      - rewrite Rabs_pos_eq in Eq by exact D. apply (tie_free v k n V S). rewrite Rv, H75 in Eq. lra.
      - rewrite Rabs_left in Eq by lra. apply (tie_free v k (n - 1) V S). rewrite minus_IZR. rewrite Rv, H75 in Eq. lra. }
    replace (decR v' k' * bpow radix2 1074 - IZR n) with ((decR v' k' - q) * bpow radix2 1074).
    + rewrite Rabs_mult, (Rabs_pos_eq (bpow radix2 1074)) by apply bpow_ge_0.
      apply Rlt_le_trans with (bpow radix2 (-1075) * bpow radix2 1074).
      * apply Rmult_lt_compat_r; [apply bpow_gt_0|lra].
      * rewrite <- bpow_plus. change (bpow radix2 (-1075 + 1074)) with (/ 2). lra.
    + rewrite Rv. rewrite Rmult_minus_distr_r, Rmult_assoc, I74. ring.
Qed.

Lemma near64_signed s r : near64 (signed s r) = signed s (near64 r).
Proof. destruct s; [|reflexivity]. apply round_NE_opp. Qed.
Lemma rnd_near64 r : rnd (p:=53) (e:=1024) r = near64 r. Proof. reflexivity. Qed.

Lemma digits_again (x : fl) : flRound (flSig 12 (flRound (flSig 12 x))) = flRound (flSig 12 x).
Proof.
  destruct x as [s|s| |s m e B]; try reflexivity.
  destruct (sig_spec s m e B) as (v & k & E & V & _ & _). rewrite E. destruct (flRound_dec s v k) as [R S].
  pose proof (Rounds_not_nan _ _ R) as Nn. set (y := flRound (NumDec s v k)) in *. clearbody y.
  destruct y as [s'|s'| |s' m' e' B']; try reflexivity.
  cbn [Bsign] in S. subst s'. destruct (sig_spec s m' e' B') as (v' & k' & E' & V' & _ & Best). rewrite E'.
  specialize (Best v k ltac:(lia)). destruct (flRound_dec s v' k') as [R' S'].
  set (q := IZR (fracNum m' e') / IZR (fracDen e')) in *.
  assert (Q : 0 < q) by (apply Rdiv_lt_0_compat; apply IZR_lt; [apply fracNum_pos|apply fracDen_pos]).
  assert (Rv : near64 (decR v k) = q).
  { unfold Rounds in R. destruct (Rlt_bool _ _) eqn:O; [|discriminate]. destruct R as [_ R]. rewrite frac_value in R. fold q in R.
    rewrite rnd_near64, near64_signed in R. destruct s; cbn [signed] in R; lra. }
  pose proof (digits_again_real v k v' k' q V V' Q Rv Best) as Rv'.
  apply (Rounds_unique _ _ (signed s (decR v' k'))); [exact R'| |exact S'].
  unfold Rounds in *. rewrite !rnd_near64, !near64_signed in *. rewrite Rv in R. rewrite Rv'.
  destruct (Rlt_bool (Rabs (signed s q)) _); [exact R|discriminate R].
Qed.

Lemma digits_nonzero (x : fl) : is_finite x = true -> B2R x <> 0 -> forall s, flRound (flSig 12 x) <> B754_zero s.
Proof.
  intros F Nz s0 Z. destruct x as [s|s| |s m e B]; try discriminate; [now apply Nz|].
  destruct (sig_spec s m e B) as (v & k & E & V & Near & _). rewrite E in Z. destruct (flRound_dec s v k) as [R _]. rewrite Z in R.
  set (q := IZR (fracNum m e) / IZR (fracDen e)) in *.
  assert (Q : bpow radix2 (-1074) <= q).
  { assert (Eq : q = Rabs (B2R (B754_finite s m e B : fl))).
    { rewrite frac_value. fold q. assert (0 < q) by (apply Rdiv_lt_0_compat; apply IZR_lt; [apply fracNum_pos|apply fracDen_pos]).
      destruct s; cbn [signed]; rewrite ?Rabs_Ropp, Rabs_pos_eq; lra. }
    rewrite Eq. apply (abs_B2R_ge_emin 53 1024 (B754_finite s m e B : fl)). reflexivity. }
  unfold Rounds in R. destruct (Rlt_bool _ _) eqn:O; [|discriminate]. destruct R as [_ R]. cbn [B2R] in R.
  rewrite rnd_near64, near64_signed in R.
  assert (R0 : near64 (decR v k) = 0) by (destruct s; cbn [signed] in R; lra).
  pose proof (error_le_half_ulp_round radix2 F64 (fun x => negb (Z.even x)) (decR v k)) as Er.
  change (round radix2 F64 (Znearest (fun x => negb (Z.even x))) (decR v k)) with (near64 (decR v k)) in Er.
  rewrite R0, (@ulp_FLT_0 radix2 (-1074) 53 prec53) in Er. rewrite Rminus_0_l, Rabs_Ropp in Er.
  assert (Vr : 10 ^ 11 * P10 k <= decR v k).
  { unfold decR. apply Rmult_le_compat_r; [apply Rlt_le, P10_pos|]. replace (10 ^ 11) with (IZR (10 ^ 11)) by (rewrite pow_IZR; reflexivity). apply IZR_le. lia. }
  pose proof (P10_pos k). rewrite Rabs_pos_eq in Er by lra. apply Rabs_le_inv in Near. pose proof (bpow_gt_0 radix2 (-1074)). lra.
Qed.

(* ------------------------------------------------------------------ *)
(** * Nine decimals, stored as float32 *)

Lemma billion : 10 ^ 9 = 1000000000. Proof. lra. Qed.

Lemma near64_id32 y : generic_format radix2 F32 y -> near64 y = y.
Proof.
  intro G. apply round_generic; [apply valid_rnd_N|]. revert G. apply generic_inclusion_mag. intros _.
  unfold FLT_exp. lia.
Qed.
Lemma near32_id y : generic_format radix2 F32 y -> near32 y = y.
Proof. apply round_generic, valid_rnd_N. Qed.
Lemma near32_format r : generic_format radix2 F32 (near32 r).
Proof. apply generic_format_round; [now apply FLT_exp_valid|apply valid_rnd_N]. Qed.
#[local] Instance valid64 : Valid_exp F64. Proof. now apply FLT_exp_valid. Qed.
#[local] Instance valid32 : Valid_exp F32. Proof. now apply FLT_exp_valid. Qed.
#[local] Instance mono64 : Monotone_exp F64. Proof. apply FLT_exp_monotone. Qed.
#[local] Instance mono32 : Monotone_exp F32. Proof. apply FLT_exp_monotone. Qed.

Lemma bpow_format p emin e : (0 < p)%Z -> (emin <= e)%Z -> (emin <= e + 1 - p)%Z -> generic_format radix2 (FLT_exp emin p) (bpow radix2 e).
Proof. intros H1 H2 H3. apply generic_format_bpow. unfold FLT_exp. lia. Qed.
Lemma near64_half r b : (-1022 <= b)%Z -> Rabs (near64 r) <= bpow radix2 b -> Rabs (near64 r - r) <= / 2 * bpow radix2 (b - 52).
Proof.
  intros Hb H. pose proof (error_le_half_ulp_round radix2 F64 (fun x => negb (Z.even x)) r) as Er.
  change (round radix2 F64 (Znearest (fun x => negb (Z.even x))) r) with (near64 r) in Er.
  eapply Rle_trans; [exact Er|]. apply Rmult_le_compat_l; [lra|].
  rewrite <- ulp_abs. eapply Rle_trans; [exact (@ulp_le_pos radix2 F64 valid64 mono64 _ _ (Rabs_pos _) H)|].
  rewrite ulp_bpow. unfold FLT_exp. apply bpow_le. lia.
Qed.

(** A multiple of 2^-9 has at most nine decimals. *)
Lemma nine_exact y n z : y = IZR z * bpow radix2 (-9) -> Rabs (IZR n / 10 ^ 9 - y) <= / 2 / 10 ^ 9 -> IZR n / 10 ^ 9 = y.
Proof.
  intros Y H. change (bpow radix2 (-9)) with (/ 512) in Y.
  assert (W : y = IZR (z * 1953125) / 10 ^ 9) by (rewrite Y, mult_IZR; field).
  rewrite W in *. f_equal. f_equal.
  assert (A : Rabs (IZR (n - z * 1953125)) <= / 2).
  { rewrite minus_IZR. replace (IZR n - IZR (z * 1953125)) with ((IZR n / 10 ^ 9 - IZR (z * 1953125) / 10 ^ 9) * 10 ^ 9) by field.
    rewrite Rabs_mult, (Rabs_pos_eq (10 ^ 9)) by lra. apply Rle_trans with (/ 2 / 10 ^ 9 * 10 ^ 9); [apply Rmult_le_compat_r; lra|lra]. }
  rewrite <- abs_IZR in A. assert (Z.abs (n - z * 1953125) < 1)%Z by (apply lt_IZR; lra). lia.
Qed.

Lemma nine_small y n n' : Rabs y < bpow radix2 (-6) -> near32 (near64 (IZR n / 10 ^ 9)) = y ->
  Rabs (IZR n' / 10 ^ 9 - y) <= / 2 / 10 ^ 9 -> n' = n.
Proof.
  intros S R H. set (d := near64 (IZR n / 10 ^ 9)) in *.
  assert (Sd : Rabs d <= bpow radix2 (-6)).
  { apply Rnot_lt_le. intro G. apply (Rlt_irrefl (bpow radix2 (-6))). apply Rle_lt_trans with (Rabs y); [|exact S].
    rewrite <- R. apply abs_round_ge_generic; [apply valid32|apply valid_rnd_N|apply bpow_format; lia|lra]. }
  assert (E1 : Rabs (d - IZR n / 10 ^ 9) <= / 2 * bpow radix2 (-58)) by (apply (near64_half _ (-6)); [lia|exact Sd]).
  assert (E2 : Rabs (y - d) <= / 2 * bpow radix2 (-30)).
  { pose proof (error_le_half_ulp_round radix2 F32 (fun x => negb (Z.even x)) d) as Er.
    change (round radix2 F32 (Znearest (fun x => negb (Z.even x))) d) with (near32 d) in Er. rewrite R in Er.
    eapply Rle_trans; [exact Er|]. apply Rmult_le_compat_l; [lra|].
    destruct (Req_dec y 0) as [->|Ny].
    - rewrite (@ulp_FLT_0 radix2 (-149) 24 (eq_refl Lt)). apply bpow_le. lia.
    - rewrite ulp_neq_0 by exact Ny. apply bpow_le. unfold cexp, FLT_exp. pose proof (mag_le_bpow radix2 y (-6) Ny S). lia. }
  change (bpow radix2 (-58)) with (/ 288230376151711744) in E1. change (bpow radix2 (-30)) with (/ 1073741824) in E2.
  assert (A : Rabs (IZR n' / 10 ^ 9 - IZR n / 10 ^ 9) < / 10 ^ 9).
  { replace (IZR n' / 10 ^ 9 - IZR n / 10 ^ 9) with ((IZR n' / 10 ^ 9 - y) + ((y - d) + (d - IZR n / 10 ^ 9))) by ring.
    pose proof (Rabs_triang (IZR n' / 10 ^ 9 - y) ((y - d) + (d - IZR n / 10 ^ 9))).
    pose proof (Rabs_triang (y - d) (d - IZR n / 10 ^ 9)). lra. }
  assert (B : Rabs (IZR (n' - n)) < 1).
  { rewrite minus_IZR. replace (IZR n' - IZR n) with ((IZR n' / 10 ^ 9 - IZR n / 10 ^ 9) * 10 ^ 9) by field.
    rewrite Rabs_mult, (Rabs_pos_eq (10 ^ 9)) by lra. apply Rlt_le_trans with (/ 10 ^ 9 * 10 ^ 9); [apply Rmult_lt_compat_r; lra|lra]. }
  rewrite <- abs_IZR in B. apply lt_IZR in B. lia.
Qed.

Lemma nine_large y n' : generic_format radix2 F32 y -> bpow radix2 (-6) <= y ->
  Rabs (IZR n' / 10 ^ 9 - y) <= / 2 / 10 ^ 9 -> near32 (near64 (IZR n' / 10 ^ 9)) = y.
Proof.
  intros G [Y|<-] H.
  2:{ assert (bpow radix2 (-6) = IZR 8 * bpow radix2 (-9)) by (change (IZR 8) with (bpow radix2 3); rewrite <- bpow_plus; reflexivity).
      rewrite (nine_exact _ _ _ H0 H). rewrite near64_id32 by exact G. now apply near32_id. }
  destruct (Rle_lt_dec (bpow radix2 14) y) as [M|M].
  - assert (Z : exists z, y = IZR z * bpow radix2 (-9)).
    { pose proof (bpow_gt_0 radix2 14). pose proof (mag_ge_bpow radix2 y 15) as Mg. rewrite Rabs_pos_eq in Mg by lra. specialize (Mg M).
      rewrite G. unfold F2R. cbn [Fnum Fexp]. set (c := cexp radix2 F32 y). set (f := Ztrunc _).
      assert (Hc : (-9 <= c)%Z) by (unfold c, cexp, FLT_exp; lia).
      exists (f * 2 ^ (c + 9))%Z. rewrite mult_IZR. change 2%Z with (radix_val radix2) at 1. rewrite IZR_Zpower by lia.
      rewrite Rmult_assoc, <- bpow_plus. do 2 f_equal. lia. }
    destruct Z as [z Z]. rewrite (nine_exact _ _ _ Z H). rewrite near64_id32 by exact G. now apply near32_id.
  - set (a := IZR n' / 10 ^ 9) in *. set (d := near64 a).
    assert (B6 : bpow radix2 (-6) = / 64) by reflexivity. assert (B14 : bpow radix2 14 = 16384) by reflexivity. rewrite B6, B14 in *.
    apply Rabs_le_inv in H.
    assert (Sd : Rabs d <= bpow radix2 15).
    { apply abs_round_le_generic; [apply valid64|apply valid_rnd_N|apply bpow_format; lia|].
      change (bpow radix2 15) with 32768. apply Rabs_le. lra. }
    pose proof (near64_half a 15 ltac:(lia) Sd) as E1. fold d in E1. change (bpow radix2 (15 - 52)) with (/ 137438953472) in E1.
    apply Rabs_le_inv in E1.
    assert (U : forall u, generic_format radix2 F32 u -> / 64 <= u -> u + / 536870912 <= succ radix2 F32 u).
    { intros u Gu Hu. rewrite succ_eq_pos by lra. apply Rplus_le_compat_l.
      eapply Rle_trans; [|apply (@ulp_le_pos radix2 F32 valid32 mono32 (bpow radix2 (-6))); [apply bpow_ge_0|rewrite B6; exact Hu]].
      rewrite ulp_bpow. unfold FLT_exp. change (Z.max (-6 + 1 - 24) (-149)) with (-29)%Z. change (bpow radix2 (-29)) with (/ 536870912). lra. }
    assert (G6 : generic_format radix2 F32 (/ 64)) by (rewrite <- B6; apply bpow_format; lia).
    assert (P : / 64 <= pred radix2 F32 y) by (apply pred_ge_gt; [apply valid32|exact G6|exact G|exact Y]).
    assert (Gp : generic_format radix2 F32 (pred radix2 F32 y)) by (apply generic_format_pred; [apply valid32|exact G]).
    pose proof (U _ Gp P) as Up. rewrite (@succ_pred radix2 F32 valid32 y G) in Up.
    pose proof (U y G ltac:(lra)) as Us.
    apply Rle_antisym.
    + apply round_N_le_midp; [apply valid32|exact G|]. lra.
    + apply round_N_ge_midp; [apply valid32|exact G|]. lra.
Qed.

Lemma nine_again y n n' : near32 (near64 (IZR n / 10 ^ 9)) = y -> Rabs (IZR n' / 10 ^ 9 - y) <= / 2 / 10 ^ 9 ->
  near32 (near64 (IZR n' / 10 ^ 9)) = y.
Proof.
  intros R H. destruct (Rlt_le_dec (Rabs y) (bpow radix2 (-6))) as [S|S].
  { now rewrite (nine_small y n n' S R H). }
  assert (G : generic_format radix2 F32 y) by (rewrite <- R; apply near32_format).
  destruct (Rle_dec 0 y) as [P|P].
  - rewrite Rabs_pos_eq in S by exact P. now apply nine_large.
  - rewrite Rabs_left in S by lra.
    assert (Neg : near32 (near64 (IZR (- n') / 10 ^ 9)) = - y).
    { apply nine_large; [now apply generic_format_opp|exact S|]. rewrite opp_IZR.
      replace (- IZR n' / 10 ^ 9 - - y) with (- (IZR n' / 10 ^ 9 - y)) by lra. now rewrite Rabs_Ropp. }
    rewrite opp_IZR in Neg. replace (- IZR n' / 10 ^ 9) with (- (IZR n' / 10 ^ 9)) in Neg by lra.
    rewrite !round_NE_opp in Neg. lra.
Qed.

Lemma throughDecimals_again (x y z : fl) : throughDecimals x y -> throughDecimals y z -> z = y.
Proof.
  intros A B. unfold throughDecimals in A, B. destruct (is_finite x) eqn:Fx; [|subst y; rewrite Fx in B; exact B].
  destruct (is_finite y) eqn:Fy; [|exact B].
  destruct A as (n & d & _ & Fd & Vd & Sd & Ry). destruct B as (n' & d' & Near & Fd' & Vd' & Sd' & Rz).
  assert (Vy : near32 (B2R d) = B2R y /\ Bsign y = Bsign d /\ Rlt_bool (Rabs (near32 (B2R d))) (bpow radix2 128) = true).
  { unfold roundedTo in Ry. change (3 - 128 - 24)%Z with (-149)%Z in Ry.
    destruct d; try discriminate; cbv zeta in Ry; destruct (Rlt_bool _ _); try (subst y; discriminate);
      destruct Ry as (_ & Ry & Sy); now rewrite Ry, Sy. }
  destruct Vy as (Vy & Sy & Oy). rewrite Vd in Vy. pose proof (nine_again (B2R y) n n' Vy Near) as N. rewrite <- Vd' in N.
  rewrite Vd, Vy in Oy. unfold roundedTo in Rz. change (3 - 128 - 24)%Z with (-149)%Z in Rz.
  assert (Fin : is_finite z = true /\ B2R z = B2R y /\ Bsign z = Bsign d').
  { destruct d'; try discriminate; cbv zeta in Rz; rewrite N, Oy in Rz; exact Rz. }
  destruct Fin as (Fz & Vz & Sz). apply B2R_Bsign_inj; congruence.
Qed.

Lemma roundedTo_again p e (x y z : fl) : (0 < p)%Z -> (3 - e - p < e)%Z -> roundedTo p e x y -> roundedTo p e y z -> z = y.
Proof.
  intros Hp He A B.
  assert (V : Valid_exp (FLT_exp (3 - e - p) p)) by (now apply FLT_exp_valid).
  assert (C : is_finite y = true -> round radix2 (FLT_exp (3 - e - p) p) ZnearestE (B2R y) = B2R y /\ Rlt_bool (Rabs (B2R y)) (bpow radix2 e) = true).
  { intro Fy. unfold roundedTo in A. destruct x as [s|s| |s m ex Bx]; try (subst y; discriminate);
      cbv zeta in A; destruct (Rlt_bool _ _) eqn:O; try (subst y; discriminate); destruct A as (_ & A & _); rewrite A;
      (split; [|exact O]); apply round_generic; try apply valid_rnd_N; apply generic_format_round; try assumption; apply valid_rnd_N. }
  unfold roundedTo in B. destruct y as [s|s| |s m ex By]; try congruence; destruct (C eq_refl) as [C1 C2]; cbv zeta in B;
    rewrite C1, C2 in B; destruct B as (F & V' & S); apply B2R_Bsign_inj; auto.
Qed.
