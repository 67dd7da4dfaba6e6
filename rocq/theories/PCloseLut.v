(** Rounding errors of 1D lookups and of changes of depth. *)
From Coq Require Import Reals Lra Lia ZArith List String Psatz Arith.
From Flocq Require Import Core BinarySingleNaN.
From Verif Require Import SpecClose SpecIeee PBase PFacts PIeee PIeeeArith PIeeeRange PLut1D PHalfLut PPack PRound.
Import ListNotations.
Local Open Scope R_scope.

(** * Piecewise linear functions *)
Lemma lin_line (k : R) (e : Z -> R) t : lin (fun z => k * IZR z + e z) t = k * t + lin e t.
Proof.
  pose proof (Zfloor_lb t). pose proof (Zfloor_ub t). set (z := Zfloor t) in *.
  rewrite (lin_cell _ t z), (lin_cell e t z) by (rewrite plus_IZR; lra). rewrite plus_IZR. ring.
Qed.
Lemma lin_opp (e : Z -> R) t : lin (fun z => - e z) t = - lin e t.
Proof.
  pose proof (Zfloor_lb t). pose proof (Zfloor_ub t). set (z := Zfloor t) in *.
  rewrite (lin_cell _ t z), (lin_cell e t z) by (rewrite plus_IZR; lra). ring.
Qed.
Lemma lin_slope (e : Z -> R) D : (forall z, Rabs (e (z + 1)%Z - e z) <= D) -> forall s t, Rabs (lin e s - lin e t) <= D * Rabs (s - t).
Proof.
  intros H.
  assert (M : forall s t, s <= t -> Rabs (lin e s - lin e t) <= D * (t - s)).
  { intros s t Hst.
    assert (U := lin_mono (fun z => D * IZR z + e z) ltac:(intro z; cbv beta; specialize (H z); apply Rabs_le_inv in H; rewrite plus_IZR; lra) s t Hst).
    assert (V := lin_mono (fun z => D * IZR z + - e z) ltac:(intro z; cbv beta; specialize (H z); apply Rabs_le_inv in H; rewrite plus_IZR; lra) s t Hst).
    rewrite !lin_line in U. rewrite !(lin_line D (fun z => - e z)), !lin_opp in V. apply Rabs_le. lra. }
  intros s t. destruct (Rle_dec s t) as [L|L].
  - rewrite (Rabs_left1 (s - t)) by lra. replace (- (s - t)) with (t - s) by ring. now apply M.
  - rewrite (Rabs_pos_eq (s - t)) by lra. rewrite Rabs_minus_sym. apply M. lra.
Qed.

(** * Weighted means in double, stored as float32 *)
Section Lut.
  Variable L : libm.
  #[local] Instance NLu : Num fl := ieeeNum L.

  Lemma tiny : 0 < bpow radix2 (-53) <= bpow radix2 (-23) / 100000 /\ 0 < bpow radix2 (-1075) <= bpow radix2 (-149) / 100000 /\
    bpow radix2 (-149) <= bpow radix2 (-23) / 100000 /\ bpow radix2 (-23) = / 8388608 /\ bpow radix2 (-1075) <= bpow radix2 (-53) / 100000.
  Proof.
    assert (K : forall a b, (a + 17 <= b)%Z -> bpow radix2 a <= bpow radix2 b / 100000).
    { intros a b H. apply Rle_trans with (bpow radix2 (b - 17)); [apply bpow_le; lia|]. unfold Z.sub. rewrite bpow_plus.
      change (bpow radix2 (-(17))) with (/ 131072). pose proof (bpow_gt_0 radix2 b). lra. }
    repeat split; try apply bpow_gt_0; apply K; lia.
  Qed.
  Lemma near (z : fl) r : Rounds z r -> Rabs r <= bpow radix2 127 -> is_finite z = true /\ Rabs (B2R z - r) <= bpow radix2 (-53) * Rabs r + bpow radix2 (-1075).
  Proof. apply rounds_near. Qed.

  Lemma mean_close (f : R) (i v1 v2 : fl) M : 0 <= f <= 1 -> is_finite i = true -> Rabs (B2R i - f) <= bpow radix2 (-53) + bpow radix2 (-1075) ->
    is_finite v1 = true -> is_finite v2 = true -> Rabs (B2R v1) <= M -> Rabs (B2R v2) <= M -> M <= bpow radix2 125 ->
    let y := nf32 (nadd (nmul (nsub n1 i) v1) (nmul i v2)) in
    is_finite y = true /\ Rabs (B2R y - ((1 - f) * B2R v1 + f * B2R v2)) <= 6 / 10 * bpow radix2 (-23) * M + bpow radix2 (-149).
  Proof.
    intros Hf Fi Ei F1 F2 B1 B2 HM y.
    destruct tiny as ((U0 & U1) & (S0 & S1) & T1 & E1 & S2). destruct small_facts as (_ & _ & E24 & _ & _ & T150).
    assert (G : 1 <= bpow radix2 125) by (change 1 with (bpow radix2 0); apply bpow_le; lia).
    assert (G6 : bpow radix2 126 = 2 * bpow radix2 125) by exact (bpow_plus radix2 1 125).
    assert (G7 : bpow radix2 127 = 2 * bpow radix2 126) by exact (bpow_plus radix2 1 126).
    set (e := bpow radix2 (-23)) in *. set (u := bpow radix2 (-53)) in *. set (t := bpow radix2 (-149)) in *. set (s := bpow radix2 (-1075)) in *.
    set (X := bpow radix2 125) in *.
    destruct (ofZ_exact L 1) as [Fo Eo]; [lia|].
    assert (Rw : Rounds (nsub n1 i) (1 - B2R i)) by (rewrite <- Eo; apply (PHalf.minus_Rounds L); assumption).
    apply Rabs_le_inv in Ei. 
    assert (Ai : Rabs (B2R i) <= 2) by (apply Rabs_le; lra). assert (Aw : Rabs (1 - B2R i) <= 1 + 2 * u) by (apply Rabs_le; lra).
    destruct (near _ _ Rw) as [Fw Ew]; [rewrite G7, G6; fold X; lra|]. fold u s in Ew.
    assert (Ew' : Rabs (B2R (nsub n1 i) - (1 - f)) <= 3 * u).
    { replace (B2R (nsub n1 i) - (1 - f)) with ((B2R (nsub n1 i) - (1 - B2R i)) + (f - B2R i)) by ring. eapply Rle_trans; [apply Rabs_triang|].
      assert (Rabs (f - B2R i) <= u + s) by (apply Rabs_le; lra). assert (u * Rabs (1 - B2R i) <= u * (1 + 2 * u)) by (apply Rmult_le_compat_l; lra). nra. }
    set (w := nsub n1 i) in *. apply Rabs_le_inv in Ew'. assert (Bw : Rabs (B2R w) <= 2) by (apply Rabs_le; lra).
    pose proof (Rabs_pos (B2R v1)) as P1. pose proof (Rabs_pos (B2R v2)) as P2. assert (M0 : 0 <= M) by lra.
    assert (C : forall (z v : fl) (g k : R), is_finite z = true -> is_finite v = true -> 0 <= g <= 1 -> Rabs (B2R z - g) <= k * u -> 0 <= k <= 3 -> Rabs (B2R v) <= M ->
      is_finite (nmul z v) = true /\ Rabs (B2R (nmul z v) - g * B2R v) <= 5 * u * M + s).
    { intros z v g k Fz Fv Hg Ez Hk Bv.
      assert (Rp : Rounds (nmul z v) (B2R z * B2R v)) by (apply mult_Rounds; assumption).
      assert (Az : Rabs (B2R z) <= 2) by (apply Rabs_le_inv in Ez; apply Rabs_le; nra).
      assert (Ap : Rabs (B2R z * B2R v) <= 2 * M) by (rewrite Rabs_mult; apply Rmult_le_compat; try apply Rabs_pos; assumption).
      destruct (near _ _ Rp) as [Fp Ep]; [rewrite G7, G6; fold X; lra|]. fold u s in Ep. split; [exact Fp|].
      replace (B2R (nmul z v) - g * B2R v) with ((B2R (nmul z v) - B2R z * B2R v) + (B2R z - g) * B2R v) by ring. eapply Rle_trans; [apply Rabs_triang|].
      rewrite (Rabs_mult (B2R z - g)). assert (Rabs (B2R z - g) * Rabs (B2R v) <= k * u * M) by (apply Rmult_le_compat; try apply Rabs_pos; assumption).
      assert (u * Rabs (B2R z * B2R v) <= u * (2 * M)) by (apply Rmult_le_compat_l; lra). assert (k * (u * M) <= 3 * (u * M)) by (apply Rmult_le_compat_r; [apply Rmult_le_pos; lra|lra]). nra. }
    destruct (C w v1 (1 - f) 3 Fw F1) as [Fp1 Ep1]; [lra|apply Rabs_le; lra|lra|exact B1|].
    destruct (C i v2 f 2 Fi F2) as [Fp2 Ep2]; [lra|apply Rabs_le; lra|lra|exact B2|].
    set (r := (1 - f) * B2R v1 + f * B2R v2).
    assert (Br : Rabs r <= M).
    { unfold r. eapply Rle_trans; [apply Rabs_triang|]. rewrite !Rabs_mult, (Rabs_pos_eq (1 - f)), (Rabs_pos_eq f) by lra. nra. }
    set (p1 := nmul w v1) in *. set (p2 := nmul i v2) in *.
    assert (Rq : Rounds (nadd p1 p2) (B2R p1 + B2R p2)) by (apply plus_Rounds; assumption).
    assert (Eq0 : Rabs (B2R p1 + B2R p2 - r) <= 10 * u * M + 2 * s).
    { unfold r. replace (B2R p1 + B2R p2 - ((1 - f) * B2R v1 + f * B2R v2)) with ((B2R p1 - (1 - f) * B2R v1) + (B2R p2 - f * B2R v2)) by ring.
      eapply Rle_trans; [apply Rabs_triang|]. lra. }
    assert (uM : 0 <= u * M <= e * M / 100000) by (split; [apply Rmult_le_pos; lra|unfold Rdiv in *; nra]).
    assert (eM : 0 <= e * M <= M / 1000) by (split; [apply Rmult_le_pos; lra|rewrite E1; lra]).
    assert (Bq : Rabs (B2R p1 + B2R p2) <= M + (10 * u * M + 2 * s)).
    { replace (B2R p1 + B2R p2) with (r + (B2R p1 + B2R p2 - r)) by ring. eapply Rle_trans; [apply Rabs_triang|]. lra. }
    destruct (near _ _ Rq) as [Fq Eq]; [rewrite G7, G6; fold X; lra|]. fold u s in Eq. set (q := nadd p1 p2) in *.
    assert (Eqr : Rabs (B2R q - r) <= 13 * u * M + 5 * s).
    { replace (B2R q - r) with ((B2R q - (B2R p1 + B2R p2)) + (B2R p1 + B2R p2 - r)) by ring. eapply Rle_trans; [apply Rabs_triang|].
      assert (u * Rabs (B2R p1 + B2R p2) <= u * (M + (10 * u * M + 2 * s))) by (apply Rmult_le_compat_l; lra).
      assert (u * (10 * u * M + 2 * s) <= / 10 * (10 * u * M + 2 * s)) by (apply Rmult_le_compat_r; [|rewrite E1 in *; lra]; lra).
      rewrite Rmult_plus_distr_l in H. lra. }
    assert (Bqq : Rabs (B2R q) <= M + (13 * u * M + 5 * s)).
    { replace (B2R q) with (r + (B2R q - r)) by ring. eapply Rle_trans; [apply Rabs_triang|]. lra. }
    destruct (f32_finite q 127 Fq) as [Fy Ey]; [rewrite G7, G6; fold X; lra|lia|lia|].
    change y with (f64 (f32of q)). split; [exact Fy|]. rewrite Ey.
    pose proof (rnd_rel (p := 24) (e := 128) (B2R q)) as H. change (2 - 128 - 24)%Z with (-150)%Z in H. change (- (24))%Z with (-24)%Z in H. rewrite E24, T150 in H. fold e t in H.
    replace (rnd (p := 24) (e := 128) (B2R q) - r) with ((rnd (p := 24) (e := 128) (B2R q) - B2R q) + (B2R q - r)) by ring. eapply Rle_trans; [apply Rabs_triang|].
    assert (e / 2 * Rabs (B2R q) <= e / 2 * (M + (13 * u * M + 5 * s))) by (apply Rmult_le_compat_l; lra).
    assert (e * (13 * u * M + 5 * s) <= 1 * (13 * u * M + 5 * s)) by (apply Rmult_le_compat_r; lra). lra.
  Qed.

  (** * Normalisation *)
  Lemma scale_cases d (x : fl) : exists z : Z, fullScale d = IZR z /\ (1 <= z < 65536)%Z /\
    ((bitDepthToNormalized x d = ndiv x (nofZ z) /\ normalizedToBitDepth x d = nmul x (nofZ z)) \/ (z = 1%Z /\ bitDepthToNormalized x d = x /\ normalizedToBitDepth x d = x)).
  Proof.
    destruct d as [t|b|]; try (exists 1%Z; repeat split; [lia|right; repeat split; reflexivity]).
    unfold bitDepthToNormalized, normalizedToBitDepth, aval_eqb.
    destruct (String.eqb_spec t "8i") as [->|N1]; [exists 255%Z; split; [reflexivity|split; [lia|left; split; reflexivity]]|].
    destruct (String.eqb_spec t "10i") as [->|N2]; [exists 1023%Z; split; [reflexivity|split; [lia|left; split; reflexivity]]|].
    destruct (String.eqb_spec t "12i") as [->|N3]; [exists 4095%Z; split; [reflexivity|split; [lia|left; split; reflexivity]]|].
    destruct (String.eqb_spec t "16i") as [->|N4]; [exists 65535%Z; split; [reflexivity|split; [lia|left; split; reflexivity]]|].
    exists 1%Z. split; [apply fullScale_other; now apply String.eqb_neq|]. split; [lia|]. right. repeat split; reflexivity.
  Qed.
  Lemma self_near (x : fl) : is_finite x = true -> Rabs (B2R x - B2R x) <= bpow radix2 (-53) * Rabs (B2R x) + bpow radix2 (-1075).
  Proof. intros _. rewrite Rminus_diag_eq, Rabs_R0 by reflexivity. apply Rplus_le_le_0_compat; [apply Rmult_le_pos; [apply bpow_ge_0|apply Rabs_pos]|apply bpow_ge_0]. Qed.
  Lemma normalized_near d (x : fl) : is_finite x = true -> Rabs (B2R x / fullScale d) <= bpow radix2 126 ->
    is_finite (bitDepthToNormalized x d) = true /\ B2R (bitDepthToNormalized x d) = rnd (p := 53) (e := 1024) (B2R x / fullScale d) /\
    Rabs (B2R (bitDepthToNormalized x d) - B2R x / fullScale d) <= bpow radix2 (-53) * Rabs (B2R x / fullScale d) + bpow radix2 (-1075).
  Proof.
    intros F B. destruct (scale_cases d x) as (z & E & Hz & [[-> _]|(-> & -> & _)]); rewrite E in *.
    - destruct (ofZ_exact L z) as [Fz Ez]; [lia|]. assert (P : 1 <= IZR z) by (apply IZR_le; lia).
      assert (H : Rounds (ndiv x (nofZ z)) (B2R x / IZR z)) by (rewrite <- Ez; apply div_Rounds; [exact F|exact Fz|rewrite Ez; lra]).
      destruct (Rounds_finite _ _ 126 H B) as [F1 E1]; [lia|lia|]. split; [exact F1|]. split; [exact E1|].
      rewrite E1. exact (rnd_rel (p := 53) (e := 1024) _).
    - unfold Rdiv in *. rewrite Rinv_1, Rmult_1_r in *. split; [exact F|]. split; [symmetry; apply rnd_id|]. now apply self_near.
  Qed.
  Lemma normalized_stored d (x : fl) : is_finite x = true -> Rabs (B2R x / fullScale d) <= bpow radix2 126 ->
    stored (nf32 (bitDepthToNormalized x d)) (B2R x / fullScale d) /\
    B2R (nf32 (bitDepthToNormalized x d)) = rnd (p := 24) (e := 128) (rnd (p := 53) (e := 1024) (B2R x / fullScale d)).
  Proof.
    intros F B. destruct (normalized_near d x F B) as (F1 & E1 & C1). split; [now apply near_stored|].
    destruct (f32_finite (bitDepthToNormalized x d) 126 F1) as [_ E]; [|lia|lia|].
    - rewrite E1. apply abs_round_le_generic; [apply fexp_valid|apply valid_rnd_N| |exact B].
      apply generic_format_bpow. unfold SpecFloat.fexp, SpecFloat.emin. lia.
    - rewrite <- E1. exact E.
  Qed.
  Lemma div_nonneg x y : 0 <= x -> 0 < y -> 0 <= x / y.
  Proof. intros Hx Hy. apply Rmult_le_pos; [exact Hx|]. left. now apply Rinv_0_lt_compat. Qed.
  Lemma rnd_unit {p e} {Hp : Prec_gt_0 p} {He : Prec_lt_emax p e} r : (p < e)%Z -> 0 <= r <= 1 -> 0 <= rnd (p := p) (e := e) r <= 1.
  Proof.
    intros Hpe [H0 H1]. split; [rewrite <- (rnd_0 (p := p) (e := e)); now apply rnd_le|].
    rewrite <- (rnd_format (p := p) (e := e) 1); [now apply rnd_le|]. change 1 with (bpow radix2 0). apply generic_format_bpow. unfold SpecFloat.fexp, SpecFloat.emin, Prec_gt_0 in *. lia.
  Qed.

  (** * 1D lookups *)
  Lemma index_close n d (x : fl) : (2 <= n)%nat -> (Z.of_nat n <= 2 ^ 53)%Z -> is_finite x = true -> 0 <= B2R x <= fullScale d ->
    let i := nmul (nf32 (bitDepthToNormalized x d)) (nofZ (Z.of_nat n - 1)) in
    is_finite i = true /\ 0 <= B2R i <= INR (n - 1) /\ Rabs (B2R i - B2R x / fullScale d * INR (n - 1)) <= 101 / 100 * bpow radix2 (-23) * INR (n - 1).
  Proof.
    intros Hn Hm Fx Hx i. pose proof (fullScale_pos d) as Pd.
    assert (HP : 0 <= B2R x / fullScale d <= 1).
    { split; [apply div_nonneg; lra|]. apply Rmult_le_reg_r with (fullScale d); [exact Pd|]. unfold Rdiv. rewrite Rmult_assoc, Rinv_l by lra. lra. }
    set (P := B2R x / fullScale d) in *.
    assert (G : 1 <= bpow radix2 126) by (change 1 with (bpow radix2 0); apply bpow_le; lia).
    destruct (normalized_stored d x Fx) as [[Fp Ep] Rp]; [fold P; rewrite Rabs_pos_eq; lra|]. fold P in Ep, Rp.
    set (p := nf32 (bitDepthToNormalized x d)) in *.
    assert (Hp : 0 <= B2R p <= 1) by (rewrite Rp; apply rnd_unit; [lia|]; apply rnd_unit; [lia|exact HP]).
    destruct (ofZ_exact L (Z.of_nat n - 1)) as [Fm Em]; [lia|]. rewrite (INR_pred n) in Em by lia.
    assert (M1 : 1 <= INR (n - 1)) by (change 1 with (INR 1); apply le_INR; lia). set (m := INR (n - 1)) in *.
    assert (M2 : m <= bpow radix2 53).
    { unfold m. rewrite <- INR_pred by lia. change (bpow radix2 53) with (IZR (2 ^ 53)). apply IZR_le. lia. }
    assert (Ri : Rounds i (B2R p * m)) by (rewrite <- Em; apply mult_Rounds; assumption).
    assert (Bm : 0 <= B2R p * m <= m) by (split; [apply Rmult_le_pos; lra|nra]).
    assert (B127 : m <= bpow radix2 127) by (eapply Rle_trans; [exact M2|apply bpow_le; lia]).
    destruct (Rounds_finite i _ 127 Ri) as [Fi Ei]; [rewrite Rabs_pos_eq; lra|lia|lia|].
    split; [exact Fi|]. split.
    - rewrite Ei. split; [rewrite <- (rnd_0 (p := 53) (e := 1024)); now apply rnd_le|].
      rewrite <- Em. rewrite <- (rnd_id (p := 53) (e := 1024) (nofZ (Z.of_nat n - 1))). apply rnd_le. rewrite rnd_id, Em. lra.
    - destruct (near i _ Ri) as [_ Ci]; [rewrite Rabs_pos_eq; lra|].
      destruct tiny as ((U0 & U1) & (S0 & S1) & T1 & E1 & S2).
      set (e := bpow radix2 (-23)) in *. set (u := bpow radix2 (-53)) in *. set (t := bpow radix2 (-149)) in *. set (s := bpow radix2 (-1075)) in *.
      replace (B2R i - P * m) with ((B2R i - B2R p * m) + (B2R p - P) * m) by ring. eapply Rle_trans; [apply Rabs_triang|].
      rewrite (Rabs_mult (B2R p - P)), (Rabs_pos_eq m) by lra. rewrite (Rabs_pos_eq (B2R p * m)) in Ci by lra. rewrite (Rabs_pos_eq P) in Ep by lra.
      assert (u * (B2R p * m) <= u * m) by (apply Rmult_le_compat_l; lra).
      assert (e * P <= e * 1) by (apply Rmult_le_compat_l; lra).
      assert (Rabs (B2R p - P) * m <= (e + t) * m) by (apply Rmult_le_compat_r; lra).
      assert (u * m <= e / 100000 * m) by (apply Rmult_le_compat_r; lra).
      assert (t * m <= e / 100000 * m) by (apply Rmult_le_compat_r; lra).
      assert (s * 1 <= s * m) by (apply Rmult_le_compat_l; lra). assert (s * m <= e / 100000 * m) by (apply Rmult_le_compat_r; lra). 
      assert (0 <= e * m) by (apply Rmult_le_pos; lra). lra.
  Qed.

  Theorem lut1d_close c (h : header fl) dIn a n :
    isLinearLUT h dIn a n -> (2 <= n)%nat -> (Z.of_nat n <= 2 ^ 53)%Z ->
    exists f, actsPerChannel c (Node h BLUT1D) f /\
      forall ch M D, (ch < 3)%nat ->
        (forall k, (k < n)%nat -> is_finite (entry1D a k ch) = true /\ Rabs (B2R (entry1D a k ch)) <= M) -> M <= bpow radix2 125 ->
        (forall k, (k + 1 < n)%nat -> Rabs (B2R (entry1D a (k + 1) ch) - B2R (entry1D a k ch)) <= D) ->
        forall x k w, is_finite x = true -> inCell dIn n k w (B2R x) ->
          within 2 (M + INR (n - 1) * D) ((1 - w) * B2R (entry1D a k ch) + w * B2R (entry1D a (k + 1) ch)) (f ch x).
  Proof.
    intros H Hn Hm. exists (linFun L a dIn). split; [now apply (linear_acts L c h dIn a n)|].
    destruct H as [Hi [[d Ho] [Hc [Hf [Him [Ha [Hw Hnn]]]]]]]. intros ch M D Hch Hent HM HD x k w Fx [Hk [Hwt Hx]].
    pose proof (fullScale_pos dIn) as Pd.
    assert (M1 : 1 <= INR (n - 1)) by (change 1 with (INR 1); apply le_INR; lia).
    assert (EP : B2R x / fullScale dIn * INR (n - 1) = INR k + w).
    { rewrite Hx. unfold codeAt. rewrite plus_INR. change (INR 1) with 1. field. lra. }
    assert (Kb : INR k + 1 <= INR (n - 1)) by (change 1 with (INR 1); rewrite <- plus_INR; apply le_INR; lia).
    pose proof (pos_INR k) as Pk.
    assert (Hx01 : 0 <= B2R x <= fullScale dIn).
    { assert (X : B2R x = fullScale dIn * ((INR k + w) / INR (n - 1))) by (rewrite <- EP; field; lra). rewrite X.
      assert (Q : 0 <= (INR k + w) / INR (n - 1) <= 1).
      { split; [apply div_nonneg; lra|]. apply Rmult_le_reg_r with (INR (n - 1)); [lra|]. unfold Rdiv. rewrite Rmult_assoc, Rinv_l by lra. lra. }
      split; [apply Rmult_le_pos; lra|]. rewrite <- (Rmult_1_r (fullScale dIn)) at 2. apply Rmult_le_compat_l; lra. }
    destruct (index_close n dIn x Hn Hm Fx Hx01) as (Fi & Bi & Ei). rewrite EP in Ei.
    change (linFun L a dIn ch x) with (nf32 (match lookup1DLinear a (nf32 (bitDepthToNormalized x dIn)) ch with Ok y => y | Err _ => n0 end)).
    unfold lookup1DLinear, dim. destruct (a_dims a) as [|n' rest] eqn:Ed; [discriminate Hnn|]. injection Hnn as ->. cbn [getn nth_error bind].
    cbv zeta. set (i := nmul (nf32 (bitDepthToNormalized x dIn)) (nofZ (Z.of_nat n - 1))) in *.
    assert (Ni : (nisnan i || nisinf i)%bool = false) by (destruct i; try discriminate; reflexivity).
    rewrite Ni. cbv zeta.
    assert (Elo : nfloor i = Zfloor (B2R i)) by (now apply flFloor_R).
    assert (Ehi : nceil i = Zceil (B2R i)) by (cbn [nceil ieeeNum NLu]; unfold Zceil; rewrite flFloor_R by (now rewrite is_finite_Bopp); now rewrite B2R_Bopp).
    rewrite Elo, Ehi.
    assert (Lo : (0 <= Zfloor (B2R i) < Z.of_nat n)%Z).
    { split; [apply Zfloor_lub; lra|]. assert (Zfloor (B2R i) <= Z.of_nat n - 1)%Z; [|lia].
      rewrite <- (Zfloor_IZR (Z.of_nat n - 1)). apply Zfloor_le. rewrite INR_pred by lia. lra. }
    assert (Hi' : (0 <= Zceil (B2R i) < Z.of_nat n)%Z).
    { split; [apply Z.le_trans with (1 := proj1 Lo); apply le_IZR; eapply Rle_trans; [apply Zfloor_lb|apply Zceil_ub]|].
      assert (Zceil (B2R i) <= Z.of_nat n - 1)%Z; [|lia]. apply Zceil_glb. rewrite INR_pred by lia. lra. }
    rewrite (lookup1D_entry a n) by (try assumption; now rewrite Ed). cbn [bind].
    rewrite (lookup1D_entry a n) by (try assumption; now rewrite Ed). cbn [bind].
    pose proof (Zfloor_lb (B2R i)) as F0. pose proof (Zfloor_ub (B2R i)) as F1.
    set (lo := Zfloor (B2R i)) in *. set (hi := Zceil (B2R i)) in *.
    destruct (ofZ_exact L lo) as [Fl El]; [lia|].
    assert (Rt : Rounds (nsub i (nofZ lo)) (B2R i - IZR lo)) by (rewrite <- El; apply (PHalf.minus_Rounds L); assumption).
    assert (G7 : 1 <= bpow radix2 127) by (change 1 with (bpow radix2 0); apply bpow_le; lia).
    destruct (near _ _ Rt) as [Ft Et]; [rewrite Rabs_pos_eq; lra|]. rewrite (Rabs_pos_eq (B2R i - IZR lo)) in Et by lra.
    assert (U0 := bpow_gt_0 radix2 (-53)).
    assert (Et' : Rabs (B2R (nsub i (nofZ lo)) - (B2R i - IZR lo)) <= bpow radix2 (-53) + bpow radix2 (-1075)).
    { eapply Rle_trans; [exact Et|]. apply Rplus_le_compat_r. rewrite <- (Rmult_1_r (bpow radix2 (-53))) at 2. apply Rmult_le_compat_l; lra. }
    destruct (Hent (Z.to_nat lo)) as [Fv1 Bv1]; [lia|]. destruct (Hent (Z.to_nat hi)) as [Fv2 Bv2]; [lia|].
    destruct (mean_close (B2R i - IZR lo) (nsub i (nofZ lo)) (entry1D a (Z.to_nat lo) ch) (entry1D a (Z.to_nat hi) ch) M) as [Fy Ey]; try assumption; [lra|].
    split; [exact Fy|].
    set (eZ := fun z => B2R (entry1D a (clampZ n z) ch)).
    assert (El1 : (1 - (B2R i - IZR lo)) * B2R (entry1D a (Z.to_nat lo) ch) + (B2R i - IZR lo) * B2R (entry1D a (Z.to_nat hi) ch) = lin eZ (B2R i)).
    { unfold lin, eZ. fold lo hi. rewrite <- (clampZ_in n (Z.to_nat lo)), <- (clampZ_in n (Z.to_nat hi)) by lia. rewrite !Z2Nat.id by lia. reflexivity. }
    rewrite El1 in Ey.
    assert (D0 : 0 <= D) by (eapply Rle_trans; [apply Rabs_pos|apply (HD k Hk)]).
    assert (Sl : Rabs (lin eZ (B2R i) - lin eZ (INR k + w)) <= D * Rabs (B2R i - (INR k + w))).
    { apply lin_slope. intro z. unfold eZ. destruct (Z.ltb_spec z 0) as [Z0|Z0]; [|destruct (Z.leb_spec (Z.of_nat n - 1) z) as [Z1|Z1]].
      - rewrite !clampZ_low by lia. rewrite Rminus_diag_eq, Rabs_R0 by reflexivity. exact D0.
      - rewrite !clampZ_high by lia. rewrite Rminus_diag_eq, Rabs_R0 by reflexivity. exact D0.
      - replace z with (Z.of_nat (Z.to_nat z)) by lia. replace (Z.of_nat (Z.to_nat z) + 1)%Z with (Z.of_nat (Z.to_nat z + 1)) by lia.
        rewrite !clampZ_in by lia. apply HD. lia. }
    assert (Ec : lin eZ (INR k + w) = (1 - w) * B2R (entry1D a k ch) + w * B2R (entry1D a (k + 1) ch)).
    { rewrite (lin_cell eZ _ (Z.of_nat k)) by (rewrite plus_IZR, <- INR_IZR_INZ; lra). unfold eZ.
      replace (Z.of_nat k + 1)%Z with (Z.of_nat (k + 1)) by lia. rewrite !clampZ_in by lia. rewrite <- INR_IZR_INZ. ring. }
    rewrite <- Ec. match goal with |- Rabs (B2R ?z - _) <= _ => set (y := z) in * end.
    change (Rabs (B2R y - lin eZ (B2R i)) <= 6 / 10 * bpow radix2 (-23) * M + bpow radix2 (-149)) in Ey. clearbody y.
    replace (B2R y - lin eZ (INR k + w)) with ((B2R y - lin eZ (B2R i)) + (lin eZ (B2R i) - lin eZ (INR k + w))) by ring.
    eapply Rle_trans; [apply Rabs_triang|].
    assert (DS : D * Rabs (B2R i - (INR k + w)) <= D * (101 / 100 * bpow radix2 (-23) * INR (n - 1))) by (apply Rmult_le_compat_l; assumption).
    destruct tiny as (_ & _ & T1 & E1 & _). assert (T0 := bpow_gt_0 radix2 (-148)).
    assert (T8 : bpow radix2 (-149) <= bpow radix2 (-148)) by (apply bpow_le; lia).
    assert (M0 : 0 <= M) by (eapply Rle_trans; [apply Rabs_pos|exact Bv1]).
    set (e := bpow radix2 (-23)) in *. assert (0 <= e * M) by (apply Rmult_le_pos; lra). assert (0 <= e * (INR (n - 1) * D)) by (repeat apply Rmult_le_pos; lra).
    replace (2 * (e * (M + INR (n - 1) * D) + bpow radix2 (-148))) with (2 * (e * M) + 2 * (e * (INR (n - 1) * D)) + 2 * bpow radix2 (-148)) by ring.
    replace (D * (101 / 100 * e * INR (n - 1))) with (101 / 100 * (e * (INR (n - 1) * D))) in DS by ring. lra.
  Qed.

  (** * Changes of depth *)
  Lemma denormalized_stored d (y : fl) : is_finite y = true -> Rabs (B2R y * fullScale d) <= bpow radix2 126 ->
    stored (nf32 (normalizedToBitDepth y d)) (B2R y * fullScale d).
  Proof.
    intros F B. destruct (scale_cases d y) as (z & E & Hz & [[_ ->]|(-> & _ & ->)]); rewrite E in *.
    - destruct (ofZ_exact L z) as [Fz Ez]; [lia|]. apply store; [|exact B]. rewrite <- Ez. apply mult_Rounds; assumption.
    - rewrite Rmult_1_r in *. apply near_stored; [exact F|now apply self_near|exact B].
  Qed.
End Lut.
