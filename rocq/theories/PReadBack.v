(** LUT files written from a list and read back: values at the grid points. *)
From Coq Require Import Reals Lra Lia ZArith List String Psatz Arith Permutation.
From Flocq Require Import Core BinarySingleNaN.
From Verif Require Import MConvert SpecWrite SpecTools SpecPrelut SpecFiles SpecReadBack SpecIeee PBase PFacts PIeee PIeeeArith PLut1D PHalfLut PRound PCloseLut PGrid PConvert PLutIeee PTextIeee.
Import ListNotations.
Local Open Scope string_scope.
Local Open Scope list_scope.
Local Open Scope R_scope.

(** * Grid points *)
Section Points.
  Variable L : libm.
  #[local] Hint Extern 0 (Num fl) => exact (ieeeNum L) : typeclass_instances.

  Lemma frac01 n i : (2 <= n)%nat -> (i < n)%nat -> 0 <= INR i / INR (n - 1) <= 1.
  Proof.
    intros Hn Hi. assert (P : 1 <= INR (n - 1)) by (change 1 with (INR 1); apply le_INR; lia).
    assert (Q : INR i <= INR (n - 1)) by (apply le_INR; lia). pose proof (pos_INR i).
    split; [apply Rmult_le_pos; [lra|]; apply Rlt_le, Rinv_0_lt_compat; lra|].
    apply Rmult_le_reg_r with (INR (n - 1)); [lra|]. unfold Rdiv. rewrite Rmult_assoc, Rinv_l by lra. lra.
  Qed.

  Lemma grid_unique n i x y : isGridPoint n i x -> isGridPoint n i y -> x = y.
  Proof.
    intros (Fx & Ex & Sx) (Fy & Ey & Sy). apply B2R_Bsign_inj; try assumption; congruence.
  Qed.

  Lemma grid_point n i : (2 <= n)%nat -> (i < n)%nat -> (Z.of_nat n <= 2 ^ 53)%Z ->
    isGridPoint n i (ndiv (nofZ (Z.of_nat i)) (nofZ (Z.of_nat n - 1))).
  Proof.
    intros Hn Hi Hm. destruct (ofZ_exact L (Z.of_nat i)) as [Fi Ei]; [lia|]. destruct (ofZ_exact L (Z.of_nat n - 1)) as [Fd Ed]; [lia|].
    pose proof (frac01 n i Hn Hi) as Q.
    assert (P : 1 <= INR (n - 1)) by (change 1 with (INR 1); apply le_INR; lia).
    assert (D : Rounds (p := 53) (e := 1024) (@ndiv fl (ieeeNum L) (nofZ (Z.of_nat i)) (nofZ (Z.of_nat n - 1))) (INR i / INR (n - 1))).
    { rewrite <- INR_pred by lia. rewrite (INR_IZR_INZ i). rewrite <- Ei, <- Ed. apply div_Rounds; try assumption. rewrite Ed, INR_pred by lia. lra. }
    destruct (Rounds_finite _ _ 0 D) as [F E]; [change (bpow radix2 0) with 1; rewrite Rabs_pos_eq; lra|lia|lia|].
    split; [exact F|]. split; [exact E|].
    destruct i as [|i].
    - change (nofZ (Z.of_nat 0)) with (B754_zero false : fl) in *.
      assert (Sd : Bsign (nofZ (Z.of_nat n - 1) : fl) = false) by (apply sign_pos; [exact Fd|]; rewrite Ed, INR_pred by lia; lra).
      cbn [ndiv ieeeNum]. destruct (nofZ (Z.of_nat n - 1) : fl) as [s|s| |s m ex B]; try discriminate Fd.
      + cbn [B2R] in Ed. rewrite INR_pred in Ed by lia. lra.
      + cbn [Bsign] in Sd. subst s. reflexivity.
    - apply sign_pos; [exact F|]. rewrite E.
      assert (G : bpow radix2 (-53) <= INR (S i) / INR (n - 1)).
      { assert (I1 : 1 <= INR (S i)) by (change 1 with (INR 1); apply le_INR; lia).
        assert (N1 : INR (n - 1) <= bpow radix2 53) by (rewrite <- INR_pred by lia; change (bpow radix2 53) with (IZR (2 ^ 53)); apply IZR_le; lia).
        change (-53)%Z with (- (53))%Z. rewrite (bpow_opp radix2 53). pose proof (bpow_gt_0 radix2 53). 
        apply Rle_trans with (/ INR (n - 1)); [apply Rinv_le; lra|]. unfold Rdiv. rewrite <- (Rmult_1_l (/ INR (n - 1))) at 1.
        apply Rmult_le_compat_r; [apply Rlt_le, Rinv_0_lt_compat; lra|exact I1]. }
      apply (rnd_le (p := 53) (e := 1024)) in G. rewrite (rnd_format (bpow radix2 (-53))) in G.
      + pose proof (bpow_gt_0 radix2 (-53)). lra.
      + apply generic_format_bpow. unfold SpecFloat.fexp, SpecFloat.emin. lia.
  Qed.

  Lemma unit_point (f : fl) : is_finite f = true -> Bsign f = false -> Rabs (B2R f) <= 1 -> nadd (nmul f (nsub n1 n0)) n0 = f.
  Proof.
    intros F S B. change (nsub n1 n0 : fl) with (n1 : fl).
    destruct f as [s|s| |s m e Be]; try discriminate F.
    - cbn [Bsign] in S. subst s. reflexivity.
    - cbn [Bsign] in S. subst s. set (f := B754_finite false m e Be : fl) in *.
      assert (P : 0 < B2R f) by (apply F2R_gt_0; reflexivity).
      destruct (ofZ_exact L 1) as [F1 E1]; [lia|].
      assert (M : Rounds (p := 53) (e := 1024) (@nmul fl (ieeeNum L) f n1) (B2R f)).
      { replace (B2R f) with (B2R f * B2R (@n1 fl (ieeeNum L))); [apply mult_Rounds; [exact F|exact F1]|].
        change (B2R (@n1 fl (ieeeNum L))) with (B2R (@nofZ fl (ieeeNum L) 1)). rewrite E1. ring. }
      destruct (Rounds_finite _ _ 0 M) as [F2 E2]; [exact B|lia|lia|]. rewrite rnd_id in E2.
      set (g := @nmul fl (ieeeNum L) f n1) in *.
      assert (A : Rounds (p := 53) (e := 1024) (@nadd fl (ieeeNum L) g n0) (B2R f)).
      { replace (B2R f) with (B2R g + B2R (@n0 fl (ieeeNum L))); [apply plus_Rounds; [exact F2|reflexivity]|].
        rewrite E2. change (B2R (@n0 fl (ieeeNum L))) with 0. ring. }
      destruct (Rounds_finite _ _ 0 A) as [F3 E3]; [exact B|lia|lia|]. rewrite rnd_id in E3.
      apply B2R_Bsign_inj; [exact F3|exact F|exact E3|]. rewrite (sign_pos _ F3) by lra. reflexivity.
  Qed.

  Lemma sample_point n i x : (2 <= n)%nat -> (i < n)%nat -> (Z.of_nat n <= 2 ^ 53)%Z -> isGridPoint n i x -> samplePoint i n n0 n1 = Ok x.
  Proof.
    intros Hn Hi Hm G. pose proof (grid_point n i Hn Hi Hm) as G'. pose proof (grid_unique _ _ _ _ G G') as E.
    destruct (ofZ_exact L (Z.of_nat n - 1)) as [Fd Ed]; [lia|].
    assert (P : 1 <= INR (n - 1)) by (change 1 with (INR 1); apply le_INR; lia). rewrite INR_pred in Ed by lia.
    unfold samplePoint, samplePos, pyfdiv.
    assert (Z : @neqb fl (ieeeNum L) (nofZ (Z.of_nat n - 1)) n0 = false).
    { change (Beqb (@nofZ fl (ieeeNum L) (Z.of_nat n - 1)) (@n0 fl (ieeeNum L)) = false).
      rewrite Beqb_correct; [|exact Fd|reflexivity]. rewrite Ed. apply Req_bool_false. change (B2R (@n0 fl (ieeeNum L))) with 0. lra. }
    rewrite Z. cbn [bind]. rewrite <- E. f_equal. apply unit_point; try apply G.
    destruct G as (F & Er & S). rewrite Er. pose proof (frac01 n i Hn Hi) as Q.
    rewrite Rabs_pos_eq.
    - change 1 with (bpow radix2 0). rewrite <- (rnd_format (p := 53) (e := 1024) (bpow radix2 0)); [|apply generic_format_bpow; unfold SpecFloat.fexp, SpecFloat.emin; lia].
      apply (rnd_le (p := 53) (e := 1024)). change (bpow radix2 0) with 1. lra.
    - rewrite <- (rnd_0 (p := 53) (e := 1024)). apply (rnd_le (p := 53) (e := 1024)). lra.
  Qed.
End Points.

(** * Linear lookups at grid points *)
Section Curve.
  Variable L : libm.
  #[local] Hint Extern 0 (Num fl) => exact (ieeeNum L) : typeclass_instances.

  Lemma f32_grid n i x : (2 <= n)%nat -> (i < n)%nat -> isGridPoint n i x ->
    is_finite (nf32 x) = true /\ 0 <= B2R (nf32 x) <= 1 /\ Rabs (B2R (nf32 x) - INR i / INR (n - 1)) <= 51 / 100 * bpow radix2 (-23).
  Proof.
    intros Hn Hi (F & E & S). pose proof (frac01 n i Hn Hi) as Q. set (q := INR i / INR (n - 1)) in *.
    change (B2R x = rnd (p := 53) (e := 1024) q) in E.
    assert (O53 : rnd (p := 53) (e := 1024) 1 = 1) by (apply rnd_format; change 1 with (bpow radix2 0); apply generic_format_bpow; unfold SpecFloat.fexp, SpecFloat.emin; lia).
    assert (O24 : rnd (p := 24) (e := 128) 1 = 1) by (apply rnd_format; change 1 with (bpow radix2 0); apply generic_format_bpow; unfold SpecFloat.fexp, SpecFloat.emin; lia).
    assert (X01 : 0 <= B2R x <= 1).
    { rewrite E. pose proof (rnd_le (p := 53) (e := 1024) 0 q ltac:(lra)) as A. pose proof (rnd_le (p := 53) (e := 1024) q 1 ltac:(lra)) as B. rewrite rnd_0 in A. lra. }
    destruct (f32_finite x 0 F) as [F2 E2]; [change (bpow radix2 0) with 1; rewrite Rabs_pos_eq; lra|lia|lia|].
    change (nf32 x) with (f64 (f32of x)). split; [exact F2|]. rewrite E2. split.
    { pose proof (rnd_le (p := 24) (e := 128) 0 (B2R x) ltac:(lra)) as A. pose proof (rnd_le (p := 24) (e := 128) (B2R x) 1 ltac:(lra)) as B. rewrite rnd_0 in A. lra. }
    pose proof (rnd_rel (p := 53) (e := 1024) q) as R1. rewrite <- E in R1. pose proof (rnd_rel (p := 24) (e := 128) (B2R x)) as R2.
    rewrite (Rabs_pos_eq q) in R1 by lra. rewrite (Rabs_pos_eq (B2R x)) in R2 by lra.
    destruct tiny as ((U0 & U1) & (S0 & S1) & T1 & E1 & S2).
    assert (H24 : bpow radix2 (- 24) = bpow radix2 (-23) / 2) by (change (-23)%Z with (-24 + 1)%Z; rewrite bpow_plus; change (bpow radix2 1) with 2; field).
    assert (H150 : bpow radix2 (2 - 128 - 24) <= bpow radix2 (-149)) by (apply bpow_le; lia).
    change (2 - 1024 - 53)%Z with (-1075)%Z in R1. change (- (53))%Z with (-53)%Z in R1. change (- (24))%Z with (-24)%Z in R2.
    assert (bpow radix2 (-53) * q <= bpow radix2 (-53) * 1) by (apply Rmult_le_compat_l; lra).
    assert (bpow radix2 (-24) * B2R x <= bpow radix2 (-24) * 1) by (apply Rmult_le_compat_l; lra).
    replace (rnd (p := 24) (e := 128) (B2R x) - q) with ((rnd (p := 24) (e := 128) (B2R x) - B2R x) + (B2R x - q)) by ring.
    eapply Rle_trans; [apply Rabs_triang|]. lra.
  Qed.

  Lemma cell_of n (p : R) : (2 <= n)%nat -> 0 <= p <= 1 -> exists k w, inCell (AStr "16f") n k w p /\ INR k + w = p * INR (n - 1).
  Proof.
    intros Hn Hp. assert (P : 1 <= INR (n - 1)) by (change 1 with (INR 1); apply le_INR; lia).
    set (t := p * INR (n - 1)).
    assert (T : 0 <= t <= INR (n - 1)) by (unfold t; split; [apply Rmult_le_pos; lra|]; rewrite <- (Rmult_1_l (INR (n - 1))) at 2; apply Rmult_le_compat_r; lra).
    assert (K : exists k w, (k + 1 < n)%nat /\ 0 <= w <= 1 /\ INR k + w = t).
    { destruct (Rle_dec (INR (n - 1)) t) as [G|G].
      - exists (n - 2)%nat, 1. split; [lia|]. split; [lra|]. replace (n - 1)%nat with (S (n - 2)) in * by lia. rewrite S_INR in *. lra.
      - pose proof (Zfloor_lb t) as Lb. pose proof (Zfloor_ub t) as Ub.
        assert (Z0 : (0 <= Zfloor t)%Z) by (apply Zfloor_lub; lra).
        exists (Z.to_nat (Zfloor t)), (t - IZR (Zfloor t)). 
        assert (Z1 : (Zfloor t < Z.of_nat n - 1)%Z) by (apply lt_IZR; rewrite INR_pred by lia; lra).
        split; [lia|]. split; [lra|]. rewrite INR_IZR_INZ, Z2Nat.id by lia. ring. }
    destruct K as (k & w & K1 & K2 & K3). exists k, w. split; [|exact K3]. split; [exact K1|]. split; [exact K2|].
    unfold codeAt. change (fullScale (AStr "16f")) with 1. rewrite plus_INR. change (INR 1) with 1.
    assert (Et : p = t / INR (n - 1)) by (unfold t; field; lra). rewrite Et, <- K3. field. lra.
  Qed.

  Lemma within_more k m r z k' m' r' : within k m r z -> Rabs (r - r') + k * (bpow radix2 (-23) * m + bpow radix2 (-148)) <= k' * (bpow radix2 (-23) * m' + bpow radix2 (-148)) ->
    within k' m' r' z.
  Proof.
    intros [F B] H. split; [exact F|]. replace (B2R z - r') with ((B2R z - r) + (r - r')) by ring.
    eapply Rle_trans; [apply Rabs_triang|]. lra.
  Qed.

  Lemma curve_near c (h : header fl) a n : isLinearLUT h (AStr "16f") a n -> (2 <= n)%nat -> (Z.of_nat n <= 2 ^ 53)%Z ->
    exists f, actsPerChannel c (Node h BLUT1D) f /\
      forall ch M D, (ch < 3)%nat ->
        (forall k, (k < n)%nat -> is_finite (entry1D a k ch) = true /\ Rabs (B2R (entry1D a k ch)) <= M) -> M <= bpow radix2 125 ->
        (forall k, (k + 1 < n)%nat -> Rabs (B2R (entry1D a (k + 1) ch) - B2R (entry1D a k ch)) <= D) ->
        forall i x, (i < n)%nat -> isGridPoint n i x -> within (26 / 10) (M + INR (n - 1) * D) (B2R (entry1D a i ch)) (f ch (nf32 x)).
  Proof.
    intros H Hn Hm. destruct (lut1d_close L c h (AStr "16f") a n H Hn Hm) as (f & Ac & Cl). exists f. split; [exact Ac|].
    intros ch M D Hch He HM HD i x Hi G. destruct (f32_grid n i x Hn Hi G) as (Fx & X01 & Xe).
    destruct (cell_of n (B2R (nf32 x)) Hn X01) as (k & w & C & Kw).
    pose proof (Cl ch M D Hch He HM HD (nf32 x) k w Fx C) as W. eapply within_more; [exact W|].
    assert (P : 1 <= INR (n - 1)) by (change 1 with (INR 1); apply le_INR; lia).
    destruct C as (Hk & Hw & _).
    assert (D0 : 0 <= D) by (eapply Rle_trans; [apply Rabs_pos|apply (HD k Hk)]).
    assert (M0 : 0 <= M) by (eapply Rle_trans; [apply Rabs_pos|apply (He i Hi)]).
    set (eZ := fun z => B2R (entry1D a (clampZ n z) ch)).
    assert (Sl : Rabs (lin eZ (INR k + w) - lin eZ (INR i)) <= D * Rabs (INR k + w - INR i)).
    { apply lin_slope. intro z. unfold eZ. destruct (Z.ltb_spec z 0) as [Z0|Z0]; [|destruct (Z.leb_spec (Z.of_nat n - 1) z) as [Z1|Z1]].
      - rewrite !clampZ_low by lia. rewrite Rminus_diag_eq, Rabs_R0 by reflexivity. exact D0.
      - rewrite !clampZ_high by lia. rewrite Rminus_diag_eq, Rabs_R0 by reflexivity. exact D0.
      - replace z with (Z.of_nat (Z.to_nat z)) by lia. replace (Z.of_nat (Z.to_nat z) + 1)%Z with (Z.of_nat (Z.to_nat z + 1)) by lia.
        rewrite !clampZ_in by lia. apply HD. lia. }
    assert (Ec : lin eZ (INR k + w) = (1 - w) * B2R (entry1D a k ch) + w * B2R (entry1D a (k + 1) ch)).
    { rewrite (lin_cell eZ _ (Z.of_nat k)) by (rewrite plus_IZR, <- INR_IZR_INZ; lra). unfold eZ.
      replace (Z.of_nat k + 1)%Z with (Z.of_nat (k + 1)) by lia. rewrite !clampZ_in by lia. rewrite <- INR_IZR_INZ. ring. }
    assert (Ei : lin eZ (INR i) = B2R (entry1D a i ch)).
    { rewrite (lin_cell eZ _ (Z.of_nat i)) by (rewrite plus_IZR, <- INR_IZR_INZ; lra). rewrite <- INR_IZR_INZ. unfold eZ. rewrite clampZ_in by lia. ring. }
    match goal with |- Rabs (?A - ?B) + _ <= _ =>
      change A with ((1 - w) * B2R (entry1D a k ch) + w * B2R (entry1D a (k + 1) ch)); change B with (B2R (entry1D a i ch)) end.
    rewrite <- Ec, <- Ei.
    assert (Dist : Rabs (INR k + w - INR i) <= INR (n - 1) * (51 / 100 * bpow radix2 (-23))).
    { rewrite Kw. replace (B2R (nf32 x) * INR (n - 1) - INR i) with (INR (n - 1) * (B2R (nf32 x) - INR i / INR (n - 1))) by (field; lra).
      rewrite Rabs_mult, (Rabs_pos_eq (INR (n - 1))) by lra. apply Rmult_le_compat_l; lra. }
    assert (DS : D * Rabs (INR k + w - INR i) <= D * (INR (n - 1) * (51 / 100 * bpow radix2 (-23)))) by (apply Rmult_le_compat_l; assumption).
    assert (B0 := bpow_gt_0 radix2 (-23)). assert (T0 := bpow_gt_0 radix2 (-148)).
    set (e := bpow radix2 (-23)) in *. set (t := bpow radix2 (-148)) in *.
    assert (0 <= e * M) by (apply Rmult_le_pos; lra). assert (0 <= e * (INR (n - 1) * D)) by (repeat apply Rmult_le_pos; lra).
    replace (D * (INR (n - 1) * (51 / 100 * e))) with (51 / 100 * (e * (INR (n - 1) * D))) in DS by ring. lra.
  Qed.
End Curve.

(** * One node as a list *)
Section One.
  Variable L : libm.
  #[local] Hint Extern 0 (Num fl) => exact (ieeeNum L) : typeclass_instances.

  Lemma nth_slice {A} (s : list A) k m ch d : (ch < m)%nat -> nth ch (firstn m (skipn k s)) d = nth (k + ch) s d.
  Proof.
    revert m ch. revert s. induction k as [|k IH]; intros s m ch H.
    - cbn [skipn Nat.add]. revert m ch H. induction s as [|x s IH]; intros [|m] [|ch] H; try lia; try reflexivity. cbn [firstn nth]. apply IH. lia.
    - destruct s as [|x s]; [rewrite firstn_nil; now destruct ch|]. cbn [skipn Nat.add nth]. now apply IH.
  Qed.
  Lemma one_node c at_ v e (n : node fl) f x0 x1 x2 : notBypassed n = true -> actsPerColour c n f ->
    colourThrough c (PList at_ v e [n]) [x0; x1; x2] = Ok (let '(r, g, b) := f (nf32 x0) (nf32 x1) (nf32 x2) in [r; g; b]).
  Proof.
    intros B A. unfold colourThrough. rewrite runList_outcome by reflexivity. rewrite list_outcome. cbn [procs_of map].
    cbn [chainOut hd_error]. unfold skips. rewrite B. cbn [orb negb].
    pose proof (A 3%nat [nf32 x0; nf32 x1; nf32 x2] ltac:(lia)) as O. destruct (outcome_ok _ _ O) as [o [Eo El]]. rewrite Eo. cbn [bind chainOut].
    rewrite El. clear. generalize (nf32 x0) (nf32 x1) (nf32 x2). intros y0 y1 y2. unfold perColour, indexed. cbn. destruct (f y0 y1 y2) as [[r g] b]. reflexivity.
  Qed.
  Lemma one_curve c at_ v e (n : node fl) f x0 x1 x2 : notBypassed n = true -> actsPerChannel c n f ->
    colourThrough c (PList at_ v e [n]) [x0; x1; x2] = Ok [f 0%nat (nf32 x0); f 1%nat (nf32 x1); f 2%nat (nf32 x2)].
  Proof. intros B A. rewrite (one_node c at_ v e n (fun r g b => (f 0%nat r, f 1%nat g, f 2%nat b)) x0 x1 x2 B A). reflexivity. Qed.

  (** The samples taken on the unit interval. *)
  Lemma unit_samples c (l : plist fl) n colour : (2 <= n)%nat -> (Z.of_nat n <= 2 ^ 53)%Z ->
    (forall i x, (i < n)%nat -> isGridPoint n i x -> colourThrough c l [x; x; x] = Ok (colour i)) ->
    exists s, sample1D c l n n0 n1 = Ok s /\ List.length s = (n * 3)%nat /\
      forall i ch d, (i < n)%nat -> (ch < 3)%nat -> nth (i * 3 + ch) s d = nth ch (colour i) d.
  Proof.
    intros Hn Hm Hc.
    assert (L3 : forall i, (i < n)%nat -> List.length (colour i) = 3%nat).
    { intros i Hi. pose proof (Hc i _ Hi (grid_point L n i Hn Hi Hm)) as E. apply runList_length in E. exact E. }
    set (s := List.concat (map colour (seq 0 n))).
    assert (Fr : Forall (fun r : list fl => List.length r = 3%nat) (map colour (seq 0 n))).
    { apply Forall_forall. intros r Hr. apply in_map_iff in Hr. destruct Hr as (i & <- & Hi). apply in_seq in Hi. apply L3. lia. }
    assert (Sl : forall i, (i < n)%nat -> firstn 3 (skipn (i * 3) s) = colour i).
    { intros i Hi. unfold s. rewrite concat_slice; [|exact Fr|now rewrite map_length, seq_length].
      rewrite (nth_indep _ [] (colour 0%nat)) by (now rewrite map_length, seq_length). rewrite map_nth, seq_nth by exact Hi. reflexivity. }
    assert (Ls : List.length s = (n * 3)%nat) by (unfold s; rewrite (concat_rows_length 3) by exact Fr; rewrite map_length, seq_length; lia).
    exists s. split; [|split; [exact Ls|]].
    - unfold sample1D. apply fillSamples_iff.
      + intros i v E. apply bind_ok in E. destruct E as [x [_ E]]. apply runList_length in E. exact E.
      + split; [exact Ls|]. intros i Hi. pose proof (grid_point L n i Hn Hi Hm) as G. rewrite (sample_point L n i _ Hn Hi Hm G). cbn [bind].
        rewrite Sl by exact Hi. exact (Hc i _ Hi G).
    - intros i ch d Hi Hch. rewrite <- (Sl i Hi). symmetry. now apply nth_slice.
  Qed.
End One.

(** * Files *)
Section Files.
  Variable L : libm.
  #[local] Hint Extern 0 (Num fl) => exact (ieeeNum L) : typeclass_instances.

  (** Twelve digits are accurate. *)
  Lemma digits_accurate : accurateText formatStr viaStr.
  Proof.
    intro x. destruct (lut_numbers L) as [N _]. destruct (N x) as [Pr Th]. split; [exact Pr|]. intros F B. set (y := viaStr x) in *. clearbody y.
    destruct x as [s|s| |s m e Be]; try discriminate F; cbn [throughDigits] in Th.
    - subst y. split; [reflexivity|]. cbn [B2R]. rewrite Rminus_diag_eq, Rabs_R0 by reflexivity. pose proof (bpow_ge_0 radix2 (-1074)). lra.
    - set (x := B754_finite s m e Be : fl) in *. destruct Th as (v & k & Hv & Near & Th). cbv zeta in Near, Th.
      set (X := Rabs (B2R x)) in *. pose proof (powerRZ_lt 10 k ltac:(lra)) as Pk. set (w := powerRZ 10 k) in *. set (d := IZR v * w) in *.
      assert (V : 100000000000 <= IZR v) by (apply IZR_le; lia).
      assert (D1 : 100000000000 * w <= d) by (unfold d; apply Rmult_le_compat_r; lra).
      assert (X0 : 0 <= X) by apply Rabs_pos. apply Rabs_le_inv in Near.
      assert (W : w <= X / 50000000000) by lra.
      assert (Sx : B2R x = if s then - X else X).
      { unfold X, x. cbn [B2R]. destruct s; cbn [cond_Zopp].
        - rewrite Rabs_left1; [ring|]. apply F2R_le_0. cbn. lia.
        - rewrite Rabs_pos_eq; [ring|]. apply F2R_ge_0. cbn. lia. }
      set (q := if s then - d else d) in *.
      assert (Aq : Rabs q = d) by (unfold q; destruct s; rewrite ?Rabs_Ropp; apply Rabs_pos_eq; lra).
      assert (Bq : Rabs q <= bpow radix2 126) by (rewrite Aq; assert (bpow radix2 126 = 2 * bpow radix2 125) by exact (bpow_plus radix2 1 125); lra).
      pose proof (rnd_rel (p := 53) (e := 1024) q) as Rel. pose proof (rnd_half (p := 53) (e := 1024) 126 q Bq ltac:(lia)) as Half.
      change (round radix2 (FLT_exp (-1074) 53) ZnearestE q) with (rnd (p := 53) (e := 1024) q) in Th. change (- (53))%Z with (-53)%Z in Rel. change (2 - 1024 - 53)%Z with (-1075)%Z in Rel.
      rewrite Rlt_bool_true in Th.
      + destruct Th as (Fy & Ey & _). split; [exact Fy|]. rewrite Ey.
        assert (G : Rabs (q - B2R x) <= w / 2) by (rewrite Sx; unfold q; destruct s; apply Rabs_le; lra).
        rewrite Aq in Rel. assert (E75 : bpow radix2 (-1075) <= bpow radix2 (-1074)) by (apply bpow_le; lia).
        assert (U : bpow radix2 (-53) <= / 1000000000) by (change (bpow radix2 (-53)) with (/ 9007199254740992); lra).
        assert (U24 : bpow radix2 (-24) = / 16777216) by reflexivity.
        assert (bpow radix2 (-53) * d <= / 1000000000 * d) by (apply Rmult_le_compat_r; lra).
        replace (rnd (p := 53) (e := 1024) q - B2R x) with ((rnd (p := 53) (e := 1024) q - q) + (q - B2R x)) by ring.
        eapply Rle_trans; [apply Rabs_triang|]. rewrite U24. lra.
      + apply Rle_lt_trans with (bpow radix2 127); [|apply bpow_lt; lia].
        assert (Rabs (rnd (p := 53) (e := 1024) q) <= Rabs (rnd (p := 53) (e := 1024) q - q) + Rabs q).
        { replace (rnd (p := 53) (e := 1024) q) with ((rnd (p := 53) (e := 1024) q - q) + q) at 1 by ring. apply Rabs_triang. }
        assert (bpow radix2 (126 - 53 - 1) <= bpow radix2 126) by (apply bpow_le; lia).
        assert (bpow radix2 127 = 2 * bpow radix2 126) by exact (bpow_plus radix2 1 126). lra.
  Qed.

  (** The allowance for numbers read back from text. *)
  Lemma text_allowance k M D (n : Z) : (n <= 65536)%Z -> 0 <= M -> 0 <= D -> 1 <= IZR n - 1 -> 1 <= k <= 10 ->
    let M' := M + (bpow radix2 (-24) * M + bpow radix2 (-1074)) in
    let D' := D + 2 * (bpow radix2 (-24) * M + bpow radix2 (-1074)) in
    bpow radix2 (-24) * M + bpow radix2 (-1074) + k * (bpow radix2 (-23) * (M' + (IZR n - 1) * D') + bpow radix2 (-148)) <=
    (k + 1) * (bpow radix2 (-23) * (M + (IZR n - 1) * D) + bpow radix2 (-148)).
  Proof.
    intros Hn M0 D0 H1 Hk M' D'. apply IZR_le in Hn. assert (Hm : 1 <= IZR n - 1 <= 65535) by lra. clear Hn H1. set (m := IZR n - 1) in *. clearbody m.
    assert (H24 : bpow radix2 (- 24) = bpow radix2 (-23) / 2) by (change (-23)%Z with (-24 + 1)%Z; rewrite bpow_plus; change (bpow radix2 1) with 2; field).
    assert (S : 0 < bpow radix2 (-1074) <= bpow radix2 (-148) / 1000).
    { split; [apply bpow_gt_0|]. apply Rle_trans with (bpow radix2 (-158)); [apply bpow_le; lia|].
      change (-148)%Z with (-158 + 10)%Z. rewrite bpow_plus. change (bpow radix2 10) with 1024. pose proof (bpow_gt_0 radix2 (-158)). lra. }
    assert (E23 : bpow radix2 (-23) = / 8388608) by reflexivity. unfold M', D'. clear M' D'. rewrite H24, E23 in *.
    set (t := bpow radix2 (-148)) in *. set (s := bpow radix2 (-1074)) in *. clearbody t s.
    assert (A1 : m * M <= 65535 * M) by (apply Rmult_le_compat_r; lra). assert (A2 : m * s <= 65535 * s) by (apply Rmult_le_compat_r; lra).
    assert (A3 : 0 <= m * D) by (apply Rmult_le_pos; lra).
    replace (m * (D + 2 * (/ 8388608 / 2 * M + s))) with (m * D + / 8388608 * (m * M) + 2 * (m * s)) by field.
    set (mM := m * M) in *. set (ms := m * s) in *. set (mD := m * D) in *. clearbody mM ms mD.
    assert (B : / 8388608 * (M + (/ 8388608 / 2 * M + s) + (mD + / 8388608 * mM + 2 * ms)) + t <= (/ 8388608 * (M + mD) + t) + (/ 8388608 * M / 100 + s)) by lra.
    assert (B' : k * (/ 8388608 * (M + (/ 8388608 / 2 * M + s) + (mD + / 8388608 * mM + 2 * ms)) + t) <= k * ((/ 8388608 * (M + mD) + t) + (/ 8388608 * M / 100 + s))) by (apply Rmult_le_compat_l; lra).
    assert (B2 : k * (/ 8388608 * M / 100 + s) <= 10 * (/ 8388608 * M / 100 + s)) by (apply Rmult_le_compat_r; lra). lra.
  Qed.

  Lemma kept_entries (str : fl -> string) kept n M D (colour : nat -> list fl) ch : accurateText str kept -> tameCurve n M D colour -> (ch < 3)%nat -> M <= bpow radix2 124 ->
    let e i := nth ch (colour i) (B754_zero false) in let s := bpow radix2 (-24) * M + bpow radix2 (-1074) in
    (forall i, (i < n)%nat -> is_finite (kept (e i)) = true /\ Rabs (B2R (kept (e i)) - B2R (e i)) <= s /\ Rabs (B2R (kept (e i))) <= M + s) /\
    (forall i, (i + 1 < n)%nat -> Rabs (B2R (kept (e (i + 1)%nat)) - B2R (kept (e i))) <= D + 2 * s).
  Proof.
    intros A T Hch HM e s. destruct (T ch Hch) as [T1' T2'].
    assert (T1 : forall i, (i < n)%nat -> is_finite (e i) = true /\ Rabs (B2R (e i)) <= M) by exact T1'.
    assert (T2 : forall i, (i + 1 < n)%nat -> Rabs (B2R (e (i + 1)%nat) - B2R (e i)) <= D) by exact T2'. clear T1' T2'. clearbody e.
    assert (K : forall i, (i < n)%nat -> is_finite (kept (e i)) = true /\ Rabs (B2R (kept (e i)) - B2R (e i)) <= s).
    { intros i Hi. destruct (T1 i Hi) as [F B].
      assert (G : Rabs (B2R (e i)) <= bpow radix2 125) by (apply Rle_trans with (1 := B); apply Rle_trans with (1 := HM); apply bpow_le; lia).
      destruct (proj2 (A (e i)) F G) as [F' E]. split; [exact F'|]. apply Rle_trans with (1 := E). unfold s. apply Rplus_le_compat_r.
      apply Rmult_le_compat_l; [apply bpow_ge_0|exact B]. }
    split.
    - intros i Hi. destruct (K i Hi) as [F E]. split; [exact F|]. split; [exact E|].
      replace (B2R (kept (e i))) with ((B2R (kept (e i)) - B2R (e i)) + B2R (e i)) by ring.
      eapply Rle_trans; [apply Rabs_triang|]. pose proof (proj2 (T1 i Hi)). lra.
    - intros i Hi. destruct (K i) as [_ E]; [lia|]. destruct (K (i + 1)%nat) as [_ E']; [lia|]. pose proof (T2 i Hi) as B.
      apply Rabs_le_inv in E, E', B. apply Rabs_le. lra.
  Qed.

  Lemma size_bound M : 0 <= M -> M <= bpow radix2 124 -> M + (bpow radix2 (-24) * M + bpow radix2 (-1074)) <= bpow radix2 125.
  Proof.
    intros M0 HM. assert (E : bpow radix2 125 = 2 * bpow radix2 124) by exact (bpow_plus radix2 1 124).
    assert (bpow radix2 (-24) <= / 2) by (change (/ 2) with (bpow radix2 (-1)); apply bpow_le; lia).
    assert (bpow radix2 (-1074) <= bpow radix2 124 / 2) by (change (/ 2) with (bpow radix2 (-1)); unfold Rdiv; change (/ 2) with (bpow radix2 (-1)); rewrite <- bpow_plus; apply bpow_le; lia).
    assert (bpow radix2 (-24) * M <= / 2 * M) by (apply Rmult_le_compat_r; lra). lra.
  Qed.

  Theorem spi1d_grid str io compat kept formats c (l : plist fl) path a ra fs n colour :
    accurateText str kept -> Permutation formats (allFormats str io compat) -> extensionOf path = "spi1d" -> wa_style a = "1D" ->
    ra_inverse ra = false -> ra_interpolation ra <> "cubic" -> wa_n1d a = n -> wa_inputMin a = n0 -> wa_inputMax a = n1 ->
    (2 <= n)%nat -> (Z.of_nat n <= 65536)%Z ->
    (forall i x, (i < n)%nat -> isGridPoint n i x -> colourThrough c l [x; x; x] = Ok (colour i)) ->
    exists t l', let fs' := putFile fs path t in
      writeWith formats c l path a fs = (Ok LNone, fs') /\ readWith formats path ra false fs' = (Ok (LList l'), fs') /\
      forall c' M D, tameCurve n M D colour -> M <= bpow radix2 124 ->
        forall (i : nat -> nat) (x : nat -> fl), (forall ch, (ch < 3)%nat -> (i ch < n)%nat /\ isGridPoint n (i ch) (x ch)) ->
          exists ys, colourThrough c' l' (map x (seq 0 3)) = Ok ys /\ List.length ys = 3%nat /\
            forall ch, (ch < 3)%nat ->
              within 4 (M + INR (n - 1) * D) (B2R (nth ch (colour (i ch)) (B754_zero false))) (nth ch ys (B754_zero false)).
  Proof.
    intros A P E S I Ci En Elo Ehi Hn Hm Hc.
    destruct (unit_samples L c l n colour Hn ltac:(lia) Hc) as (s & Es & Ls & Hs).
    destruct (spi1d_trip (OK := ieeeOk L) str io compat kept formats c l path a ra false fs s P E S I) as (t & W & R).
    { now rewrite En, Elo, Ehi. }
    { apply Forall_forall. intros v _. apply A. }
    assert (Z : (negb (neqb (viaFixed 6 (wa_inputMin a)) n0) || negb (neqb (viaFixed 6 (wa_inputMax a)) n1))%bool = false).
    { rewrite Elo, Ehi. vm_compute. reflexivity. }
    cbv zeta in R. rewrite Z in R. cbn [app wrapNodes] in R. rewrite En in R.
    exists t. eexists. intro fs'. split; [exact W|]. split; [exact R|].
    intros c' M D T HM i x Hx. unfold lut1dNode. set (arr := floatTable [n; 3%nat] (map kept s)). set (h := SpecLut.halfHeader _ _ _ _).
    assert (Lin : isLinearLUT h (AStr "16f") arr n).
    { split; [reflexivity|]. split; [eexists; reflexivity|]. split.
      - unfold h, SpecLut.halfHeader. cbn [h_attrs]. unfold interpolationAttr. intro Q. 
        destruct (String.eqb (ra_interpolation ra) ""); cbn in Q; [discriminate|]. injection Q as Q. now apply Ci.
      - split; [unfold flagSet, h, SpecLut.halfHeader, interpolationAttr; cbn [h_attrs]; destruct (String.eqb (ra_interpolation ra) ""); reflexivity|].
        split; [reflexivity|]. split; [reflexivity|]. split; [|reflexivity].
        unfold wellFormed1D. cbn [arr floatTable a_dims a_vals]. exists n, 3%nat, []. rewrite map_length, Ls. repeat split; lia. }
    destruct (curve_near L c' h arr n Lin Hn ltac:(lia)) as (f & Ac & Cl).
    assert (Nb : notBypassed (Node h BLUT1D) = true) by (unfold notBypassed, h, SpecLut.halfHeader, interpolationAttr; destruct (String.eqb (ra_interpolation ra) ""); reflexivity).
    cbn [seq map]. rewrite (one_curve L c' _ _ _ _ f _ _ _ Nb Ac). eexists. split; [reflexivity|]. split; [reflexivity|].
    intros ch Hch. destruct (kept_entries str kept n M D colour ch A T Hch HM) as [K1 K2].
    destruct (Hx ch Hch) as [Hi G].
    assert (M0 : 0 <= M) by (eapply Rle_trans; [apply Rabs_pos|exact (proj2 (proj1 (T ch Hch) (i ch) Hi))]).
    assert (D0 : 0 <= D) by (eapply Rle_trans; [apply Rabs_pos|apply (proj2 (T ch Hch) 0%nat); lia]).
    assert (Ent : forall k, (k < n)%nat -> entry1D arr k ch = kept (nth ch (colour k) (B754_zero false))).
    { intros k Hk. change (entry1D arr k ch) with (nth (k * 3 + ch) (map kept s) (B754_zero false)).
      rewrite (nth_indep _ (B754_zero false) (kept (B754_zero false))) by (rewrite map_length, Ls; lia).
      rewrite map_nth. f_equal. now apply Hs. }
    pose proof (Cl ch (M + (bpow radix2 (-24) * M + bpow radix2 (-1074))) (D + 2 * (bpow radix2 (-24) * M + bpow radix2 (-1074))) Hch) as C.
    assert (C' : within (26 / 10) (M + (bpow radix2 (-24) * M + bpow radix2 (-1074)) + INR (n - 1) * (D + 2 * (bpow radix2 (-24) * M + bpow radix2 (-1074))))
                   (B2R (kept (nth ch (colour (i ch)) (B754_zero false)))) (f ch (nf32 (x ch)))).
    { rewrite <- Ent by exact Hi. apply C; try assumption.
      - intros k Hk. rewrite Ent by exact Hk. destruct (K1 k Hk) as (F & _ & B). split; assumption.
      - now apply size_bound.
      - intros k Hk. rewrite !Ent by lia. now apply K2. }
    assert (Ey : nth ch [f 0%nat (nf32 (x 0%nat)); f 1%nat (nf32 (x 1%nat)); f 2%nat (nf32 (x 2%nat))] (B754_zero false) = f ch (nf32 (x ch))).
    { destruct ch as [|[|[|ch]]]; try reflexivity. lia. }
    match goal with |- within _ _ _ ?z => change z with (nth ch [f 0%nat (nf32 (x 0%nat)); f 1%nat (nf32 (x 1%nat)); f 2%nat (nf32 (x 2%nat))] (B754_zero false)) end.
    rewrite Ey. eapply within_more; [exact C'|]. destruct (K1 (i ch) Hi) as (_ & B & _).
    pose proof (text_allowance (26 / 10) M D (Z.of_nat n) Hm M0 D0) as Q. rewrite <- minus_IZR, INR_pred in Q by lia.
    assert (N1 : 1 <= INR (n - 1)) by (change 1 with (INR 1); apply le_INR; lia). specialize (Q N1 ltac:(lra)). cbv zeta in Q.
    eapply Rle_trans; [apply Rplus_le_compat_r; exact B|]. apply Rle_trans with (1 := Q). apply Rmult_le_compat_r; [|lra].
    assert (0 <= INR (n - 1) * D) by (apply Rmult_le_pos; lra).
    apply Rplus_le_le_0_compat; [apply Rmult_le_pos; [apply bpow_ge_0|lra]|apply bpow_ge_0].
  Qed.
End Files.
