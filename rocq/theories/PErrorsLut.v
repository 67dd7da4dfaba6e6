(** Rounding errors of a whole list: the tables. *)
From Coq Require Import Reals Lra Lia ZArith List String Psatz Arith.
From Flocq Require Import Core BinarySingleNaN.
From Verif Require Import SpecErrors SpecReadBack PBase PFacts PAct PChain PList PSampling PReal PIeee PIeeeArith PMatrix PLut1D PHalfLut PLut3D PSlope3D PRound PClose PCloseLut PClose3D PReadBack PReadBack3 PPack PErrors.
Import ListNotations.
Local Open Scope string_scope.
Local Open Scope list_scope.
Local Open Scope R_scope.

Section Lookup.
  Context {T : Type} {N : Num T}.
  Lemma lookup1D_clamped (a : array T) n z ch :
    wellFormed1D a -> hd_error (a_dims a) = Some n -> (ch < 3)%nat -> lookup1D a z ch = Ok (entry1D a (clampZ n z) ch).
  Proof.
    intros Hw Hn Hc. pose proof Hw as [d0 [d1 [rest [Hd [H0 _]]]]]. assert (Hn' := Hn). rewrite Hd in Hn'. injection Hn' as ->.
    assert (E : lookup1D a z ch = lookup1D a (Z.of_nat (clampZ n z)) ch).
    { unfold lookup1D, dim. rewrite Hd. cbn [getn nth_error bind]. cbv zeta. pose proof (clampZ_lt n z H0) as Hk.
      destruct (Z.ltb_spec (Z.of_nat (clampZ n z)) 0) as [|_]; [lia|]. destruct (Z.leb_spec (Z.of_nat n) (Z.of_nat (clampZ n z))) as [|_]; [lia|].
      destruct (Z.ltb_spec z 0) as [Z0|Z0]; [rewrite clampZ_low by lia; reflexivity|].
      destruct (Z.leb_spec (Z.of_nat n) z) as [Z1|Z1]; [rewrite clampZ_high by lia; replace (Z.of_nat (n - 1)) with (Z.of_nat n - 1)%Z by lia; reflexivity|].
      replace (Z.of_nat (clampZ n z)) with z by (unfold clampZ; lia). reflexivity. }
    rewrite E, (lookup1D_entry a n) by (try assumption; pose proof (clampZ_lt n z H0); lia). now rewrite Nat2Z.id.
  Qed.
End Lookup.

Lemma exact_entry1D (L : libm) a k ch : entry1D (exactArray a) k ch = B2R (@entry1D fl (ieeeNum L) a k ch).
Proof.
  unfold entry1D, exactArray. cbn [a_dims a_vals]. change (@n0 R realNum) with (B2R (@n0 fl (ieeeNum L))).
  destruct (a_dims a) as [|d0 [|[|[|[|[|d1]]]] r]]; rewrite map_nth; reflexivity.
Qed.

(** Curves in exact arithmetic. *)
Lemma curve_steps (a : array R) n ch D : (2 <= n)%nat ->
  (forall k, (k + 1 < n)%nat -> Rabs (entry1D a (k + 1) ch - entry1D a k ch) <= D) -> 0 <= D /\ forall z, Rabs (entryZ a n ch (z + 1) - entryZ a n ch z) <= D.
Proof.
  intros Hn HD. assert (D0 : 0 <= D) by (eapply Rle_trans; [apply Rabs_pos|apply (HD 0%nat ltac:(lia))]). split; [exact D0|].
  intro z. unfold entryZ. destruct (clampZ_next n z ltac:(lia)) as [Q|[Q1 Q2]].
  - rewrite Q, Rminus_diag_eq, Rabs_R0 by reflexivity. exact D0.
  - rewrite Q1. apply HD. lia.
Qed.
Lemma curve_bound (a : array R) n ch M : (1 <= n)%nat -> (forall k, (k < n)%nat -> Rabs (entry1D a k ch) <= M) -> forall t, Rabs (lin (entryZ a n ch) t) <= M.
Proof.
  intros Hn HM t. assert (B : forall z, - M <= entryZ a n ch z <= M) by (intro z; apply Rabs_le_inv, HM, clampZ_lt; exact Hn).
  pose proof (Zfloor_lb t) as F0. pose proof (Zfloor_ub t) as F1. rewrite (lin_cell _ t (Zfloor t)) by (rewrite plus_IZR; lra).
  pose proof (B (Zfloor t)) as B0. pose proof (B (Zfloor t + 1)%Z) as B1. apply Rabs_le. nra.
Qed.

Section CurveStage.
  Variable L : libm.
  #[local] Hint Extern 0 (Num fl) => exact (ieeeNum L) : typeclass_instances.

  (** Every input, in range or not. *)
  Lemma lut1d_anywhere (a : array fl) dIn n ch M D :
    wellFormed1D a -> hd_error (a_dims a) = Some n -> (2 <= n)%nat -> (Z.of_nat n <= 2 ^ 53)%Z -> (ch < 3)%nat ->
    (forall k, (k < n)%nat -> is_finite (entry1D a k ch) = true /\ Rabs (B2R (entry1D a k ch)) <= M) -> M <= bpow radix2 125 ->
    (forall k, (k + 1 < n)%nat -> Rabs (B2R (entry1D a (k + 1) ch) - B2R (entry1D a k ch)) <= D) ->
    forall x, is_finite x = true -> Rabs (B2R x) / fullScale dIn * INR (n - 1) <= bpow radix2 51 ->
      within 2 (M + INR (n - 1) * D) (lutFun (exactArray a) dIn n ch (B2R x)) (linFun L a dIn ch x).
  Proof.
    intros Hw Hnn Hn Hm Hch Hent HM HD x Fx Hx. pose proof (fullScale_pos dIn) as Pd.
    assert (M1 : 1 <= INR (n - 1)) by (change 1 with (INR 1); apply le_INR; lia).
    assert (EE : forall k, entry1D (exactArray a) k ch = B2R (entry1D a k ch)) by (intro k; apply exact_entry1D).
    destruct (curve_steps (exactArray a) n ch D Hn) as [D0 St]; [intros k Hk; rewrite !EE; now apply HD|].
    assert (M0 : 0 <= M) by (eapply Rle_trans; [apply Rabs_pos|apply (Hent 0%nat ltac:(lia))]).
    set (P := B2R x / fullScale dIn).
    assert (HP : Rabs P * INR (n - 1) <= bpow radix2 51) by (unfold P, Rdiv; rewrite Rabs_mult, (Rabs_pos_eq (/ fullScale dIn)) by (left; apply Rinv_0_lt_compat, Pd); exact Hx).
    assert (HP' : Rabs P <= bpow radix2 51).
    { eapply Rle_trans; [|exact HP]. rewrite <- (Rmult_1_r (Rabs P)) at 1. apply Rmult_le_compat_l; [apply Rabs_pos|exact M1]. }
    assert (G126 : bpow radix2 51 <= bpow radix2 126) by (apply bpow_le; lia).
    destruct (normalized_stored L dIn x Fx) as [[Fp Ep] Rp]; [fold P; lra|]. fold P in Ep, Rp.
    set (p := nf32 (bitDepthToNormalized x dIn)) in *.
    destruct (ofZ_exact L (Z.of_nat n - 1)) as [Fm Em]; [lia|]. rewrite (INR_pred n) in Em by lia. set (m := INR (n - 1)) in *.
    set (i := nmul p (nofZ (Z.of_nat n - 1)) : fl).
    assert (Ri : Rounds i (B2R p * m)) by (rewrite <- Em; apply mult_Rounds; assumption).
    destruct tiny as ((U0 & U1) & (S0 & S1) & T1 & E1 & S2).
    assert (M53 : m <= bpow radix2 53) by (unfold m; rewrite <- INR_pred by lia; change (bpow radix2 53) with (IZR (2 ^ 53)); apply IZR_le; lia).
    assert (T53 : bpow radix2 (-149) * m <= 1).
    { apply Rle_trans with (bpow radix2 (-149) * bpow radix2 53); [apply Rmult_le_compat_l; [apply bpow_ge_0|exact M53]|].
      rewrite <- bpow_plus. change 1 with (bpow radix2 0). apply bpow_le. lia. }
    assert (X51 : 1 <= bpow radix2 51) by (change 1 with (bpow radix2 0); apply bpow_le; lia).
    assert (X52 : bpow radix2 52 = 2 * bpow radix2 51) by exact (bpow_plus radix2 1 51).
    assert (Bpm : Rabs (B2R p * m) <= bpow radix2 52).
    { rewrite Rabs_mult, (Rabs_pos_eq m) by lra. assert (Q : Rabs (B2R p) <= Rabs P + (bpow radix2 (-23) * Rabs P + bpow radix2 (-149))).
      { replace (B2R p) with (P + (B2R p - P)) by ring. eapply Rle_trans; [apply Rabs_triang|]. lra. }
      assert (Q2 : bpow radix2 (-23) * Rabs P <= / 2 * Rabs P) by (apply Rmult_le_compat_r; [apply Rabs_pos|]; rewrite eps23; lra).
      assert (X2 : 2 <= bpow radix2 51) by (change 2 with (bpow radix2 1); apply bpow_le; lia).
      assert (Rabs (B2R p) * m <= (3 / 2 * Rabs P + bpow radix2 (-149)) * m) by (apply Rmult_le_compat_r; lra). lra. }
    destruct (Rounds_finite i _ 52 Ri) as [Fi Ei]; [exact Bpm|lia|lia|].
    assert (B52 : rnd (p := 53) (e := 1024) (bpow radix2 52) = bpow radix2 52) by (apply rnd_format, generic_format_bpow; unfold SpecFloat.fexp, SpecFloat.emin; lia).
    assert (B52' : rnd (p := 53) (e := 1024) (- bpow radix2 52) = - bpow radix2 52) by (apply rnd_format, generic_format_opp, generic_format_bpow; unfold SpecFloat.fexp, SpecFloat.emin; lia).
    assert (Bi : Rabs (B2R i) <= bpow radix2 52).
    { rewrite Ei. apply Rabs_le_inv in Bpm. pose proof (rnd_le (p := 53) (e := 1024) _ _ (proj1 Bpm)) as Q1. pose proof (rnd_le (p := 53) (e := 1024) _ _ (proj2 Bpm)) as Q2.
      apply Rabs_le. lra. }
    apply Rabs_le_inv in Bi. change (bpow radix2 52) with (IZR (2 ^ 52)) in Bi.
    change (linFun L a dIn ch x) with (nf32 (match lookup1DLinear a p ch with Ok y => y | Err _ => n0 end)).
    unfold lookup1DLinear, dim. pose proof Hnn as Hnn'. destruct (a_dims a) as [|n' rest] eqn:Ed; [discriminate Hnn'|]. injection Hnn' as ->. cbn [getn nth_error bind].
    cbv zeta. fold i.
    assert (Ni : (nisnan i || nisinf i)%bool = false) by (destruct i; try discriminate; reflexivity).
    rewrite Ni. cbv zeta.
    assert (Elo : nfloor i = Zfloor (B2R i)) by (now apply flFloor_R).
    assert (Ehi : nceil i = Zceil (B2R i)) by (cbn [nceil ieeeNum]; unfold Zceil; rewrite flFloor_R by (now rewrite is_finite_Bopp); now rewrite B2R_Bopp).
    rewrite Elo, Ehi.
    rewrite (lookup1D_clamped a n) by (try assumption; now rewrite Ed). cbn [bind].
    rewrite (lookup1D_clamped a n) by (try assumption; now rewrite Ed). cbn [bind].
    pose proof (Zfloor_lb (B2R i)) as F0. pose proof (Zfloor_ub (B2R i)) as F1.
    set (lo := Zfloor (B2R i)) in *. set (hi := Zceil (B2R i)) in *.
    assert (Blo : (Z.abs lo < 2 ^ 53)%Z).
    { assert (- IZR (2 ^ 52) - 1 < IZR lo <= IZR (2 ^ 52)) as [Q1 Q2] by lra. rewrite <- opp_IZR, <- minus_IZR in Q1. apply lt_IZR in Q1. apply le_IZR in Q2. lia. }
    destruct (ofZ_exact L lo) as [Fl El]; [exact Blo|].
    assert (Rt : Rounds (nsub i (nofZ lo)) (B2R i - IZR lo)) by (rewrite <- El; apply (PHalf.minus_Rounds L); assumption).
    assert (G7 : 1 <= bpow radix2 127) by (change 1 with (bpow radix2 0); apply bpow_le; lia).
    destruct (near _ _ Rt) as [Ft Et]; [rewrite Rabs_pos_eq; lra|]. rewrite (Rabs_pos_eq (B2R i - IZR lo)) in Et by lra.
    assert (Et' : Rabs (B2R (nsub i (nofZ lo)) - (B2R i - IZR lo)) <= bpow radix2 (-53) + bpow radix2 (-1075)).
    { eapply Rle_trans; [exact Et|]. apply Rplus_le_compat_r. rewrite <- (Rmult_1_r (bpow radix2 (-53))) at 2. apply Rmult_le_compat_l; lra. }
    destruct (Hent (clampZ n lo)) as [Fv1 Bv1]; [apply clampZ_lt; lia|]. destruct (Hent (clampZ n hi)) as [Fv2 Bv2]; [apply clampZ_lt; lia|].
    destruct (mean_close L (B2R i - IZR lo) (nsub i (nofZ lo)) (entry1D a (clampZ n lo) ch) (entry1D a (clampZ n hi) ch) M) as [Fy Ey]; try assumption; [lra|].
    split; [exact Fy|]. unfold lutFun. fold P m.
    set (eZ := entryZ (exactArray a) n ch) in *.
    assert (El1 : (1 - (B2R i - IZR lo)) * B2R (entry1D a (clampZ n lo) ch) + (B2R i - IZR lo) * B2R (entry1D a (clampZ n hi) ch) = lin eZ (B2R i)).
    { unfold lin, eZ, entryZ. fold lo hi. rewrite !EE. reflexivity. }
    rewrite El1 in Ey.
    assert (Sl : Rabs (lin eZ (B2R i) - lin eZ (P * m)) <= D * (101 / 100 * bpow radix2 (-23) * m)).
    { assert (Z0 : 0 <= D * (101 / 100 * bpow radix2 (-23) * m)).
      { apply Rmult_le_pos; [exact D0|]. apply Rmult_le_pos; [|lra]. pose proof (bpow_ge_0 radix2 (-23)). lra. }
      destruct (Rle_or_lt P 0) as [A|A]; [|destruct (Rle_or_lt 1 P) as [A'|A']].
      - assert (Hp0 : B2R p <= 0) by (rewrite Rp; apply rnd_order; [lia|]; apply rnd_order; [lia|exact A]).
        assert (Hi0 : B2R i <= 0) by (rewrite Ei; apply rnd_order; [lia|]; nra).
        unfold eZ. rewrite !lin_low by (try lia; try assumption; nra). rewrite Rminus_diag_eq, Rabs_R0 by reflexivity. exact Z0.
      - assert (Hp1 : 1 <= B2R p) by (rewrite Rp; apply rnd_order; [lia|]; apply rnd_order; [lia|exact A']).
        assert (Hi1 : m <= B2R i).
        { rewrite Ei. rewrite <- Em. rewrite <- (rnd_id (p := 53) (e := 1024) (nofZ (Z.of_nat n - 1))) at 1. apply rnd_le. rewrite Em. nra. }
        unfold eZ. rewrite !lin_high by (try lia; try assumption; fold m; nra). rewrite Rminus_diag_eq, Rabs_R0 by reflexivity. exact Z0.
      - assert (HX : 0 <= B2R x <= fullScale dIn).
        { assert (X : B2R x = fullScale dIn * P) by (unfold P; field; lra). rewrite X. split; [apply Rmult_le_pos; lra|]. rewrite <- (Rmult_1_r (fullScale dIn)) at 2. apply Rmult_le_compat_l; lra. }
        destruct (index_close L n dIn x Hn Hm Fx HX) as (_ & _ & C). 
        eapply Rle_trans; [apply (lin_slope eZ D St)|]. apply Rmult_le_compat_l; [exact D0|exact C]. }
    match goal with |- Rabs (B2R ?z - _) <= _ => set (y := z) in * end.
    change (Rabs (B2R y - lin eZ (B2R i)) <= 6 / 10 * bpow radix2 (-23) * M + bpow radix2 (-149)) in Ey. clearbody y.
    replace (B2R y - lin eZ (P * m)) with ((B2R y - lin eZ (B2R i)) + (lin eZ (B2R i) - lin eZ (P * m))) by ring.
    eapply Rle_trans; [apply Rabs_triang|].
    assert (T0 := bpow_gt_0 radix2 (-148)).
    assert (T8 : bpow radix2 (-149) <= bpow radix2 (-148)) by (apply bpow_le; lia).
    set (e := bpow radix2 (-23)) in *. assert (0 <= e * M) by (apply Rmult_le_pos; lra). assert (0 <= e * (m * D)) by (repeat apply Rmult_le_pos; lra).
    replace (2 * (e * (M + m * D) + bpow radix2 (-148))) with (2 * (e * M) + 2 * (e * (m * D)) + 2 * bpow radix2 (-148)) by ring.
    replace (D * (101 / 100 * e * m)) with (101 / 100 * (e * (m * D))) in Sl by ring. lra.
  Qed.

  Theorem lut1d_follows c (h : header fl) dIn a n B M D :
    isLinearLUT h dIn a n -> (2 <= n)%nat -> (Z.of_nat n <= 2 ^ 53)%Z ->
    (forall ch k, (ch < 3)%nat -> (k < n)%nat -> is_finite (entry1D a k ch) = true /\ Rabs (B2R (entry1D a k ch)) <= M) -> M <= bpow radix2 125 ->
    (forall ch k, (ch < 3)%nat -> (k + 1 < n)%nat -> Rabs (B2R (entry1D a (k + 1) ch) - B2R (entry1D a k ch)) <= D) ->
    B / fullScale dIn * INR (n - 1) <= bpow radix2 51 ->
    let E := 2 * unit32 (M + INR (n - 1) * D) in
    follows c (Node h BLUT1D) B (INR (n - 1) * D / fullScale dIn) E (M + E).
  Proof.
    intros H Hn Hm Hent HM HD HB E px px' e Hs Ha. pose proof (linear_acts L c h dIn a n H) as Ac.
    destruct H as [Hi [[d Ho] [Hc [Hf [Him [Hla [Hw Hnn]]]]]]]. pose proof (fullScale_pos dIn) as Pd.
    assert (Hl' : isLUT1D (exactHeader h) dIn (exactArray a) n).
    { split; [exact Hi|]. split; [now exists d|]. split; [exact Hc|]. split; [exact Hf|]. split; [cbn [exactHeader h_elems]; rewrite exact_lastArray, Hla; reflexivity|].
      split; [|exact Hnn]. destruct Hw as (d0 & d1 & rest & W1 & W2 & W3 & W4). exists d0, d1, rest. repeat split; try assumption. cbn [exactArray a_vals]. now rewrite map_length. }
    pose proof (lut1d_plain c (exactHeader h) dIn (exactArray a) n Hl' (exact_indexMaps _ Him)) as Ac'.
    destruct (three px (proj1 Hs)) as (x & y & z & ->). apply sized3 in Hs. destruct (apart3 _ _ _ _ _ Ha) as (x' & y' & z' & -> & Ax & Ay & Az).
    eexists. eexists. split; [exact (Ac 3%nat [x; y; z] ltac:(lia))|]. split; [exact (Ac' 3%nat [x'; y'; z'] ltac:(lia))|]. unfold perChannel. rewrite !perColour3.
    assert (P : forall ch v v', (ch < 3)%nat -> is_finite v = true /\ Rabs (B2R v) <= B -> Rabs (B2R v - v') <= e ->
      (is_finite (linFun L a dIn ch v) = true /\ Rabs (B2R (linFun L a dIn ch v)) <= M + E) /\
      Rabs (B2R (linFun L a dIn ch v) - lutFun (exactArray a) dIn n ch v') <= INR (n - 1) * D / fullScale dIn * e + E).
    { intros ch v v' Hch [Fv Bv] Av.
      assert (HX : Rabs (B2R v) / fullScale dIn * INR (n - 1) <= bpow radix2 51).
      { eapply Rle_trans; [|exact HB]. apply Rmult_le_compat_r; [apply pos_INR|]. apply Rmult_le_compat_r; [left; now apply Rinv_0_lt_compat|exact Bv]. }
      destruct (lut1d_anywhere a dIn n ch M D Hw Hnn Hn Hm Hch (fun k => Hent ch k Hch) HM (fun k => HD ch k Hch) v Fv HX) as [Fy Ey].
      fold (unit32 (M + INR (n - 1) * D)) in Ey. fold E in Ey.
      assert (EE : forall k, entry1D (exactArray a) k ch = B2R (entry1D a k ch)) by (intro k; apply exact_entry1D).
      destruct (curve_steps (exactArray a) n ch D Hn) as [D0 St]; [intros k Hk; rewrite !EE; now apply HD|].
      assert (Bd : Rabs (lutFun (exactArray a) dIn n ch (B2R v)) <= M) by (apply curve_bound; [lia|]; intros k Hk; rewrite EE; now apply Hent).
      assert (Sl : Rabs (lutFun (exactArray a) dIn n ch (B2R v) - lutFun (exactArray a) dIn n ch v') <= INR (n - 1) * D / fullScale dIn * e).
      { unfold lutFun. eapply Rle_trans; [apply (lin_slope _ D St)|].
        replace (B2R v / fullScale dIn * INR (n - 1) - v' / fullScale dIn * INR (n - 1)) with ((B2R v - v') * (INR (n - 1) / fullScale dIn)) by (field; lra).
        assert (Q0 : 0 <= INR (n - 1) / fullScale dIn) by (apply div_nonneg; [apply pos_INR|exact Pd]).
        rewrite Rabs_mult, (Rabs_pos_eq _ Q0).
        replace (INR (n - 1) * D / fullScale dIn * e) with (D * (e * (INR (n - 1) / fullScale dIn))) by (field; lra).
        apply Rmult_le_compat_l; [exact D0|]. apply Rmult_le_compat_r; assumption. }
      split; [split; [exact Fy|]|].
      - replace (B2R (linFun L a dIn ch v)) with ((B2R (linFun L a dIn ch v) - lutFun (exactArray a) dIn n ch (B2R v)) + lutFun (exactArray a) dIn n ch (B2R v)) by ring.
        eapply Rle_trans; [apply Rabs_triang|]. lra.
      - replace (B2R (linFun L a dIn ch v) - lutFun (exactArray a) dIn n ch v')
          with ((B2R (linFun L a dIn ch v) - lutFun (exactArray a) dIn n ch (B2R v)) + (lutFun (exactArray a) dIn n ch (B2R v) - lutFun (exactArray a) dIn n ch v')) by ring.
        eapply Rle_trans; [apply Rabs_triang|]. lra. }
    destruct Hs as (H1 & H2 & H3).
    destruct (P 0%nat x x' ltac:(lia) H1 Ax) as [S1 A1]. destruct (P 1%nat y y' ltac:(lia) H2 Ay) as [S2 A2]. destruct (P 2%nat z z' ltac:(lia) H3 Az) as [S3 A3].
    split; [apply sized3; auto|now apply apart3_intro].
  Qed.
End CurveStage.

(** Cubes in exact arithmetic. *)
Lemma exact_entry3D (L : libm) a n i j k ch : entry3D (exactArray a) n i j k ch = B2R (@entry3D fl (ieeeNum L) a n i j k ch).
Proof. unfold entry3D, exactArray. cbn [a_vals]. change (@n0 R realNum) with (B2R (@n0 fl (ieeeNum L))). apply map_nth. Qed.
Lemma component_at3 tet (a : array R) dIn n ch r g b : (ch < 3)%nat ->
  component ch (lut3dFun tet a dIn n r g b) = at3 tet (grid a n ch) (clampR (r / fullScale dIn) * INR (n - 1)) (clampR (g / fullScale dIn) * INR (n - 1)) (clampR (b / fullScale dIn) * INR (n - 1)).
Proof. intro H. destruct ch as [|[|[|ch]]]; try lia; reflexivity. Qed.
Lemma clampR_slope x y : Rabs (clampR x - clampR y) <= Rabs (x - y).
Proof. unfold clampR, Rmin, Rmax, Rabs. repeat destruct (Rle_dec _ _); repeat destruct (Rcase_abs _); lra. Qed.
Lemma cube_steps tet (a : array R) dIn n ch D r g b r' g' b' : (2 <= n)%nat -> (ch < 3)%nat -> smooth n D (fun i j k => entry3D a n i j k ch) ->
  0 <= D /\ Rabs (component ch (lut3dFun tet a dIn n r g b) - component ch (lut3dFun tet a dIn n r' g' b')) <=
    INR (n - 1) * D / fullScale dIn * (Rabs (r - r') + Rabs (g - g') + Rabs (b - b')).
Proof.
  intros Hn Hch HD. set (E := grid a n ch).
  assert (D0 : 0 <= D) by (destruct (HD 0%nat 0%nat 0%nat) as [A _]; [lia|lia|lia|]; eapply Rle_trans; [apply Rabs_pos|exact A]).
  split; [exact D0|]. rewrite !component_at3 by exact Hch. fold E.
  assert (Same : forall x, Rabs (x - x) <= D) by (intro x; rewrite Rminus_diag_eq, Rabs_R0 by reflexivity; exact D0).
  assert (Hcl : forall z, (clampZ n z < n)%nat) by (intro z; apply clampZ_lt; lia).
  assert (S1 : steps D E).
  { intros i j k. unfold E, grid. destruct (clampZ_next n i ltac:(lia)) as [Q|[Q1 Q2]]; [rewrite Q; apply Same|rewrite Q1]. now apply HD. }
  assert (S2 : steps D (swapRG E)).
  { intros i j k. unfold swapRG, E, grid. destruct (clampZ_next n i ltac:(lia)) as [Q|[Q1 Q2]]; [rewrite Q; apply Same|rewrite Q1]. now apply HD. }
  assert (S3 : steps D (swapRB E)).
  { intros i j k. unfold swapRB, E, grid. destruct (clampZ_next n i ltac:(lia)) as [Q|[Q1 Q2]]; [rewrite Q; apply Same|rewrite Q1]. now apply HD. }
  eapply Rle_trans; [apply (slope3 tet E D); assumption|]. rewrite <- !Rmult_minus_distr_r, !Rabs_mult, (Rabs_pos_eq (INR (n - 1))) by apply pos_INR.
  pose proof (fullScale_pos dIn) as Pd.
  assert (C : forall x y, Rabs (clampR (x / fullScale dIn) - clampR (y / fullScale dIn)) <= Rabs (x - y) / fullScale dIn).
  { intros x y. eapply Rle_trans; [apply clampR_slope|]. replace (x / fullScale dIn - y / fullScale dIn) with ((x - y) / fullScale dIn) by (field; lra).
    unfold Rdiv. rewrite Rabs_mult, (Rabs_pos_eq (/ fullScale dIn)) by (left; now apply Rinv_0_lt_compat). lra. }
  pose proof (C r r'). pose proof (C g g'). pose proof (C b b'). pose proof (pos_INR (n - 1)) as N0.
  replace (INR (n - 1) * D / fullScale dIn * (Rabs (r - r') + Rabs (g - g') + Rabs (b - b')))
    with (D * INR (n - 1) * (Rabs (r - r') / fullScale dIn + Rabs (g - g') / fullScale dIn + Rabs (b - b') / fullScale dIn)) by (field; lra).
  eapply Rle_trans; [|apply Rmult_le_compat_l; [now apply Rmult_le_pos|apply Rplus_le_compat; [apply Rplus_le_compat|]; eassumption]]. right. ring.
Qed.
Lemma cube_bound tet (a : array R) dIn n ch M r g b : (1 <= n)%nat -> (ch < 3)%nat ->
  (forall i j k, (i < n)%nat -> (j < n)%nat -> (k < n)%nat -> Rabs (entry3D a n i j k ch) <= M) -> Rabs (component ch (lut3dFun tet a dIn n r g b)) <= M.
Proof.
  intros Hn Hch He. rewrite component_at3 by exact Hch. set (E := grid a n ch).
  assert (He' : forall i j k, Rabs (E i j k) <= M) by (intros i j k; apply He; apply clampZ_lt; exact Hn).
  unfold at3. set (x := clampR (r / fullScale dIn) * INR (n - 1)). set (y := clampR (g / fullScale dIn) * INR (n - 1)). set (z := clampR (b / fullScale dIn) * INR (n - 1)).
  destruct (interp_weights tet _ _ _ (frac x) (frac y) (frac z)) as (w0 & w1 & w2 & w3 & w4 & w5 & w6 & w7 & W0 & W1 & W2 & W3 & W4 & W5 & W6 & W7 & WS & _ & _ & _ & WE).
  rewrite WE. set (zr := Zfloor x). set (zg := Zfloor y). set (zb := Zfloor z).
  assert (Q : forall w i j k, 0 <= w -> - (w * M) <= w * E i j k <= w * M).
  { intros w i j k Hw0. pose proof (He' i j k) as A. apply Rabs_le_inv in A. split; nra. }
  assert (QM : M = w0 * M + w1 * M + w2 * M + w3 * M + w4 * M + w5 * M + w6 * M + w7 * M) by (transitivity ((w0 + w1 + w2 + w3 + w4 + w5 + w6 + w7) * M); [rewrite WS; ring|ring]).
  pose proof (Q w0 zr zg zb W0). pose proof (Q w1 zr zg (zb + 1)%Z W1). pose proof (Q w2 zr (zg + 1)%Z zb W2). pose proof (Q w3 zr (zg + 1)%Z (zb + 1)%Z W3).
  pose proof (Q w4 (zr + 1)%Z zg zb W4). pose proof (Q w5 (zr + 1)%Z zg (zb + 1)%Z W5). pose proof (Q w6 (zr + 1)%Z (zg + 1)%Z zb W6). pose proof (Q w7 (zr + 1)%Z (zg + 1)%Z (zb + 1)%Z W7).
  apply Rabs_le. lra.
Qed.

Section CubeStage.
  Variable L : libm.
  #[local] Hint Extern 0 (Num fl) => exact (ieeeNum L) : typeclass_instances.

  Theorem lut3d_follows c (h : header fl) tet dIn a n B M D :
    isCube h (kindOf tet) dIn a n -> (2 <= n)%nat -> (Z.of_nat n <= 2 ^ 53)%Z ->
    (forall ch i j k, (ch < 3)%nat -> (i < n)%nat -> (j < n)%nat -> (k < n)%nat -> is_finite (entry3D a n i j k ch) = true /\ Rabs (B2R (entry3D a n i j k ch)) <= M) ->
    M <= bpow radix2 125 -> (forall ch, (ch < 3)%nat -> smooth n D (fun i j k => B2R (entry3D a n i j k ch))) ->
    B <= bpow radix2 126 ->
    let E := 4 * unit32 (M + INR (n - 1) * D) in
    follows c (Node h BLUT3D) B (3 * (INR (n - 1) * D / fullScale dIn)) E (M + E).
  Proof.
    intros H Hn Hm Hent HM HD HB E px px' e Hs Ha. pose proof (fullScale_pos dIn) as Pd.
    assert (H' : isCube (exactHeader h) (kindOf tet) dIn (exactArray a) n).
    { destruct H as (H1 & H2 & H3 & H4 & (W1 & W2 & W3) & H6). split; [exact H1|]. split; [exact H2|]. split; [exact H3|].
      split; [cbn [exactHeader h_elems]; rewrite exact_lastArray, H4; reflexivity|]. split; [|now apply exact_indexMaps].
      split; [exact W1|]. split; [exact W2|]. cbn [exactArray a_vals]. now rewrite map_length. }
    destruct (lut3d_close L c h (exactHeader h) tet dIn a (exactArray a) n H H' eq_refl Hn Hm) as (F & F' & Ac & Ac' & Cl).
    assert (Ac3 : actsPerColour c (Node (exactHeader h) BLUT3D) (lut3dFun tet (exactArray a) dIn n)).
    { destruct H' as (H1 & H2 & H3 & H4 & H5 & H6). apply lut3d_plain; [repeat split; try assumption; apply H5|exact H6]. }
    destruct (three px (proj1 Hs)) as (x & y & z & ->). apply sized3 in Hs. destruct (apart3 _ _ _ _ _ Ha) as (x' & y' & z' & -> & Ax & Ay & Az).
    eexists. eexists. split; [exact (Ac 3%nat [x; y; z] ltac:(lia))|]. split; [exact (Ac3 3%nat [x'; y'; z'] ltac:(lia))|]. rewrite !perColour3.
    assert (P : forall ch, (ch < 3)%nat -> let v := component ch (F x y z) in
      (is_finite v = true /\ Rabs (B2R v) <= M + E) /\
      Rabs (B2R v - component ch (lut3dFun tet (exactArray a) dIn n x' y' z')) <= 3 * (INR (n - 1) * D / fullScale dIn) * e + E).
    { intros ch Hch v. destruct Hs as ([Fx Bx] & [Fy By] & [Fz Bz]).
      destruct (Cl ch M D Hch (fun i j k => Hent ch i j k Hch) HM (HD ch Hch) x y z Fx Fy Fz ltac:(lra) ltac:(lra) ltac:(lra)) as [Fv Ev]. fold v in Fv, Ev.
      fold (unit32 (M + INR (n - 1) * D)) in Ev. fold E in Ev. rewrite (acts_unique c _ F' _ _ _ _ Ac' Ac3) in Ev.
      assert (HD' : smooth n D (fun i j k => entry3D (exactArray a) n i j k ch)).
      { intros i j k Hi Hj Hk. cbv beta. rewrite !(exact_entry3D L). now apply HD. }
      assert (Bd : Rabs (component ch (lut3dFun tet (exactArray a) dIn n (B2R x) (B2R y) (B2R z))) <= M).
      { apply cube_bound; [lia|exact Hch|]. intros i j k Hi Hj Hk. rewrite (exact_entry3D L). now apply Hent. }
      destruct (cube_steps tet (exactArray a) dIn n ch D (B2R x) (B2R y) (B2R z) x' y' z' Hn Hch HD') as [D0 Sl].
      set (w := component ch (lut3dFun tet (exactArray a) dIn n (B2R x) (B2R y) (B2R z))) in *. set (w' := component ch (lut3dFun tet (exactArray a) dIn n x' y' z')) in *. clearbody v w w'.
      assert (Q : 0 <= INR (n - 1) * D / fullScale dIn) by (apply div_nonneg; [apply Rmult_le_pos; [apply pos_INR|exact D0]|exact Pd]).
      assert (Sl' : INR (n - 1) * D / fullScale dIn * (Rabs (B2R x - x') + Rabs (B2R y - y') + Rabs (B2R z - z')) <= INR (n - 1) * D / fullScale dIn * (3 * e)) by (apply Rmult_le_compat_l; [exact Q|lra]).
      split; [split; [exact Fv|]|].
      - replace (B2R v) with ((B2R v - w) + w) by ring. eapply Rle_trans; [apply Rabs_triang|]. lra.
      - replace (B2R v - w') with ((B2R v - w) + (w - w')) by ring. eapply Rle_trans; [apply Rabs_triang|]. lra. }
    destruct (P 0%nat ltac:(lia)) as [S1 A1]. destruct (P 1%nat ltac:(lia)) as [S2 A2]. destruct (P 2%nat ltac:(lia)) as [S3 A3].
    destruct (F x y z) as [[r g] b]. destruct (lut3dFun tet (exactArray a) dIn n x' y' z') as [[r' g'] b']. cbn [component] in *.
    split; [apply sized3; auto|now apply apart3_intro].
  Qed.
End CubeStage.
