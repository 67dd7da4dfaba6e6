(** A rising LUT1D in IEEE arithmetic: results swap by rounding only within one step of the table. *)
From Coq Require Import Reals Lra Lia ZArith List String Psatz Arith.
From Flocq Require Import Core BinarySingleNaN.
From Verif Require Import SpecBounds PBase PIdentityCases PFacts PAct PReal PIeee PIeeeArith PRound PClose PCloseLut PCloseRange PClose3D PErrorsLut PRelative PPack PIdentity PLut1D PHalfLut PLut3D PBounds.
Import ListNotations.
Local Open Scope string_scope.
Local Open Scope list_scope.
Local Open Scope R_scope.

Local Notation rd := (rnd (p := 53) (e := 1024)).
Local Notation rs := (rnd (p := 24) (e := 128)).

Section Order.
  Context (L : libm).
  #[local] Hint Extern 0 (Num fl) => exact (ieeeNum L) : typeclass_instances.

  Lemma position_value d (x : fl) : is_finite x = true -> Rabs (B2R x) <= bpow radix2 126 ->
    B2R (nf32 (bitDepthToNormalized x d)) = rs (rd (B2R x / fullScale d)).
  Proof.
    intros Fx Bx. pose proof (fullScale_pos d) as P. destruct (scale_cases L d x) as (z & E & Hz & _).
    assert (Pz : 1 <= fullScale d) by (rewrite E; apply IZR_le; lia).
    apply (normalized_stored L d x Fx). unfold Rdiv. rewrite Rabs_mult, (Rabs_pos_eq (/ fullScale d)) by (left; apply Rinv_0_lt_compat; lra).
    apply Rle_trans with (2 := Bx). rewrite <- (Rmult_1_r (Rabs (B2R x))) at 2. apply Rmult_le_compat_l; [apply Rabs_pos|]. rewrite <- Rinv_1. apply Rinv_le; lra.
  Qed.

  Lemma rising_le (e : nat -> fl) n : (forall k, (k + 1 < n)%nat -> B2R (e k) <= B2R (e (k + 1)%nat)) ->
    forall j k, (j <= k)%nat -> (k < n)%nat -> B2R (e j) <= B2R (e k).
  Proof.
    intros H j k Hjk. induction Hjk as [|k Hjk IH]; intro Hk; [lra|]. apply Rle_trans with (B2R (e k)); [apply IH; lia|].
    replace (S k) with (k + 1)%nat by lia. apply H. lia.
  Qed.
  Lemma clampZ_le n z z' : (z <= z')%Z -> (clampZ n z <= clampZ n z')%nat.
  Proof. unfold clampZ. lia. Qed.

  (** The computed position of an input, and the two entries its result is between. *)
  Lemma rising_cell dIn a n ch : wellFormed1D a -> hd_error (a_dims a) = Some n -> (Z.of_nat n <= 2 ^ 53)%Z -> (ch < 3)%nat ->
    (forall k, (k < n)%nat -> isSingle (entry1D a k ch)) -> (forall k, (k + 1 < n)%nat -> B2R (entry1D a k ch) <= B2R (entry1D a (k + 1) ch)) ->
    forall w, is_finite w = true -> Rabs (B2R w) <= bpow radix2 126 ->
      exists i, i = rd (rs (rd (B2R w / fullScale dIn)) * IZR (Z.of_nat n - 1)) /\
        liesBetween (entry1D a (clampZ n (Zfloor i)) ch) (entry1D a (clampZ n (Zceil i)) ch) (linFun L a dIn ch w).
  Proof.
    intros Hw Hnn Hm Hch Hs Hr.
    assert (N1 : (1 <= n)%nat) by (destruct Hw as [d0 [d1 [rest [Hd [H0 _]]]]]; rewrite Hd in Hnn; injection Hnn as ->; exact H0).
    assert (Cl : forall z, (clampZ n z < n)%nat) by (intro z; now apply clampZ_lt).
    pose proof (rising_le (fun k => entry1D a k ch) n Hr) as Le. cbv beta in Le.
    intros w Fw Bw. destruct (position_size L dIn w Fw Bw) as (Fp & Bp & _).
      destruct (linear_cell L a n _ ch Hw Hnn Hm Hch Fp Bp) as (i & t & Fi & Ei & Ft & Ht & E).
      rewrite position_value in Ei by assumption. exists (B2R i). split; [exact Ei|].
      change (linFun L a dIn ch w) with (nf32 (match lookup1DLinear a (nf32 (bitDepthToNormalized w dIn)) ch with Ok v => v | Err _ => n0 end)). rewrite E.
      set (v1 := entry1D a (clampZ n (Zfloor (B2R i))) ch). set (v2 := entry1D a (clampZ n (Zceil (B2R i))) ch).
      assert (S1 : isSingle v1) by (apply Hs, Cl). assert (S2 : isSingle v2) by (apply Hs, Cl).
      assert (V : B2R v1 <= B2R v2).
      { apply Le; [|apply Cl]. apply clampZ_le. apply le_IZR. eapply Rle_trans; [apply Zfloor_lb|apply Zceil_ub]. }
      assert (B1 : liesBetween v1 v2 v1) by (split; [apply S1|lra]). assert (B2 : liesBetween v1 v2 v2) by (split; [apply S2|lra]).
      apply (stored_between L (0 + 22)); try assumption; [lra|].
      apply lerp_nearly; try assumption; [now apply single_sizes|lra|now apply between_nearly|now apply between_nearly].
  Qed.

  Theorem lut1d_order c (h : header fl) dIn a n :
    isLinearLUT h dIn a n -> (Z.of_nat n <= 2 ^ 53)%Z ->
    exists f, actsPerChannel c (Node h BLUT1D) f /\
      forall ch, (ch < 3)%nat -> (forall k, (k < n)%nat -> isSingle (entry1D a k ch)) ->
        (forall k, (k + 1 < n)%nat -> B2R (entry1D a k ch) <= B2R (entry1D a (k + 1) ch)) ->
        forall x y, is_finite x = true -> is_finite y = true -> Rabs (B2R x) <= bpow radix2 126 -> Rabs (B2R y) <= bpow radix2 126 -> B2R x <= B2R y ->
          B2R (f ch x) <= B2R (f ch y) \/
          exists k, (k + 1 < n)%nat /\ liesBetween (entry1D a k ch) (entry1D a (k + 1) ch) (f ch x) /\ liesBetween (entry1D a k ch) (entry1D a (k + 1) ch) (f ch y).
  Proof.
    intros H Hm. exists (linFun L a dIn). split; [now apply (linear_acts L c h dIn a n)|].
    destruct H as [Hi [[d Ho] [Hc [Hf [Him [Ha [Hw Hnn]]]]]]]. intros ch Hch Hs Hr x y Fx Fy Bx By Hxy.
    assert (N1 : (1 <= n)%nat) by (destruct Hw as [d0 [d1 [rest [Hd [H0 _]]]]]; rewrite Hd in Hnn; injection Hnn as ->; exact H0).
    assert (Cl : forall z, (clampZ n z < n)%nat) by (intro z; now apply clampZ_lt).
    pose proof (rising_le (fun k => entry1D a k ch) n Hr) as Le. cbv beta in Le.
    pose proof (rising_cell dIn a n ch Hw Hnn Hm Hch Hs Hr) as One.
    destruct (One x Fx Bx) as (i & Ei & Li). destruct (One y Fy By) as (j & Ej & Lj).
    assert (Hij : i <= j).
    { rewrite Ei, Ej. apply rnd_le. apply Rmult_le_compat_r; [apply IZR_le; lia|]. apply rnd_le, rnd_le.
      unfold Rdiv. apply Rmult_le_compat_r; [|exact Hxy]. left. apply Rinv_0_lt_compat, fullScale_pos. }
    destruct (Z_le_gt_dec (Zceil i) (Zfloor j)) as [Hc1|Hc1].
    - left. apply Rle_trans with (B2R (entry1D a (clampZ n (Zceil i)) ch)); [apply Li|].
      apply Rle_trans with (B2R (entry1D a (clampZ n (Zfloor j)) ch)); [|apply Lj]. apply Le; [now apply clampZ_le|apply Cl].
    - pose proof (Zfloor_le _ _ Hij) as Hf1. pose proof (Zceil_le _ _ Hij) as Hc2.
      assert (Ci : (Zceil i <= Zfloor i + 1)%Z) by (apply Zceil_glb; rewrite plus_IZR; pose proof (Zfloor_ub i); lra).
      assert (Cj : (Zceil j <= Zfloor j + 1)%Z) by (apply Zceil_glb; rewrite plus_IZR; pose proof (Zfloor_ub j); lra).
      assert (E1 : Zfloor j = Zfloor i) by lia. assert (E2 : Zceil i = (Zfloor i + 1)%Z) by lia. assert (E3 : Zceil j = (Zfloor i + 1)%Z) by lia.
      rewrite E1, E3 in Lj. rewrite E2 in Li. destruct (clampZ_next n (Zfloor i) N1) as [Eq|[Eq Lt]]; rewrite Eq in Li, Lj.
      + left. destruct Li as [_ Li], Lj as [_ Lj]. lra.
      + right. exists (clampZ n (Zfloor i)). split; [exact Lt|]. split; assumption.
  Qed.
  (** Positions of inputs in range, computed and exact. *)
  Lemma position_near n w : 0 <= w <= 1 -> (1 <= n)%nat -> (Z.of_nat n <= 2 ^ 22)%Z ->
    Rabs (rd (rs (rd w) * IZR (Z.of_nat n - 1)) - w * IZR (Z.of_nat n - 1)) <= / 2.
  Proof.
    intros Hw N1 Hn. set (m := IZR (Z.of_nat n - 1)). assert (M0 : 0 <= m) by (apply IZR_le; lia). assert (M1 : m <= 4194304) by (apply IZR_le; lia).
    assert (U : bpow radix2 (-53) <= / 1073741824 /\ bpow radix2 (-1075) <= / 1073741824 /\ bpow radix2 (-150) <= / 1073741824 /\ bpow radix2 (-24) = / 16777216).
    { change (/ 1073741824) with (bpow radix2 (-30)). repeat split; try (apply bpow_le; lia). }
    destruct U as (U1 & U2 & U3 & U4).
    pose proof (rnd_rel (p := 53) (e := 1024) w) as Q1. change (- (53))%Z with (-53)%Z in Q1. change (2 - 1024 - 53)%Z with (-1075)%Z in Q1.
    set (a := rd w) in *. pose proof (rnd_rel (p := 24) (e := 128) a) as Q2. change (- (24))%Z with (-24)%Z in Q2. change (2 - 128 - 24)%Z with (-150)%Z in Q2.
    set (b := rs a) in *. pose proof (rnd_rel (p := 53) (e := 1024) (b * m)) as Q3. change (- (53))%Z with (-53)%Z in Q3. change (2 - 1024 - 53)%Z with (-1075)%Z in Q3.
    set (d := rd (b * m)) in *. clearbody a b d m.
    pose proof (bpow_gt_0 radix2 (-53)) as P1.
    rewrite (Rabs_pos_eq w) in Q1 by lra.
    assert (A : Rabs (a - w) <= / 500000000) by (eapply Rle_trans; [exact Q1|]; nra). apply Rabs_le_inv in A.
    rewrite U4 in Q2. assert (A2 : Rabs a <= 1 + / 500000000) by (apply Rabs_le; lra).
    assert (B : Rabs (b - a) <= / 16000000) by (eapply Rle_trans; [exact Q2|]; lra). apply Rabs_le_inv in B.
    assert (B2 : Rabs b <= 2) by (apply Rabs_le; lra).
    assert (C : Rabs (b * m) <= 8388608) by (rewrite Rabs_mult, (Rabs_pos_eq m) by lra; pose proof (Rabs_pos b); nra).
    assert (D : Rabs (d - b * m) <= / 100).
    { eapply Rle_trans; [exact Q3|]. pose proof (Rabs_pos (b * m)). assert (bpow radix2 (-53) * Rabs (b * m) <= / 1073741824 * 8388608) by (apply Rmult_le_compat; lra). lra. }
    apply Rabs_le_inv in D. assert (G : - / 15000000 <= b - w <= / 15000000) by lra.
    assert (G2 : - (/ 15000000 * 4194304) <= (b - w) * m <= / 15000000 * 4194304) by nra.
    apply Rabs_le. split; lra.
  Qed.

  Theorem lut1d_steps c (h : header fl) dIn a n :
    isLinearLUT h dIn a n -> (2 <= n)%nat -> (Z.of_nat n <= 2 ^ 22)%Z ->
    exists f, actsPerChannel c (Node h BLUT1D) f /\
      forall ch, (ch < 3)%nat -> (forall k, (k < n)%nat -> isSingle (entry1D a k ch)) ->
        (forall k, (k + 1 < n)%nat -> B2R (entry1D a k ch) <= B2R (entry1D a (k + 1) ch)) ->
        forall x y, is_finite x = true -> is_finite y = true -> 0 <= B2R x -> B2R y <= fullScale dIn ->
          B2R x + 2 * (fullScale dIn / IZR (Z.of_nat n - 1)) <= B2R y -> B2R (f ch x) <= B2R (f ch y).
  Proof.
    intros H N2 Hm. exists (linFun L a dIn). split; [now apply (linear_acts L c h dIn a n)|].
    destruct H as [Hi [[d Ho] [Hc [Hf [Him [Ha [Hw Hnn]]]]]]]. intros ch Hch Hs Hr x y Fx Fy X0 Y1 Hxy.
    assert (N1 : (1 <= n)%nat) by lia. assert (Hm' : (Z.of_nat n <= 2 ^ 53)%Z) by lia.
    pose proof (fullScale_pos dIn) as P. destruct (scale_cases L dIn x) as (z & Ez & Hz & _).
    assert (Big : fullScale dIn <= bpow radix2 126).
    { rewrite Ez. apply Rle_trans with (bpow radix2 53); [|apply bpow_le; lia]. change (bpow radix2 53) with (IZR (2 ^ 53)). apply IZR_le. lia. }
    assert (M0 : 0 < IZR (Z.of_nat n - 1)) by (apply IZR_lt; lia).
    assert (St : 0 < fullScale dIn / IZR (Z.of_nat n - 1)) by (apply Rdiv_lt_0_compat; lra).
    assert (Bx : Rabs (B2R x) <= bpow radix2 126) by (rewrite Rabs_pos_eq; lra). assert (By : Rabs (B2R y) <= bpow radix2 126) by (rewrite Rabs_pos_eq; lra).
    destruct (rising_cell dIn a n ch Hw Hnn Hm' Hch Hs Hr x Fx Bx) as (i & Ei & Li).
    destruct (rising_cell dIn a n ch Hw Hnn Hm' Hch Hs Hr y Fy By) as (j & Ej & Lj).
    pose proof (rising_le (fun k => entry1D a k ch) n Hr) as Le. cbv beta in Le.
    assert (Unit : forall w, 0 <= w <= fullScale dIn -> 0 <= w / fullScale dIn <= 1).
    { intros w Hw'. split; [apply div_nonneg; lra|]. apply Rmult_le_reg_r with (fullScale dIn); [lra|]. unfold Rdiv. rewrite Rmult_assoc, Rinv_l by lra. lra. }
    pose proof (position_near n _ (Unit (B2R x) ltac:(lra)) N1 Hm) as Qx. pose proof (position_near n _ (Unit (B2R y) ltac:(lra)) N1 Hm) as Qy.
    rewrite <- Ei in Qx. rewrite <- Ej in Qy. apply Rabs_le_inv in Qx. apply Rabs_le_inv in Qy.
    assert (Gap : B2R x / fullScale dIn * IZR (Z.of_nat n - 1) + 2 <= B2R y / fullScale dIn * IZR (Z.of_nat n - 1)).
    { replace (B2R x / fullScale dIn * IZR (Z.of_nat n - 1) + 2) with ((B2R x + 2 * (fullScale dIn / IZR (Z.of_nat n - 1))) / fullScale dIn * IZR (Z.of_nat n - 1)) by (field; lra).
      apply Rmult_le_compat_r; [lra|]. unfold Rdiv. apply Rmult_le_compat_r; [left; now apply Rinv_0_lt_compat|exact Hxy]. }
    apply Rle_trans with (B2R (entry1D a (clampZ n (Zceil i)) ch)); [apply Li|].
    apply Rle_trans with (B2R (entry1D a (clampZ n (Zfloor j)) ch)); [|apply Lj]. apply Le; [|now apply clampZ_lt].
    apply clampZ_le. apply Z.le_trans with (Zfloor i + 1)%Z; [apply Zceil_glb; rewrite plus_IZR; pose proof (Zfloor_ub i); lra|].
    apply Zfloor_lub. rewrite plus_IZR. pose proof (Zfloor_lb i). lra.
  Qed.
  (** Only entries within two steps of the input matter. *)
  Lemma clamped_near n z w : (1 <= n)%nat -> 0 <= w <= INR (n - 1) -> Rabs (IZR z - w) <= 2 -> Rabs (INR (clampZ n z) - w) <= 2.
  Proof.
    intros N1 Hw H. apply Rabs_le_inv in H. assert (En : INR (n - 1) = IZR (Z.of_nat n - 1)) by (rewrite INR_IZR_INZ; f_equal; lia). rewrite En in Hw.
    destruct (Z_le_gt_dec z 0) as [C|C].
    - rewrite clampZ_low by exact C. apply IZR_le in C. cbn [INR]. apply Rabs_le. lra.
    - destruct (Z_le_gt_dec (Z.of_nat n - 1) z) as [D|D].
      + rewrite clampZ_high by exact D. apply IZR_le in D. rewrite En. apply Rabs_le. lra.
      + replace z with (Z.of_nat (Z.to_nat z)) at 1 by lia. rewrite clampZ_in by lia. rewrite INR_IZR_INZ, Z2Nat.id by lia. apply Rabs_le. lra.
  Qed.
  Lemma unit_input d w : 0 <= w <= fullScale d -> 0 <= w / fullScale d <= 1.
  Proof.
    intro H. pose proof (fullScale_pos d). split; [apply div_nonneg; lra|].
    apply Rmult_le_reg_r with (fullScale d); [lra|]. unfold Rdiv. rewrite Rmult_assoc, Rinv_l by lra. lra.
  Qed.
  Lemma scale_big d : 1 <= fullScale d <= bpow radix2 126.
  Proof.
    destruct (scale_cases L d (nofZ 0)) as (z & E & Hz & _). rewrite E. split; [apply IZR_le; lia|].
    apply Rle_trans with (bpow radix2 53); [|apply bpow_le; lia]. change (bpow radix2 53) with (IZR (2 ^ 53)). apply IZR_le. lia.
  Qed.

  Theorem lut1d_local c (h : header fl) dIn a n :
    isLinearLUT h dIn a n -> (Z.of_nat n <= 2 ^ 22)%Z ->
    exists f, actsPerChannel c (Node h BLUT1D) f /\
      forall ch x lo hi, (ch < 3)%nat -> is_finite x = true -> 0 <= B2R x <= fullScale dIn -> isSingle lo -> isSingle hi ->
        (forall k, (k < n)%nat -> Rabs (INR k - B2R x / fullScale dIn * INR (n - 1)) <= 2 -> liesBetween lo hi (entry1D a k ch)) ->
        liesBetween lo hi (f ch x).
  Proof.
    intros H Hm. exists (linFun L a dIn). split; [now apply (linear_acts L c h dIn a n)|].
    destruct H as [Hi [[d Ho] [Hc [Hf [Him [Ha [Hw Hnn]]]]]]]. intros ch x lo hi Hch Fx Bx Sl Sh He.
    assert (N1 : (1 <= n)%nat) by (destruct Hw as [d0 [d1 [rest [Hd [H0 _]]]]]; rewrite Hd in Hnn; injection Hnn as ->; exact H0).
    pose proof (scale_big dIn) as Sc. assert (Ax : Rabs (B2R x) <= bpow radix2 126) by (rewrite Rabs_pos_eq; lra).
    destruct (position_size L dIn x Fx Ax) as (Fp & Bp & _). assert (Hm' : (Z.of_nat n <= 2 ^ 53)%Z) by lia.
    destruct (linear_cell L a n _ ch Hw Hnn Hm' Hch Fp Bp) as (i & t & Fi & Ei & Ft & Ht & E).
    rewrite position_value in Ei by assumption.
    pose proof (unit_input dIn _ Bx) as Ux. pose proof (position_near n _ Ux N1 Hm) as Q. rewrite <- Ei in Q.
    assert (En : INR (n - 1) = IZR (Z.of_nat n - 1)) by (rewrite INR_IZR_INZ; f_equal; lia). rewrite <- En in Q.
    assert (M0 : 0 <= INR (n - 1)) by apply pos_INR.
    assert (P : 0 <= B2R x / fullScale dIn * INR (n - 1) <= INR (n - 1)) by nra.
    apply Rabs_le_inv in Q.
    change (linFun L a dIn ch x) with (nf32 (match lookup1DLinear a (nf32 (bitDepthToNormalized x dIn)) ch with Ok v => v | Err _ => n0 end)). rewrite E.
    assert (B : forall z, Rabs (IZR z - B2R i) <= 1 -> liesBetween lo hi (entry1D a (clampZ n z) ch)).
    { intros z Hz. apply He; [now apply clampZ_lt|]. apply clamped_near; try assumption. apply Rabs_le_inv in Hz. apply Rabs_le. lra. }
    assert (B1 : liesBetween lo hi (entry1D a (clampZ n (Zfloor (B2R i))) ch)).
    { apply B. pose proof (Zfloor_lb (B2R i)). pose proof (Zfloor_ub (B2R i)). apply Rabs_le. lra. }
    assert (B2 : liesBetween lo hi (entry1D a (clampZ n (Zceil (B2R i))) ch)).
    { apply B. pose proof (Zceil_ub (B2R i)). pose proof (Zceil_lb (B2R i)). apply Rabs_le. lra. }
    apply (stored_between L (0 + 22)); try assumption; [lra|].
    apply lerp_nearly; try assumption; [now apply single_sizes|lra|now apply between_nearly|now apply between_nearly].
  Qed.

  (** Interpolation in a cell reads its corners only. *)
  Definition side (r i : Z) : Z := if (i =? r)%Z then r else (r + 1)%Z.
  Lemma side_low r : side r r = r.
  Proof. unfold side. now rewrite Z.eqb_refl. Qed.
  Lemma side_high r : side r (r + 1) = (r + 1)%Z.
  Proof. unfold side. destruct (Z.eqb_spec (r + 1) r); [lia|reflexivity]. Qed.
  Lemma interp_corners tet (e : Z -> Z -> Z -> fl) r g b fr fg fb :
    interpT tet e r g b fr fg fb = interpT tet (fun i j k => e (side r i) (side g j) (side b k)) r g b fr fg fb.
  Proof. destruct tet; unfold interpT, tetT, triT; cbv zeta beta; rewrite !side_low, !side_high; reflexivity. Qed.

  Theorem lut3d_local c (h : header fl) tet dIn a n :
    isCube h (kindOf tet) dIn a n -> (2 <= n)%nat -> (Z.of_nat n <= 2 ^ 22)%Z ->
    exists F, actsPerColour c (Node h BLUT3D) F /\
      forall ch r g b lo hi, (ch < 3)%nat -> is_finite r = true -> is_finite g = true -> is_finite b = true ->
        0 <= B2R r <= fullScale dIn -> 0 <= B2R g <= fullScale dIn -> 0 <= B2R b <= fullScale dIn -> isSingle lo -> isSingle hi ->
        (forall i j k, (i < n)%nat -> (j < n)%nat -> (k < n)%nat ->
          Rabs (INR i - B2R r / fullScale dIn * INR (n - 1)) <= 2 -> Rabs (INR j - B2R g / fullScale dIn * INR (n - 1)) <= 2 ->
          Rabs (INR k - B2R b / fullScale dIn * INR (n - 1)) <= 2 -> liesBetween lo hi (entry3D a n i j k ch)) ->
        liesBetween lo hi (component ch (F r g b)).
  Proof.
    intros H Hn Hm. exists (cubeFun L tet a dIn). split; [now apply (cube_acts L c h dIn a n)|].
    intros ch r g b lo hi Hch Fr Fg Fb Br Bg Bb Sl Sh He. destruct H as (_ & _ & _ & _ & Hw & _).
    pose proof (scale_big dIn) as Sc. assert (Hm' : (Z.of_nat n <= 2 ^ 53)%Z) by lia.
    assert (S : forall x : fl, 0 <= B2R x <= fullScale dIn -> Rabs (B2R x / fullScale dIn) <= bpow radix2 126).
    { intros x Hx. apply unit_input in Hx. rewrite Rabs_pos_eq by lra. apply Rle_trans with (bpow radix2 0); [cbn; lra|apply bpow_le; lia]. }
    set (p := fun x : fl => nf32 (bitDepthToNormalized x dIn)).
    destruct (axis_ieee L a n dIn [p r; p g; p b] 0 r Hw Hn Hm' ltac:(lia) eq_refl Fr (S r Br)) as (zr & fr & Ar & Ffr & Bfr & Qr).
    destruct (axis_ieee L a n dIn [p r; p g; p b] 1 g Hw Hn Hm' ltac:(lia) eq_refl Fg (S g Bg)) as (zg & fg & Ag & Ffg & Bfg & Qg).
    destruct (axis_ieee L a n dIn [p r; p g; p b] 2 b Hw Hn Hm' ltac:(lia) eq_refl Fb (S b Bb)) as (zb & fb & Ab & Ffb & Bfb & Qb).
    assert (Near : forall (x f : fl) z i, 0 <= B2R x <= fullScale dIn -> 0 <= B2R f <= 1 ->
      Rabs (IZR z + B2R f - clampR (B2R x / fullScale dIn) * INR (n - 1)) <= 102 / 100 * bpow radix2 (-23) * INR (n - 1) ->
      Rabs (INR (clampZ n (side z i)) - B2R x / fullScale dIn * INR (n - 1)) <= 2).
    { intros x f z i Hx Hf Q. apply unit_input in Hx.
      assert (Ec : clampR (B2R x / fullScale dIn) = B2R x / fullScale dIn) by (unfold clampR, Rmin, Rmax; repeat destruct (Rle_dec _ _); lra). rewrite Ec in Q.
      assert (M0 : 0 <= INR (n - 1)) by apply pos_INR.
      assert (M1 : INR (n - 1) <= 4194304) by (rewrite INR_IZR_INZ; apply IZR_le; lia).
      change (bpow radix2 (-23)) with (/ 8388608) in Q.
      assert (Q' : Rabs (IZR z + B2R f - B2R x / fullScale dIn * INR (n - 1)) <= 1) by (eapply Rle_trans; [exact Q|]; lra).
      apply Rabs_le_inv in Q'. apply clamped_near; [lia|nra|]. unfold side. destruct (i =? z)%Z; [|rewrite plus_IZR]; apply Rabs_le; lra. }
    assert (K : look tet a [p r; p g; p b] = Ok [interpT tet (gridT a n 0) zr zg zb fr fg fb; interpT tet (gridT a n 1) zr zg zb fr fg fb; interpT tet (gridT a n 2) zr zg zb fr fg fb])
      by exact (look_T tet a n _ _ _ _ _ _ _ Hw Ar Ag Ab).
    assert (EF : component ch (cubeFun L tet a dIn r g b) = nf32 (interpT tet (gridT a n ch) zr zg zb fr fg fb)).
    { change (cubeFun L tet a dIn r g b) with (match look tet a [p r; p g; p b] with Ok [x; y; z] => (nf32 x, nf32 y, nf32 z) | _ => (n0, n0, n0) end). rewrite K. destruct ch as [|[|[|ch]]]; try lia; reflexivity. }
    rewrite EF, interp_corners. apply (stored_between L 66); try assumption; [lra|].
    apply interp_nearly; try assumption; [now apply single_sizes|]. intros i j k. apply between_nearly. unfold gridT.
    apply He; try (apply clampZ_lt; lia); [now apply (Near r fr)|now apply (Near g fg)|now apply (Near b fb)].
  Qed.
End Order.

Lemma fraction_single j k (e : fl) : evenEntry j k e -> (j <= 20)%nat -> (k <= 2 ^ j)%nat -> isSingle e.
Proof.
  intros [F E] Hj H. assert (V : B2R e = F2R (Float radix2 (Z.of_nat k) (- Z.of_nat j))).
  { rewrite E, INR_IZR_INZ. unfold F2R. cbn [Fnum Fexp]. rewrite bpow_opp. reflexivity. }
  assert (K : (Z.of_nat k <= 2 ^ Z.of_nat j)%Z) by (apply inj_le in H; rewrite Nat2Z.inj_pow in H; exact H).
  assert (K2 : (2 ^ Z.of_nat j <= 2 ^ 20)%Z) by (apply Z.pow_le_mono_r; lia).
  split; [exact F|]. rewrite V. split.
  - apply generic_format_FLT. exists (Float radix2 (Z.of_nat k) (- Z.of_nat j)); [reflexivity|cbn [Fnum]|cbn [Fexp]; lia].
    rewrite Z.abs_eq by lia. apply Z.le_lt_trans with (2 ^ 20)%Z; [lia|]. reflexivity.
  - unfold F2R. cbn [Fnum Fexp]. rewrite Rabs_pos_eq by (apply Rmult_le_pos; [apply IZR_le; lia|apply bpow_ge_0]).
    apply Rle_lt_trans with (bpow radix2 20 * bpow radix2 0); [|rewrite <- bpow_plus; apply bpow_lt; lia].
    apply Rmult_le_compat; [apply IZR_le; lia|apply bpow_ge_0| |apply bpow_le; lia]. change (bpow radix2 20) with (IZR (2 ^ 20)). apply IZR_le. lia.
Qed.
Lemma fraction_rising j k (e e' : fl) : evenEntry j k e -> evenEntry j (k + 1) e' -> B2R e <= B2R e'.
Proof.
  intros [_ E] [_ E']. rewrite E, E'. unfold Rdiv. apply Rmult_le_compat_r; [left; apply Rinv_0_lt_compat, bpow_gt_0|]. apply le_INR. lia.
Qed.
