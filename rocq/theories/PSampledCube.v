(** Cubes sampled from a function, between the grid points, in IEEE arithmetic. *)
From Coq Require Import Reals Lra Lia ZArith List String Psatz Arith.
From Flocq Require Import Core BinarySingleNaN.
From Verif Require Import SpecErrors SpecReadBack MBuild PBase PFacts PAct PReal PIeee PIeeeArith PLut1D PSample PLut3D PSlope3D PLut3DMore PRound PClose PCloseLut PClose3D PErrors PErrorsLut PReadBack3 PSampledIeee.
Import ListNotations.
Local Open Scope string_scope.
Local Open Scope list_scope.
Local Open Scope R_scope.

(** Blending values near G at two positions. *)
Lemma mixed p0 p1 g0 g1 g w e r : 0 <= w <= 1 -> Rabs (p0 - g0) <= e -> Rabs (p1 - g1) <= e -> Rabs ((1 - w) * g0 + w * g1 - g) <= r ->
  Rabs ((1 - w) * p0 + w * p1 - g) <= e + r.
Proof.
  intros W H0 H1 H. replace ((1 - w) * p0 + w * p1 - g) with (((1 - w) * (p0 - g0) + w * (p1 - g1)) + ((1 - w) * g0 + w * g1 - g)) by ring.
  eapply Rle_trans; [apply Rabs_triang|]. apply Rplus_le_compat; [|exact H]. eapply Rle_trans; [apply Rabs_triang|].
  rewrite !Rabs_mult, (Rabs_pos_eq w), (Rabs_pos_eq (1 - w)) by lra.
  apply Rle_trans with ((1 - w) * e + w * e); [|right; ring]. apply Rplus_le_compat; apply Rmult_le_compat_l; lra.
Qed.
(** Along one axis a function that changes by at most K per unit is half a step away at most. *)
Lemma half_step g0 g1 g w K s : 0 <= w <= 1 -> 0 <= K -> 0 <= s -> Rabs (g0 - g) <= K * (w * s) -> Rabs (g1 - g) <= K * ((1 - w) * s) ->
  Rabs ((1 - w) * g0 + w * g1 - g) <= K * s / 2.
Proof.
  intros W HK Hs H0 H1. replace ((1 - w) * g0 + w * g1 - g) with ((1 - w) * (g0 - g) + w * (g1 - g)) by ring.
  eapply Rle_trans; [apply Rabs_triang|]. rewrite !Rabs_mult, (Rabs_pos_eq w), (Rabs_pos_eq (1 - w)) by lra.
  apply Rle_trans with ((1 - w) * (K * (w * s)) + w * (K * ((1 - w) * s))); [apply Rplus_le_compat; apply Rmult_le_compat_l; lra|].
  replace ((1 - w) * (K * (w * s)) + w * (K * ((1 - w) * s))) with ((K * s) * (2 * w * (1 - w))) by ring.
  replace (K * s / 2) with ((K * s) * / 2) by field. apply Rmult_le_compat_l; [now apply Rmult_le_pos|].
  pose proof (Rle_0_sqr (w - / 2)) as Sq. unfold Rsqr in Sq. lra.
Qed.

Section Cell.
  Variables (F : R -> R -> R -> R) (e : Z -> Z -> Z -> R) (i j k : Z) (d r : R).
  (** The corner positions, the place between them and the weights, for each axis. *)
  Variables (x0 x1 x wx y0 y1 y wy z0 z1 z wz : R).
  Hypotheses (Wx : 0 <= wx <= 1) (Wy : 0 <= wy <= 1) (Wz : 0 <= wz <= 1).
  Hypothesis H000 : Rabs (e i j k - F x0 y0 z0) <= d.
  Hypothesis H001 : Rabs (e i j (k + 1)%Z - F x0 y0 z1) <= d.
  Hypothesis H010 : Rabs (e i (j + 1)%Z k - F x0 y1 z0) <= d.
  Hypothesis H011 : Rabs (e i (j + 1)%Z (k + 1)%Z - F x0 y1 z1) <= d.
  Hypothesis H100 : Rabs (e (i + 1)%Z j k - F x1 y0 z0) <= d.
  Hypothesis H101 : Rabs (e (i + 1)%Z j (k + 1)%Z - F x1 y0 z1) <= d.
  Hypothesis H110 : Rabs (e (i + 1)%Z (j + 1)%Z k - F x1 y1 z0) <= d.
  Hypothesis H111 : Rabs (e (i + 1)%Z (j + 1)%Z (k + 1)%Z - F x1 y1 z1) <= d.
  Hypothesis Az : forall a b, (a = x0 \/ a = x1) -> (b = y0 \/ b = y1) -> Rabs ((1 - wz) * F a b z0 + wz * F a b z1 - F a b z) <= r.
  Hypothesis Ay : forall a, (a = x0 \/ a = x1) -> Rabs ((1 - wy) * F a y0 z + wy * F a y1 z - F a y z) <= r.
  Hypothesis Ax : Rabs ((1 - wx) * F x0 y z + wx * F x1 y z - F x y z) <= r.

  Lemma tri_near : Rabs (triV e i j k wx wy wz - F x y z) <= d + 3 * r.
  Proof.
    unfold triV. replace (d + 3 * r) with (d + r + r + r) by ring.
    apply (mixed _ _ (F x0 y z) (F x1 y z)); [exact Wx| | |exact Ax].
    - apply (mixed _ _ (F x0 y0 z) (F x0 y1 z)); [exact Wy| | |apply Ay; now left].
      + apply (mixed _ _ (F x0 y0 z0) (F x0 y0 z1)); auto.
      + apply (mixed _ _ (F x0 y1 z0) (F x0 y1 z1)); auto.
    - apply (mixed _ _ (F x1 y0 z) (F x1 y1 z)); [exact Wy| | |apply Ay; now right].
      + apply (mixed _ _ (F x1 y0 z0) (F x1 y0 z1)); auto.
      + apply (mixed _ _ (F x1 y1 z0) (F x1 y1 z1)); auto.
  Qed.
End Cell.

Section Sampled.
  Variable L : libm.
  #[local] Hint Extern 0 (Num fl) => exact (ieeeNum L) : typeclass_instances.

  Definition unitR (x : R) : Prop := 0 <= x <= 1.
  Lemma cell_of n dIn x : (2 <= n)%nat -> 0 <= x <= fullScale dIn ->
    exists k w, (k + 1 < n)%nat /\ 0 <= w <= 1 /\ clampR (x / fullScale dIn) * INR (n - 1) = IZR (Z.of_nat k) + w /\
      x / fullScale dIn = INR k / INR (n - 1) + w * / INR (n - 1) /\ unitR (x / fullScale dIn).
  Proof.
    intros Hn Hx. pose proof (fullScale_pos dIn) as Pd. assert (P : 0 < INR (n - 1)) by (apply lt_0_INR; lia).
    assert (Xb : 0 <= x / fullScale dIn <= 1).
    { unfold Rdiv. split; [apply Rmult_le_pos; [lra|left; now apply Rinv_0_lt_compat]|]. rewrite <- (Rinv_r (fullScale dIn)) by lra. apply Rmult_le_compat_r; [left; now apply Rinv_0_lt_compat|lra]. }
    assert (C : clampR (x / fullScale dIn) = x / fullScale dIn) by (unfold clampR; rewrite Rmax_right, Rmin_right; lra).
    destruct (find_cell n (x / fullScale dIn * INR (n - 1)) Hn) as [k [Hk Hb]].
    { split; [apply Rmult_le_pos; lra|]. rewrite <- (Rmult_1_l (INR (n - 1))) at 2. apply Rmult_le_compat_r; lra. }
    exists k, (x / fullScale dIn * INR (n - 1) - INR k). rewrite plus_INR in Hb. cbn [INR] in Hb. split; [exact Hk|]. split; [lra|]. rewrite C. split; [rewrite <- INR_IZR_INZ; ring|].
    split; [field; lra|exact Xb].
  Qed.

  Theorem cube_error c id tid n (f : fl -> fl -> fl -> list fl) (F : nat -> R -> R -> R -> R) dIn dOut d K M :
    (2 <= n)%nat -> (Z.of_nat n <= 2 ^ 53)%Z -> 0 <= K -> (forall r g b, List.length (f r g b) = 3%nat) ->
    let pos i : fl := ndiv (nofZ (Z.of_nat i)) (nofZ (Z.of_nat n - 1)) in
    (forall i j k ch, (i < n)%nat -> (j < n)%nat -> (k < n)%nat -> (ch < 3)%nat -> let y := nth ch (f (pos i) (pos j) (pos k)) n0 in
       is_finite y = true /\ Rabs (B2R y - F ch (INR i / INR (n - 1)) (INR j / INR (n - 1)) (INR k / INR (n - 1))) <= d) ->
    (forall ch x y z, (ch < 3)%nat -> 0 <= x <= 1 -> 0 <= y <= 1 -> 0 <= z <= 1 -> Rabs (F ch x y z) <= M) ->
    (forall ch x y z x' y' z', (ch < 3)%nat -> 0 <= x <= 1 -> 0 <= y <= 1 -> 0 <= z <= 1 -> 0 <= x' <= 1 -> 0 <= y' <= 1 -> 0 <= z' <= 1 ->
       Rabs (F ch x y z - F ch x' y' z') <= K * (Rabs (x - x') + Rabs (y - y') + Rabs (z - z'))) ->
    M + d <= bpow radix2 125 ->
    let E := 4 * unit32 (M + d + K + 2 * INR (n - 1) * d) in
    exists node G, simple3DLUT id tid n n n f dIn dOut = Ok node /\ actsPerColour c node G /\
      forall r g b ch, (ch < 3)%nat -> is_finite r = true -> is_finite g = true -> is_finite b = true ->
        0 <= B2R r <= fullScale dIn -> 0 <= B2R g <= fullScale dIn -> 0 <= B2R b <= fullScale dIn ->
        let y := component ch (G r g b) in let e := Rabs (B2R y - F ch (B2R r / fullScale dIn) (B2R g / fullScale dIn) (B2R b / fullScale dIn)) in
        is_finite y = true /\ e <= d + 3 * (K / (2 * INR (n - 1))) + E /\
        ((exists p q s t, forall x y z, F ch x y z = p * x + q * y + s * z + t) -> e <= d + E).
  Proof.
    intros Hn Hm HK Hlen pos Hf HF HL HM E.
    destruct (cube_table L id tid n f dIn dOut Hn Hm Hlen) as (h & a & Es & Hc & He). cbv zeta in He. fold pos in He.
    assert (H' : isCube (exactHeader h) "trilinear" dIn (exactArray a) n).
    { destruct Hc as (H1 & H2 & H3 & H4 & (W1 & W2 & W3) & H6). split; [exact H1|]. split; [exact H2|]. split; [exact H3|].
      split; [cbn [exactHeader h_elems]; rewrite exact_lastArray, H4; reflexivity|]. split; [|now apply exact_indexMaps].
      split; [exact W1|]. split; [exact W2|]. cbn [exactArray a_vals]. now rewrite map_length. }
    destruct (lut3d_close L c h (exactHeader h) false dIn a (exactArray a) n Hc H' eq_refl Hn Hm) as (G & G' & Ac & Ac' & Cl).
    assert (Ac3 : actsPerColour c (Node (exactHeader h) BLUT3D) (lut3dFun false (exactArray a) dIn n)).
    { destruct H' as (H1 & H2 & H3 & H4 & H5 & H6). apply (lut3d_plain c _ dIn _ n false); [repeat split; try assumption; apply H5|exact H6]. }
    exists (Node h BLUT3D), G. split; [exact Es|]. split; [exact Ac|]. intros r g b ch Hch Fr Fg Fb Br Bg Bb y e.
    pose proof (fullScale_pos dIn) as Pd. assert (P : 0 < INR (n - 1)) by (apply lt_0_INR; lia). assert (Pi : 0 < / INR (n - 1)) by now apply Rinv_0_lt_compat.
    set (m := INR (n - 1)) in *.
    assert (Un : forall k, (k < n)%nat -> 0 <= INR k / m <= 1).
    { intros k Hk. unfold Rdiv. split; [apply Rmult_le_pos; [apply pos_INR|lra]|]. rewrite <- (Rinv_r m) by lra. apply Rmult_le_compat_r; [lra|]. apply le_INR. lia. }
    set (v := fun i j k => B2R (entry3D a n i j k ch)).
    assert (Ev : forall i j k, (i < n)%nat -> (j < n)%nat -> (k < n)%nat -> is_finite (entry3D a n i j k ch) = true /\ Rabs (v i j k - F ch (INR i / m) (INR j / m) (INR k / m)) <= d).
    { intros i j k Hi Hj Hk. unfold v. rewrite (He i j k ch) by assumption. now apply Hf. }
    assert (Dn : 0 <= d) by (eapply Rle_trans; [apply Rabs_pos|apply (Ev 0%nat 0%nat 0%nat); lia]).
    assert (Hent : forall i j k, (i < n)%nat -> (j < n)%nat -> (k < n)%nat -> is_finite (entry3D a n i j k ch) = true /\ Rabs (B2R (entry3D a n i j k ch)) <= M + d).
    { intros i j k Hi Hj Hk. destruct (Ev i j k Hi Hj Hk) as [Fy Ey]. split; [exact Fy|]. fold (v i j k). pose proof (HF ch _ _ _ Hch (Un i Hi) (Un j Hj) (Un k Hk)) as B.
      apply Rabs_le_inv in Ey, B. apply Rabs_le. lra. }
    set (D := K / m + 2 * d).
    assert (St : forall i, INR (i + 1) / m - INR i / m = / m) by (intro i; rewrite plus_INR; cbn [INR]; field; lra).
    assert (Sm : smooth n D (fun i j k => B2R (entry3D a n i j k ch))).
    { assert (Z0 : forall q, Rabs (q - q) = 0) by (intro q; rewrite Rminus_diag_eq by reflexivity; apply Rabs_R0).
      intros i j k Hi Hj Hk. cbv beta. fold (v (i + 1)%nat j k) (v i j k) (v j (i + 1)%nat k) (v j i k) (v j k (i + 1)%nat) (v j k i).
      assert (Hi0 : (i < n)%nat) by lia. pose proof (Un i Hi0) as U0. pose proof (Un (i + 1)%nat Hi) as U1. pose proof (Un j Hj) as U2. pose proof (Un k Hk) as U3.
      assert (Q : forall p q P0 Q0, Rabs (p - P0) <= d -> Rabs (q - Q0) <= d -> Rabs (P0 - Q0) <= K * / m -> Rabs (p - q) <= D).
      { intros p q P0 Q0 A1 A2 A3. apply Rabs_le_inv in A1, A2, A3. apply Rabs_le. unfold D, Rdiv. lra. }
      split; [|split].
      - eapply Q; [apply (Ev (i + 1)%nat j k); lia|apply (Ev i j k); lia|]. eapply Rle_trans; [now apply HL|]. rewrite !Z0, St, (Rabs_pos_eq (/ m)) by lra. lra.
      - eapply Q; [apply (Ev j (i + 1)%nat k); lia|apply (Ev j i k); lia|]. eapply Rle_trans; [now apply HL|]. rewrite !Z0, St, (Rabs_pos_eq (/ m)) by lra. lra.
      - eapply Q; [apply (Ev j k (i + 1)%nat); lia|apply (Ev j k i); lia|]. eapply Rle_trans; [now apply HL|]. rewrite !Z0, St, (Rabs_pos_eq (/ m)) by lra. lra. }
    assert (Big : forall x : fl, 0 <= B2R x <= fullScale dIn -> Rabs (B2R x) <= bpow radix2 126).
    { intros x Hx. rewrite Rabs_pos_eq by lra. destruct (scale_cases L dIn x) as (z & Ez & Hz & _). rewrite Ez in Hx. apply Rle_trans with (IZR z); [lra|].
      apply Rle_trans with (IZR (2 ^ 126)); [apply IZR_le; lia|right; reflexivity]. }
    destruct (Cl ch (M + d) D Hch Hent HM Sm r g b Fr Fg Fb (Big r Br) (Big g Bg) (Big b Bb)) as [Fy Ey]. fold y in Fy, Ey.
    fold (unit32 (M + d + INR (n - 1) * D)) in Ey. fold m in Ey.
    replace (M + d + m * D) with (M + d + K + 2 * m * d) in Ey by (unfold D; field; lra). fold E in Ey.
    rewrite (acts_unique c _ G' _ _ _ _ Ac' Ac3), component_at3 in Ey by exact Hch.
    destruct (cell_of n dIn (B2R r) Hn Br) as (i & wx & Hi & Wx & Cx & Ux & Vx). destruct (cell_of n dIn (B2R g) Hn Bg) as (j & wy & Hj & Wy & Cy & Uy & Vy).
    destruct (cell_of n dIn (B2R b) Hn Bb) as (k & wz & Hk & Wz & Cz & Uz & Vz). fold m in Cx, Cy, Cz, Ux, Uy, Uz, Ey.
    rewrite Cx, Cy, Cz, at3_cell in Ey by assumption. cbn [interpV] in Ey.
    set (x := B2R r / fullScale dIn) in *. set (yy := B2R g / fullScale dIn) in *. set (z := B2R b / fullScale dIn) in *.
    set (V := grid (exactArray a) n ch) in *.
    assert (Gr : forall p q s, (p < n)%nat -> (q < n)%nat -> (s < n)%nat -> V (Z.of_nat p) (Z.of_nat q) (Z.of_nat s) = v p q s).
    { intros p q s Hp Hq Hs. unfold V, grid. rewrite !clampZ_in by assumption. apply (exact_entry3D L). }
    assert (S1 : forall p, (Z.of_nat p + 1)%Z = Z.of_nat (p + 1)) by (intro; lia).
    assert (Near : forall r0,
      (forall a0 b0, (a0 = INR i / m \/ a0 = INR (i + 1) / m) -> (b0 = INR j / m \/ b0 = INR (j + 1) / m) ->
         Rabs ((1 - wz) * F ch a0 b0 (INR k / m) + wz * F ch a0 b0 (INR (k + 1) / m) - F ch a0 b0 z) <= r0) ->
      (forall a0, (a0 = INR i / m \/ a0 = INR (i + 1) / m) -> Rabs ((1 - wy) * F ch a0 (INR j / m) z + wy * F ch a0 (INR (j + 1) / m) z - F ch a0 yy z) <= r0) ->
      Rabs ((1 - wx) * F ch (INR i / m) yy z + wx * F ch (INR (i + 1) / m) yy z - F ch x yy z) <= r0 ->
      e <= d + 3 * r0 + E).
    { intros r0 Az Ay Ax.
      assert (T : Rabs (triV V (Z.of_nat i) (Z.of_nat j) (Z.of_nat k) wx wy wz - F ch x yy z) <= d + 3 * r0).
      { apply (tri_near (F ch) V _ _ _ d r0 (INR i / m) (INR (i + 1) / m) x wx (INR j / m) (INR (j + 1) / m) yy wy (INR k / m) (INR (k + 1) / m) z wz Wx Wy Wz); try assumption;
          rewrite ?S1, Gr by lia; apply Ev; lia. }
      unfold e. apply Rabs_le_inv in T, Ey. apply Rabs_le. unfold E, unit32. lra. }
    split; [exact Fy|]. split.
    - replace (K / (2 * m)) with (K * / m / 2) by (field; lra).
      assert (Z0 : forall q, Rabs (q - q) = 0) by (intro q; rewrite Rminus_diag_eq by reflexivity; apply Rabs_R0).
      assert (Lo : forall p w, 0 <= w <= 1 -> Rabs (INR p / m - (INR p / m + w * / m)) = w * / m).
      { intros p w W. replace (INR p / m - (INR p / m + w * / m)) with (- (w * / m)) by ring. rewrite Rabs_Ropp. apply Rabs_pos_eq. apply Rmult_le_pos; lra. }
      assert (Hi_ : forall p w, 0 <= w <= 1 -> Rabs (INR (p + 1) / m - (INR p / m + w * / m)) = (1 - w) * / m).
      { intros p w W. pose proof (St p). replace (INR (p + 1) / m - (INR p / m + w * / m)) with ((1 - w) * / m) by lra. apply Rabs_pos_eq. apply Rmult_le_pos; lra. }
      assert (Xs : forall a0, (a0 = INR i / m \/ a0 = INR (i + 1) / m) -> 0 <= a0 <= 1) by (intros a0 [-> | ->]; apply Un; lia).
      assert (Ys : forall a0, (a0 = INR j / m \/ a0 = INR (j + 1) / m) -> 0 <= a0 <= 1) by (intros a0 [-> | ->]; apply Un; lia).
      pose proof (Un i ltac:(lia)) as Ui. pose proof (Un (i + 1)%nat Hi) as Ui1. pose proof (Un j ltac:(lia)) as Uj. pose proof (Un (j + 1)%nat Hj) as Uj1.
      pose proof (Un k ltac:(lia)) as Uk. pose proof (Un (k + 1)%nat Hk) as Uk1. unfold unitR in Vx, Vy, Vz.
      apply Near.
      + intros a0 b0 Ha Hb. apply Xs in Ha. apply Ys in Hb. apply half_step; try assumption; [lra| |].
        * eapply Rle_trans; [now apply HL|]. rewrite !Z0, Uz, Lo by assumption. lra.
        * eapply Rle_trans; [now apply HL|]. rewrite !Z0, Uz, Hi_ by assumption. lra.
      + intros a0 Ha. apply Xs in Ha. apply half_step; try assumption; [lra| |].
        * eapply Rle_trans; [now apply HL|]. rewrite !Z0, Uy, Lo by assumption. lra.
        * eapply Rle_trans; [now apply HL|]. rewrite !Z0, Uy, Hi_ by assumption. lra.
      + apply half_step; try assumption; [lra| |].
        * eapply Rle_trans; [now apply HL|]. rewrite !Z0, Ux, Lo by assumption. lra.
        * eapply Rle_trans; [now apply HL|]. rewrite !Z0, Ux, Hi_ by assumption. lra.
    - intros (p & q & s & t & Hpq). replace (d + E) with (d + 3 * 0 + E) by ring. pose proof (St i) as Si. pose proof (St j) as Sj. pose proof (St k) as Sk.
      apply Near; [intros a0 b0 _ _|intros a0 _|]; right; rewrite !Hpq.
      + replace (INR (k + 1) / m) with (INR k / m + / m) by lra. rewrite Uz. match goal with |- Rabs ?q = 0 => replace q with 0 by ring end. apply Rabs_R0.
      + replace (INR (j + 1) / m) with (INR j / m + / m) by lra. rewrite Uy. match goal with |- Rabs ?q = 0 => replace q with 0 by ring end. apply Rabs_R0.
      + replace (INR (i + 1) / m) with (INR i / m + / m) by lra. rewrite Ux. match goal with |- Rabs ?q = 0 => replace q with 0 by ring end. apply Rabs_R0.
  Qed.

  Definition channelOf (ch : nat) (x y z : R) : R := match ch with O => x | 1%nat => y | _ => z end.
  Theorem cube_identity_error c id tid n dIn dOut : (2 <= n)%nat -> (Z.of_nat n <= 2 ^ 50)%Z ->
    exists node G, simple3DLUT id tid n n n (fun r g b : fl => [r; g; b]) dIn dOut = Ok node /\ actsPerColour c node G /\
      forall r g b ch, (ch < 3)%nat -> is_finite r = true -> is_finite g = true -> is_finite b = true ->
        0 <= B2R r <= fullScale dIn -> 0 <= B2R g <= fullScale dIn -> 0 <= B2R b <= fullScale dIn ->
        is_finite (component ch (G r g b)) = true /\
        Rabs (B2R (component ch (G r g b)) - B2R (component ch (r, g, b)) / fullScale dIn) <= 9 * bpow radix2 (-23).
  Proof.
    intros Hn Hm. assert (P : 0 < INR (n - 1)) by (apply lt_0_INR; lia). assert (Pi : 0 < / INR (n - 1)) by now apply Rinv_0_lt_compat.
    assert (I1 : INR (n - 1) <= bpow radix2 50).
    { rewrite INR_IZR_INZ. replace (bpow radix2 50) with (IZR (2 ^ 50)) by reflexivity. apply IZR_le. lia. }
    assert (P23 : bpow radix2 (-23) = / 8388608) by reflexivity.
    assert (P54 : bpow radix2 (-54) = bpow radix2 (-23) * / 2147483648) by (change (-54)%Z with (-23 + -31)%Z; rewrite bpow_plus; reflexivity).
    assert (P148 : 0 < bpow radix2 (-148) <= bpow radix2 (-54)) by (split; [apply bpow_gt_0|apply bpow_le; lia]).
    assert (Pos : forall k, (k < n)%nat -> let y : fl := ndiv (nofZ (Z.of_nat k)) (nofZ (Z.of_nat n - 1)) in
      is_finite y = true /\ Rabs (B2R y - INR k / INR (n - 1)) <= bpow radix2 (-54)).
    { intros k Hk. cbv zeta. destruct (ofZ_exact L (Z.of_nat n - 1)) as [Fn En]; [lia|]. destruct (ofZ_exact L (Z.of_nat k)) as [Fk Ek]; [lia|].
      rewrite (INR_pred n) in En by lia. rewrite <- INR_IZR_INZ in Ek.
      assert (Rd : Rounds (p := 53) (e := 1024) (ndiv (nofZ (Z.of_nat k)) (nofZ (Z.of_nat n - 1)) : fl) (INR k / INR (n - 1))) by (rewrite <- Ek, <- En; apply div_Rounds; try assumption; lra).
      assert (Un : 0 <= INR k / INR (n - 1) <= 1).
      { unfold Rdiv. split; [apply Rmult_le_pos; [apply pos_INR|lra]|]. rewrite <- (Rinv_r (INR (n - 1))) by lra. apply Rmult_le_compat_r; [lra|]. apply le_INR. lia. }
      destruct (Rounds_finite _ _ 0 Rd) as [F Er]; [rewrite Rabs_pos_eq by lra; change (bpow radix2 0) with 1; lra|lia|lia|]. split; [exact F|]. rewrite Er.
      apply (rnd_half (p := 53) (e := 1024) 0); [rewrite Rabs_pos_eq by lra; change (bpow radix2 0) with 1; lra|lia]. }
    destruct (cube_error c id tid n (fun r g b : fl => [r; g; b]) channelOf dIn dOut (bpow radix2 (-54)) 1 1 Hn ltac:(lia)) as (node & G & E & A & H).
    - lra.
    - reflexivity.
    - intros i j k ch Hi Hj Hk Hch. destruct ch as [|[|[|ch]]]; try lia; cbn [nth channelOf]; now apply Pos.
    - intros ch x y z Hch Hx Hy Hz. destruct ch as [|[|[|ch]]]; try lia; cbn [channelOf]; rewrite Rabs_pos_eq; lra.
    - intros ch x y z x' y' z' Hch _ _ _ _ _ _. pose proof (Rabs_pos (x - x')). pose proof (Rabs_pos (y - y')). pose proof (Rabs_pos (z - z')).
      destruct ch as [|[|[|ch]]]; try lia; cbn [channelOf]; lra.
    - apply Rle_trans with (bpow radix2 1); [change (bpow radix2 1) with 2; rewrite P54, P23; lra|apply bpow_le; lia].
    - exists node, G. split; [exact E|]. split; [exact A|]. intros r g b ch Hch Fr Fg Fb Br Bg Bb. destruct (H r g b ch Hch Fr Fg Fb Br Bg Bb) as (F & _ & B). split; [exact F|].
      assert (Ch : B2R (component ch (r, g, b)) / fullScale dIn = channelOf ch (B2R r / fullScale dIn) (B2R g / fullScale dIn) (B2R b / fullScale dIn)).
      { destruct ch as [|[|[|ch]]]; try lia; reflexivity. }
      rewrite Ch. eapply Rle_trans.
      { apply B. destruct ch as [|[|[|ch]]]; try lia; [exists 1, 0, 0, 0|exists 0, 1, 0, 0|exists 0, 0, 1, 0]; intros; cbn [channelOf]; ring. }
      unfold unit32.
      assert (Q : INR (n - 1) * bpow radix2 (-54) <= / 16).
      { replace (/ 16) with (bpow radix2 50 * bpow radix2 (-54)) by (rewrite <- bpow_plus; reflexivity). apply Rmult_le_compat_r; [apply bpow_ge_0|exact I1]. }
      assert (Q0 : bpow radix2 (-23) * (1 + bpow radix2 (-54) + 1 + 2 * INR (n - 1) * bpow radix2 (-54)) <= bpow radix2 (-23) * (17 / 8 + / 1000)).
      { apply Rmult_le_compat_l; [apply bpow_ge_0|]. assert (bpow radix2 (-54) <= / 1000) by (rewrite P54, P23; lra). lra. }
      rewrite P54 in *. pose proof (bpow_gt_0 radix2 (-23)). lra.
  Qed.
End Sampled.
