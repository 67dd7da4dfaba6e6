(** Sums of products of non-negative numbers with small relative errors, which rounding to
    float32 removes. *)
From Coq Require Import Reals Lra Lia ZArith List String Psatz Arith.
From Flocq Require Import Core BinarySingleNaN.
From Verif Require Import SpecSame PBase PFacts PIeee PIeeeArith PRound.
Local Open Scope R_scope.

(** * Numbers of 24 bits *)
Definition sg (r : R) : Prop := exists m e, r = IZR m * bpow radix2 e /\ (Z.abs m < 2 ^ 24)%Z /\ (-149 <= e)%Z.

Lemma sg_format p e r : sg r -> (24 <= p)%Z -> (3 - e - p <= -149)%Z -> generic_format radix2 (SpecFloat.fexp p e) r.
Proof.
  intros (m & x & E & Hm & He) Hp Hx. change (generic_format radix2 (FLT_exp (3 - e - p) p) r). apply generic_format_FLT.
  exists (Defs.Float radix2 m x); cbn [Fnum Fexp].
  - exact E.
  - change (radix2 : Z) with 2%Z. eapply Z.lt_le_trans; [exact Hm|]. apply Z.pow_le_mono_r; lia.
  - lia.
Qed.
Lemma format_sg r : generic_format radix2 (FLT_exp (-149) 24) r -> sg r.
Proof.
  intro H. apply FLT_format_generic in H; [|reflexivity]. destruct H as [[m e] E Hm He]. cbn in Hm, He. exists m, e. split; [exact E|]. split; [exact Hm|exact He].
Qed.
Lemma sg_0 : sg 0.
Proof. exists 0%Z, 0%Z. split; [cbn; ring|]. split; lia. Qed.
Lemma sg_scale r j : sg r -> (0 <= j)%Z -> sg (r * bpow radix2 j).
Proof. intros (m & e & -> & Hm & He) Hj. exists m, (e + j)%Z. split; [rewrite bpow_plus; ring|]. split; [exact Hm|lia]. Qed.

Lemma sg_frac y : sg y -> 0 <= y -> sg (y - IZR (Zfloor y)).
Proof.
  intros (m & e & E & Hm & He) Hy. destruct (Z.le_gt_cases 0 e) as [P|P].
  - assert (I : y = IZR (m * radix2 ^ e)) by (rewrite mult_IZR, IZR_Zpower by exact P; exact E).
    rewrite I, Zfloor_IZR. replace (_ - _) with 0 by ring. apply sg_0.
  - pose proof (Zfloor_lb y) as L. pose proof (Zfloor_ub y) as U. set (z := Zfloor y) in *.
    assert (Z0 : (0 <= z)%Z) by (apply Zfloor_lub; exact Hy).
    assert (Q : IZR z = IZR (z * radix2 ^ (- e)) * bpow radix2 e).
    { rewrite mult_IZR, IZR_Zpower by lia. rewrite Rmult_assoc, <- bpow_plus. replace (- e + e)%Z with 0%Z by lia. cbn. ring. }
    assert (D : y - IZR z = IZR (m - z * radix2 ^ (- e)) * bpow radix2 e) by (rewrite minus_IZR, E, Q; ring).
    exists (m - z * radix2 ^ (- e))%Z, e. split; [exact D|]. split; [|exact He].
    assert (B := bpow_gt_0 radix2 e). assert (G0 : (0 <= m - z * radix2 ^ (- e))%Z).
    { apply le_IZR. apply Rmult_le_reg_r with (bpow radix2 e); [exact B|]. rewrite <- D. lra. }
    assert (0 <= z * radix2 ^ (- e))%Z by (apply Z.mul_nonneg_nonneg; [exact Z0|apply Z.lt_le_incl; apply Zpower_gt_0; lia]). lia.
Qed.

Lemma sg_one_minus r : sg r -> 0 <= r < 1 -> bpow radix2 (-24) <= 1 - r.
Proof.
  intros (m & e & E & Hm & He) [H0 H1]. destruct (Z.le_gt_cases (-24) e) as [P|P].
  - assert (I : 1 - r = IZR (2 ^ 24 - m * 2 ^ (e + 24)) * bpow radix2 (-24)).
    { rewrite minus_IZR, mult_IZR, E. change (IZR (2 ^ 24)) with (bpow radix2 24). change (IZR (2 ^ (e + 24))) with (IZR (radix2 ^ (e + 24))).
      rewrite IZR_Zpower by lia. rewrite Rmult_minus_distr_r, Rmult_assoc, <- !bpow_plus. replace (e + 24 + -24)%Z with e by lia. reflexivity. }
    assert (B := bpow_gt_0 radix2 (-24)).
    assert (G : (0 < 2 ^ 24 - m * 2 ^ (e + 24))%Z) by (apply lt_IZR; apply Rmult_lt_reg_r with (bpow radix2 (-24)); [exact B|]; rewrite <- I; lra).
    rewrite I. rewrite <- (Rmult_1_l (bpow radix2 (-24))) at 1. apply Rmult_le_compat_r; [lra|]. apply IZR_le. lia.
  - assert (r <= / 2).
    { rewrite E. apply Rle_trans with (bpow radix2 24 * bpow radix2 (-25)).
      - apply Rle_trans with (bpow radix2 24 * bpow radix2 e).
        + apply Rmult_le_compat_r; [apply bpow_ge_0|]. change (bpow radix2 24) with (IZR (2 ^ 24)). apply IZR_le. lia.
        + apply Rmult_le_compat_l; [apply bpow_ge_0|]. apply bpow_le. lia.
      - rewrite <- bpow_plus. change (bpow radix2 (24 + -25)) with (/ 2). lra. }
    assert (bpow radix2 (-24) <= / 2) by (change (/ 2) with (bpow radix2 (-1)); apply bpow_le; lia). lra.
Qed.
Lemma sg_unit r : sg r -> exists m, r = IZR m * bpow radix2 (-149).
Proof.
  intros (m & e & -> & _ & He). exists (m * radix2 ^ (e + 149))%Z. rewrite mult_IZR, IZR_Zpower by lia.
  rewrite Rmult_assoc, <- bpow_plus. do 2 f_equal. lia.
Qed.
Lemma sg_minus a b : sg a -> sg b -> b <= a -> a - b = 0 \/ bpow radix2 (-149) <= a - b.
Proof.
  intros Ha Hb H. destruct (sg_unit a Ha) as [m ->]. destruct (sg_unit b Hb) as [k ->]. assert (B := bpow_gt_0 radix2 (-149)).
  rewrite <- Rmult_minus_distr_r, <- minus_IZR. assert (G : (0 <= m - k)%Z).
  { apply le_IZR. apply Rmult_le_reg_r with (bpow radix2 (-149)); [exact B|]. rewrite minus_IZR. lra. }
  destruct (Z.eq_dec (m - k) 0) as [->|N]; [left; ring|]. right. rewrite <- (Rmult_1_l (bpow radix2 (-149))) at 1. apply Rmult_le_compat_r; [lra|]. apply IZR_le. lia.
Qed.

(** Rounding to float32 finds a number of 24 bits again. *)
Lemma sg_gap y r : generic_format radix2 (SpecFloat.fexp 24 128) y -> generic_format radix2 (SpecFloat.fexp 24 128) r -> 0 < r -> r / 2 <= y -> y <> r ->
  bpow radix2 (-26) * r <= Rabs (y - r).
Proof.
  intros Hy Hr Pr Hyr Hne. set (fx := SpecFloat.fexp 24 128) in *.
  assert (Py : 0 < y) by lra. set (c := cexp radix2 fx r).
  assert (My : (mag radix2 r - 1 <= mag radix2 y)%Z).
  { replace (mag radix2 r - 1)%Z with (mag radix2 (r * bpow radix2 (-1)) : Z) by (rewrite mag_mult_bpow by lra; lia).
    apply mag_le; [apply Rmult_lt_0_compat; [lra|apply bpow_gt_0]|]. change (bpow radix2 (-1)) with (/ 2). lra. }
  assert (Cy : (c - 1 <= cexp radix2 fx y)%Z) by (unfold c, cexp, fx, SpecFloat.fexp; lia).
  assert (Mul : forall x, generic_format radix2 fx x -> (c - 1 <= cexp radix2 fx x)%Z -> exists k, x = IZR k * bpow radix2 (c - 1)).
  { intros x Hx Cx. exists (Ztrunc (scaled_mantissa radix2 fx x) * radix2 ^ (cexp radix2 fx x - (c - 1)))%Z.
    rewrite mult_IZR, IZR_Zpower by lia. rewrite Rmult_assoc, <- bpow_plus. replace (cexp radix2 fx x - (c - 1) + (c - 1))%Z with (cexp radix2 fx x) by lia. exact Hx. }
  destruct (Mul y Hy Cy) as [k Ek]. destruct (Mul r Hr) as [l El]; [unfold c; lia|].
  assert (B := bpow_gt_0 radix2 (c - 1)).
  assert (Gap : bpow radix2 (c - 1) <= Rabs (y - r)).
  { rewrite Ek, El, <- Rmult_minus_distr_r, <- minus_IZR, Rabs_mult, (Rabs_pos_eq (bpow radix2 (c - 1))) by lra.
    rewrite <- (Rmult_1_l (bpow radix2 (c - 1))) at 1. apply Rmult_le_compat_r; [lra|]. rewrite <- abs_IZR. apply IZR_le.
    assert (k <> l) by (intro; subst l; apply Hne; congruence). lia. }
  eapply Rle_trans; [|exact Gap]. apply Rle_trans with (bpow radix2 (-26) * bpow radix2 (mag radix2 r)).
  - apply Rmult_le_compat_l; [apply bpow_ge_0|]. left. eapply Rle_lt_trans; [apply Rle_abs|]. apply bpow_mag_gt.
  - rewrite <- bpow_plus. apply bpow_le. unfold c, cexp, fx, SpecFloat.fexp. lia.
Qed.
Lemma rnd_back z r : generic_format radix2 (SpecFloat.fexp 24 128) r -> 0 <= r -> Rabs (z - r) <= bpow radix2 (-40) * r -> rnd (p := 24) (e := 128) z = r.
Proof.
  intros Hr [Pr|<-] Hz.
  2:{ rewrite Rmult_0_r in Hz. assert (z = 0) as -> by (apply Rabs_le_inv in Hz; lra). apply rnd_0. }
  destruct (Req_dec (rnd (p := 24) (e := 128) z) r) as [E|N]; [exact E|exfalso].
  pose proof (fexp_valid (p := 24) (e := 128)) as V.
  destruct (round_N_pt radix2 (SpecFloat.fexp 24 128) (fun x => negb (Z.even x)) z) as [Fy Ny].
  change (round radix2 (SpecFloat.fexp 24 128) (Znearest (fun x => negb (Z.even x))) z) with (rnd (p := 24) (e := 128) z) in Fy, Ny.
  specialize (Ny r Hr). set (y := rnd (p := 24) (e := 128) z) in *.
  assert (T : Rabs (y - r) <= 2 * (bpow radix2 (-40) * r)).
  { replace (y - r) with ((y - z) + (z - r)) by ring. eapply Rle_trans; [apply Rabs_triang|]. rewrite (Rabs_minus_sym r z) in Ny. lra. }
  assert (S : bpow radix2 (-40) <= / 1000) by (apply Rle_trans with (bpow radix2 (-10)); [apply bpow_le; lia|]; change (bpow radix2 (-10)) with (/ 1024); lra).
  assert (S2 : 2 * bpow radix2 (-40) < bpow radix2 (-26)).
  { apply Rle_lt_trans with (bpow radix2 (-39)); [right; symmetry; exact (bpow_plus radix2 1 (-40))|]. apply bpow_lt. lia. }
  assert (Hy : r / 2 <= y) by (apply Rabs_le_inv in T; nra).
  pose proof (sg_gap y r Fy Hr Pr Hy N) as G. nra.
Qed.

(** * Relative errors *)
Section Relative.
  Variable L : libm.
  #[local] Instance NRel : Num fl := ieeeNum L.
  Let u := bpow radix2 (-53).

  Definition rel (n : Z) (k : R) (z : fl) (r : R) : Prop :=
    is_finite z = true /\ (r = 0 \/ bpow radix2 (- n) <= r <= bpow radix2 n) /\ Rabs (B2R z - r) <= k * u * r.

  Lemma u_bounds : 0 < u <= / 1000000.
  Proof.
    unfold u. split; [apply bpow_gt_0|]. apply Rle_trans with (bpow radix2 (-20)); [apply bpow_le; lia|].
    change (bpow radix2 (-20)) with (/ 1048576). lra.
  Qed.
  Lemma range_nonneg n r : r = 0 \/ bpow radix2 (- n) <= r <= bpow radix2 n -> 0 <= r.
  Proof. intros [->|[H _]]; [lra|]. pose proof (bpow_gt_0 radix2 (- n)). lra. Qed.
  Lemma rel_nonneg n k z r : rel n k z r -> 0 <= r.
  Proof. intros (_ & H & _). now apply range_nonneg in H. Qed.
  Lemma range_weaken n n' r : (n <= n')%Z -> r = 0 \/ bpow radix2 (- n) <= r <= bpow radix2 n -> r = 0 \/ bpow radix2 (- n') <= r <= bpow radix2 n'.
  Proof.
    intros H [->|[H1 H2]]; [now left|right]. split; [eapply Rle_trans; [|exact H1]|eapply Rle_trans; [exact H2|]]; apply bpow_le; lia.
  Qed.
  Lemma rel_weaken n n' k k' z r : (n <= n')%Z -> k <= k' -> rel n k z r -> rel n' k' z r.
  Proof.
    intros Hn Hk H. pose proof (rel_nonneg _ _ _ _ H) as P. destruct H as (F & B & E). split; [exact F|]. split; [now apply (range_weaken n)|].
    eapply Rle_trans; [exact E|]. pose proof u_bounds. assert (0 <= u * r) by (apply Rmult_le_pos; lra). nra.
  Qed.
  Lemma rel_exact n (z : fl) : is_finite z = true -> (B2R z = 0 \/ bpow radix2 (- n) <= B2R z <= bpow radix2 n) -> rel n 0 z (B2R z).
  Proof. intros F B. split; [exact F|]. split; [exact B|]. rewrite Rminus_diag_eq, Rabs_R0 by reflexivity. lra. Qed.

  Lemma rel_round n k (z : fl) r0 r : Rounds z r0 -> (0 <= n <= 500)%Z -> 0 <= k <= 1000 -> r = 0 \/ bpow radix2 (- n) <= r <= bpow radix2 n ->
    Rabs (r0 - r) <= k * u * r -> rel n (k + 3) z r.
  Proof.
    intros H Hn Hk B E. pose proof (range_nonneg n r B) as P. pose proof u_bounds as [U0 U1].
    assert (Hr0 : Rabs r0 <= 101 / 100 * r).
    { replace r0 with ((r0 - r) + r) by ring. eapply Rle_trans; [apply Rabs_triang|]. rewrite (Rabs_pos_eq r) by exact P.
      assert (k * u * r <= 1000 * (/ 1000000) * r) by (apply Rmult_le_compat_r; [exact P|]; nra). lra. }
    assert (Rb : r <= bpow radix2 500).
    { destruct B as [->|[_ B]]; [apply bpow_ge_0|]. eapply Rle_trans; [exact B|]. apply bpow_le. lia. }
    assert (X : bpow radix2 501 = 2 * bpow radix2 500) by exact (bpow_plus radix2 1 500).
    destruct (Rounds_finite z r0 501 H) as [F Ez]; [lra|lia|lia|]. split; [exact F|]. split; [exact B|]. rewrite Ez.
    assert (Er : Rabs (rnd (p := 53) (e := 1024) r0 - r0) <= 2 * u * r).
    { destruct B as [->|[B _]].
      - assert (r0 = 0) as -> by (rewrite Rmult_0_r in Hr0; apply Rabs_le_inv in Hr0; lra). rewrite rnd_0, Rminus_0_r, Rabs_R0. lra.
      - eapply Rle_trans; [exact (rnd_rel (p := 53) (e := 1024) r0)|]. change (2 - 1024 - 53)%Z with (-1075)%Z. change (- (53))%Z with (-53)%Z. fold u.
        assert (S : bpow radix2 (-1075) <= u * r / 100).
        { apply Rle_trans with (u * bpow radix2 (- 500) * bpow radix2 (-7)).
          - unfold u. rewrite <- !bpow_plus. apply bpow_le. lia.
          - change (bpow radix2 (-7)) with (/ 128). assert (bpow radix2 (- 500) <= r) by (eapply Rle_trans; [|exact B]; apply bpow_le; lia).
            assert (u * bpow radix2 (- 500) <= u * r) by (apply Rmult_le_compat_l; lra). pose proof (bpow_gt_0 radix2 (- 500)). nra. }
        assert (u * Rabs r0 <= u * (101 / 100 * r)) by (apply Rmult_le_compat_l; lra). assert (0 <= u * r) by (apply Rmult_le_pos; lra). lra. }
    replace (rnd (p := 53) (e := 1024) r0 - r) with ((rnd (p := 53) (e := 1024) r0 - r0) + (r0 - r)) by ring. eapply Rle_trans; [apply Rabs_triang|].
    assert (0 <= u * r) by (apply Rmult_le_pos; lra). nra.
  Qed.

  Lemma range_mult n m r q : r = 0 \/ bpow radix2 (- n) <= r <= bpow radix2 n -> q = 0 \/ bpow radix2 (- m) <= q <= bpow radix2 m ->
    r * q = 0 \/ bpow radix2 (- (n + m)) <= r * q <= bpow radix2 (n + m).
  Proof.
    intros [->|[R1 R2]] [->|[Q1 Q2]]; try (left; ring). right. replace (- (n + m))%Z with (- n + - m)%Z by lia. rewrite !bpow_plus.
    pose proof (bpow_gt_0 radix2 (- n)). pose proof (bpow_gt_0 radix2 (- m)). split; apply Rmult_le_compat; lra.
  Qed.
  Lemma range_plus n r q : r = 0 \/ bpow radix2 (- n) <= r <= bpow radix2 n -> q = 0 \/ bpow radix2 (- n) <= q <= bpow radix2 n ->
    r + q = 0 \/ bpow radix2 (- (n + 1)) <= r + q <= bpow radix2 (n + 1).
  Proof.
    intros HR HQ. pose proof (range_nonneg n r HR). pose proof (range_nonneg n q HQ).
    assert (A : bpow radix2 (n + 1) = 2 * bpow radix2 n) by (rewrite bpow_plus; change (bpow radix2 1) with 2; ring).
    assert (C : bpow radix2 (- (n + 1)) <= bpow radix2 (- n)) by (apply bpow_le; lia). pose proof (bpow_gt_0 radix2 n).
    destruct HR as [->|HR]; destruct HQ as [->|HQ]; [left; ring|right; lra..].
  Qed.
  Lemma rel_mult n m k l (z v : fl) r q : rel n k z r -> rel m l v q -> (0 <= n)%Z -> (0 <= m)%Z -> (n + m <= 500)%Z -> 0 <= k <= 100 -> 0 <= l <= 100 ->
    rel (n + m) (k + l + 4) (nmul z v) (r * q).
  Proof.
    intros HZ HV Hn Hm Hnm Hk Hl. pose proof (rel_nonneg _ _ _ _ HZ) as P. pose proof (rel_nonneg _ _ _ _ HV) as Q.
    destruct HZ as (Fz & Bz & Ez). destruct HV as (Fv & Bv & Ev). pose proof u_bounds as [U0 U1].
    assert (H : Rounds (nmul z v) (B2R z * B2R v)) by (apply mult_Rounds; assumption).
    replace (k + l + 4) with ((k + l + 1) + 3) by ring. apply (rel_round (n + m) (k + l + 1) _ _ _ H); [lia|lra|now apply range_mult|].
    replace (B2R z * B2R v - r * q) with ((B2R z - r) * B2R v + r * (B2R v - q)) by ring. eapply Rle_trans; [apply Rabs_triang|]. rewrite !Rabs_mult, (Rabs_pos_eq r) by exact P.
    assert (Bv' : Rabs (B2R v) <= (1 + l * u) * q).
    { replace (B2R v) with ((B2R v - q) + q) by ring. eapply Rle_trans; [apply Rabs_triang|]. rewrite (Rabs_pos_eq q) by exact Q. lra. }
    assert (Rabs (B2R z - r) * Rabs (B2R v) <= k * u * r * ((1 + l * u) * q)) by (apply Rmult_le_compat; try apply Rabs_pos; assumption).
    assert (r * Rabs (B2R v - q) <= r * (l * u * q)) by (apply Rmult_le_compat_l; lra).
    assert (X : k * l * u <= 1).
    { assert (k * l <= 100 * 100) by (apply Rmult_le_compat; lra). assert (0 <= k * l) by (apply Rmult_le_pos; lra). apply Rle_trans with (100 * 100 * / 1000000); [apply Rmult_le_compat; lra|lra]. }
    assert (Y : 0 <= u * (r * q)) by (repeat apply Rmult_le_pos; lra).
    replace (k * u * r * ((1 + l * u) * q)) with (k * (u * (r * q)) + (k * l * u) * (u * (r * q))) in H0 by ring.
    assert ((k * l * u) * (u * (r * q)) <= 1 * (u * (r * q))) by (apply Rmult_le_compat_r; lra).
    replace ((k + l + 1) * u * (r * q)) with (k * (u * (r * q)) + l * (u * (r * q)) + 1 * (u * (r * q))) by ring.
    replace (r * (l * u * q)) with (l * (u * (r * q))) in H1 by ring. lra.
  Qed.
  Lemma rel_plus n k (z v : fl) r q : rel n k z r -> rel n k v q -> (0 <= n)%Z -> (n + 1 <= 500)%Z -> 0 <= k <= 100 ->
    rel (n + 1) (k + 3) (nadd z v) (r + q).
  Proof.
    intros HZ HV Hn Hn' Hk. pose proof (rel_nonneg _ _ _ _ HZ) as P. pose proof (rel_nonneg _ _ _ _ HV) as Q.
    destruct HZ as (Fz & Bz & Ez). destruct HV as (Fv & Bv & Ev).
    assert (H : Rounds (nadd z v) (B2R z + B2R v)) by (apply plus_Rounds; assumption).
    apply (rel_round (n + 1) k _ _ _ H); [lia|lra|now apply range_plus|].
    replace (B2R z + B2R v - (r + q)) with ((B2R z - r) + (B2R v - q)) by ring. eapply Rle_trans; [apply Rabs_triang|]. lra.
  Qed.
  (** A difference of numbers of 24 bits. *)
  Lemma rel_minus (z v : fl) : is_finite z = true -> is_finite v = true -> sg (B2R z) -> sg (B2R v) -> 0 <= B2R v <= B2R z -> B2R z <= 1 ->
    rel 149 3 (nsub z v) (B2R z - B2R v).
  Proof.
    intros Fz Fv Sz Sv Hv Hz.
    assert (H : Rounds (nsub z v) (B2R z - B2R v)) by (apply minus_Rounds; assumption).
    replace 3 with (0 + 3) by ring. apply (rel_round 149 0 _ _ _ H); [lia|lra| |].
    - assert (1 <= bpow radix2 149) by (change 1 with (bpow radix2 0); apply bpow_le; lia).
      destruct (sg_minus _ _ Sz Sv (proj2 Hv)) as [D|D]; [now left|right]. change (- (149))%Z with (-149)%Z. lra.
    - rewrite Rminus_diag_eq, Rabs_R0 by reflexivity. lra.
  Qed.

  Lemma rel_single n k (q : fl) r : rel n k q r -> 0 <= k <= 100 -> sg r -> r <= 1 -> is_finite (nf32 q) = true /\ B2R (nf32 q) = r.
  Proof.
    intros HQ Hk Hs H1. pose proof (rel_nonneg _ _ _ _ HQ) as P. destruct HQ as (F & _ & E). pose proof u_bounds as [U0 U1].
    assert (E' : Rabs (B2R q - r) <= bpow radix2 (-40) * r).
    { eapply Rle_trans; [exact E|]. apply Rmult_le_compat_r; [exact P|]. apply Rle_trans with (128 * u); [apply Rmult_le_compat_r; lra|].
      unfold u. change 128 with (bpow radix2 7). rewrite <- bpow_plus. apply bpow_le. lia. }
    assert (S : bpow radix2 (-40) <= 1) by (change 1 with (bpow radix2 0); apply bpow_le; lia).
    assert (B : Rabs (B2R q) <= bpow radix2 1).
    { replace (B2R q) with ((B2R q - r) + r) by ring. eapply Rle_trans; [apply Rabs_triang|]. rewrite (Rabs_pos_eq r) by exact P. change (bpow radix2 1) with 2.
      assert (bpow radix2 (-40) * r <= 1 * 1) by (apply Rmult_le_compat; try lra; apply bpow_ge_0). lra. }
    destruct (f32_finite q 1 F B) as [F3 E3]; [lia|lia|]. change (nf32 q) with (f64 (f32of q)). split; [exact F3|]. rewrite E3.
    apply rnd_back; [apply sg_format; [exact Hs|lia|lia]|exact P|exact E'].
  Qed.
End Relative.

Lemma same_value (x y : fl) : is_finite x = true -> is_finite y = true -> B2R x = B2R y -> sameNumber x y.
Proof.
  intros Fx Fy E. destruct (Req_dec (B2R x) 0) as [Z|Z]; [right; repeat split; congruence|left].
  apply B2R_inj; try assumption; [destruct x|destruct y]; try discriminate; try reflexivity; exfalso; cbn in *; congruence.
Qed.
