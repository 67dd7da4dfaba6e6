(** The half-domain lookup in IEEE arithmetic. *)
From Coq Require Import Reals Lra Psatz.
From Flocq Require Import Core BinarySingleNaN Sterbenz.
From Verif Require Export PHalfCode PIeeeRange PAct.
Local Open Scope R_scope.

Notation fexp16 := (SpecFloat.fexp 11 16).
Notation rnd16 := (rnd (p:=11) (e:=16)).

Lemma format16 m e : (Z.abs m < 2048)%Z -> (-24 <= e)%Z -> generic_format radix2 fexp16 (IZR m * bpow radix2 e).
Proof. intros Hm He. apply generic_format_FLT. exists (Float radix2 m e); [reflexivity|exact Hm|cbn; lia]. Qed.

Lemma format_magnitude u : (0 <= u <= 31743)%Z -> generic_format radix2 fexp16 (halfMagnitude u).
Proof.
  intro H. pose proof (Z.mod_pos_bound u 1024 ltac:(lia)). unfold halfMagnitude. destruct (Z.ltb_spec u 1024).
  - apply format16; lia.
  - assert (1 <= u / 1024)%Z by (apply Z.div_le_lower_bound; lia). apply format16; lia.
Qed.
Lemma format_step u : (0 <= u < 31743)%Z -> generic_format radix2 fexp16 (halfMagnitude (u + 1) - halfMagnitude u).
Proof.
  intro H. rewrite magnitude_step by assumption. rewrite <- (Rmult_1_l (bpow _ _)). apply (format16 1); lia.
Qed.

Lemma rnd16_opp r : rnd16 (- r) = - rnd16 r.
Proof. unfold rnd. apply round_NE_opp. Qed.
Lemma rnd16_magnitude u : (0 <= u <= 31743)%Z -> rnd16 (halfMagnitude u) = halfMagnitude u.
Proof. intro H. apply rnd_format. now apply format_magnitude. Qed.

Lemma neighbour_up u r : (0 <= u < 31743)%Z -> rnd16 r = halfMagnitude u -> r <= halfMagnitude (u + 1).
Proof.
  intros H E. destruct (Rle_or_lt r (halfMagnitude (u + 1))) as [L|L]; [exact L|exfalso].
  apply Rlt_le, (rnd_le (p:=11) (e:=16)) in L. rewrite rnd16_magnitude in L by lia. rewrite E in L.
  pose proof (magnitude_lt u ltac:(lia) (u + 1) ltac:(lia)). lra.
Qed.
Lemma neighbour_down u r : (0 < u <= 31743)%Z -> rnd16 r = halfMagnitude u -> halfMagnitude (u - 1) <= r.
Proof.
  intros H E. destruct (Rle_or_lt (halfMagnitude (u - 1)) r) as [L|L]; [exact L|exfalso].
  apply Rlt_le, (rnd_le (p:=11) (e:=16)) in L. rewrite rnd16_magnitude in L by lia. rewrite E in L.
  pose proof (magnitude_lt (u - 1) ltac:(lia) u ltac:(lia)). lra.
Qed.
Lemma nearest16 r g : generic_format radix2 fexp16 g -> Rabs (rnd16 r - r) <= Rabs (g - r).
Proof.
  intro G. pose proof (fexp_valid (p:=11) (e:=16)).
  destruct (round_N_pt radix2 fexp16 (fun x => negb (Z.even x)) r) as [_ N]. apply (N g G).
Qed.
Lemma rnd16_lt r : 0 <= r < 65520 -> rnd16 r <= 65504.
Proof.
  intros H. destruct (Rle_or_lt r 65504) as [L|L].
  - apply (rnd_le (p:=11) (e:=16)) in L. rewrite <- magnitude_max in L. rewrite rnd16_magnitude, magnitude_max in L by lia. exact L.
  - destruct (Rle_or_lt (rnd16 r) 65504) as [L2|L2]; [exact L2|exfalso].
    pose proof (nearest16 r 65504 ltac:(rewrite <- magnitude_max; apply format_magnitude; lia)) as N.
    rewrite (Rabs_left (65504 - r)) in N by lra. apply Rabs_le_inv in N.
    assert (F : generic_format radix2 fexp16 (rnd16 r)).
    { pose proof (fexp_valid (p:=11) (e:=16)). apply generic_format_round; [exact _|apply valid_rnd_N]. }
    assert (M : rnd16 r = 65536); [|lra].
    { (* multiples of 32 above 65504 *)
      assert (G65536 : generic_format radix2 fexp16 65536).
      { replace 65536 with (IZR 1024 * bpow radix2 6) by (change (bpow radix2 6) with 64; lra). apply format16; lia. }
      assert (Hx : rnd16 r < 65536) by lra. exfalso.
      assert (S : (16 <= 16)%Z) by lia.
      set (x := rnd16 r) in *. clearbody x.
      unfold generic_format in F. unfold F2R, scaled_mantissa in F. cbn [Fnum Fexp] in F.
      assert (C : cexp radix2 fexp16 x = 5%Z).
      { unfold cexp. rewrite (mag_unique_pos radix2 x 16).
        - reflexivity.
        - change (bpow radix2 (16 - 1)) with 32768. change (bpow radix2 16) with 65536. lra. }
      rewrite C in F. change (bpow radix2 5) with 32 in F. set (z := Ztrunc _) in F. clearbody z.
      assert (2047 < z)%Z by (apply lt_IZR; lra). assert (z < 2048)%Z by (apply lt_IZR; lra). lia. }
Qed.

Section Half.
  Variable L : libm.
  #[local] Hint Extern 0 (Num fl) => exact (ieeeNum L) : typeclass_instances.

  Lemma narrow_finite (x : fl) : is_finite x = true -> Rabs (B2R x) < 65520 ->
    is_finite (f16of x) = true /\ B2R (f16of x) = rnd16 (B2R x).
  Proof.
    intros F H. pose proof (toFormat_Rounds (p2:=11) (e2:=16) x F) as R. unfold Rounds in R. rewrite Rlt_bool_true in R; [exact R|].
    change (bpow radix2 16) with 65536. apply Rabs_def2 in H.
    assert (rnd16 (B2R x) <= 65504).
    { destruct (Rle_or_lt 0 (B2R x)); [apply rnd16_lt; lra|]. assert (B2R x <= 0) by lra. apply (rnd_le (p:=11) (e:=16)) in H1. rewrite rnd_0 in H1. lra. }
    assert (- 65504 <= rnd16 (B2R x)).
    { destruct (Rle_or_lt 0 (- B2R x)); [pose proof (rnd16_lt (- B2R x) ltac:(lra)) as G; rewrite rnd16_opp in G; lra|].
      assert (0 <= B2R x) by lra. apply (rnd_le (p:=11) (e:=16)) in H2. rewrite rnd_0 in H2. lra. }
    apply Rabs_def1; lra.
  Qed.

  Lemma f64_half (x : binary_float 11 16) : is_finite x = true -> is_finite (f64 x) = true /\ B2R (f64 x) = B2R x.
  Proof. intro F. apply (widen_exact (p2:=53) (e2:=1024) x); try lia. exact F. Qed.
  Lemma f64_single (x : binary_float 24 128) : is_finite x = true -> is_finite (f64 x) = true /\ B2R (f64 x) = B2R x.
  Proof. intro F. apply (widen_exact (p2:=53) (e2:=1024) x); try lia. exact F. Qed.
  Lemma hbits_half (x : binary_float 11 16) : nhbits (f64 x) = halfBits x.
  Proof. cbn [nhbits ieeeNum]. unfold f16of, f64. rewrite (narrow_widen (p2:=53) (e2:=1024) x) by lia. reflexivity. Qed.
  Lemma f64_sign {p e} {Hp : Prec_gt_0 p} {He : Prec_lt_emax p e} (x : binary_float p e) : is_nan x = false -> Bsign (f64 x) = Bsign x.
  Proof. apply toFormat_sign. Qed.

  Definition format32 := generic_format radix2 (SpecFloat.fexp 24 128).
  Lemma minus_Rounds (x y : fl) : is_finite x = true -> is_finite y = true -> Rounds (nsub x y) (B2R x - B2R y).
  Proof.
    intros Fx Fy. cbn [nsub ieeeNum].
    assert (E : Bminus mode_NE x y = Bplus mode_NE x (Bopp y)) by (destruct x as [[]|[]| |], y as [[]|[]| |]; reflexivity). rewrite E.
    pose proof (plus_Rounds x (Bopp y) Fx) as R. rewrite is_finite_Bopp in R. specialize (R Fy). rewrite B2R_Bopp in R. exact R.
  Qed.
  (** A difference that fits a narrower format is exact. *)
  Lemma minus_exact (x y : fl) : is_finite x = true -> is_finite y = true ->
    generic_format radix2 (SpecFloat.fexp 53 1024) (B2R x - B2R y) -> Rabs (B2R x - B2R y) < bpow radix2 1024 ->
    is_finite (nsub x y) = true /\ B2R (nsub x y) = B2R x - B2R y.
  Proof.
    intros Fx Fy G B. pose proof (minus_Rounds x y Fx Fy) as R. unfold Rounds in R.
    rewrite (rnd_format _ G), Rlt_bool_true in R by exact B. exact R.
  Qed.
  Lemma big_bound r : Rabs r < 200000 -> Rabs r < bpow radix2 1024 /\ Rabs r < bpow radix2 128.
  Proof.
    intro H. assert (G : 200000 < bpow radix2 18) by (change (bpow radix2 18) with 262144; lra).
    split; eapply Rlt_trans; [exact H| |exact H|]; (eapply Rlt_le_trans; [exact G|]; apply bpow_le; lia).
  Qed.
  Lemma nf32_exact (x : fl) : is_finite x = true -> format32 (B2R x) -> Rabs (B2R x) < bpow radix2 128 ->
    is_finite (nf32 x) = true /\ B2R (nf32 x) = B2R x.
  Proof.
    intros F G B. cbn [nf32 ieeeNum]. destruct (toFormat_exact (p2:=24) (e2:=128) x F G B) as [F2 B2].
    destruct (f64_single (f32of x) F2) as [F3 B3]. split; [exact F3|]. rewrite B3. exact B2.
  Qed.
  Lemma nf16_exact (x : fl) : is_finite x = true -> generic_format radix2 fexp16 (B2R x) -> Rabs (B2R x) < bpow radix2 16 ->
    is_finite (nf16 x) = true /\ B2R (nf16 x) = B2R x.
  Proof.
    intros F G B. cbn [nf16 ieeeNum]. destruct (toFormat_exact (p2:=11) (e2:=16) x F G B) as [F2 B2].
    destruct (f64_half (f16of x) F2) as [F3 B3]. split; [exact F3|]. rewrite B3. exact B2.
  Qed.
  Lemma f32_64 r : format32 r -> generic_format radix2 (SpecFloat.fexp 53 1024) r.
  Proof. apply (widen_format 24 128 53 1024); try lia; reflexivity. Qed.
  Lemma f16_64 r : generic_format radix2 fexp16 r -> generic_format radix2 (SpecFloat.fexp 53 1024) r.
  Proof. apply (widen_format 11 16 53 1024); try lia; reflexivity. Qed.
  Lemma f16_32 r : generic_format radix2 fexp16 r -> format32 r.
  Proof. apply (widen_format 11 16 24 128); try lia; reflexivity. Qed.
  Lemma format32_opp r : format32 (- r) -> format32 r.
  Proof. intro H. rewrite <- (Ropp_involutive r). now apply generic_format_opp. Qed.

  (** Positive numbers: the distance to the nearest half is exact in float32. *)
  Lemma distance32 r u : 0 <= r < 65520 -> format32 r -> (0 <= u <= 31743)%Z -> rnd16 r = halfMagnitude u ->
    format32 (r - halfMagnitude u).
  Proof.
    intros Hr Fr Hu E. destruct (Z.eq_dec u 0) as [->|Nu]; [rewrite magnitude_0, Rminus_0_r; exact Fr|].
    assert (P : 0 < halfMagnitude u) by (apply magnitude_pos; lia).
    pose proof (nearest16 r 0 (generic_format_0 _ _)) as N. rewrite E in N. rewrite (Rabs_left1 (0 - r)) in N by lra.
    apply Rabs_le_inv in N.
    assert (U : r <= 2 * halfMagnitude u).
    { destruct (Z.eq_dec u 31743) as [->|Nm]; [rewrite magnitude_max; lra|].
      eapply Rle_trans; [apply (neighbour_up u); [lia|exact E]|apply magnitude_double; lia]. }
    pose proof (fexp_valid (p:=24) (e:=128)) as V. unfold format32.
    assert (Me : Monotone_exp (SpecFloat.fexp 24 128)) by (intros e1 e2 H12; unfold SpecFloat.fexp, SpecFloat.emin; lia).
    apply (sterbenz radix2 (SpecFloat.fexp 24 128) r (halfMagnitude u) Fr); [apply f16_32, format_magnitude; lia|lra].
  Qed.

  Lemma ratio_unit (d g : fl) : is_finite d = true -> is_finite g = true -> B2R g <> 0 -> 0 <= B2R d / B2R g <= 1 ->
    is_finite (nf32 (ndiv d g)) = true /\ 0 <= B2R (nf32 (ndiv d g)) <= 1 /\ (B2R d = 0 -> B2R (nf32 (ndiv d g)) = 0).
  Proof.
    intros Fd Fg Ng Hq. pose proof (div_Rounds d g Fd Fg Ng) as R.
    assert (G : forall p e (Hp : Prec_gt_0 p) (He : Prec_lt_emax p e) (z : binary_float p e) q, (1 < p)%Z -> Rounds z q -> 0 <= q <= 1 ->
              is_finite z = true /\ 0 <= B2R z <= 1 /\ (q = 0 -> B2R z = 0)).
    { intros p e Hp He z q P1 Rz Hz. unfold Rounds in Rz.
      assert (R0 : 0 <= rnd (p:=p) (e:=e) q) by (rewrite <- (rnd_0 (p:=p) (e:=e)); apply rnd_le; lra).
      assert (R1 : rnd (p:=p) (e:=e) q <= 1).
      { rewrite <- (rnd_format (p:=p) (e:=e) 1); [apply rnd_le; lra|].
        change 1 with (bpow radix2 0). pose proof (fexp_valid (p:=p) (e:=e)). apply generic_format_bpow.
        unfold SpecFloat.fexp, SpecFloat.emin. unfold Prec_gt_0, Prec_lt_emax in *. lia. }
      rewrite Rlt_bool_true in Rz.
      - destruct Rz as [F E]. rewrite E. split; [exact F|]. split; [lra|]. intros ->. apply rnd_0.
      - rewrite Rabs_pos_eq by exact R0. apply Rle_lt_trans with (1 := R1). change 1 with (bpow radix2 0). apply bpow_lt.
        unfold Prec_gt_0, Prec_lt_emax in *. lia. }
    destruct (G 53%Z 1024%Z _ _ (Bdiv mode_NE d g) (B2R d / B2R g) ltac:(lia) R Hq) as [F1 [U1 Z1]].
    pose proof (toFormat_Rounds (p2:=24) (e2:=128) (Bdiv mode_NE d g) F1) as R2.
    destruct (G 24%Z 128%Z _ _ _ _ ltac:(lia) R2 U1) as [F2 [U2 Z2]].
    cbn [nf32 ndiv ieeeNum]. destruct (f64_single (f32of (Bdiv mode_NE d g)) F2) as [F3 B3].
    rewrite B3. split; [exact F3|]. split; [exact U2|]. intro D0. apply Z2, Z1. rewrite D0. unfold Rdiv. ring.
  Qed.
End Half.
