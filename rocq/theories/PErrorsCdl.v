(** Rounding errors of CDL nodes. *)
From Coq Require Import Reals ZArith List String Lra Lia.
From Flocq Require Import Core BinarySingleNaN.
From Verif Require Import PBase PFacts PAct PIeee PIeeeArith PRound PClose3D PCloseLut PCdl PErrors PErrorsRange PPow SpecPower.
Import ListNotations.
Local Open Scope string_scope.
Local Open Scope list_scope.
Local Open Scope R_scope.

(** * Powers of at least one on [0, 1] *)
Lemma Rpower_slope a b p : 0 < a -> a <= b -> b <= 1 -> 1 <= p -> Rpower b p - Rpower a p <= p * (b - a).
Proof.
  intros Ha Hab Hb Hp. destruct (Rle_lt_or_eq_dec a b Hab) as [H|<-]; [|lra].
  destruct (MVT_cor2 (fun x => Rpower x p) (fun x => p * Rpower x (p - 1)) a b H) as (c & E & Hc).
  { intros c Hc. apply derivable_pt_lim_power. lra. }
  rewrite E. apply Rmult_le_compat_r; [lra|]. apply Rle_trans with (p * 1); [|lra]. apply Rmult_le_compat_l; [lra|].
  destruct (Rle_lt_or_eq_dec 1 p Hp) as [Q|<-].
  - rewrite <- Rpow_pos by lra. apply Rpow_unit; lra.
  - unfold Rminus. rewrite Rplus_opp_r. unfold Rpower. rewrite Rmult_0_l, exp_0. lra.
Qed.
Lemma Rpow_below x p : 0 <= x <= 1 -> 1 <= p -> Rpow x p <= p * x.
Proof.
  intros [[Hx|<-] H1] Hp; [|rewrite Rpow_0 by lra; lra]. rewrite Rpow_pos by assumption.
  replace p with (1 + (p - 1)) at 1 by ring. rewrite Rpower_plus, Rpower_1 by assumption.
  assert (H : Rpower x (p - 1) <= 1).
  { destruct (Rle_lt_or_eq_dec 1 p Hp) as [Q|<-].
    - rewrite <- Rpow_pos by assumption. apply Rpow_unit; lra.
    - unfold Rminus. rewrite Rplus_opp_r. unfold Rpower. rewrite Rmult_0_l, exp_0. lra. }
  assert (x * Rpower x (p - 1) <= x * 1) by (apply Rmult_le_compat_l; lra). assert (1 * x <= p * x) by (apply Rmult_le_compat_r; lra). lra.
Qed.
Lemma Rpow_step a b p : 0 <= a -> a <= b -> b <= 1 -> 1 <= p -> 0 <= Rpow b p - Rpow a p <= p * (b - a).
Proof.
  intros Ha Hab Hb Hp. split; [pose proof (Rpow_le a b p ltac:(lra) ltac:(lra)); lra|].
  destruct Ha as [Ha|<-]; [rewrite !Rpow_pos by lra; now apply Rpower_slope|].
  rewrite (Rpow_0 p) by lra. pose proof (Rpow_below b p ltac:(lra) Hp). lra.
Qed.
Lemma Rpow_slope a b p : 0 <= a <= 1 -> 0 <= b <= 1 -> 1 <= p -> Rabs (Rpow a p - Rpow b p) <= p * Rabs (a - b).
Proof.
  intros Ha Hb Hp. destruct (Rle_or_lt a b) as [H|H].
  - pose proof (Rpow_step a b p ltac:(lra) H ltac:(lra) Hp). rewrite (Rabs_left1 (a - b)) by lra. apply Rabs_le. lra.
  - pose proof (Rpow_step b a p ltac:(lra) ltac:(lra) ltac:(lra) Hp). rewrite (Rabs_pos_eq (a - b)) by lra. apply Rabs_le. lra.
Qed.
Lemma unit01_slope a b : Rabs (unit01 a - unit01 b) <= Rabs (a - b).
Proof.
  unfold unit01, Rmin, Rmax. pose proof (Rle_abs (a - b)). pose proof (Rle_abs (- (a - b))) as Q. rewrite Rabs_Ropp in Q.
  repeat destruct (Rle_dec _ _); apply Rabs_le; lra.
Qed.

(** * Saturation *)
Lemma luma_slope a b c a' b' c' e : Rabs (a - a') <= e -> Rabs (b - b') <= e -> Rabs (c - c') <= e ->
  Rabs (luma709 (a, b, c) - luma709 (a', b', c')) <= e.
Proof. intros Ha Hb Hc. apply Rabs_le_inv in Ha, Hb, Hc. unfold luma709. apply Rabs_le. lra. Qed.
Lemma mix_slope sat m x m' x' e : Rabs (m - m') <= e -> Rabs (x - x') <= e ->
  Rabs ((m + sat * (x - m)) - (m' + sat * (x' - m'))) <= (Rabs (1 - sat) + Rabs sat) * e.
Proof.
  intros Hm Hx. replace ((m + sat * (x - m)) - (m' + sat * (x' - m'))) with ((1 - sat) * (m - m') + sat * (x - x')) by ring.
  eapply Rle_trans; [apply Rabs_triang|]. rewrite !Rabs_mult, Rmult_plus_distr_r.
  apply Rplus_le_compat; apply Rmult_le_compat_l; auto using Rabs_pos.
Qed.

(** * The exact node *)
Lemma grade_slope s i x x' S P : Rabs (cdSlope s i) <= S -> 1 <= cdPower s i <= P ->
  Rabs (gradeClamped s i x - gradeClamped s i x') <= P * (S * Rabs (x - x')).
Proof.
  intros HS HP. unfold gradeClamped. eapply Rle_trans; [apply Rpow_slope; try apply unit01_bounds; lra|].
  apply Rmult_le_compat; [lra|apply Rabs_pos|lra|]. eapply Rle_trans; [apply unit01_slope|].
  replace (x * cdSlope s i + cdOffset s i - (x' * cdSlope s i + cdOffset s i)) with (cdSlope s i * (x - x')) by ring.
  rewrite Rabs_mult. apply Rmult_le_compat_r; [apply Rabs_pos|exact HS].
Qed.
Lemma grade_unit s i x : 1 <= cdPower s i -> 0 <= gradeClamped s i x <= 1.
Proof. intro H. unfold gradeClamped. apply Rpow_unit; [apply unit01_bounds|lra]. Qed.

Section Stage.
  Variable L : libm.
  #[local] Hint Extern 0 (Num fl) => exact (ieeeNum L) : typeclass_instances.
  Local Notation e := (bpow radix2 (-23)).
  Local Notation t := (bpow radix2 (-149)).

  Lemma le125 r k : r <= bpow radix2 k -> (k <= 125)%Z -> r <= bpow radix2 125.
  Proof. intros H K. eapply Rle_trans; [exact H|apply bpow_le; lia]. Qed.
  Lemma le126 r : r <= bpow radix2 125 -> r <= bpow radix2 126.
  Proof. intro H. eapply Rle_trans; [exact H|apply bpow_le; lia]. Qed.
  Lemma t_tiny S : 0 <= S <= bpow radix2 20 -> 0 <= t * S <= e / 1000000.
  Proof.
    intros [H0 H]. split; [apply Rmult_le_pos; [apply bpow_ge_0|exact H0]|].
    apply Rle_trans with (t * bpow radix2 20); [apply Rmult_le_compat_l; [apply bpow_ge_0|exact H]|]. rewrite <- bpow_plus.
    apply Rle_trans with (bpow radix2 (-23 + -20)); [apply bpow_le; lia|]. rewrite bpow_plus. unfold Rdiv.
    apply Rmult_le_compat_l; [apply bpow_ge_0|]. change (bpow radix2 (-20)) with (/ 1048576). lra.
  Qed.

  Lemma mul_R (x y : fl) : is_finite x = true -> is_finite y = true -> Rounds (nmul x y) (B2R x * B2R y).
  Proof. intros. now apply mult_Rounds. Qed.
  Lemma add_R (x y : fl) : is_finite x = true -> is_finite y = true -> Rounds (nadd x y) (B2R x + B2R y).
  Proof. intros. now apply plus_Rounds. Qed.

  (** Slope, offset and power of one sample. *)
  Lemma grade_near dIn (x s o p : fl) b S O P d : powWithin L d -> d <= 1 ->
    is_finite x = true -> is_finite s = true -> is_finite o = true -> is_finite p = true ->
    Rabs (B2R x / fullScale dIn) <= b -> Rabs (B2R s) <= S -> Rabs (B2R o) <= O -> 1 <= B2R p <= P ->
    S <= bpow radix2 20 -> P <= bpow radix2 20 -> b <= bpow radix2 100 -> S * b + O <= bpow radix2 60 ->
    exists w, pypow (clamp (nadd (nmul (nf32 (bitDepthToNormalized x dIn)) s) o)) p = Ok w /\ is_finite (nf32 w) = true /\
      Rabs (B2R (nf32 w) - Rpow (unit01 (B2R x / fullScale dIn * B2R s + B2R o)) (B2R p)) <= 11 / 10 * (P * (e * (S * b + O + 1))) + 11 / 10 * d + 11 / 10 * e.
  Proof.
    intros HL Hd Fx Fs Fo Fp Hb HS HO HP LS LP Lb LM.
    destruct (steps_facts) as (_ & E & _ & _ & T & _).
    pose proof (Rabs_pos (B2R s)) as S0. pose proof (Rabs_pos (B2R o)) as O0. pose proof (Rabs_pos (B2R x / fullScale dIn)) as b0.
    assert (Sb : 0 <= S * b) by (apply Rmult_le_pos; lra). set (M := S * b + O) in *. assert (HM : S * b <= M /\ 0 <= M) by (unfold M; lra).
    destruct (t_tiny S) as [tS0 tS]; [lra|].
    assert (B125 : bpow radix2 60 <= bpow radix2 124) by (apply bpow_le; lia). assert (G125 : bpow radix2 125 = 2 * bpow radix2 124) by exact (bpow_plus radix2 1 124).
    assert (G124 : 1000 <= bpow radix2 124) by (apply Rle_trans with (bpow radix2 10); [change (bpow radix2 10) with 1024; lra|apply bpow_le; lia]).
    destruct (normalized_stored L dIn x Fx) as [[Fz Cz] _]; [apply le126, (le125 _ 100); [lra|lia]|].
    set (z := nf32 (bitDepthToNormalized x dIn)) in *. set (X := B2R x / fullScale dIn) in *.
    assert (eM : 0 <= e * M <= / 1000000 * M) by (split; [apply Rmult_le_pos; lra|apply Rmult_le_compat_r; lra]).
    assert (Dz : Rabs (B2R z * B2R s - X * B2R s) <= e * M + e / 1000000).
    { replace (B2R z * B2R s - X * B2R s) with ((B2R z - X) * B2R s) by ring. rewrite Rabs_mult.
      apply Rle_trans with ((e * b + t) * S).
      - apply Rmult_le_compat; try apply Rabs_pos; [|exact HS]. eapply Rle_trans; [exact Cz|]. apply Rplus_le_compat_r, Rmult_le_compat_l; [lra|exact Hb].
      - assert (e * (S * b) <= e * M) by (apply Rmult_le_compat_l; lra). lra. }
    assert (WX : Rabs (X * B2R s) <= M).
    { rewrite Rabs_mult. apply Rle_trans with (b * S); [apply Rmult_le_compat; auto using Rabs_pos|]. lra. }
    destruct (round_near _ _ (X * B2R s) M _ (mul_R z s Fz Fs) WX Dz) as [F1 C1]; [apply le126; lra|apply le126; lra|].
    assert (C1' : Rabs (B2R (nmul z s) + B2R o - (X * B2R s + B2R o)) <= 1003 / 1000 * (e * M) + e / 400).
    { replace (B2R (nmul z s) + B2R o - (X * B2R s + B2R o)) with (B2R (nmul z s) - X * B2R s) by ring. eapply Rle_trans; [exact C1|].
      assert (t <= e / 1000000) by (destruct (t_tiny 1) as [_ Q]; [split; [lra|]; change (bpow radix2 20) with 1048576; lra|lra]). lra. }
    assert (WY : Rabs (X * B2R s + B2R o) <= M).
    { eapply Rle_trans; [apply Rabs_triang|]. rewrite Rabs_mult. assert (Rabs X * Rabs (B2R s) <= b * S) by (apply Rmult_le_compat; auto using Rabs_pos). unfold M. lra. }
    destruct (round_near _ _ (X * B2R s + B2R o) M _ (add_R (nmul z s) o F1 Fo) WY C1') as [F2 C2]; [apply le126; lra|apply le126; lra|].
    set (y := nadd (nmul z s) o) in *. set (Y := X * B2R s + B2R o) in *.
    assert (C2' : Rabs (B2R y - Y) <= 101 / 100 * (e * M) + e / 300).
    { eapply Rle_trans; [exact C2|]. assert (t <= e / 1000000) by (destruct (t_tiny 1) as [_ Q]; [split; [lra|]; change (bpow radix2 20) with 1048576; lra|lra]). lra. }
    destruct (clamp_ieee L y F2) as [F3 E3]. set (c := clamp y) in *. change (clampR (B2R y)) with (unit01 (B2R y)) in E3.
    pose proof (unit01_bounds (B2R y)) as U. rewrite <- E3 in U.
    destruct (HL c p F3 Fp U ltac:(lra)) as [F4 C4].
    exists (m_pow L c p). split.
    { unfold pypow.
      assert (LT : forall v v' : fl, is_finite v = true -> is_finite v' = true -> nltb v v' = Rlt_bool (B2R v) (B2R v')) by (intros; now apply Bltb_correct).
      destruct (ofZ_exact L 0) as [F0 E0]; [lia|]. change (@nofZ fl (ieeeNum L) 0) with (n0 : fl) in *.
      rewrite !LT by assumption. rewrite E0. rewrite Rlt_bool_false by lra. rewrite Rlt_bool_false by lra. rewrite Bool.andb_false_r. reflexivity. }
    assert (C5 : Rabs (B2R (m_pow L c p) - Rpow (unit01 Y) (B2R p)) <= P * (101 / 100 * (e * M) + e / 300) + d).
    { replace (B2R (m_pow L c p) - Rpow (unit01 Y) (B2R p)) with ((B2R (m_pow L c p) - Rpow (B2R c) (B2R p)) + (Rpow (B2R c) (B2R p) - Rpow (unit01 Y) (B2R p))) by ring.
      eapply Rle_trans; [apply Rabs_triang|]. rewrite Rplus_comm. apply Rplus_le_compat; [|exact C4].
      eapply Rle_trans; [apply Rpow_slope; [exact U|apply unit01_bounds|lra]|]. apply Rmult_le_compat; [lra|apply Rabs_pos|lra|].
      rewrite E3. eapply Rle_trans; [apply unit01_slope|exact C2']. }
    assert (d0 : 0 <= d) by (eapply Rle_trans; [apply Rabs_pos|exact C4]).
    assert (PM : P * (101 / 100 * (e * M) + e / 300) <= bpow radix2 100).
    { apply Rle_trans with (bpow radix2 20 * bpow radix2 60); [|rewrite <- bpow_plus; apply bpow_le; lia].
      assert (1 <= bpow radix2 60) by (change 1 with (bpow radix2 0); apply bpow_le; lia). apply Rmult_le_compat; lra. }
    assert (bpow radix2 100 <= bpow radix2 124) by (apply bpow_le; lia).
    pose proof (Rpow_unit (unit01 Y) (B2R p) (unit01_bounds Y) ltac:(lra)) as RU.
    destruct (store_near L (m_pow L c p) (Rpow (unit01 Y) (B2R p)) 1 _ F4 ltac:(rewrite Rabs_pos_eq; lra) C5) as [F6 C6]; [lra|lra|].
    split; [exact F6|]. eapply Rle_trans; [exact C6|].
    assert (Pe : 0 <= P * (e * M) /\ e <= P * e) by (split; [apply Rmult_le_pos; lra|replace e with (1 * e) at 1 by ring; apply Rmult_le_compat_r; lra]).
    assert (t <= e / 1000000) by (destruct (t_tiny 1) as [_ Q]; [split; [lra|]; change (bpow radix2 20) with 1048576; lra|lra]).
    replace (P * (101 / 100 * (e * M) + e / 300)) with (101 / 100 * (P * (e * M)) + P * e / 300) by field.
    replace (P * (e * (M + 1))) with (P * (e * M) + P * e) by ring. lra.
  Qed.

  Lemma t_small : 0 < t <= e / 1000000.
  Proof. destruct (t_tiny 1) as [_ Q]; [split; [lra|]; change (bpow radix2 20) with 1048576; lra|]. pose proof (bpow_gt_0 radix2 (-149)). lra. Qed.
  Lemma big_facts : bpow radix2 126 = 4 * bpow radix2 124 /\ bpow radix2 125 = 2 * bpow radix2 124 /\ 1000000 * bpow radix2 100 <= bpow radix2 124 /\ 1000000 <= bpow radix2 100.
  Proof.
    split; [exact (bpow_plus radix2 2 124)|]. split; [exact (bpow_plus radix2 1 124)|].
    assert (Q : 1000000 <= bpow radix2 24) by (change (bpow radix2 24) with 16777216; lra). split.
    - change 124%Z with (24 + 100)%Z. rewrite bpow_plus. apply Rmult_le_compat_r; [apply bpow_ge_0|exact Q].
    - eapply Rle_trans; [exact Q|apply bpow_le; lia].
  Qed.

  (** The weights of the luma. *)
  Lemma literal_near m d : (0 < m <= d)%Z -> (d < 2 ^ 53)%Z -> is_finite (nlit m d : fl) = true /\ Rabs (B2R (nlit m d : fl) - IZR m / IZR d) <= e / 900.
  Proof.
    intros Hm Hd. destruct (ofZ_exact L m) as [Fm Em]; [lia|]. destruct (ofZ_exact L d) as [Fd Ed]; [lia|].
    assert (D : 0 < IZR d) by (apply IZR_lt; lia). assert (Mm : 0 < IZR m <= IZR d) by (split; [apply IZR_lt; lia|apply IZR_le; lia]).
    assert (H : Rounds (nlit m d : fl) (IZR m / IZR d)) by (rewrite <- Em, <- Ed; apply div_Rounds; [exact Fm|exact Fd|rewrite Ed; lra]).
    assert (B : 0 <= IZR m / IZR d <= 1).
    { split; [apply Rmult_le_pos; [lra|left; now apply Rinv_0_lt_compat]|]. apply Rmult_le_reg_r with (IZR d); [exact D|]. unfold Rdiv. rewrite Rmult_assoc, Rinv_l by lra. lra. }
    destruct big_facts as (G1 & G2 & G3 & G4). pose proof t_small.
    destruct (round_near _ _ (IZR m / IZR d) 1 0 H) as [F C]; [rewrite Rabs_pos_eq; lra|rewrite Rminus_diag_eq, Rabs_R0 by reflexivity; lra|lra|lra|].
    split; [exact F|]. lra.
  Qed.
  Lemma weighted_near (l r : fl) w X q : is_finite l = true -> is_finite r = true -> 7 / 100 <= w <= 1 -> 0 <= X <= 1 -> q <= bpow radix2 100 ->
    Rabs (B2R l - w) <= e / 900 -> Rabs (B2R r - X) <= q ->
    is_finite (nmul l r) = true /\ Rabs (B2R (nmul l r) - w * X) <= 1002 / 1000 * (w * q) + e / 400.
  Proof.
    intros Fl Fr Hw HX Hq Dl Dr. destruct steps_facts as (_ & E & _ & _ & T & _). destruct big_facts as (G1 & G2 & G3 & G4). pose proof t_small.
    assert (q0 : 0 <= q) by (eapply Rle_trans; [apply Rabs_pos|exact Dr]).
    assert (eq_ : 0 <= e * q <= / 1000000 * q) by (split; [apply Rmult_le_pos; lra|apply Rmult_le_compat_r; lra]).
    assert (wq : 7 / 100 * q <= w * q <= 1 * q) by (split; apply Rmult_le_compat_r; lra).
    assert (D : Rabs (B2R l * B2R r - w * X) <= w * q + e * q / 900 + e / 900).
    { eapply Rle_trans; [apply prod_error|].
      assert (A1 : Rabs (B2R l) <= w + e / 900) by (eapply Rle_trans; [apply abs_near, Dl|]; rewrite (Rabs_pos_eq w); lra).
      assert (A2 : Rabs (B2R l) * Rabs (B2R r - X) <= (w + e / 900) * q) by (apply Rmult_le_compat; auto using Rabs_pos).
      assert (A3 : Rabs (B2R l - w) * Rabs X <= e / 900 * 1) by (apply Rmult_le_compat; auto using Rabs_pos; rewrite Rabs_pos_eq; lra).
      lra. }
    assert (wX : 0 <= w * X <= 1) by (split; [apply Rmult_le_pos; lra|replace 1 with (1 * 1) by ring; apply Rmult_le_compat; lra]).
    destruct (round_near _ _ (w * X) 1 _ (mul_R l r Fl Fr) ltac:(rewrite Rabs_pos_eq; lra) D) as [F C]; [lra|lra|].
    split; [exact F|]. lra.
  Qed.
  Lemma luma_near (r g b : fl) R G B q : is_finite r = true -> is_finite g = true -> is_finite b = true ->
    0 <= R <= 1 -> 0 <= G <= 1 -> 0 <= B <= 1 -> q <= bpow radix2 100 ->
    Rabs (B2R r - R) <= q -> Rabs (B2R g - G) <= q -> Rabs (B2R b - B) <= q ->
    exists m, cdlLuma [r; g; b] = Ok m /\ is_finite m = true /\ Rabs (B2R m - luma709 (R, G, B)) <= 101 / 100 * q + e / 50.
  Proof.
    intros Fr Fg Fb HR HG HB Hq Dr Dg Db. destruct steps_facts as (_ & E & _ & _ & T & _). destruct big_facts as (G1 & G2 & G3 & G4). pose proof t_small.
    assert (q0 : 0 <= q) by (eapply Rle_trans; [apply Rabs_pos|exact Dr]).
    destruct (literal_near 2126 10000) as [F1 C1]; [lia|lia|]. destruct (literal_near 7152 10000) as [F2 C2]; [lia|lia|]. destruct (literal_near 722 10000) as [F3 C3]; [lia|lia|].
    destruct (weighted_near _ r (2126 / 10000) R q F1 Fr ltac:(lra) HR Hq C1 Dr) as [F4 C4]. destruct (weighted_near _ g (7152 / 10000) G q F2 Fg ltac:(lra) HG Hq C2 Dg) as [F5 C5].
    destruct (weighted_near _ b (722 / 10000) B q F3 Fb ltac:(lra) HB Hq C3 Db) as [F6 C6].
    eexists. split; [reflexivity|]. set (x1 := nmul (nlit 2126 10000) r) in *. set (x2 := nmul (nlit 7152 10000) g) in *. set (x3 := nmul (nlit 722 10000) b) in *.
    assert (D7 : Rabs (B2R x1 + B2R x2 - (2126 / 10000 * R + 7152 / 10000 * G)) <= 1002 / 1000 * ((2126 + 7152) / 10000 * q) + e / 200).
    { apply Rabs_le_inv in C4, C5. apply Rabs_le. lra. }
    destruct (round_near _ _ (2126 / 10000 * R + 7152 / 10000 * G) 1 _ (add_R x1 x2 F4 F5) ltac:(apply Rabs_le; lra) D7) as [F7 C7]; [lra|lra|].
    assert (D8 : Rabs (B2R (nadd x1 x2) + B2R x3 - luma709 (R, G, B)) <= 1004 / 1000 * q + e / 90).
    { unfold luma709. apply Rabs_le_inv in C6, C7. apply Rabs_le. lra. }
    destruct (round_near _ _ (luma709 (R, G, B)) 1 _ (add_R (nadd x1 x2) x3 F7 F6) ltac:(unfold luma709; apply Rabs_le; lra) D8) as [F8 C8]; [lra|lra|].
    split; [exact F8|]. lra.
  Qed.

  (** The saturation of one sample. *)
  Lemma mix_near (m x sat : fl) A Q : is_finite m = true -> is_finite x = true -> is_finite sat = true ->
    Rabs (B2R m) <= Q -> Rabs (B2R x) <= Q -> Rabs (B2R sat) <= A -> 1 <= Q -> A * Q <= bpow radix2 100 -> Q <= bpow radix2 100 ->
    is_finite (nadd m (nmul sat (nsub x m))) = true /\
    Rabs (B2R (nadd m (nmul sat (nsub x m))) - (B2R m + B2R sat * (B2R x - B2R m))) <= e / 100 * ((1 + 2 * A) * Q).
  Proof.
    intros Fm Fx Fs Hm Hx Hs HQ AQ LQ. destruct steps_facts as (_ & E & _ & _ & T & _). destruct big_facts as (G1 & G2 & G3 & G4). pose proof t_small.
    pose proof (Rabs_pos (B2R sat)) as A0.
    assert (eQ : e <= e * Q /\ e * Q <= / 1000000 * Q) by (split; [rewrite <- (Rmult_1_r e) at 1; apply Rmult_le_compat_l; lra|apply Rmult_le_compat_r; lra]).
    assert (AQ0 : 0 <= A * Q) by (apply Rmult_le_pos; lra).
    assert (eAQ : 0 <= e * (A * Q) <= / 1000000 * (A * Q)) by (split; [apply Rmult_le_pos; lra|apply Rmult_le_compat_r; lra]).
    assert (X2 : Rabs (B2R x - B2R m) <= 2 * Q) by (unfold Rminus; eapply Rle_trans; [apply Rabs_triang|]; rewrite Rabs_Ropp; lra).
    destruct (round_near _ _ (B2R x - B2R m) (2 * Q) 0 (PHalf.minus_Rounds L x m Fx Fm) X2) as [F1 C1]; [rewrite Rminus_diag_eq, Rabs_R0 by reflexivity; lra|lra|lra|].
    assert (C1' : Rabs (B2R (nsub x m) - (B2R x - B2R m)) <= e * Q / 400) by lra.
    assert (D2 : Rabs (B2R sat * B2R (nsub x m) - B2R sat * (B2R x - B2R m)) <= e * (A * Q) / 400).
    { rewrite <- Rmult_minus_distr_l, Rabs_mult. apply Rle_trans with (A * (e * Q / 400)); [apply Rmult_le_compat; auto using Rabs_pos|lra]. }
    assert (W2 : Rabs (B2R sat * (B2R x - B2R m)) <= 2 * (A * Q)).
    { rewrite Rabs_mult. apply Rle_trans with (A * (2 * Q)); [apply Rmult_le_compat; auto using Rabs_pos|lra]. }
    destruct (round_near _ _ _ _ _ (mul_R sat (nsub x m) Fs F1) W2 D2) as [F2 C2]; [lra|lra|].
    assert (D3 : Rabs (B2R m + B2R (nmul sat (nsub x m)) - (B2R m + B2R sat * (B2R x - B2R m))) <= e * (A * Q) / 200 + e / 1000).
    { replace (B2R m + B2R (nmul sat (nsub x m)) - (B2R m + B2R sat * (B2R x - B2R m))) with (B2R (nmul sat (nsub x m)) - B2R sat * (B2R x - B2R m)) by ring.
      eapply Rle_trans; [exact C2|]. lra. }
    assert (W3 : Rabs (B2R m + B2R sat * (B2R x - B2R m)) <= Q + 2 * (A * Q)) by (eapply Rle_trans; [apply Rabs_triang|]; lra).
    destruct (round_near _ _ _ _ _ (add_R m _ Fm F2) W3 D3) as [F3 C3]; [lra|lra|].
    split; [exact F3|]. eapply Rle_trans; [exact C3|].
    replace (e / 100 * ((1 + 2 * A) * Q)) with (e * Q / 100 + 2 * (e * (A * Q)) / 100) by field. lra.
  Qed.

  (** Clamping, storing and the output depth. *)
  Lemma finish_near dOut (y : fl) Y q : is_finite y = true -> Rabs (B2R y - Y) <= q -> q <= bpow radix2 100 ->
    is_finite (nf32 (normalizedToBitDepth (nf32 (clamp y)) dOut)) = true /\
    Rabs (B2R (nf32 (normalizedToBitDepth (nf32 (clamp y)) dOut)) - unit01 Y * fullScale dOut) <= fullScale dOut * (101 / 100 * q + 21 / 10 * e).
  Proof.
    intros Fy Dy Hq. destruct steps_facts as (_ & E & _ & _ & T & _). destruct big_facts as (G1 & G2 & G3 & G4). pose proof t_small.
    assert (q0 : 0 <= q) by (eapply Rle_trans; [apply Rabs_pos|exact Dy]). pose proof (scale_bounds L dOut) as [f1 f2]. set (f := fullScale dOut) in *.
    destruct (clamp_ieee L y Fy) as [F1 E1]. assert (E1' : B2R (@clamp fl (ieeeNum L) y) = unit01 (B2R y)) by exact E1.
    assert (D1 : Rabs (B2R (clamp y : fl) - unit01 Y) <= q) by (rewrite E1'; eapply Rle_trans; [apply unit01_slope|exact Dy]).
    pose proof (unit01_bounds Y) as U.
    destruct (store_near L (clamp y) (unit01 Y) 1 q F1 ltac:(rewrite Rabs_pos_eq; lra) D1) as [F2 C2]; [lra|lra|]. set (z := nf32 (clamp y)) in *.
    assert (C2' : Rabs (B2R z - unit01 Y) <= 1001 / 1000 * q + 1001 / 1000 * e) by lra.
    assert (Bz : Rabs (B2R z) <= 2 + 2 * q) by (eapply Rle_trans; [apply abs_near, C2'|]; rewrite Rabs_pos_eq by lra; lra).
    assert (D3 : Rabs (B2R z * f - unit01 Y * f) <= f * (1001 / 1000 * q + 1001 / 1000 * e)).
    { rewrite <- Rmult_minus_distr_r, Rabs_mult, (Rabs_pos_eq f) by lra. rewrite Rmult_comm. apply Rmult_le_compat_l; lra. }
    assert (Bf : Rabs (B2R z * f) <= f * (1 + 1001 / 1000 * q + 1001 / 1000 * e)).
    { eapply Rle_trans; [apply abs_near, D3|]. rewrite Rabs_mult, (Rabs_pos_eq f), (Rabs_pos_eq (unit01 Y)) by lra.
      assert (unit01 Y * f <= 1 * f) by (apply Rmult_le_compat_r; lra). lra. }
    assert (fq : 0 <= f * q <= 65535 * q) by (split; [apply Rmult_le_pos; lra|apply Rmult_le_compat_r; lra]).
    assert (fe : e <= f * e <= 65535 * e) by (split; [rewrite <- (Rmult_1_l e) at 1; apply Rmult_le_compat_r; lra|apply Rmult_le_compat_r; lra]).
    destruct (denormalized_stored L dOut z F2) as [F4 C4]; [fold f; lra|]. fold f in C4. split; [exact F4|].
    match goal with |- Rabs (?o - _) <= _ => replace (o - unit01 Y * f) with ((o - B2R z * f) + (B2R z * f - unit01 Y * f)) by ring end.
    eapply Rle_trans; [apply Rabs_triang|]. eapply Rle_trans; [apply Rplus_le_compat; [exact C4|exact D3]|].
    assert (K : e * Rabs (B2R z * f) <= e * (f * (1 + 1001 / 1000 * q + 1001 / 1000 * e))) by (apply Rmult_le_compat_l; lra).
    assert (K2 : e * (f * q) <= / 1000000 * (f * q)) by (apply Rmult_le_compat_r; lra).
    assert (K3 : e * (f * e) <= / 1000000 * (f * e)) by (apply Rmult_le_compat_r; lra).
    replace (e * (f * (1 + 1001 / 1000 * q + 1001 / 1000 * e))) with (f * e + 1001 / 1000 * (e * (f * q)) + 1001 / 1000 * (e * (f * e))) in K by ring.
    replace (f * (1001 / 1000 * q + 1001 / 1000 * e)) with (1001 / 1000 * (f * q) + 1001 / 1000 * (f * e)) by ring.
    replace (f * (101 / 100 * q + 21 / 10 * e)) with (101 / 100 * (f * q) + 21 / 10 * (f * e)) by ring. lra.
  Qed.
End Stage.

(** * The whole node *)
Section Node.
  Variable L : libm.
  #[local] Hint Extern 0 (Num fl) => exact (ieeeNum L) : typeclass_instances.
  Local Notation e := (bpow radix2 (-23)).

  Lemma clamp_any (y : fl) : is_finite (clamp y) = true /\ 0 <= B2R (clamp y : fl) <= 1.
  Proof.
    destruct (ofZ_exact L 0) as [F0 E0]; [lia|]. destruct (ofZ_exact L 1) as [F1 E1]; [lia|].
    destruct (is_finite y) eqn:F.
    - destruct (clamp_ieee L y F) as [A E]. split; [exact A|]. assert (E' : B2R (@clamp fl (ieeeNum L) y) = unit01 (B2R y)) by exact E. rewrite E'. apply unit01_bounds.
    - destruct y as [s|s| |s m x H]; try discriminate F.
      + destruct s; [change (clamp (B754_infinity true : fl)) with (nofZ 0 : fl)|change (clamp (B754_infinity false : fl)) with (nofZ 1 : fl)]; (split; [assumption|]).
        * rewrite E0. lra.
        * rewrite E1. lra.
      + change (clamp (B754_nan : fl)) with (nofZ 0 : fl). split; [assumption|]. rewrite E0. lra.
  Qed.
  Lemma pow_any (y p : fl) : is_finite p = true -> 1 <= B2R p -> pypow (clamp y) p = Ok (m_pow L (clamp y) p).
  Proof.
    intros Fp Hp. destruct (clamp_any y) as [F U]. destruct (ofZ_exact L 0) as [F0 E0]; [lia|]. unfold pypow.
    assert (LT : forall v v' : fl, is_finite v = true -> is_finite v' = true -> nltb v v' = Rlt_bool (B2R v) (B2R v')) by (intros; now apply Bltb_correct).
    change (@nofZ fl (ieeeNum L) 0) with (n0 : fl) in *.
    rewrite !LT by assumption. rewrite E0. rewrite !Rlt_bool_false by lra. rewrite Bool.andb_false_r. reflexivity.
  Qed.

  Lemma node_acts c (h : header fl) v n dIn dOut sl of pw sat : n = Node h (BCDL v) \/ n = Node h (BColorCorrection v) ->
    dget (h_attrs h) "inBitDepth" = Some dIn -> dget (h_attrs h) "outBitDepth" = Some dOut -> dget (h_attrs h) "style" = Some (AStr "Fwd") ->
    optD (c_slope v) [n1; n1; n1] = [sl 0%nat; sl 1%nat; sl 2%nat] -> optD (c_offset v) [n0; n0; n0] = [of 0%nat; of 1%nat; of 2%nat] ->
    optD (c_power v) [n1; n1; n1] = [pw 0%nat; pw 1%nat; pw 2%nat] -> optD (c_sat v) n1 = sat ->
    (forall i, (i < 3)%nat -> is_finite (pw i) = true /\ 1 <= B2R (pw i)) ->
    let grade i x := nf32 (m_pow L (clamp (nadd (nmul (nf32 (bitDepthToNormalized x dIn)) (sl i)) (of i))) (pw i)) in
    let luma r g b := nadd (nadd (nmul (nlit 2126 10000) r) (nmul (nlit 7152 10000) g)) (nmul (nlit 722 10000) b) in
    let finish m x := nf32 (normalizedToBitDepth (nf32 (clamp (nadd m (nmul sat (nsub x m))))) dOut) in
    actsPerColour c n (fun r g b => let r := grade 0%nat r in let g := grade 1%nat g in let b := grade 2%nat b in
      let m := luma r g b in (finish m r, finish m g, finish m b)).
  Proof.
    intros Hn Hi Ho Hs E1 E2 E3 E4 Hp grade luma finish k values Hk.
    assert (E : nodeProcess c n values k = cdlProcess c h v values k) by (destruct Hn as [-> | ->]; reflexivity). rewrite E. clear E.
    rewrite cdl_form by lia. assert (L3 : Nat.ltb k 3 = false) by (apply Nat.ltb_ge; lia). rewrite L3.
    unfold dgetE. rewrite Hi, Ho, Hs. cbn [bind]. change (cdlAutodeskStyle (AStr "Fwd")) with false. rewrite Bool.andb_false_r.
    change (cdlStyleOf (AStr "Fwd")) with CdlFwd. rewrite E1, E2, E3, E4.
    apply pixelwise_colour; [assumption|]. intros px Hl. rewrite cdlPixel_form by (assumption || discriminate).
    destruct (three_of px ltac:(lia)) as [x [y [z [t ->]]]]. cbn [firstn mapMi skipn cdlFirst getn nth_error bind].
    destruct (Hp 0%nat ltac:(lia)) as [A0 B0]. destruct (Hp 1%nat ltac:(lia)) as [A1 B1]. destruct (Hp 2%nat ltac:(lia)) as [A2 B2].
    rewrite !pow_any by assumption. cbn [bind]. unfold cdlLuma. cbn [getn nth_error bind mapMi]. unfold cdlSecond. cbn [cdlMiddle bind app]. reflexivity.
  Qed.

  Lemma numbers_of (o : option (list fl)) (z : Z) (f : nat -> R) : (0 <= z <= 1)%Z ->
    valueOr (option_map (map B2R) o) [IZR z; IZR z; IZR z] = SpecReal.three f -> Forall (fun x => is_finite x = true) (valueOr o []) ->
    exists g : nat -> fl, optD o [nofZ z; nofZ z; nofZ z] = [g 0%nat; g 1%nat; g 2%nat] /\
      forall i, (i < 3)%nat -> is_finite (g i) = true /\ B2R (g i) = f i.
  Proof.
    intros Hz H F. destruct (ofZ_exact L z) as [Fz Ez]; [lia|]. destruct o as [l|]; cbn [valueOr option_map optD] in *.
    - assert (Len : List.length l = 3%nat) by (rewrite <- (map_length B2R), H; reflexivity).
      destruct (PErrors.three l Len) as (x & y & w & ->). unfold SpecReal.three in H. injection H as H0 H1 H2.
      exists (fun i => match i with O => x | 1%nat => y | _ => w end). split; [reflexivity|].
      inversion F as [|? ? Fx F']; subst. inversion F' as [|? ? Fy F'']; subst. inversion F'' as [|? ? Fw _]; subst.
      intros [|[|[|i]]] Hi; try lia; auto.
    - exists (fun _ => nofZ z). split; [reflexivity|]. unfold SpecReal.three in H. injection H as H0 H1 H2.
      intros [|[|[|i]]] Hi; try lia; (split; [exact Fz|rewrite Ez; assumption]).
  Qed.

  Theorem cdl_follows c (h : header fl) v n dIn dOut s B S O P d :
    n = Node h (BCDL v) \/ n = Node h (BColorCorrection v) ->
    isCDL (exactHeader h) (exactCdl v) "Fwd" dIn dOut s -> cdlFinite v ->
    (forall i, (i < 3)%nat -> Rabs (cdSlope s i) <= S /\ Rabs (cdOffset s i) <= O /\ 1 <= cdPower s i <= P) ->
    powWithin L d -> d <= 1 ->
    let b := B / fullScale dIn in let M := S * b + O in let W := Rabs (1 - cdSat s) + Rabs (cdSat s) in
    S <= bpow radix2 20 -> P <= bpow radix2 20 -> W <= bpow radix2 20 -> b <= bpow radix2 100 -> M <= bpow radix2 60 ->
    let E := fullScale dOut * W * (5 * P * (M + 1) * e + 2 * d) in
    follows c n B (fullScale dOut * W * (P * S / fullScale dIn)) E (fullScale dOut + E).
  Proof.
    intros Hn H Fv Hnum HL Hd b M W LS LP LW Lb LM E px px' e0 Hs Ha.
    pose proof H as (Hi & Ho & Hst & N1 & N2 & N3 & N4). destruct Fv as (V1 & V2 & V3 & V4).
    cbn [exactHeader h_attrs exactCdl c_slope c_offset c_power c_sat] in Hi, Ho, Hst, N1, N2, N3, N4.
    destruct (numbers_of (c_slope v) 1 _ ltac:(lia) N1 V1) as (sl & E1 & G1). destruct (numbers_of (c_offset v) 0 _ ltac:(lia) N2 V2) as (of & E2 & G2).
    destruct (numbers_of (c_power v) 1 _ ltac:(lia) N3 V3) as (pw & E3 & G3).
    assert (G4 : exists sat : fl, optD (c_sat v) (nofZ 1) = sat /\ is_finite sat = true /\ B2R sat = cdSat s).
    { destruct (ofZ_exact L 1) as [F1 Q1]; [lia|]. exists (optD (c_sat v) (nofZ 1)). split; [reflexivity|]. destruct (c_sat v) as [x|]; cbn [optD option_map valueOr] in *.
      - split; [now apply V4|exact N4].
      - split; [exact F1|rewrite Q1; exact N4]. }
    destruct G4 as (sat & E4 & Fsat & Esat).
    pose proof (node_acts c h v n dIn dOut sl of pw sat Hn Hi Ho Hst E1 E2 E3 E4) as Ac.
    assert (Hp : forall i, (i < 3)%nat -> is_finite (pw i) = true /\ 1 <= B2R (pw i)).
    { intros i Hi3. destruct (G3 i Hi3) as [Fp Ep]. split; [exact Fp|]. rewrite Ep. apply (Hnum i Hi3). }
    specialize (Ac Hp). cbv zeta in Ac.
    assert (Hn' : cdlNode (exactHeader h) (exactCdl v) (SpecErrors.exactNode n)) by (destruct Hn as [-> | ->]; [left|right]; reflexivity).
    pose proof (fwd_acts c _ _ _ dIn dOut s Hn' H ltac:(intros i Hi3; destruct (Hnum i Hi3) as (_ & _ & Q); lra)) as Ac'.
    destruct (PErrors.three px (proj1 Hs)) as (x & y & z & ->). pose proof (apart_pos _ _ _ _ Ha) as He. apply sized3 in Hs. destruct Hs as ([Fx Bx] & [Fy By] & [Fz Bz]).
    destruct (apart3 _ _ _ _ _ Ha) as (x' & y' & z' & -> & Ax & Ay & Az).
    pose proof (Ac 3%nat [x; y; z] ltac:(lia)) as O1. pose proof (Ac' 3%nat [x'; y'; z'] ltac:(lia)) as O2.
    rewrite perColour3 in O1; rewrite (@perColour3 R realNum) in O2. cbv zeta beta iota in O1. unfold scaleBy, unscaleBy, saturate, mapColour in O2.
    eexists. eexists. split; [exact O1|]. split; [exact O2|]. clear O1 O2 Ac Ac'.
    pose proof (scale_bounds L dIn) as [fi1 fi2]. pose proof (scale_bounds L dOut) as [fo1 fo2]. set (fi := fullScale dIn) in *. set (fo := fullScale dOut) in *.
    destruct steps_facts as (_ & Ee & _ & _ & _ & _). destruct big_facts as (B1 & B2 & B3 & B4).
    destruct (Hnum 0%nat ltac:(lia)) as (S0 & O0 & P0). destruct (Hnum 1%nat ltac:(lia)) as (S1 & O1 & P1). destruct (Hnum 2%nat ltac:(lia)) as (S2 & O2 & P2).
    assert (Snn : 0 <= S) by (eapply Rle_trans; [apply Rabs_pos|exact S0]). assert (Onn : 0 <= O) by (eapply Rle_trans; [apply Rabs_pos|exact O0]).
    assert (Norm : forall v : fl, Rabs (B2R v) <= B -> Rabs (B2R v / fi) <= b).
    { intros w Hw. unfold b, Rdiv. rewrite Rabs_mult, (Rabs_pos_eq (/ fi)) by (left; apply Rinv_0_lt_compat; lra). apply Rmult_le_compat_r; [left; apply Rinv_0_lt_compat; lra|exact Hw]. }
    assert (bnn : 0 <= b) by (eapply Rle_trans; [apply Rabs_pos|exact (Norm x Bx)]).
    assert (Mnn : 0 <= M) by (unfold M; assert (0 <= S * b) by (now apply Rmult_le_pos); lra).
    set (q := 11 / 10 * (P * (e * (M + 1))) + 11 / 10 * d + 11 / 10 * e).
    assert (Gr : forall i (w : fl), (i < 3)%nat -> is_finite w = true -> Rabs (B2R w) <= B ->
      is_finite (nf32 (m_pow L (clamp (nadd (nmul (nf32 (bitDepthToNormalized w dIn)) (sl i)) (of i))) (pw i))) = true /\
      Rabs (B2R (nf32 (m_pow L (clamp (nadd (nmul (nf32 (bitDepthToNormalized w dIn)) (sl i)) (of i))) (pw i)) : fl) - gradeClamped s i (B2R w / fi)) <= q).
    { intros i w Hi3 Fw Bw. destruct (G1 i Hi3) as [Fs Es]. destruct (G2 i Hi3) as [Fo Eo]. destruct (G3 i Hi3) as [Fp Ep]. destruct (Hnum i Hi3) as (Si & Oi & Pi).
      destruct (grade_near L dIn w (sl i) (of i) (pw i) b S O P d HL Hd Fw Fs Fo Fp (Norm w Bw)) as (y0 & Y1 & Y2 & Y3);
        [now rewrite Es|now rewrite Eo|now rewrite Ep|exact LS|exact LP|exact Lb|exact LM|].
      assert (Y1' : Ok (m_pow L (clamp (nadd (nmul (nf32 (bitDepthToNormalized w dIn)) (sl i)) (of i))) (pw i)) = Ok y0).
      { rewrite <- Y1. symmetry. apply pow_any; apply (Hp i Hi3). }
      apply Ok_inj in Y1'. rewrite Y1'. split; [exact Y2|]. unfold gradeClamped. rewrite <- Es, <- Eo, <- Ep. exact Y3. }
    destruct (Gr 0%nat x ltac:(lia) Fx Bx) as [Fr Dr]. destruct (Gr 1%nat y ltac:(lia) Fy By) as [Fg Dg]. destruct (Gr 2%nat z ltac:(lia) Fz Bz) as [Fb Db]. clear Gr.
    set (r := nf32 (m_pow L (clamp (nadd (nmul (nf32 (bitDepthToNormalized x dIn)) (sl 0%nat)) (of 0%nat))) (pw 0%nat))) in *.
    set (g := nf32 (m_pow L (clamp (nadd (nmul (nf32 (bitDepthToNormalized y dIn)) (sl 1%nat)) (of 1%nat))) (pw 1%nat))) in *.
    set (bb := nf32 (m_pow L (clamp (nadd (nmul (nf32 (bitDepthToNormalized z dIn)) (sl 2%nat)) (of 2%nat))) (pw 2%nat))) in *.
    pose proof (grade_unit s 0 (B2R x / fi) ltac:(lra)) as Ur. pose proof (grade_unit s 1 (B2R y / fi) ltac:(lra)) as Ug. pose proof (grade_unit s 2 (B2R z / fi) ltac:(lra)) as Ub.
    assert (Step : forall i v v', (i < 3)%nat -> Rabs (v - v') <= e0 -> Rabs (gradeClamped s i (v / fi) - gradeClamped s i (v' / fi)) <= P * S / fi * e0).
    { intros i w w' Hi3 Hw. destruct (Hnum i Hi3) as (Si & _ & Pi). eapply Rle_trans; [apply (grade_slope s i _ _ S P Si Pi)|].
      replace (w / fi - w' / fi) with ((w - w') * / fi) by (field; lra). rewrite Rabs_mult, (Rabs_pos_eq (/ fi)) by (left; apply Rinv_0_lt_compat; lra).
      replace (P * S / fi * e0) with (P * (S * (e0 * / fi))) by (field; lra). apply Rmult_le_compat_l; [lra|]. apply Rmult_le_compat_l; [exact Snn|].
      apply Rmult_le_compat_r; [left; apply Rinv_0_lt_compat; lra|exact Hw]. }
    pose proof (Step 0%nat _ _ ltac:(lia) Ax) as Lr. pose proof (Step 1%nat _ _ ltac:(lia) Ay) as Lg. pose proof (Step 2%nat _ _ ltac:(lia) Az) as Lbl. clear Step.
    set (gr := gradeClamped s 0 (B2R x / fi)) in *. set (gg := gradeClamped s 1 (B2R y / fi)) in *. set (gb := gradeClamped s 2 (B2R z / fi)) in *.
    set (gr' := gradeClamped s 0 (x' / fi)) in *. set (gg' := gradeClamped s 1 (y' / fi)) in *. set (gb' := gradeClamped s 2 (z' / fi)) in *.
    assert (d0 : 0 <= d).
    { destruct (ofZ_exact L 1) as [F1 Q1]; [lia|]. destruct (HL (nofZ 1) (nofZ 1) F1 F1 ltac:(rewrite Q1; lra) ltac:(rewrite Q1; lra)) as [_ Q]. eapply Rle_trans; [apply Rabs_pos|exact Q]. }
    assert (B60 : bpow radix2 60 = 1024 * bpow radix2 50) by (change 60%Z with (10 + 50)%Z; rewrite bpow_plus; reflexivity).
    assert (PeM : e <= P * (e * (M + 1)) <= bpow radix2 70).
    { split.
      - apply Rle_trans with (1 * (e * 1)); [lra|]. apply Rmult_le_compat; [lra|lra|lra|]. apply Rmult_le_compat_l; lra.
      - apply Rle_trans with (bpow radix2 20 * bpow radix2 50); [|rewrite <- bpow_plus; apply bpow_le; lia]. assert (1 <= bpow radix2 60) by (change 1 with (bpow radix2 0); apply bpow_le; lia).
        assert (e * (M + 1) <= / 1000000 * (M + 1)) by (apply Rmult_le_compat_r; lra). apply Rmult_le_compat; try lra. apply Rmult_le_pos; lra. }
    assert (B80 : bpow radix2 70 * 1073741824 <= bpow radix2 100) by (change 1073741824 with (bpow radix2 30); rewrite <- bpow_plus; apply bpow_le; lia).
    assert (B20 : bpow radix2 20 = 1048576) by reflexivity. assert (B80' : 1000 <= bpow radix2 70) by (apply Rle_trans with (bpow radix2 10); [change (bpow radix2 10) with 1024; lra|apply bpow_le; lia]).
    assert (q0 : 0 <= q <= 2 * bpow radix2 70) by (unfold q; lra).
    destruct (luma_near L r g bb gr gg gb q Fr Fg Fb Ur Ug Ub ltac:(lra) Dr Dg Db) as (m & Em & Fm & Dm).
    unfold cdlLuma in Em. cbn [getn nth_error bind] in Em. apply Ok_inj in Em.
    match goal with |- context [nadd (nadd (nmul _ r) (nmul _ g)) (nmul _ bb)] => idtac end.
    rewrite Em in *. clear Em.
    set (qm := 101 / 100 * q + e / 50) in *. set (A := Rabs (cdSat s)) in *.
    pose proof (Rabs_pos (cdSat s)) as A0. fold A in A0.
    assert (W1 : 1 <= W /\ A <= W).
    { pose proof (Rabs_pos (1 - cdSat s)). pose proof (Rle_abs (1 - cdSat s)). assert (cdSat s <= A) by apply Rle_abs. unfold W. split; lra. }
    assert (Um : Rabs (luma709 (gr, gg, gb)) <= 1) by (unfold luma709; apply Rabs_le; lra).
    assert (Fin : forall (v : fl) V V', is_finite v = true -> 0 <= V <= 1 -> Rabs (B2R v - V) <= q -> Rabs (V - V') <= P * S / fi * e0 ->
      let o := nf32 (normalizedToBitDepth (nf32 (clamp (nadd m (nmul sat (nsub v m))))) dOut) in
      let o' := unit01 (luma709 (gr', gg', gb') + cdSat s * (V' - luma709 (gr', gg', gb'))) * fo in
      (is_finite o = true /\ Rabs (B2R o) <= fo + E) /\ Rabs (B2R o - o') <= fo * W * (P * S / fi) * e0 + E).
    { intros w V V' Fw UV Dw LV o o'.
      assert (BQm : Rabs (B2R m) <= 1 + qm) by (eapply Rle_trans; [apply abs_near, Dm|]; lra).
      assert (BQw : Rabs (B2R w) <= 1 + qm) by (eapply Rle_trans; [apply abs_near, Dw|]; rewrite Rabs_pos_eq by lra; unfold qm; lra).
      assert (Qb : 1 + qm <= 4 * bpow radix2 70) by (unfold qm; lra). assert (Q1 : 1 <= 1 + qm) by (unfold qm; lra).
      destruct (mix_near L m w sat A (1 + qm) Fm Fw Fsat BQm BQw) as [Fx0 Dx0]; [rewrite Esat; unfold A; lra|exact Q1| |lra|].
      { apply Rle_trans with (bpow radix2 20 * (4 * bpow radix2 70)); [apply Rmult_le_compat; lra|]. rewrite B20. lra. }
      set (mx := nadd m (nmul sat (nsub w m))) in *. rewrite Esat in Dx0.
      assert (Dmix : Rabs (B2R m + cdSat s * (B2R w - B2R m) - (luma709 (gr, gg, gb) + cdSat s * (V - luma709 (gr, gg, gb)))) <= W * qm).
      { apply mix_slope; [exact Dm|unfold qm; lra]. }
      set (Y := luma709 (gr, gg, gb) + cdSat s * (V - luma709 (gr, gg, gb))) in *.
      assert (Dall : Rabs (B2R mx - Y) <= W * (102 / 100 * q + 6 / 100 * e)).
      { replace (B2R mx - Y) with ((B2R mx - (B2R m + cdSat s * (B2R w - B2R m))) + (B2R m + cdSat s * (B2R w - B2R m) - Y)) by ring.
        eapply Rle_trans; [apply Rabs_triang|]. eapply Rle_trans; [apply Rplus_le_compat; [exact Dx0|exact Dmix]|].
        assert (T1 : (1 + 2 * A) * (1 + qm) <= 3 * W * (1 + qm)) by (apply Rmult_le_compat_r; lra).
        assert (T2 : e / 100 * ((1 + 2 * A) * (1 + qm)) <= e / 100 * (3 * W * (1 + qm))) by (apply Rmult_le_compat_l; lra).
        assert (T3 : e * qm <= / 1000000 * qm) by (apply Rmult_le_compat_r; lra).
        assert (T4 : W * (3 / 100 * e + 3 / 100 * (e * qm) + qm) <= W * (102 / 100 * q + 6 / 100 * e)) by (apply Rmult_le_compat_l; [lra|unfold qm in *; lra]).
        replace (e / 100 * (3 * W * (1 + qm))) with (W * (3 / 100 * e + 3 / 100 * (e * qm))) in T2 by field. lra. }
      assert (Lall : W * (102 / 100 * q + 6 / 100 * e) <= bpow radix2 100) by (apply Rle_trans with (1048576 * (3 * bpow radix2 70)); [apply Rmult_le_compat; lra|lra]).
      destruct (finish_near L dOut mx Y _ Fx0 Dall ltac:(lra)) as [Fo' Do']. fold o in Fo', Do'. fold fo in Do'.
      assert (HE : fo * (101 / 100 * (W * (102 / 100 * q + 6 / 100 * e)) + 21 / 10 * e) <= E).
      { unfold E. replace (fo * W * (5 * P * (M + 1) * e + 2 * d)) with (fo * (W * (5 * P * (M + 1) * e + 2 * d))) by ring. apply Rmult_le_compat_l; [lra|].
        assert (e <= W * e) by (rewrite <- (Rmult_1_l e) at 1; apply Rmult_le_compat_r; lra).
        apply Rle_trans with (W * (101 / 100 * (102 / 100 * q + 6 / 100 * e) + 21 / 10 * e)); [lra|]. apply Rmult_le_compat_l; [lra|].
        replace (5 * P * (M + 1) * e) with (5 * (P * (e * (M + 1)))) by ring. unfold q. lra. }
      assert (UY : 0 <= unit01 Y * fo <= fo).
      { pose proof (unit01_bounds Y). split; [apply Rmult_le_pos; lra|]. rewrite <- (Rmult_1_l fo) at 2. apply Rmult_le_compat_r; lra. }
      split.
      - split; [exact Fo'|]. eapply Rle_trans; [apply abs_near, Do'|]. rewrite Rabs_pos_eq by lra. lra.
      - set (Y' := luma709 (gr', gg', gb') + cdSat s * (V' - luma709 (gr', gg', gb'))) in *.
        assert (DY : Rabs (Y - Y') <= W * (P * S / fi * e0)).
        { unfold Y, Y'. apply mix_slope; [apply luma_slope; assumption|exact LV]. }
        replace (B2R o - o') with ((B2R o - unit01 Y * fo) + (unit01 Y - unit01 Y') * fo) by (unfold o'; ring).
        eapply Rle_trans; [apply Rabs_triang|]. rewrite (Rabs_mult _ fo), (Rabs_pos_eq fo) by lra.
        assert (Rabs (unit01 Y - unit01 Y') * fo <= W * (P * S / fi * e0) * fo) by (apply Rmult_le_compat_r; [lra|]; eapply Rle_trans; [apply unit01_slope|exact DY]).
        replace (fo * W * (P * S / fi) * e0) with (W * (P * S / fi * e0) * fo) by ring. lra. }
    destruct (Fin r gr gr' Fr Ur Dr Lr) as [R1 R2]. destruct (Fin g gg gg' Fg Ug Dg Lg) as [R3 R4]. destruct (Fin bb gb gb' Fb Ub Db Lbl) as [R5 R6].
    split; [apply sized3; split; [exact R1|split; [exact R3|exact R5]]|]. apply apart3_intro; assumption.
  Qed.
End Node.

(** * A library with a correctly rounded power *)
Lemma roundedReal_near r : 0 <= r <= 1 -> is_finite (roundedReal r) = true /\ Rabs (B2R (roundedReal r) - r) <= bpow radix2 (-52).
Proof.
  intros Hr. unfold roundedReal.
  pose proof (binary_normalize_correct 53 1024 eq_refl eq_refl mode_NE (ZnearestE (scaled_mantissa radix2 (FLT_exp (-1074) 53) r)) (cexp radix2 (FLT_exp (-1074) 53) r) false) as C.
  cbv zeta in C. change (SpecFloat.fexp 53 1024) with (FLT_exp (-1074) 53) in C. change (round_mode mode_NE) with ZnearestE in C.
  set (F := F2R _) in C. assert (EF : F = round radix2 (FLT_exp (-1074) 53) ZnearestE r) by reflexivity.
  assert (V : Valid_exp (FLT_exp (-1074) 53)) by (apply FLT_exp_valid; reflexivity).
  assert (G : round radix2 (FLT_exp (-1074) 53) ZnearestE F = F) by (apply round_generic; [apply valid_rnd_N|rewrite EF; apply generic_format_round; [exact V|apply valid_rnd_N]]).
  rewrite G in C.
  assert (F01 : 0 <= F <= 1).
  { rewrite EF. split.
    - rewrite <- (round_0 radix2 (FLT_exp (-1074) 53) ZnearestE). apply round_le; [exact V|apply valid_rnd_N|apply Hr].
    - assert (Q : round radix2 (FLT_exp (-1074) 53) ZnearestE 1 = 1).
      { apply round_generic; [apply valid_rnd_N|]. change 1 with (bpow radix2 0). apply generic_format_bpow. cbn. lia. }
      rewrite <- Q. apply round_le; [exact V|apply valid_rnd_N|apply Hr]. }
  rewrite Rlt_bool_true in C.
  2:{ rewrite Rabs_pos_eq by lra. apply Rle_lt_trans with (bpow radix2 0); [cbn; lra|]. apply bpow_lt. lia. }
  destruct C as (C1 & C2 & _). split; [exact C2|]. rewrite C1, EF.
  eapply Rle_trans; [apply error_le_half_ulp; exact V|].
  assert (U : ulp radix2 (FLT_exp (-1074) 53) r <= ulp radix2 (FLT_exp (-1074) 53) 1).
  { apply ulp_le_pos; [exact V|apply FLT_exp_monotone|apply Hr|apply Hr]. }
  assert (U1 : ulp radix2 (FLT_exp (-1074) 53) 1 = bpow radix2 (-52)) by (change 1 with (bpow radix2 0); rewrite ulp_bpow; reflexivity).
  rewrite U1 in U. pose proof (bpow_gt_0 radix2 (-52)). lra.
Qed.
Lemma roundedPow_within : powWithin roundedPow (bpow radix2 (-52)).
Proof. intros x y Fx Fy Hx Hy. apply roundedReal_near. apply Rpow_unit; [exact Hx|lra]. Qed.
