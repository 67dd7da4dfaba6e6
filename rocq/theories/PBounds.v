(** Interpolated results never leave the table, in IEEE arithmetic. *)
From Coq Require Import Reals Lra Lia ZArith List String Psatz Arith.
From Flocq Require Import Core BinarySingleNaN.
From Verif Require Import SpecBounds PBase PFacts PAct PReal PIeee PIeeeArith PRound PClose PCloseLut PCloseRange PClose3D PErrorsLut PRelative PPack PIdentity PLut1D PHalfLut PLut3D.
Import ListNotations.
Local Open Scope string_scope.
Local Open Scope list_scope.
Local Open Scope R_scope.

Local Notation u := (bpow radix2 (-53)).
Local Notation s := (bpow radix2 (-1075)).
Local Notation rd := (rnd (p := 53) (e := 1024)).
Definition slack (H : R) : R := u * Rabs H + s.

Lemma us : 0 < s /\ s <= u / 1000000 /\ u <= / 1000000000.
Proof.
  split; [apply bpow_gt_0|]. split.
  - apply Rle_trans with (bpow radix2 (-53 + -20)); [apply bpow_le; lia|]. rewrite bpow_plus. change (bpow radix2 (-20)) with (/ 1048576).
    pose proof (bpow_gt_0 radix2 (-53)). lra.
  - apply Rle_trans with (bpow radix2 (-30)); [apply bpow_le; lia|]. change (bpow radix2 (-30)) with (/ 1073741824). lra.
Qed.
Lemma slack_pos H : 0 < slack H.
Proof. unfold slack. pose proof us. pose proof (bpow_gt_0 radix2 (-53)). pose proof (Rabs_pos H). nra. Qed.
Lemma slack_opp H : slack (- H) = slack H.
Proof. unfold slack. now rewrite Rabs_Ropp. Qed.
Lemma rd_up x : rd x <= x + slack x.
Proof. pose proof (rnd_rel (p := 53) (e := 1024) x) as Q. change (- (53))%Z with (-53)%Z in Q. change (2 - 1024 - 53)%Z with (-1075)%Z in Q. apply Rabs_le_inv in Q. unfold slack. lra. Qed.
Lemma rd_opp x : rd (- x) = - rd x.
Proof. apply round_NE_opp. Qed.

Lemma prod_up w v H : 0 <= w <= 1 -> v <= H -> rd (w * v) <= w * H + slack H.
Proof.
  intros Hw Hv. apply Rle_trans with (rd (w * H)); [apply rnd_le; nra|]. eapply Rle_trans; [apply rd_up|]. unfold slack.
  rewrite Rabs_mult, (Rabs_pos_eq w) by lra. pose proof (Rabs_pos H). pose proof (bpow_gt_0 radix2 (-53)).
  assert (u * (w * Rabs H) <= u * Rabs H) by (apply Rmult_le_compat_l; nra). lra.
Qed.
Lemma sum_up x a c H : x <= a * H + c * slack H -> 0 <= a <= 2 -> 0 <= c <= 100 -> rd x <= a * H + (c + 3) * slack H.
Proof.
  intros Hx Ha Hc. apply Rle_trans with (rd (a * H + c * slack H)); [now apply rnd_le|]. eapply Rle_trans; [apply rd_up|].
  pose proof (slack_pos H) as P. destruct us as (S0 & S1 & U1). pose proof (bpow_gt_0 radix2 (-53)) as U0. pose proof (Rabs_pos H) as A0.
  assert (B : Rabs (a * H + c * slack H) <= 2 * Rabs H + 100 * slack H).
  { eapply Rle_trans; [apply Rabs_triang|]. rewrite !Rabs_mult, (Rabs_pos_eq a), (Rabs_pos_eq c), (Rabs_pos_eq (slack H)) by lra. nra. }
  assert (u * Rabs (a * H + c * slack H) <= u * (2 * Rabs H) + 100 * u * slack H) by (apply Rle_trans with (u * (2 * Rabs H + 100 * slack H)); [apply Rmult_le_compat_l; lra|lra]).
  assert (100 * u * slack H <= slack H) by nra. unfold slack at 2. unfold slack in *. nra.
Qed.
Lemma weight_up a H : Rabs (a - 1) <= 8 * u -> a * H <= H + 8 * slack H.
Proof.
  intro Ha. assert (Rabs ((a - 1) * H) <= 8 * (u * Rabs H)) by (rewrite Rabs_mult; pose proof (Rabs_pos H); nra).
  apply Rabs_le_inv in H0. unfold slack. destruct us. lra.
Qed.
Lemma wide_up H k E : E = slack H -> 0 <= k <= 100 -> H + k * E + 21 * slack (H + k * E) <= H + (k + 22) * E.
Proof.
  intros -> Hk. pose proof (slack_pos H) as P. destruct us as (S0 & S1 & U1). pose proof (bpow_gt_0 radix2 (-53)) as U0.
  assert (slack (H + k * slack H) <= slack H + u * (k * slack H)).
  { unfold slack at 1. assert (Rabs (H + k * slack H) <= Rabs H + k * slack H).
    { eapply Rle_trans; [apply Rabs_triang|]. rewrite Rabs_mult, (Rabs_pos_eq k), (Rabs_pos_eq (slack H)) by lra. lra. }
    assert (u * Rabs (H + k * slack H) <= u * (Rabs H + k * slack H)) by (apply Rmult_le_compat_l; lra). unfold slack at 2. lra. }
  assert (21 * (u * (k * slack H)) <= slack H); [|lra].
  assert (k * slack H <= 100 * slack H) by nra. assert (u * (k * slack H) <= / 1000000000 * (100 * slack H)) by (apply Rmult_le_compat; nra). lra.
Qed.

(** What the two interpolations do to numbers below a bound. *)
Definition blend4 w0 x0 w1 x1 w2 x2 w3 x3 := rd (rd (rd (rd (w0 * x0) + rd (w1 * x1)) + rd (w2 * x2)) + rd (w3 * x3)).
Lemma blend_up w0 x0 w1 x1 w2 x2 w3 x3 H :
  0 <= w0 <= 1 -> 0 <= w1 <= 1 -> 0 <= w2 <= 1 -> 0 <= w3 <= 1 -> Rabs (w0 + w1 + w2 + w3 - 1) <= 8 * u ->
  x0 <= H -> x1 <= H -> x2 <= H -> x3 <= H -> blend4 w0 x0 w1 x1 w2 x2 w3 x3 <= H + 21 * slack H.
Proof.
  intros W0 W1 W2 W3 WS X0 X1 X2 X3. destruct us as (S0 & S1 & U1). assert (WS' := WS). apply Rabs_le_inv in WS'.
  pose proof (prod_up _ _ _ W0 X0). pose proof (prod_up _ _ _ W1 X1). pose proof (prod_up _ _ _ W2 X2). pose proof (prod_up _ _ _ W3 X3).
  assert (A : rd (rd (w0 * x0) + rd (w1 * x1)) <= (w0 + w1) * H + (2 + 3) * slack H) by (apply sum_up; lra).
  assert (B : rd (rd (rd (w0 * x0) + rd (w1 * x1)) + rd (w2 * x2)) <= (w0 + w1 + w2) * H + (6 + 3) * slack H) by (apply sum_up; lra).
  assert (C : blend4 w0 x0 w1 x1 w2 x2 w3 x3 <= (w0 + w1 + w2 + w3) * H + (10 + 3) * slack H) by (apply sum_up; lra).
  pose proof (weight_up _ H WS). lra.
Qed.
Definition lerp2 i x y := rd (rd (rd (1 - i) * x) + rd (i * y)).
Lemma rd_unit_near r : 0 <= r <= 1 -> 0 <= rd r <= 1 /\ Rabs (rd r - r) <= 2 * u.
Proof.
  intro H. split; [apply rnd_unit; [lia|exact H]|]. pose proof (rnd_rel (p := 53) (e := 1024) r) as Q. change (- (53))%Z with (-53)%Z in Q. change (2 - 1024 - 53)%Z with (-1075)%Z in Q.
  rewrite (Rabs_pos_eq r) in Q by lra. destruct us as (S0 & S1 & U1). pose proof (bpow_gt_0 radix2 (-53)). nra.
Qed.
Lemma lerp_up i x y H : 0 <= i <= 1 -> x <= H -> y <= H -> lerp2 i x y <= H + 21 * slack H.
Proof.
  intros Hi X Y. destruct (rd_unit_near (1 - i)) as [W E]; [lra|]. unfold lerp2. set (w := rd (1 - i)) in *.
  destruct us as (S0 & S1 & U1). pose proof (bpow_gt_0 radix2 (-53)) as U0. pose proof (prod_up _ _ _ W X). pose proof (prod_up _ _ _ Hi Y).
  assert (E' : Rabs (w + i - 1) <= 8 * u) by (replace (w + i - 1) with (w - (1 - i)) by ring; lra). apply Rabs_le_inv in E.
  assert (A : rd (rd (w * x) + rd (i * y)) <= (w + i) * H + (2 + 3) * slack H) by (apply sum_up; lra).
  pose proof (weight_up _ H E'). pose proof (slack_pos H). lra.
Qed.
Lemma lerp_down i x y H : 0 <= i <= 1 -> H <= x -> H <= y -> H - 21 * slack H <= lerp2 i x y.
Proof.
  intros Hi X Y. pose proof (lerp_up i (- x) (- y) (- H) Hi ltac:(lra) ltac:(lra)) as Q. rewrite slack_opp in Q.
  assert (E : lerp2 i (- x) (- y) = - lerp2 i x y).
  { unfold lerp2. rewrite !Ropp_mult_distr_r_reverse, !rd_opp. rewrite <- Ropp_plus_distr, rd_opp. reflexivity. }
  rewrite E in Q. lra.
Qed.
Lemma blend_down w0 x0 w1 x1 w2 x2 w3 x3 H :
  0 <= w0 <= 1 -> 0 <= w1 <= 1 -> 0 <= w2 <= 1 -> 0 <= w3 <= 1 -> Rabs (w0 + w1 + w2 + w3 - 1) <= 8 * u ->
  H <= x0 -> H <= x1 -> H <= x2 -> H <= x3 -> H - 21 * slack H <= blend4 w0 x0 w1 x1 w2 x2 w3 x3.
Proof.
  intros W0 W1 W2 W3 WS X0 X1 X2 X3.
  pose proof (blend_up w0 (- x0) w1 (- x1) w2 (- x2) w3 (- x3) (- H) W0 W1 W2 W3 WS ltac:(lra) ltac:(lra) ltac:(lra) ltac:(lra)) as Q. rewrite slack_opp in Q.
  assert (E : blend4 w0 (- x0) w1 (- x1) w2 (- x2) w3 (- x3) = - blend4 w0 x0 w1 x1 w2 x2 w3 x3).
  { unfold blend4. rewrite !Ropp_mult_distr_r_reverse, !rd_opp. rewrite <- Ropp_plus_distr, rd_opp, <- Ropp_plus_distr, rd_opp, <- Ropp_plus_distr, rd_opp. reflexivity. }
  rewrite E in Q. lra.
Qed.

(** * The float32 numbers either side *)
Local Notation F24 := (SpecFloat.fexp 24 128).
Local Notation rs := (rnd (p := 24) (e := 128)).
#[local] Instance valid24 : Valid_exp F24 := fexp_valid (p := 24) (e := 128).
Lemma gap v : generic_format radix2 F24 v -> bpow radix2 (-149) <= succ radix2 F24 v - v /\ Rabs v * bpow radix2 (-25) <= succ radix2 F24 v - v.
Proof.
  intro G.
  assert (P24 : Prec_gt_0 24) by reflexivity.
  assert (U : forall p, bpow radix2 (-149) <= ulp radix2 F24 p /\ Rabs p * bpow radix2 (-24) < ulp radix2 F24 p).
  { intro p. split.
    - rewrite <- (ulp_FLT_0 radix2 (-149) 24). apply (@ulp_ge_ulp_0 radix2 (FLT_exp (-149) 24)); [exact (FLT_exp_valid (-149) 24)|]. apply monotone_exp_not_FTZ; [exact (FLT_exp_valid (-149) 24)|exact (FLT_exp_monotone (-149) 24)].
    - exact (ulp_FLT_gt radix2 (-149) 24 p). }
  assert (E25 : bpow radix2 (-24) = 2 * bpow radix2 (-25)) by exact (bpow_plus radix2 1 (-25)).
  assert (B25 := bpow_gt_0 radix2 (-25)). assert (S25 : bpow radix2 (-24) <= / 1000) by (apply Rle_trans with (bpow radix2 (-10)); [apply bpow_le; lia|change (bpow radix2 (-10)) with (/ 1024); lra]).
  destruct (Rle_or_lt 0 v) as [H|H].
  - rewrite succ_eq_pos by exact H. destruct (U v) as [U1 U2]. pose proof (Rabs_pos v). split; nra.
  - assert (G' : generic_format radix2 F24 (- v)) by (now apply generic_format_opp).
    pose proof (pred_ge_0 radix2 F24 (- v) ltac:(lra) G') as P0. pose proof (succ_pred radix2 F24 (- v) G') as SP.
    rewrite succ_eq_pos in SP by exact P0.
    assert (E : succ radix2 F24 v = - pred radix2 F24 (- v)) by (rewrite <- succ_opp; f_equal; ring). rewrite E.
    set (p := pred radix2 F24 (- v)) in *. destruct (U p) as [U1 U2]. rewrite (Rabs_pos_eq p) in U2 by exact P0. rewrite (Rabs_left v) by exact H.
    split; [lra|]. assert (- v = p + ulp radix2 F24 p) by lra. set (w := ulp radix2 F24 p) in *. assert (0 < bpow radix2 (-149)) by apply bpow_gt_0. nra.
Qed.
Lemma rs_up c v k : generic_format radix2 F24 v -> 0 <= k <= 100 -> c <= v + k * slack v -> rs c <= v.
Proof.
  intros G Hk Hc. unfold rnd. apply round_N_le_midp; [exact valid24|exact G|]. destruct (gap v G) as [G1 G2]. set (d := succ radix2 F24 v - v) in *.
  assert (E : (v + succ radix2 F24 v) / 2 = v + d / 2) by (unfold d; field). rewrite E. pose proof (Rabs_pos v) as A0. pose proof (slack_pos v) as P.
  assert (k * slack v <= 100 * slack v) by nra.
  assert (U25 : 1000 * u <= bpow radix2 (-25)).
  { apply Rle_trans with (bpow radix2 10 * u); [apply Rmult_le_compat_r; [apply bpow_ge_0|change (bpow radix2 10) with 1024; lra]|]. rewrite <- bpow_plus. apply bpow_le. lia. }
  assert (S49 : 1000 * s <= bpow radix2 (-149)).
  { apply Rle_trans with (bpow radix2 10 * s); [apply Rmult_le_compat_r; [apply bpow_ge_0|change (bpow radix2 10) with 1024; lra]|]. rewrite <- bpow_plus. apply bpow_le. lia. }
  assert (S0 := bpow_gt_0 radix2 (-1075)).
  assert (1000 * (u * Rabs v) <= d) by nra. unfold slack in *. lra.
Qed.
Lemma rs_down c v k : generic_format radix2 F24 v -> 0 <= k <= 100 -> v - k * slack v <= c -> v <= rs c.
Proof.
  intros G Hk Hc. pose proof (rs_up (- c) (- v) k (generic_format_opp _ _ _ G) Hk) as Q. rewrite slack_opp in Q. unfold rnd in *. rewrite round_NE_opp in Q. specialize (Q ltac:(lra)). lra.
Qed.

Section Floats.
  Variable L : libm.
  #[local] Hint Extern 0 (Num fl) => exact (ieeeNum L) : typeclass_instances.

  (** Finite, and outside the bounds by no more than [k] slacks. *)
  Definition nearly (k lo hi : R) (z : fl) : Prop := is_finite z = true /\ lo - k * slack lo <= B2R z <= hi + k * slack hi.
  Definition sizes (lo hi : R) : Prop := Rabs lo <= bpow radix2 128 /\ Rabs hi <= bpow radix2 128.

  Lemma nearly_size k lo hi z : sizes lo hi -> 0 <= k <= 100 -> nearly k lo hi z -> Rabs (B2R z) <= bpow radix2 130.
  Proof.
    intros [H1 H2] Hk [_ [H3 H4]]. destruct us as (S0 & S1 & U1). pose proof (bpow_gt_0 radix2 (-53)) as U0.
    assert (Q : forall v, Rabs v <= bpow radix2 128 -> Rabs v + k * slack v <= bpow radix2 130).
    { intros v Hv. pose proof (slack_pos v). pose proof (Rabs_pos v). assert (k * slack v <= 100 * slack v) by nra.
      assert (bpow radix2 130 = 4 * bpow radix2 128) by exact (bpow_plus radix2 2 128).
      assert (1 <= bpow radix2 128) by (change 1 with (bpow radix2 0); apply bpow_le; lia).
      assert (u * Rabs v <= / 1000000000 * Rabs v) by (apply Rmult_le_compat_r; lra). unfold slack in *. lra. }
    pose proof (Q lo H1). pose proof (Q hi H2). apply Rabs_le. pose proof (Rle_abs hi). pose proof (Rle_abs (- lo)) as A. rewrite Rabs_Ropp in A. lra.
  Qed.

  Lemma one_is : is_finite (n1 : fl) = true /\ B2R (n1 : fl) = 1.
  Proof. exact (PClose3D.one L). Qed.
  Lemma unit_minus (p q : fl) : is_finite p = true -> is_finite q = true -> 0 <= B2R p - B2R q <= 1 ->
    is_finite (nsub p q) = true /\ B2R (nsub p q) = rd (B2R p - B2R q).
  Proof.
    intros Fp Fq H. assert (Rt : Rounds (nsub p q) (B2R p - B2R q)) by (apply minus_Rounds; assumption).
    destruct (at_most _ _ 1 Rt) as (F & E & _); [|lia|lia|split; assumption]. change (bpow radix2 1) with 2. rewrite Rabs_pos_eq; lra.
  Qed.
  Lemma unit_times (w v : fl) : is_finite w = true -> is_finite v = true -> 0 <= B2R w <= 1 -> Rabs (B2R v) <= bpow radix2 130 ->
    is_finite (nmul w v) = true /\ B2R (nmul w v) = rd (B2R w * B2R v) /\ Rabs (B2R (nmul w v)) <= bpow radix2 130.
  Proof.
    intros Fw Fv Hw Hv. assert (Rt : Rounds (nmul w v) (B2R w * B2R v)) by (apply mult_Rounds; assumption).
    apply (at_most _ _ 130 Rt); [|lia|lia]. rewrite Rabs_mult, (Rabs_pos_eq (B2R w)) by lra. pose proof (Rabs_pos (B2R v)). nra.
  Qed.
  Lemma plain_plus (x y : fl) f : is_finite x = true -> is_finite y = true -> (0 <= f < 900)%Z -> Rabs (B2R x) <= bpow radix2 f -> Rabs (B2R y) <= bpow radix2 f ->
    is_finite (nadd x y) = true /\ B2R (nadd x y) = rd (B2R x + B2R y) /\ Rabs (B2R (nadd x y)) <= bpow radix2 (f + 1).
  Proof.
    intros Fx Fy Hf Hx Hy. assert (Rt : Rounds (nadd x y) (B2R x + B2R y)) by (apply plus_Rounds; assumption).
    apply (at_most _ _ (f + 1) Rt); [|lia|lia]. eapply Rle_trans; [apply Rabs_triang|].
    assert (bpow radix2 (f + 1) = 2 * bpow radix2 f) by (rewrite bpow_plus; change (bpow radix2 1) with 2; ring). lra.
  Qed.

  Lemma lerp_eq (i x y : fl) : is_finite i = true -> 0 <= B2R i <= 1 -> is_finite x = true -> is_finite y = true ->
    Rabs (B2R x) <= bpow radix2 130 -> Rabs (B2R y) <= bpow radix2 130 ->
    is_finite (lerp i x y) = true /\ B2R (lerp i x y) = lerp2 (B2R i) (B2R x) (B2R y).
  Proof.
    intros Fi Hi Fx Fy Bx By. destruct one_is as [F1 E1]. destruct (unit_minus n1 i F1 Fi) as [Fw Ew]; [rewrite E1; lra|]. rewrite E1 in Ew.
    assert (Hw : 0 <= B2R (nsub n1 i) <= 1) by (rewrite Ew; apply rd_unit_near; lra).
    destruct (unit_times _ _ Fw Fx Hw Bx) as (Fp & Ep & Bp). destruct (unit_times _ _ Fi Fy Hi By) as (Fq & Eq & Bq).
    destruct (plain_plus _ _ 130 Fp Fq ltac:(lia) Bp Bq) as (Fr & Er & _). split; [exact Fr|]. unfold lerp. rewrite Er, Ep, Eq, Ew. reflexivity.
  Qed.
  Lemma blend_eq (w0 x0 w1 x1 w2 x2 w3 x3 : fl) :
    (is_finite w0 = true /\ 0 <= B2R w0 <= 1) -> (is_finite w1 = true /\ 0 <= B2R w1 <= 1) -> (is_finite w2 = true /\ 0 <= B2R w2 <= 1) -> (is_finite w3 = true /\ 0 <= B2R w3 <= 1) ->
    (is_finite x0 = true /\ Rabs (B2R x0) <= bpow radix2 130) -> (is_finite x1 = true /\ Rabs (B2R x1) <= bpow radix2 130) ->
    (is_finite x2 = true /\ Rabs (B2R x2) <= bpow radix2 130) -> (is_finite x3 = true /\ Rabs (B2R x3) <= bpow radix2 130) ->
    is_finite (PClose3D.blend w0 x0 w1 x1 w2 x2 w3 x3) = true /\
    B2R (PClose3D.blend w0 x0 w1 x1 w2 x2 w3 x3) = blend4 (B2R w0) (B2R x0) (B2R w1) (B2R x1) (B2R w2) (B2R x2) (B2R w3) (B2R x3).
  Proof.
    intros [A0 B0] [A1 B1] [A2 B2] [A3 B3] [C0 D0] [C1 D1] [C2 D2] [C3 D3].
    destruct (unit_times _ _ A0 C0 B0 D0) as (P0 & Q0 & R0). destruct (unit_times _ _ A1 C1 B1 D1) as (P1 & Q1 & R1).
    destruct (unit_times _ _ A2 C2 B2 D2) as (P2 & Q2 & R2). destruct (unit_times _ _ A3 C3 B3 D3) as (P3 & Q3 & R3).
    destruct (plain_plus _ _ 130 P0 P1 ltac:(lia) R0 R1) as (S1 & T1 & V1).
    assert (W : forall f x, (130 <= f)%Z -> Rabs x <= bpow radix2 130 -> Rabs x <= bpow radix2 f) by (intros f x Hf Hx; eapply Rle_trans; [exact Hx|now apply bpow_le]).
    destruct (plain_plus _ _ (130 + 1)%Z S1 P2 ltac:(lia) V1 (W (130 + 1)%Z _ ltac:(lia) R2)) as (S2 & T2 & V2).
    destruct (plain_plus _ _ (130 + 1 + 1)%Z S2 P3 ltac:(lia) V2 (W (130 + 1 + 1)%Z _ ltac:(lia) R3)) as (S3 & T3 & _).
    split; [exact S3|]. unfold PClose3D.blend. rewrite T3, T2, T1, Q0, Q1, Q2, Q3. reflexivity.
  Qed.

  Lemma lerp_nearly k lo hi i x y : sizes lo hi -> 0 <= k <= 70 -> is_finite i = true -> 0 <= B2R i <= 1 -> nearly k lo hi x -> nearly k lo hi y ->
    nearly (k + 22) lo hi (lerp i x y).
  Proof.
    intros S Hk Fi Hi Hx Hy. pose proof (nearly_size k lo hi x S ltac:(lra) Hx) as Bx. pose proof (nearly_size k lo hi y S ltac:(lra) Hy) as By.
    destruct Hx as [Fx [X1 X2]]. destruct Hy as [Fy [Y1 Y2]]. destruct (lerp_eq i x y Fi Hi Fx Fy Bx By) as [F E]. split; [exact F|]. rewrite E. split.
    - pose proof (lerp_down _ _ _ _ Hi X1 Y1) as Q. pose proof (wide_up (- lo) k (slack (- lo)) eq_refl ltac:(lra)) as W.
      rewrite !slack_opp in W. replace (- lo + k * slack lo) with (- (lo - k * slack lo)) in W by ring. rewrite slack_opp in W. lra.
    - pose proof (lerp_up _ _ _ _ Hi X2 Y2) as Q. pose proof (wide_up hi k (slack hi) eq_refl ltac:(lra)) as W. lra.
  Qed.
  Lemma blend_nearly lo hi w0 x0 w1 x1 w2 x2 w3 x3 : sizes lo hi ->
    (is_finite w0 = true /\ 0 <= B2R w0 <= 1) -> (is_finite w1 = true /\ 0 <= B2R w1 <= 1) -> (is_finite w2 = true /\ 0 <= B2R w2 <= 1) -> (is_finite w3 = true /\ 0 <= B2R w3 <= 1) ->
    Rabs (B2R w0 + B2R w1 + B2R w2 + B2R w3 - 1) <= 8 * u ->
    nearly 0 lo hi x0 -> nearly 0 lo hi x1 -> nearly 0 lo hi x2 -> nearly 0 lo hi x3 -> nearly 22 lo hi (PClose3D.blend w0 x0 w1 x1 w2 x2 w3 x3).
  Proof.
    intros S W0 W1 W2 W3 WS X0 X1 X2 X3.
    assert (B : forall x, nearly 0 lo hi x -> is_finite x = true /\ Rabs (B2R x) <= bpow radix2 130) by (intros x Hx; split; [apply Hx|apply (nearly_size 0 lo hi x S); [lra|exact Hx]]).
    destruct (blend_eq w0 x0 w1 x1 w2 x2 w3 x3) as [F E]; try assumption; try (now apply B). split; [exact F|]. rewrite E.
    assert (Lo : forall x, nearly 0 lo hi x -> lo <= B2R x <= hi) by (intros x [_ Hx]; lra). pose proof (slack_pos lo). pose proof (slack_pos hi).
    destruct W0, W1, W2, W3. split.
    - apply Rle_trans with (lo - 21 * slack lo); [lra|]. apply blend_down; try assumption; now apply Lo.
    - apply Rle_trans with (hi + 21 * slack hi); [|lra]. apply blend_up; try assumption; now apply Lo.
  Qed.

  (** Storing as float32 removes the excess. *)
  Lemma stored_between k (lo hi z : fl) : isSingle lo -> isSingle hi -> 0 <= k <= 100 -> nearly k (B2R lo) (B2R hi) z -> liesBetween lo hi (nf32 z).
  Proof.
    intros (Fl & Gl & Bl) (Fh & Gh & Bh) Hk [Fz [H1 H2]].
    pose proof (rs_up _ _ k Gh Hk H2) as U. pose proof (rs_down _ _ k Gl Hk H1) as D.
    pose proof (toFormat_Rounds (p2 := 24) (e2 := 128) z Fz) as Rt. unfold Rounds in Rt.
    rewrite Rlt_bool_true in Rt by (apply Rabs_def2 in Bl; apply Rabs_def2 in Bh; apply Rabs_def1; lra). destruct Rt as [F2 E2].
    destruct (widen_exact (p2 := 53) (e2 := 1024) (toFormat 24 128 z)) as [F3 E3]; try lia; [exact F2|].
    split; [exact F3|]. change (nf32 z) with (f64 (f32of z)). unfold f64, f32of. rewrite E3, E2. split; assumption.
  Qed.
  Lemma between_nearly lo hi z : liesBetween lo hi z -> nearly 0 (B2R lo) (B2R hi) z.
  Proof. intros [F H]. split; [exact F|lra]. Qed.
  Lemma single_sizes lo hi : isSingle lo -> isSingle hi -> sizes (B2R lo) (B2R hi).
  Proof. intros (_ & _ & H) (_ & _ & H'). split; lra. Qed.

  (** The interpolations of a cube. *)
  Lemma interp_nearly tet (e : Z -> Z -> Z -> fl) r g b (fx fy fz : fl) lo hi : sizes lo hi ->
    (forall i j k, nearly 0 lo hi (e i j k)) ->
    is_finite fx = true -> is_finite fy = true -> is_finite fz = true -> 0 <= B2R fx <= 1 -> 0 <= B2R fy <= 1 -> 0 <= B2R fz <= 1 ->
    nearly 66 lo hi (interpT tet e r g b fx fy fz).
  Proof.
    intros S He Fx Fy Fz Bx By Bz. destruct tet; unfold interpT.
    - cut (nearly 22 lo hi (tetT e r g b fx fy fz)).
      { intros [F H]. split; [exact F|]. pose proof (slack_pos lo). pose proof (slack_pos hi). lra. }
      unfold tetT. cbv zeta. destruct one_is as [Fo Eo].
      assert (W : forall p q : fl, is_finite p = true -> is_finite q = true -> 0 <= B2R p - B2R q <= 1 ->
        is_finite (nsub p q) = true /\ 0 <= B2R (nsub p q) <= 1 /\ Rabs (B2R (nsub p q) - (B2R p - B2R q)) <= 2 * u).
      { intros p q Fp Fq H. destruct (unit_minus p q Fp Fq H) as [F E]. split; [exact F|]. rewrite E. now apply rd_unit_near. }
      assert (B : forall p q t : fl, is_finite p = true -> is_finite q = true -> is_finite t = true -> 1 >= B2R p -> B2R p >= B2R q -> B2R q >= B2R t -> B2R t >= 0 ->
        forall x0 x1 x2 x3, nearly 0 lo hi x0 -> nearly 0 lo hi x1 -> nearly 0 lo hi x2 -> nearly 0 lo hi x3 ->
        nearly 22 lo hi (PClose3D.blend (nsub n1 p) x0 (nsub p q) x1 (nsub q t) x2 t x3)).
      { intros p q t Fp Fq Ft H1 H2 H3 H4 x0 x1 x2 x3 X0 X1 X2 X3.
        destruct (W n1 p Fo Fp) as (A0 & B0 & C0); [rewrite Eo; lra|]. destruct (W p q Fp Fq) as (A1 & B1 & C1); [lra|]. destruct (W q t Fq Ft) as (A2 & B2' & C2); [lra|].
        apply blend_nearly; try assumption; try (split; assumption); [split; [assumption|lra]|]. rewrite Eo in C0.
        apply Rabs_le_inv in C0, C1, C2. apply Rabs_le. lra. }
      assert (LT : forall x y : fl, is_finite x = true -> is_finite y = true -> if nltb x y then B2R x < B2R y else B2R y <= B2R x).
      { intros x y Hx Hy. change (nltb x y) with (Bltb x y). rewrite Bltb_correct by assumption. destruct (Rlt_bool_spec (B2R x) (B2R y)); assumption. }
      pose proof (LT fy fx Fy Fx) as T1. pose proof (LT fz fy Fz Fy) as T2. pose proof (LT fz fx Fz Fx) as T3. pose proof (LT fy fz Fy Fz) as T4. pose proof (LT fx fz Fx Fz) as T5.
      destruct (nltb fy fx); [destruct (nltb fz fy); [|destruct (nltb fz fx)]|destruct (nltb fy fz); [|destruct (nltb fx fz)]];
        apply B; try assumption; try apply He; lra.
    - unfold triT.
      replace 66 with (0 + 22 + 22 + 22) by ring.
      repeat (apply lerp_nearly; [exact S|lra|assumption|assumption| |]); apply He.
  Qed.

  (** The distance to the cell below, wherever the position is. *)
  Lemma floor_exact (i : fl) : is_finite i = true -> is_finite (nofZ (Zfloor (B2R i)) : fl) = true /\ B2R (nofZ (Zfloor (B2R i)) : fl) = IZR (Zfloor (B2R i)).
  Proof.
    intro F. destruct (Rlt_or_le (Rabs (B2R i)) (bpow radix2 52)) as [H|H].
    - apply ofZ_exact. apply Rabs_def2 in H. change (bpow radix2 52) with (IZR (2 ^ 52)) in H. pose proof (Zfloor_lb (B2R i)) as Q1. pose proof (Zfloor_ub (B2R i)) as Q2.
      assert (A : IZR (Zfloor (B2R i)) < IZR (2 ^ 52)) by lra. apply lt_IZR in A.
      assert (C : IZR (- 2 ^ 52 - 1) < IZR (Zfloor (B2R i))) by (rewrite minus_IZR, opp_IZR; lra). apply lt_IZR in C. lia.
    - assert (G := generic_format_B2R 53 1024 i).
      assert (E : exists z, B2R i = IZR z).
      { unfold generic_format in G. set (ex := cexp radix2 (SpecFloat.fexp 53 1024) (B2R i)) in *.
        assert (X : (0 <= ex)%Z).
        { unfold ex, cexp, SpecFloat.fexp, SpecFloat.emin. assert (52 < mag radix2 (B2R i))%Z; [|lia].
          apply mag_gt_bpow. exact H. }
        exists (Ztrunc (scaled_mantissa radix2 (SpecFloat.fexp 53 1024) (B2R i)) * Zpower radix2 ex)%Z. rewrite mult_IZR, IZR_Zpower by exact X. exact G. }
      destruct E as [z Ez]. rewrite Ez, Zfloor_IZR.
      pose proof (normalize_Rounds (p := 53) (e := 1024) z 0 false) as Rz.
      assert (E0 : F2R (Float radix2 z 0) = IZR z) by (unfold F2R; cbn; ring). rewrite E0 in Rz. unfold Rounds in Rz.
      rewrite rnd_format in Rz by (rewrite <- Ez; exact G). rewrite Rlt_bool_true in Rz; [exact Rz|]. rewrite <- Ez. apply abs_B2R_lt_emax.
  Qed.

  (** A linear lookup: the entries on both sides, and a fraction. *)
  Lemma linear_cell (a : array fl) n p ch : wellFormed1D a -> hd_error (a_dims a) = Some n -> (Z.of_nat n <= 2 ^ 53)%Z -> (ch < 3)%nat ->
    is_finite p = true -> Rabs (B2R p) <= bpow radix2 126 ->
    exists i t : fl, is_finite i = true /\ B2R i = rd (B2R p * IZR (Z.of_nat n - 1)) /\ is_finite t = true /\ 0 <= B2R t <= 1 /\
      lookup1DLinear a p ch = Ok (lerp t (entry1D a (clampZ n (Zfloor (B2R i))) ch) (entry1D a (clampZ n (Zceil (B2R i))) ch)).
  Proof.
    intros Hw Hnn Hm Hch Fp Bp. pose proof Hw as [d0 [d1 [rest [Hd [H0 _]]]]]. assert (Hn' := Hnn). rewrite Hd in Hn'. injection Hn' as ->.
    destruct (ofZ_exact L (Z.of_nat n - 1)) as [Fm Em]; [lia|].
    set (i := nmul p (nofZ (Z.of_nat n - 1)) : fl).
    assert (Ri : Rounds i (B2R p * IZR (Z.of_nat n - 1))) by (rewrite <- Em; apply mult_Rounds; assumption).
    destruct (at_most i _ 179 Ri) as (Fi & Ei & _); [|lia|lia|].
    { rewrite Rabs_mult. change 179%Z with (126 + 53)%Z. rewrite bpow_plus. apply Rmult_le_compat; try apply Rabs_pos; [exact Bp|].
      rewrite <- abs_IZR. change (bpow radix2 53) with (IZR (2 ^ 53)). apply IZR_le. lia. }
    destruct (floor_exact i Fi) as [Fl El].
    pose proof (Zfloor_lb (B2R i)) as F0. pose proof (Zfloor_ub (B2R i)) as F1.
    destruct (unit_minus i (nofZ (Zfloor (B2R i))) Fi Fl) as [Ft Et]; [rewrite El; lra|].
    exists i, (nsub i (nofZ (Zfloor (B2R i)))). split; [exact Fi|]. split; [exact Ei|]. split; [exact Ft|].
    split; [rewrite Et; apply rd_unit_near; rewrite El; lra|].
    unfold lookup1DLinear, dim. rewrite Hd. cbn [getn nth_error bind]. cbv zeta. fold i.
    assert (Ni : (nisnan i || nisinf i)%bool = false) by (clearbody i; destruct i; try discriminate; reflexivity). rewrite Ni.
    assert (Elo : nfloor i = Zfloor (B2R i)) by (now apply flFloor_R).
    assert (Ehi : nceil i = Zceil (B2R i)) by (cbn [nceil ieeeNum]; unfold Zceil; rewrite flFloor_R by (now rewrite is_finite_Bopp); now rewrite B2R_Bopp).
    rewrite Elo, Ehi. rewrite !(lookup1D_clamped a n) by assumption. reflexivity.
  Qed.
  Lemma position_size d (x : fl) : is_finite x = true -> Rabs (B2R x) <= bpow radix2 126 ->
    is_finite (nf32 (bitDepthToNormalized x d)) = true /\ Rabs (B2R (nf32 (bitDepthToNormalized x d))) <= bpow radix2 126 /\
    (B2R x <= 0 -> B2R (nf32 (bitDepthToNormalized x d)) <= 0) /\ (fullScale d <= B2R x -> 1 <= B2R (nf32 (bitDepthToNormalized x d))).
  Proof.
    intros Fx Bx. pose proof (fullScale_pos d) as P. destruct (scale_cases L d x) as (z & E & Hz & _).
    assert (Pz : 1 <= fullScale d) by (rewrite E; apply IZR_le; lia).
    assert (Bd : Rabs (B2R x / fullScale d) <= bpow radix2 126).
    { unfold Rdiv. rewrite Rabs_mult, (Rabs_pos_eq (/ fullScale d)) by (left; apply Rinv_0_lt_compat; lra).
      apply Rle_trans with (2 := Bx). rewrite <- (Rmult_1_r (Rabs (B2R x))) at 2. apply Rmult_le_compat_l; [apply Rabs_pos|]. rewrite <- Rinv_1. apply Rinv_le; lra. }
    destruct (normalized_stored L d x Fx Bd) as [[Fp _] Rp]. change (is_finite (nf32 (bitDepthToNormalized x d)) = true) in Fp.
    change (B2R (nf32 (bitDepthToNormalized x d)) = rs (rd (B2R x / fullScale d))) in Rp. rewrite Rp. split; [exact Fp|]. split; [|split; intro H].
    - apply abs_round_le_generic; [apply fexp_valid|apply valid_rnd_N|apply generic_format_bpow; unfold SpecFloat.fexp, SpecFloat.emin; lia|].
      apply abs_round_le_generic; [apply fexp_valid|apply valid_rnd_N|apply generic_format_bpow; unfold SpecFloat.fexp, SpecFloat.emin; lia|exact Bd].
    - apply rnd_order; [lia|]. apply rnd_order; [lia|]. unfold Rdiv. pose proof (Rinv_0_lt_compat _ P). nra.
    - apply rnd_order; [lia|]. apply rnd_order; [lia|]. apply Rmult_le_reg_r with (fullScale d); [lra|]. unfold Rdiv. rewrite Rmult_assoc, Rinv_l by lra. lra.
  Qed.

  Theorem lut1d_bounds c (h : header fl) dIn a n :
    isLinearLUT h dIn a n -> (Z.of_nat n <= 2 ^ 53)%Z ->
    exists f, actsPerChannel c (Node h BLUT1D) f /\
      forall ch x, (ch < 3)%nat -> is_finite x = true -> Rabs (B2R x) <= bpow radix2 126 ->
        (forall lo hi, isSingle lo -> isSingle hi -> (forall k, (k < n)%nat -> liesBetween lo hi (entry1D a k ch)) -> liesBetween lo hi (f ch x)) /\
        (B2R x <= 0 -> isSingle (entry1D a 0 ch) -> sameNumber (entry1D a 0 ch) (f ch x)) /\
        (fullScale dIn <= B2R x -> isSingle (entry1D a (n - 1) ch) -> sameNumber (entry1D a (n - 1) ch) (f ch x)).
  Proof.
    intros H Hm. exists (linFun L a dIn). split; [now apply (linear_acts L c h dIn a n)|].
    destruct H as [Hi [[d Ho] [Hc [Hf [Him [Ha [Hw Hnn]]]]]]]. intros ch x Hch Fx Bx.
    destruct (position_size dIn x Fx Bx) as (Fp & Bp & P0 & P1).
    destruct (linear_cell a n _ ch Hw Hnn Hm Hch Fp Bp) as (i & t & Fi & Ei & Ft & Ht & E).
    change (linFun L a dIn ch x) with (nf32 (match lookup1DLinear a (nf32 (bitDepthToNormalized x dIn)) ch with Ok y => y | Err _ => n0 end)). rewrite E.
    assert (N1 : (1 <= n)%nat) by (destruct Hw as [d0 [d1 [rest [Hd [H0 _]]]]]; rewrite Hd in Hnn; injection Hnn as ->; exact H0).
    assert (Cl : forall z, (clampZ n z < n)%nat) by (intro z; now apply clampZ_lt).
    assert (Lerp : forall lo hi v1 v2, isSingle lo -> isSingle hi -> liesBetween lo hi v1 -> liesBetween lo hi v2 -> liesBetween lo hi (nf32 (lerp t v1 v2))).
    { intros lo hi v1 v2 Sl Sh H1 H2. apply (stored_between (0 + 22)); try assumption; [lra|].
      apply lerp_nearly; try assumption; [now apply single_sizes|lra|now apply between_nearly|now apply between_nearly]. }
    assert (End : forall v, isSingle v -> sameNumber v (nf32 (lerp t v v))).
    { intros v Sv. assert (Bv : liesBetween v v v) by (split; [apply Sv|lra]). destruct (Lerp v v v v Sv Sv Bv Bv) as [F B]. apply same_value; [apply Sv|exact F|lra]. }
    assert (M0 : 0 <= IZR (Z.of_nat n - 1)) by (apply IZR_le; lia).
    split; [|split].
    - intros lo hi Sl Sh Ht'. apply Lerp; try assumption; apply Ht', Cl.
    - intros Hx Sv. specialize (P0 Hx). assert (I0 : B2R i <= 0) by (rewrite Ei; apply rnd_order; [lia|]; nra).
      assert (Z1 : (Zceil (B2R i) <= 0)%Z) by (apply Zceil_glb; exact I0).
      assert (Z2 : (Zfloor (B2R i) <= 0)%Z) by (apply Zfloor_le in I0; rewrite (Zfloor_IZR 0) in I0; exact I0).
      rewrite !clampZ_low by assumption. now apply End.
    - intros Hx Sv. specialize (P1 Hx).
      destruct (ofZ_exact L (Z.of_nat n - 1)) as [Fm Em]; [lia|].
      assert (I1 : IZR (Z.of_nat n - 1) <= B2R i).
      { rewrite Ei, <- Em. rewrite <- (rnd_id (p := 53) (e := 1024) (nofZ (Z.of_nat n - 1))) at 1. apply rnd_le. rewrite Em. nra. }
      assert (Z1 : (Z.of_nat n - 1 <= Zfloor (B2R i))%Z) by (apply Zfloor_lub; exact I1).
      assert (Z2 : (Z.of_nat n - 1 <= Zceil (B2R i))%Z) by (apply Z.le_trans with (1 := Z1); apply le_IZR; eapply Rle_trans; [apply Zfloor_lb|apply Zceil_ub]).
      rewrite !clampZ_high by assumption. now apply End.
  Qed.

  Theorem lut3d_bounds c (h : header fl) tet dIn a n :
    isCube h (kindOf tet) dIn a n -> (2 <= n)%nat -> (Z.of_nat n <= 2 ^ 53)%Z ->
    exists F, actsPerColour c (Node h BLUT3D) F /\
      forall ch lo hi, (ch < 3)%nat -> isSingle lo -> isSingle hi ->
        (forall i j k, (i < n)%nat -> (j < n)%nat -> (k < n)%nat -> liesBetween lo hi (entry3D a n i j k ch)) ->
        forall r g b, is_finite r = true -> is_finite g = true -> is_finite b = true ->
          Rabs (B2R r) <= bpow radix2 126 -> Rabs (B2R g) <= bpow radix2 126 -> Rabs (B2R b) <= bpow radix2 126 ->
          liesBetween lo hi (component ch (F r g b)).
  Proof.
    intros H Hn Hm. exists (cubeFun L tet a dIn). split; [now apply (cube_acts L c h dIn a n)|].
    intros ch lo hi Hch Sl Sh He r g b Fr Fg Fb Br Bg Bb. destruct H as (_ & _ & _ & _ & Hw & _).
    assert (S : forall x : fl, Rabs (B2R x) <= bpow radix2 126 -> Rabs (B2R x / fullScale dIn) <= bpow radix2 126).
    { intros x Hx. destruct (scale_cases L dIn x) as (z & E & Hz & _). rewrite E. assert (P : 1 <= IZR z) by (apply IZR_le; lia).
      unfold Rdiv. rewrite Rabs_mult, (Rabs_pos_eq (/ IZR z)) by (left; apply Rinv_0_lt_compat; lra).
      apply Rle_trans with (2 := Hx). rewrite <- (Rmult_1_r (Rabs (B2R x))) at 2. apply Rmult_le_compat_l; [apply Rabs_pos|].
      rewrite <- Rinv_1. apply Rinv_le; lra. }
    set (p := fun x : fl => nf32 (bitDepthToNormalized x dIn)).
    destruct (axis_ieee L a n dIn [p r; p g; p b] 0 r Hw Hn Hm ltac:(lia) eq_refl Fr (S r Br)) as (zr & fr & Ar & Ffr & Bfr & _).
    destruct (axis_ieee L a n dIn [p r; p g; p b] 1 g Hw Hn Hm ltac:(lia) eq_refl Fg (S g Bg)) as (zg & fg & Ag & Ffg & Bfg & _).
    destruct (axis_ieee L a n dIn [p r; p g; p b] 2 b Hw Hn Hm ltac:(lia) eq_refl Fb (S b Bb)) as (zb & fb & Ab & Ffb & Bfb & _).
    assert (K : look tet a [p r; p g; p b] = Ok [interpT tet (gridT a n 0) zr zg zb fr fg fb; interpT tet (gridT a n 1) zr zg zb fr fg fb; interpT tet (gridT a n 2) zr zg zb fr fg fb])
      by exact (look_T tet a n _ _ _ _ _ _ _ Hw Ar Ag Ab).
    assert (EF : component ch (cubeFun L tet a dIn r g b) = nf32 (interpT tet (gridT a n ch) zr zg zb fr fg fb)).
    { change (cubeFun L tet a dIn r g b) with (match look tet a [p r; p g; p b] with Ok [x; y; z] => (nf32 x, nf32 y, nf32 z) | _ => (n0, n0, n0) end). rewrite K. destruct ch as [|[|[|ch]]]; try lia; reflexivity. }
    rewrite EF. apply (stored_between 66); try assumption; [lra|].
    apply interp_nearly; try assumption; [now apply single_sizes|]. intros i j k. apply between_nearly. unfold gridT. apply He; apply clampZ_lt; lia.
  Qed.
End Floats.
