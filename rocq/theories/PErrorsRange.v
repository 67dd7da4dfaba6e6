(** Rounding errors of a whole list: ranges. *)
From Coq Require Import Reals Lra Lia ZArith List String Psatz Arith.
From Flocq Require Import Core BinarySingleNaN.
From Verif Require Import SpecErrors SpecReadBack PBase PFacts PAct PChain PReal PIeee PIeeeArith PRound PClose PCloseLut PCloseRange PClose3D PErrors PRange.
Import ListNotations.
Local Open Scope string_scope.
Local Open Scope list_scope.
Local Open Scope R_scope.

(** * A Range with four limits in any arithmetic *)
Section AnyArithmetic.
  Context {T : Type} {N : Num T}.
  Definition rangeFour (dIn dOut : aval) (clamps : bool) (scale mi mo mao x : T) : T :=
    let y := nf32 (nsub (nadd (nmul (nf32 (bitDepthToNormalized x dIn)) scale) mo) (nmul mi scale)) in
    nf32 (normalizedToBitDepth (if clamps then nf32 (pymin mao (pymax mo y)) else y) dOut).
  Lemma range_four c (h : header T) dIn dOut clamps minIn maxIn minOut maxOut scale :
    fourLimits h dIn dOut clamps minIn maxIn minOut maxOut ->
    pyfdiv (nsub (ndiv maxOut (bitDepthSize dOut)) (ndiv minOut (bitDepthSize dOut))) (nsub (ndiv maxIn (bitDepthSize dIn)) (ndiv minIn (bitDepthSize dIn))) = Ok scale ->
    actsPerSample c (Node h BRange) (rangeFour dIn dOut clamps scale (ndiv minIn (bitDepthSize dIn)) (ndiv minOut (bitDepthSize dOut)) (ndiv maxOut (bitDepthSize dOut))).
  Proof.
    intros (H1 & H2 & H3 & H4 & H5 & H6 & H7) Div st values. cbn [nodeProcess]. rewrite rangeProcess_elem. unfold rangeFun, dgetE. rewrite H1, H2. cbn [bind].
    unfold rangeLimit. rewrite H4, H5, H6, H7. cbn [orDefault].
    replace (match dget (h_attrs h) "style" with Some v => aval_eqb v (AStr "clamp") | None => true end) with clamps.
    - set (mi := ndiv minIn _) in *. set (ma := ndiv maxIn _) in *. set (mo := ndiv minOut _) in *. set (mao := ndiv maxOut _) in *.
      assert (M : mapM (rangeElem dIn dOut clamps (Some mi) (Some ma) (Some mo) (Some mao)) values = Ok (map (rangeFour dIn dOut clamps scale mi mo mao) values)).
      { induction values as [|x t IH]; [reflexivity|]. cbn [mapM bind map]. rewrite IH. unfold rangeElem. rewrite Div. reflexivity. }
      rewrite M. reflexivity.
    - destruct (dget (h_attrs h) "style") as [v|]; [|apply H3; now left].
      destruct v as [s|b|]; cbn [aval_eqb].
      + destruct (String.eqb_spec s "clamp") as [->|N']; [apply H3; now right|]. destruct clamps; [|reflexivity]. destruct (proj1 H3 eq_refl) as [X|X]; congruence.
      + destruct clamps; [|reflexivity]. destruct (proj1 H3 eq_refl) as [X|X]; congruence.
      + destruct clamps; [|reflexivity]. destruct (proj1 H3 eq_refl) as [X|X]; congruence.
  Qed.
End AnyArithmetic.

(** * The real side *)
Lemma prod_error x y X Y : Rabs (x * y - X * Y) <= Rabs x * Rabs (y - Y) + Rabs (x - X) * Rabs Y.
Proof. replace (x * y - X * Y) with (x * (y - Y) + (x - X) * Y) by ring. eapply Rle_trans; [apply Rabs_triang|]. rewrite !Rabs_mult. lra. Qed.
Lemma abs_near x X d : Rabs (x - X) <= d -> Rabs x <= Rabs X + d.
Proof. intro H. replace x with ((x - X) + X) by ring. eapply Rle_trans; [apply Rabs_triang|]. lra. Qed.
Lemma quotient_error n d v w a b : 0 < w -> 0 <= v -> 0 <= a <= / 1000 -> 0 <= b -> Rabs (n - v) <= a * v + b -> Rabs (d - w) <= a * w ->
  0 < d /\ Rabs (n / d - v / w) <= 21 / 10 * a * (v / w) + 11 / 10 * (b / w).
Proof.
  intros Hw Hv Ha Hb Hn Hd. apply Rabs_le_inv in Hd. assert (AW : a * w <= / 1000 * w) by (apply Rmult_le_compat_r; lra).
  assert (D : 999 / 1000 * w <= d) by lra. assert (D0 : 0 < d) by lra. split; [exact D0|].
  assert (E : n / d - v / w = ((n - v) * w - v * (d - w)) / (d * w)) by (field; lra). rewrite E.
  unfold Rdiv at 1. assert (DW : 0 < d * w) by (now apply Rmult_lt_0_compat). rewrite Rabs_mult, Rabs_inv, (Rabs_pos_eq (d * w)) by lra.
  assert (Num : Rabs ((n - v) * w - v * (d - w)) <= (a * v + b) * w + v * (a * w)).
  { unfold Rminus at 1. eapply Rle_trans; [apply Rabs_triang|]. rewrite Rabs_Ropp, !Rabs_mult, (Rabs_pos_eq w), (Rabs_pos_eq v) by lra.
    apply Rplus_le_compat; [apply Rmult_le_compat_r; lra|]. apply Rmult_le_compat_l; [exact Hv|]. apply Rabs_le. lra. }
  apply Rmult_le_reg_r with (d * w); [exact DW|]. rewrite Rmult_assoc, Rinv_l, Rmult_1_r by lra.
  eapply Rle_trans; [exact Num|].
  replace ((21 / 10 * a * (v / w) + 11 / 10 * (b / w)) * (d * w)) with (21 / 10 * (a * v) * d + 11 / 10 * b * d) by (field; lra).
  assert (A0 : 0 <= a * v) by (apply Rmult_le_pos; lra). set (av := a * v) in *.
  replace ((av + b) * w + v * (a * w)) with (2 * (av * w) + b * w) by (unfold av; ring).
  assert (av * (999 / 1000 * w) <= av * d) by (now apply Rmult_le_compat_l). assert (b * (999 / 1000 * w) <= b * d) by (now apply Rmult_le_compat_l).
  assert (0 <= av * w) by (apply Rmult_le_pos; lra). assert (0 <= b * w) by (apply Rmult_le_pos; lra). lra.
Qed.

Section RangeStage.
  Variable L : libm.
  #[local] Hint Extern 0 (Num fl) => exact (ieeeNum L) : typeclass_instances.
  Local Notation u := (bpow radix2 (-53)).
  Local Notation s := (bpow radix2 (-1075)).

  Lemma size_scale d : exists z, (1 <= z < 65536)%Z /\ bitDepthSize d = (nofZ z : fl) /\ fullScale d = IZR z.
  Proof.
    destruct d as [t|b|]; try (exists 1%Z; repeat split; lia). unfold bitDepthSize, n1, aval_eqb.
    destruct (String.eqb_spec t "8i") as [->|N1]; [exists 255%Z; repeat split; lia|].
    destruct (String.eqb_spec t "10i") as [->|N2]; [exists 1023%Z; repeat split; lia|].
    destruct (String.eqb_spec t "12i") as [->|N3]; [exists 4095%Z; repeat split; lia|].
    destruct (String.eqb_spec t "16i") as [->|N4]; [exists 65535%Z; repeat split; lia|].
    exists 1%Z. repeat split; try lia. apply fullScale_other; now apply String.eqb_neq.
  Qed.
  Lemma scale_bounds d : 1 <= fullScale d <= 65535.
  Proof. destruct (size_scale d) as (z & Hz & _ & ->). split; apply IZR_le; lia. Qed.

  Lemma limit_near d (v : fl) : moderate v ->
    is_finite (ndiv v (bitDepthSize d)) = true /\ Rabs (B2R (ndiv v (bitDepthSize d)) - B2R v / fullScale d) <= u * Rabs (B2R v / fullScale d) + s /\
    Rabs (B2R v / fullScale d) <= 16777216.
  Proof.
    intros [F B]. destruct (size_scale d) as (z & Hz & E & Es). rewrite E, Es. destruct (ofZ_exact L z) as [Fz Ez]; [lia|].
    assert (P : 1 <= IZR z) by (apply IZR_le; lia).
    assert (H : Rounds (ndiv v (nofZ z)) (B2R v / IZR z)) by (rewrite <- Ez; apply div_Rounds; [exact F|exact Fz|rewrite Ez; lra]).
    assert (Bq : Rabs (B2R v / IZR z) <= 16777216).
    { unfold Rdiv. rewrite Rabs_mult, Rabs_inv, (Rabs_pos_eq (IZR z)) by lra. pose proof (Rabs_pos (B2R v)).
      apply Rmult_le_reg_r with (IZR z); [lra|]. rewrite Rmult_assoc, Rinv_l by lra. nra. }
    destruct (nearW _ _ H) as [F1 E1]; [eapply Rle_trans; [exact Bq|]; change 16777216 with (bpow radix2 24); apply bpow_le; lia|]. auto.
  Qed.

  Lemma tiny_facts : 0 < u <= / 1000000000000000 /\ 0 < s <= u * bpow radix2 (-1000) /\ bpow radix2 (-32) = 2097152 * u /\ bpow radix2 (-23) = 1073741824 * u.
  Proof.
    split; [split; [apply bpow_gt_0|]|].
    - change u with (/ 9007199254740992). apply Rinv_le; lra.
    - split; [split; [apply bpow_gt_0|rewrite <- bpow_plus; apply bpow_le; lia]|]. split; [exact (bpow_plus radix2 21 (-53))|exact (bpow_plus radix2 30 (-53))].
  Qed.

  (** The difference of two limits. *)
  Lemma diff_near (x y : fl) X Y : is_finite x = true -> is_finite y = true -> Rabs (B2R x - X) <= u * Rabs X + s -> Rabs (B2R y - Y) <= u * Rabs Y + s ->
    Rabs X <= 16777216 -> Rabs Y <= 16777216 -> Rabs X + Rabs Y <= 1048576 * (Y - X) ->
    is_finite (nsub y x) = true /\ Rabs (B2R (nsub y x) - (Y - X)) <= bpow radix2 (-32) * (Y - X) + 4 * s.
  Proof.
    intros Fx Fy Ex Ey Bx By Hw. destruct tiny_facts as ((U0 & U1) & (S0 & S1) & E32 & _).
    assert (K : bpow radix2 (-1000) <= 1) by (change 1 with (bpow radix2 0); apply bpow_le; lia).
    assert (S2 : s <= / 1000000000000000) by (apply Rle_trans with (1 := S1); rewrite <- (Rmult_1_r (/ _)); apply Rmult_le_compat; try lra; apply bpow_ge_0).
    assert (V : 0 <= Y - X) by (pose proof (Rabs_pos X); pose proof (Rabs_pos Y); lra).
    assert (D : Rabs ((B2R y - B2R x) - (Y - X)) <= u * (Rabs X + Rabs Y) + 2 * s).
    { replace ((B2R y - B2R x) - (Y - X)) with ((B2R y - Y) - (B2R x - X)) by ring. unfold Rminus at 1. eapply Rle_trans; [apply Rabs_triang|]. rewrite Rabs_Ropp. lra. }
    assert (U2 : u * (Rabs X + Rabs Y) <= u * (1048576 * (Y - X))) by (apply Rmult_le_compat_l; lra).
    assert (B : Rabs (B2R y - B2R x) <= (Y - X) + (u * (1048576 * (Y - X)) + 2 * s)).
    { eapply Rle_trans; [apply abs_near, D|]. rewrite (Rabs_pos_eq (Y - X)) by exact V. lra. }
    assert (VB : Y - X <= 33554432) by (apply Rabs_le_inv in Bx; apply Rabs_le_inv in By; lra).
    assert (UV : 0 <= u * (Y - X) <= / 1000000000000000 * (Y - X)) by (split; [apply Rmult_le_pos; lra|apply Rmult_le_compat_r; lra]).
    destruct (nearW _ _ (PHalf.minus_Rounds L y x Fy Fx)) as [F E].
    { apply Rle_trans with (bpow radix2 26); [change (bpow radix2 26) with 67108864; lra|apply bpow_le; lia]. }
    split; [exact F|].
    replace (B2R (nsub y x) - (Y - X)) with ((B2R (nsub y x) - (B2R y - B2R x)) + ((B2R y - B2R x) - (Y - X))) by ring.
    eapply Rle_trans; [apply Rabs_triang|].
    assert (Q : u * Rabs (B2R y - B2R x) <= u * ((Y - X) + (u * (1048576 * (Y - X)) + 2 * s))) by (apply Rmult_le_compat_l; lra).
    assert (US : u * s <= / 1000000000000000 * s) by (apply Rmult_le_compat_r; lra).
    assert (UU : u * (u * (Y - X)) <= / 1000000000000000 * (u * (Y - X))) by (apply Rmult_le_compat_r; lra).
    rewrite E32. set (uv := u * (Y - X)) in *.
    replace (u * (Y - X + (u * (1048576 * (Y - X)) + 2 * s))) with (uv + 1048576 * (u * uv) + 2 * (u * s)) in Q by (unfold uv; ring).
    replace (u * (1048576 * (Y - X))) with (1048576 * uv) in U2 by (unfold uv; ring). 
    replace (2097152 * u * (Y - X)) with (2097152 * uv) by (unfold uv; ring). lra.
  Qed.

  (** The constants used below. *)
  Local Notation e := (bpow radix2 (-23)).
  Local Notation t := (bpow radix2 (-149)).
  Local Notation tau := (bpow radix2 (-1000)).
  Local Notation eta := (bpow radix2 (-29)).
  Lemma steps_facts : 0 < u <= e / 1000000 /\ 0 < e <= / 1000000 /\ eta = e / 64 /\ 0 < s <= t / 1000000 /\ 0 < t <= / 1000000 /\ 0 < tau <= t / 1000000 /\ bpow radix2 126 * tau <= t / 1000000.
  Proof.
    assert (M : bpow radix2 (-20) <= / 1000000) by (change (bpow radix2 (-20)) with (/ 1048576); apply Rinv_le; lra).
    assert (Q : forall a b, (a <= b - 20)%Z -> bpow radix2 a <= bpow radix2 b / 1000000).
    { intros a b H. apply Rle_trans with (bpow radix2 (b + -20)); [apply bpow_le; lia|]. rewrite bpow_plus. unfold Rdiv. apply Rmult_le_compat_l; [apply bpow_ge_0|exact M]. }
    split; [split; [apply bpow_gt_0|apply Q; lia]|]. split; [split; [apply bpow_gt_0|eapply Rle_trans; [|exact M]; apply bpow_le; lia]|].
    split; [exact (bpow_plus radix2 (-23) (-6))|]. split; [split; [apply bpow_gt_0|apply Q; lia]|].
    split; [split; [apply bpow_gt_0|eapply Rle_trans; [|exact M]; apply bpow_le; lia]|]. split; [split; [apply bpow_gt_0|apply Q; lia]|].
    rewrite <- bpow_plus. apply Q. lia.
  Qed.

  Lemma round_near (z : fl) r W M ew : Rounds z r -> Rabs W <= M -> Rabs (r - W) <= ew -> M <= bpow radix2 126 -> ew <= bpow radix2 126 ->
    is_finite z = true /\ Rabs (B2R z - W) <= 1001 / 1000 * ew + e / 1000 * M + t / 1000.
  Proof.
    intros H HW Hr HM He. destruct steps_facts as (U & E & _ & S & T & _).
    assert (Br : Rabs r <= M + ew) by (pose proof (abs_near r W ew Hr); lra).
    assert (G : bpow radix2 127 = 2 * bpow radix2 126) by exact (bpow_plus radix2 1 126).
    destruct (nearW z r H) as [F C]; [apply Rle_trans with (bpow radix2 127); [lra|apply bpow_le; lia]|]. split; [exact F|].
    replace (B2R z - W) with ((B2R z - r) + (r - W)) by ring. eapply Rle_trans; [apply Rabs_triang|].
    pose proof (Rabs_pos W). pose proof (Rabs_pos (r - W)).
    assert (u * Rabs r <= u * (M + ew)) by (apply Rmult_le_compat_l; lra).
    assert (u * M <= e / 1000000 * M) by (apply Rmult_le_compat_r; lra). assert (u * ew <= e / 1000000 * ew) by (apply Rmult_le_compat_r; lra).
    assert (e / 1000000 * ew <= / 1000000 / 1000000 * ew) by (apply Rmult_le_compat_r; lra).
    assert (0 <= e * M) by (apply Rmult_le_pos; lra). rewrite Rmult_plus_distr_l in *. lra.
  Qed.

  Lemma store_near (w : fl) W M ew : is_finite w = true -> Rabs W <= M -> Rabs (B2R w - W) <= ew -> M <= bpow radix2 125 -> ew <= bpow radix2 125 ->
    is_finite (nf32 w) = true /\ Rabs (B2R (nf32 w) - W) <= 1001 / 1000 * ew + e * M + t.
  Proof.
    intros F HW Hr HM He. destruct steps_facts as (U & E & _ & S & T & _).
    assert (Br : Rabs (B2R w) <= M + ew) by (pose proof (abs_near (B2R w) W ew Hr); lra).
    assert (G : bpow radix2 126 = 2 * bpow radix2 125) by exact (bpow_plus radix2 1 125).
    destruct (near_stored w (B2R w) F (self_near w F)) as [F1 C]; [lra|]. split; [exact F1|]. change (f64 (f32of w)) with (nf32 w) in C.
    replace (B2R (nf32 w) - W) with ((B2R (nf32 w) - B2R w) + (B2R w - W)) by ring. eapply Rle_trans; [apply Rabs_triang|].
    pose proof (Rabs_pos (B2R w - W)).
    assert (e * Rabs (B2R w) <= e * (M + ew)) by (apply Rmult_le_compat_l; lra). assert (e * ew <= / 1000000 * ew) by (apply Rmult_le_compat_r; lra).
    rewrite Rmult_plus_distr_l in *. lra.
  Qed.

  (** A number times the scale of the range. *)
  Lemma scaled_near (x sc : fl) X A C al be : is_finite x = true -> is_finite sc = true -> Rabs X <= A -> 0 <= C -> C <= bpow radix2 60 -> A <= bpow radix2 126 -> A * C <= bpow radix2 125 ->
    0 <= al <= e -> 0 <= be <= t -> Rabs (B2R x - X) <= al * A + be -> Rabs (B2R sc - C) <= eta * C + tau ->
    is_finite (nmul x sc) = true /\ Rabs (B2R (nmul x sc) - X * C) <= (al + e / 40) * (A * C) + 102 / 100 * (be * C) + 2 / 100 * t.
  Proof.
    intros Fx Fs HX HC C60 A126 AC126 Hal Hbe Hx Hs. destruct steps_facts as (U & E & Eeta & S & T & Ta & At).
    pose proof (Rabs_pos X) as PX. assert (A0 : 0 <= A) by lra.
    set (ex := al * A + be) in *. set (ey := eta * C + tau) in *.
    assert (D : Rabs (B2R x * B2R sc - X * C) <= (A + ex) * ey + ex * C).
    { eapply Rle_trans; [apply prod_error|]. pose proof (abs_near _ _ _ Hx). pose proof (Rabs_pos (B2R x)). pose proof (Rabs_pos (B2R sc - C)). rewrite (Rabs_pos_eq C) by exact HC.
      apply Rplus_le_compat; [apply Rmult_le_compat; lra|apply Rmult_le_compat_r; lra]. }
    assert (AC0 : 0 <= A * C) by (apply Rmult_le_pos; lra).
    assert (D2 : (A + ex) * ey + ex * C <= (al + e / 50) * (A * C) + 101 / 100 * (be * C) + 1 / 100 * t).
    { assert (Ap : A * tau <= t / 1000000).
      { eapply Rle_trans; [|exact At]. apply Rmult_le_compat_r; lra. }
      assert (alA : al * (e * (A * C)) <= e * (e * (A * C))) by (apply Rmult_le_compat_r; [apply Rmult_le_pos; lra|lra]).
      assert (eeA : e * (e * (A * C)) <= / 1000000 * (e * (A * C))) by (apply Rmult_le_compat_r; [apply Rmult_le_pos; lra|lra]).
      assert (alAt : al * (A * tau) <= e * (A * tau)) by (apply Rmult_le_compat_r; [apply Rmult_le_pos; lra|lra]).
      assert (eAt : e * (A * tau) <= / 1000000 * (A * tau)) by (apply Rmult_le_compat_r; [apply Rmult_le_pos; lra|lra]).
      assert (bC : 0 <= be * C) by (apply Rmult_le_pos; lra).
      assert (beC : e * (be * C) <= / 1000000 * (be * C)) by (apply Rmult_le_compat_r; lra).
      assert (bt : be * tau <= t * (t / 1000000)) by (apply Rmult_le_compat; lra).
      assert (tt : t * (t / 1000000) <= / 1000000 * (t / 1000000)) by (apply Rmult_le_compat_r; lra).
      assert (At0 : 0 <= A * tau) by (apply Rmult_le_pos; lra).
      assert (eAC : 0 <= e * (A * C)) by (apply Rmult_le_pos; lra).
      unfold ex, ey. rewrite Eeta.
      replace ((A + (al * A + be)) * (e / 64 * C + tau) + (al * A + be) * C)
        with (e * (A * C) / 64 + A * tau + al * (e * (A * C)) / 64 + al * (A * tau) + e * (be * C) / 64 + be * tau + al * (A * C) + be * C) by (field).
      replace ((al + e / 50) * (A * C)) with (al * (A * C) + e * (A * C) / 50) by (field). lra. }
    assert (AX : Rabs (X * C) <= A * C) by (rewrite Rabs_mult, (Rabs_pos_eq C) by exact HC; now apply Rmult_le_compat_r).
    assert (R1 : Rounds (nmul x sc) (B2R x * B2R sc)) by (apply mult_Rounds; assumption).
    assert (bC : be * C <= t * bpow radix2 60) by (apply Rmult_le_compat; lra).
    assert (tC : t * bpow radix2 60 = bpow radix2 (-89)) by exact (eq_sym (bpow_plus radix2 (-149) 60)).
    assert (b89 : bpow radix2 (-89) <= bpow radix2 100) by (apply bpow_le; lia). assert (b0 : 1 <= bpow radix2 100) by (change 1 with (bpow radix2 0); apply bpow_le; lia).
    assert (b125 : bpow radix2 100 <= bpow radix2 125 / 1000).
    { apply Rle_trans with (bpow radix2 125 * bpow radix2 (-10)); [rewrite <- bpow_plus; apply bpow_le; lia|]. unfold Rdiv. apply Rmult_le_compat_l; [apply bpow_ge_0|]. change (bpow radix2 (-10)) with (/ 1024). apply Rinv_le; lra. }
    assert (alC : (al + e / 50) * (A * C) <= / 1000 * bpow radix2 125) by (apply Rmult_le_compat; lra).
    assert (G : bpow radix2 126 = 2 * bpow radix2 125) by exact (bpow_plus radix2 1 125).
    destruct (round_near _ _ (X * C) (A * C) ((al + e / 50) * (A * C) + 101 / 100 * (be * C) + 1 / 100 * t) R1 AX) as [F N]; [lra|lra|lra|].
    split; [exact F|]. eapply Rle_trans; [exact N|].
    assert (alC2 : al * (A * C) <= e * (A * C)) by (apply Rmult_le_compat_r; lra). assert (bC0 : 0 <= be * C) by (apply Rmult_le_pos; lra).
    assert (eAC : 0 <= e * (A * C)) by (apply Rmult_le_pos; lra).
    replace ((al + e / 50) * (A * C)) with (al * (A * C) + e * (A * C) / 50) by field. replace ((al + e / 40) * (A * C)) with (al * (A * C) + e * (A * C) / 40) by field. lra.
  Qed.

  (** The scale itself. *)
  Lemma scale_near (num den : fl) v w : is_finite num = true -> is_finite den = true -> bpow radix2 (-27) <= w -> 0 <= v <= bpow radix2 26 ->
    Rabs (B2R num - v) <= bpow radix2 (-32) * v + 4 * s -> Rabs (B2R den - w) <= bpow radix2 (-32) * w + 4 * s ->
    0 < B2R den /\ is_finite (ndiv num den) = true /\ Rabs (B2R (ndiv num den) - v / w) <= eta * (v / w) + tau.
  Proof.
    intros Fn Fd Hw Hv Hn Hd. pose proof (bpow_gt_0 radix2 (-27)) as P27. pose proof (bpow_gt_0 radix2 (-32)) as P32. pose proof (bpow_gt_0 radix2 (-1075)) as Ps.
    assert (E31 : bpow radix2 (-31) = 2 * bpow radix2 (-32)) by exact (bpow_plus radix2 1 (-32)).
    assert (S4 : 4 * s <= bpow radix2 (-32) * w).
    { apply Rle_trans with (bpow radix2 (-32) * bpow radix2 (-27)); [|apply Rmult_le_compat_l; lra]. rewrite <- bpow_plus.
      change 4 with (bpow radix2 2). rewrite <- bpow_plus. apply bpow_le. lia. }
    assert (V0 : 0 <= bpow radix2 (-32) * v) by (apply Rmult_le_pos; lra).
    destruct (quotient_error (B2R num) (B2R den) v w (bpow radix2 (-31)) (4 * s)) as [D0 Q]; [lra|lra| |lra| | |].
    { split; [apply bpow_ge_0|]. change (bpow radix2 (-31)) with (/ 2147483648). apply Rinv_le; lra. }
    { rewrite E31. lra. } { rewrite E31. lra. }
    split; [exact D0|].
    assert (K0 : 0 <= v / w <= bpow radix2 53).
    { split; [apply div_nonneg; lra|]. apply Rmult_le_reg_r with w; [lra|]. unfold Rdiv. rewrite Rmult_assoc, Rinv_l, Rmult_1_r by lra.
      apply Rle_trans with (bpow radix2 53 * bpow radix2 (-27)); [rewrite <- bpow_plus; apply Hv|]. apply Rmult_le_compat_l; [apply bpow_ge_0|exact Hw]. }
    assert (Sw : 4 * s / w <= bpow radix2 (-1046)).
    { apply Rmult_le_reg_r with w; [lra|]. unfold Rdiv. rewrite Rmult_assoc, Rinv_l, Rmult_1_r by lra. change 4 with (bpow radix2 2). rewrite <- bpow_plus.
      apply Rle_trans with (bpow radix2 (-1046) * bpow radix2 (-27)); [rewrite <- bpow_plus; apply bpow_le; lia|apply Rmult_le_compat_l; [apply bpow_ge_0|exact Hw]]. }
    set (k := v / w) in *. set (q := B2R num / B2R den) in *.
    assert (G1 : bpow radix2 (-1046) <= tau / 1000000).
    { apply Rle_trans with (tau * bpow radix2 (-20)); [rewrite <- bpow_plus; apply bpow_le; lia|]. unfold Rdiv. apply Rmult_le_compat_l; [apply bpow_ge_0|]. change (bpow radix2 (-20)) with (/ 1048576). apply Rinv_le; lra. }
    assert (G2 : s <= bpow radix2 (-1046)) by (apply bpow_le; lia).
    assert (E29 : eta = 4 * bpow radix2 (-31)) by exact (bpow_plus radix2 2 (-31)).
    assert (EU : bpow radix2 (-31) = 4194304 * u) by exact (bpow_plus radix2 22 (-53)). pose proof (bpow_gt_0 radix2 (-53)) as U0. destruct tiny_facts as ((_ & U1) & _).
    assert (Qb : Rabs q <= k + (21 / 10 * bpow radix2 (-31) * k + 11 / 10 * bpow radix2 (-1046))).
    { pose proof (abs_near q k _ Q) as Z. rewrite (Rabs_pos_eq k) in Z by lra. lra. }
    pose proof (bpow_gt_0 radix2 (-1000)) as T0.
    assert (T1 : tau <= 1) by (change 1 with (bpow radix2 0); apply bpow_le; lia).
    assert (UK : 0 <= u * k) by (apply Rmult_le_pos; lra).
    assert (uuk : u * (u * k) <= / 1000000000000000 * (u * k)) by (apply Rmult_le_compat_r; lra).
    assert (H : Rounds (ndiv num den) q) by (apply div_Rounds; [exact Fn|exact Fd|lra]).
    assert (B54 : bpow radix2 54 = 2 * bpow radix2 53) by exact (bpow_plus radix2 1 53). assert (B53 : 1 <= bpow radix2 53) by (change 1 with (bpow radix2 0); apply bpow_le; lia).
    assert (uk2 : u * k <= / 1000000000000000 * k) by (apply Rmult_le_compat_r; lra).
    rewrite EU in Qb, Q. 
    replace (21 / 10 * (4194304 * u) * k) with (21 / 10 * 4194304 * (u * k)) in Qb, Q by ring.
    assert (B2q : Rabs q <= bpow radix2 55) by (assert (bpow radix2 55 = 4 * bpow radix2 53) by exact (bpow_plus radix2 2 53); lra).
    destruct (nearW _ _ H) as [F C]; [eapply Rle_trans; [exact B2q|apply bpow_le; lia]|]. split; [exact F|].
    set (z := ndiv num den) in *. replace (B2R z - k) with ((B2R z - q) + (q - k)) by ring. eapply Rle_trans; [apply Rabs_triang|].
    assert (uq : u * Rabs q <= u * (k + (21 / 10 * 4194304 * (u * k) + 11 / 10 * bpow radix2 (-1046)))) by (apply Rmult_le_compat_l; lra).
    replace (u * (k + (21 / 10 * 4194304 * (u * k) + 11 / 10 * bpow radix2 (-1046)))) with (u * k + 21 / 10 * 4194304 * (u * (u * k)) + 11 / 10 * (u * bpow radix2 (-1046))) in uq by ring.
    assert (us : u * bpow radix2 (-1046) <= / 1000000000000000 * bpow radix2 (-1046)) by (apply Rmult_le_compat_r; [apply bpow_ge_0|lra]).
    rewrite E29, EU. replace (4 * (4194304 * u) * k) with (4 * 4194304 * (u * k)) by ring. lra.
  Qed.

  (** Python's min and max. *)
  Lemma max_near (x y : fl) X Y d : is_finite x = true -> is_finite y = true -> Rabs (B2R x - X) <= d -> Rabs (B2R y - Y) <= d ->
    is_finite (pymax x y) = true /\ Rabs (B2R (pymax x y) - Rmax X Y) <= d.
  Proof.
    intros Fx Fy Hx Hy. apply Rabs_le_inv in Hx. apply Rabs_le_inv in Hy. unfold pymax. change (nltb x y) with (Bltb x y). rewrite Bltb_correct by assumption.
    unfold Rmax. destruct (Rlt_bool_spec (B2R x) (B2R y)); (split; [assumption|]); destruct (Rle_dec X Y); apply Rabs_le; lra.
  Qed.
  Lemma min_near (x y : fl) X Y d : is_finite x = true -> is_finite y = true -> Rabs (B2R x - X) <= d -> Rabs (B2R y - Y) <= d ->
    is_finite (pymin x y) = true /\ Rabs (B2R (pymin x y) - Rmin X Y) <= d.
  Proof.
    intros Fx Fy Hx Hy. apply Rabs_le_inv in Hx. apply Rabs_le_inv in Hy. unfold pymin. change (nltb y x) with (Bltb y x). rewrite Bltb_correct by assumption.
    unfold Rmin. destruct (Rlt_bool_spec (B2R y) (B2R x)); (split; [assumption|]); destruct (Rle_dec X Y); apply Rabs_le; lra.
  Qed.

  Definition rangeR (clamps : bool) (k a o q P : R) : R := let y := P * k + o - a * k in if clamps then Rmin q (Rmax o y) else y.
  Lemma rangeR_slope clamps k a o q P P' : 0 <= k -> Rabs (rangeR clamps k a o q P - rangeR clamps k a o q P') <= k * Rabs (P - P').
  Proof.
    intro Hk. unfold rangeR. set (y := P * k + o - a * k). set (y' := P' * k + o - a * k).
    assert (H : Rabs (y - y') <= k * Rabs (P - P')).
    { replace (y - y') with (k * (P - P')) by (unfold y, y'; ring). rewrite Rabs_mult, (Rabs_pos_eq k Hk). lra. }
    destruct clamps; [|exact H]. apply Rabs_le_inv in H.
    unfold Rmin, Rmax. destruct (Rle_dec o y), (Rle_dec o y'); repeat match goal with |- context [Rle_dec ?x ?z] => destruct (Rle_dec x z) end; apply Rabs_le; lra.
  Qed.
  Lemma rangeR_bound clamps k a o q P M : 0 <= k -> k * Rabs P + Rabs o + k * Rabs a + Rabs q <= M -> Rabs (rangeR clamps k a o q P) <= M /\ Rabs (P * k + o - a * k) <= M.
  Proof.
    intros Hk HM. pose proof (Rabs_pos P). pose proof (Rabs_pos a). pose proof (Rabs_pos o). pose proof (Rabs_pos q).
    assert (0 <= k * Rabs P) by (apply Rmult_le_pos; lra). assert (0 <= k * Rabs a) by (apply Rmult_le_pos; lra).
    assert (Y : Rabs (P * k + o - a * k) <= M).
    { unfold Rminus. eapply Rle_trans; [apply Rabs_triang|]. rewrite Rabs_Ropp. pose proof (Rabs_triang (P * k) o) as Z. rewrite !Rabs_mult, (Rabs_pos_eq k Hk) in *. lra. }
    split; [|exact Y]. unfold rangeR. destruct clamps; [|exact Y].
    assert (Rabs o <= M) by lra. assert (Rabs q <= M) by lra. unfold Rmin, Rmax. repeat match goal with |- context [Rle_dec ?x ?z] => destruct (Rle_dec x z) end; assumption.
  Qed.

  (** One sample. *)
  Lemma range_sample dIn dOut clamps (x sc mi mo mao : fl) k a o q M :
    let P := B2R x / fullScale dIn in
    is_finite x = true -> Rabs P <= bpow radix2 126 -> 0 <= k <= bpow radix2 60 -> k * Rabs P + Rabs o + k * Rabs a + Rabs q <= M -> M <= bpow radix2 101 ->
    is_finite sc = true -> is_finite mi = true -> is_finite mo = true -> is_finite mao = true ->
    Rabs (B2R sc - k) <= eta * k + tau -> Rabs (B2R mi - a) <= u * Rabs a + s -> Rabs (B2R mo - o) <= u * Rabs o + s -> Rabs (B2R mao - q) <= u * Rabs q + s ->
    Rabs a <= bpow radix2 126 ->
    let f := rangeFour dIn dOut clamps sc mi mo mao x in
    is_finite f = true /\ Rabs (B2R f - rangeR clamps k a o q P * fullScale dOut) <= (43 / 10 * (e * M) + 35 / 10 * (t * (1 + k))) * fullScale dOut.
  Proof.
    intros P Fx HP Hk HM M101 Fs Fi Fo Fq Hs Ha Ho Hq Ba f. destruct steps_facts as (U & E & Eeta & S & T & Ta & At).
    destruct (rangeR_bound clamps k a o q P M (proj1 Hk) HM) as [Bz By].
    pose proof (Rabs_pos P) as AP. pose proof (Rabs_pos a) as Aa. pose proof (Rabs_pos o) as Ao. pose proof (Rabs_pos q) as Aq.
    assert (kP : 0 <= Rabs P * k) by (apply Rmult_le_pos; lra). assert (ka : 0 <= Rabs a * k) by (apply Rmult_le_pos; lra).
    rewrite (Rmult_comm k (Rabs P)), (Rmult_comm k (Rabs a)) in HM.
    assert (G101 : bpow radix2 101 <= bpow radix2 125 / 1000).
    { apply Rle_trans with (bpow radix2 125 * bpow radix2 (-10)); [rewrite <- bpow_plus; apply bpow_le; lia|]. unfold Rdiv. apply Rmult_le_compat_l; [apply bpow_ge_0|]. change (bpow radix2 (-10)) with (/ 1024). apply Rinv_le; lra. }
    assert (G126 : bpow radix2 126 = 2 * bpow radix2 125) by exact (bpow_plus radix2 1 125).
    destruct (normalized_stored L dIn x Fx HP) as [[Fp Ep] _]. fold P in Ep. set (p := nf32 (bitDepthToNormalized x dIn)) in *.
    destruct (scaled_near p sc P (Rabs P) k e t Fp Fs ltac:(lra) ltac:(lra) ltac:(lra) HP ltac:(lra) ltac:(lra) ltac:(lra) Ep Hs) as [F1 E1].
    destruct (scaled_near mi sc a (Rabs a) k u s Fi Fs ltac:(lra) ltac:(lra) ltac:(lra) Ba ltac:(lra) ltac:(lra) ltac:(lra) Ha Hs) as [F2 E2].
    set (t1 := nmul p sc) in *. set (off := nmul mi sc) in *.
    assert (eM : 0 <= e * M <= / 1000000 * M) by (split; [apply Rmult_le_pos|apply Rmult_le_compat_r]; lra).
    assert (tk : 0 <= t * k) by (apply Rmult_le_pos; lra).
    assert (sk : s * k <= t / 1000000 * k) by (apply Rmult_le_compat_r; lra).
    assert (uo : u * Rabs o <= e / 1000000 * Rabs o) by (apply Rmult_le_compat_r; lra).
    assert (uq : u * Rabs q <= e / 1000000 * Rabs q) by (apply Rmult_le_compat_r; lra).
    assert (ua : u * (Rabs a * k) <= e / 1000000 * (Rabs a * k)) by (apply Rmult_le_compat_r; lra).
    assert (e1 : 0 <= e * (Rabs P * k)) by (apply Rmult_le_pos; lra). assert (e2 : 0 <= e * (Rabs a * k)) by (apply Rmult_le_pos; lra).
    assert (e3 : 0 <= e * Rabs o) by (apply Rmult_le_pos; lra). assert (e4 : 0 <= e * Rabs q) by (apply Rmult_le_pos; lra).
    assert (eS : e * (Rabs P * k) + e * Rabs o + e * (Rabs a * k) + e * Rabs q <= e * M).
    { apply Rle_trans with (e * (Rabs P * k + Rabs o + Rabs a * k + Rabs q)); [apply Req_le; ring|]. apply Rmult_le_compat_l; lra. }
    rewrite (Rmult_plus_distr_r e (e / 40)) in E1. rewrite (Rmult_plus_distr_r u (e / 40)) in E2.
    assert (tk60 : t * k <= bpow radix2 (-89)).
    { change (-89)%Z with (-149 + 60)%Z. rewrite bpow_plus. apply Rmult_le_compat_l; lra. }
    assert (b89 : bpow radix2 (-89) <= bpow radix2 101) by (apply bpow_le; lia).
    assert (b101 : 1 <= bpow radix2 101) by (change 1 with (bpow radix2 0); apply bpow_le; lia).
    (* t1 + mo *)
    assert (R2 : Rounds (nadd t1 mo) (B2R t1 + B2R mo)) by (apply plus_Rounds; assumption).
    assert (W2 : Rabs (P * k + o) <= M).
    { eapply Rle_trans; [apply Rabs_triang|]. rewrite Rabs_mult, (Rabs_pos_eq k) by lra. lra. }
    set (d2 := 103 / 100 * (e * (Rabs P * k)) + e / 1000000 * Rabs o + 103 / 100 * (t * k) + 3 / 100 * t).
    destruct (round_near _ _ (P * k + o) M d2 R2 W2) as [F3 E3].
    { replace (B2R t1 + B2R mo - (P * k + o)) with ((B2R t1 - P * k) + (B2R mo - o)) by ring. eapply Rle_trans; [apply Rabs_triang|]. unfold d2. lra. }
    { lra. } { unfold d2. lra. }
    set (t2 := nadd t1 mo) in *.
    assert (R3 : Rounds (nsub t2 off) (B2R t2 - B2R off)) by exact (PHalf.minus_Rounds L t2 off F3 F2).
    set (d3 := 105 / 100 * (e * M) + 106 / 100 * (t * k) + 6 / 100 * t).
    destruct (round_near _ _ (P * k + o - a * k) M d3 R3 By) as [F4 E4].
    { replace (B2R t2 - B2R off - (P * k + o - a * k)) with ((B2R t2 - (P * k + o)) - (B2R off - a * k)) by ring. unfold Rminus at 1. eapply Rle_trans; [apply Rabs_triang|]. rewrite Rabs_Ropp.
      unfold d2, d3 in *. lra. }
    { lra. } { unfold d3. lra. }
    set (t3 := nsub t2 off) in *.
    destruct (store_near t3 (P * k + o - a * k) M (106 / 100 * (e * M) + 107 / 100 * (t * k) + 7 / 100 * t) F4 By) as [F5 E5]; [unfold d3 in E4; lra|lra|lra|].
    set (y := nf32 t3) in *. set (dy := 207 / 100 * (e * M) + 108 / 100 * (t * k) + 108 / 100 * t).
    assert (E5' : Rabs (B2R y - (P * k + o - a * k)) <= dy) by (unfold dy; lra). clear E5.
    set (z := if clamps then nf32 (pymin mao (pymax mo y)) else y).
    set (dz := 308 / 100 * (e * M) + 110 / 100 * (t * k) + 210 / 100 * t).
    assert (Z : is_finite z = true /\ Rabs (B2R z - rangeR clamps k a o q P) <= dz).
    { unfold z. destruct clamps; [|split; [exact F5|unfold rangeR, dy, dz in *; lra]].
      destruct (max_near mo y o (P * k + o - a * k) dy Fo F5) as [F6 E6]; [unfold dy; lra|exact E5'|].
      destruct (min_near mao (pymax mo y) q (Rmax o (P * k + o - a * k)) dy Fq F6) as [F7 E7]; [unfold dy; lra|exact E6|].
      change (Rmin q (Rmax o (P * k + o - a * k))) with (rangeR true k a o q P) in E7.
      destruct (store_near _ _ M dy F7 Bz E7) as [F8 E8]; [lra|unfold dy; lra|]. split; [exact F8|]. unfold dy, dz in *. lra. }
    destruct Z as [Fz Ez]. change f with (nf32 (normalizedToBitDepth z dOut)). set (zr := rangeR clamps k a o q P) in *.
    destruct (scale_bounds dOut) as [o1 o2]. set (fo := fullScale dOut) in *.
    assert (Bzz : Rabs (B2R z) <= M + dz) by (pose proof (abs_near _ _ _ Ez); lra).
    assert (D0 : 0 <= dz) by (unfold dz; lra).
    assert (Bf : Rabs (B2R z * fo) <= (M + dz) * fo) by (rewrite Rabs_mult, (Rabs_pos_eq fo) by lra; apply Rmult_le_compat_r; lra).
    destruct (denormalized_stored L dOut z Fz) as [Ff Ef].
    { fold fo. eapply Rle_trans; [exact Bf|]. apply Rle_trans with (bpow radix2 103 * bpow radix2 16); [|rewrite <- bpow_plus; apply bpow_le; lia].
      assert (bpow radix2 103 = 4 * bpow radix2 101) by exact (bpow_plus radix2 2 101). change (bpow radix2 16) with 65536. apply Rmult_le_compat; try lra. unfold dz. lra. }
    fold fo in Ef. split; [exact Ff|].
    set (g := nf32 (normalizedToBitDepth z dOut)) in *. replace (B2R g - zr * fo) with ((B2R g - B2R z * fo) + (B2R z - zr) * fo) by ring.
    eapply Rle_trans; [apply Rabs_triang|]. rewrite (Rabs_mult (B2R z - zr)), (Rabs_pos_eq fo) by lra.
    assert (Q1 : Rabs (B2R z - zr) * fo <= dz * fo) by (apply Rmult_le_compat_r; lra).
    assert (Q2 : e * Rabs (B2R z * fo) <= e * ((M + dz) * fo)) by (apply Rmult_le_compat_l; lra).
    assert (Q3 : e * (dz * fo) <= / 1000000 * (dz * fo)) by (apply Rmult_le_compat_r; [apply Rmult_le_pos; lra|lra]).
    assert (Q4 : t <= t * fo) by (rewrite <- (Rmult_1_r t) at 1; apply Rmult_le_compat_l; lra).
    assert (Q5 : 0 <= e * M * fo) by (apply Rmult_le_pos; lra). assert (Q6 : 0 <= t * k * fo) by (apply Rmult_le_pos; lra).
    replace (e * ((M + dz) * fo)) with (e * M * fo + e * (dz * fo)) in Q2 by ring.
    replace (dz * fo) with (308 / 100 * (e * M * fo) + 110 / 100 * (t * k * fo) + 210 / 100 * (t * fo)) in * by (unfold dz; ring).
    replace ((43 / 10 * (e * M) + 35 / 10 * (t * (1 + k))) * fo) with (43 / 10 * (e * M * fo) + 35 / 10 * (t * fo) + 35 / 10 * (t * k * fo)) by ring. lra.
  Qed.

  Lemma exactVals_get vs key v : dget vs key = Some v -> dget (exactVals vs) key = Some (B2R v).
  Proof. unfold exactVals. induction vs as [|[k w] r IH]; [discriminate|]. cbn [dget map fst snd]. destruct (String.eqb key k); [now intros [= ->]|exact IH]. Qed.

  Theorem range_follows c (h : header fl) dIn dOut clamps minIn maxIn minOut maxOut B :
    fourLimits h dIn dOut clamps minIn maxIn minOut maxOut ->
    moderate minIn -> moderate maxIn -> moderate minOut -> moderate maxOut ->
    B2R minIn + / 1024 <= B2R maxIn -> wide minIn maxIn -> wide minOut maxOut ->
    let k := (B2R maxOut - B2R minOut) / (B2R maxIn - B2R minIn) in
    let S := k * (B + Rabs (B2R minIn)) + Rabs (B2R minOut) + Rabs (B2R maxOut) in
    B <= bpow radix2 125 -> S <= bpow radix2 100 ->
    let E := 5 * (bpow radix2 (-23) * S + bpow radix2 (-132) * (1 + k)) in
    follows c (Node h BRange) B k E (S + E).
  Proof.
    intros H Mmi Mma Mmo Mmao Hin Win Wout k S HB HS E.
    destruct steps_facts as (_ & (e0 & _) & _ & _ & (t0 & _) & _).
    destruct (limit_near dIn minIn Mmi) as (Fmi & Emi & Bmi). destruct (limit_near dIn maxIn Mma) as (Fma & Ema & Bma).
    destruct (limit_near dOut minOut Mmo) as (Fmo & Emo & Bmo). destruct (limit_near dOut maxOut Mmao) as (Fmao & Emao & Bmao).
    destruct (scale_bounds dIn) as [i1 i2]. destruct (scale_bounds dOut) as [o1 o2].
    pose proof (range_four (N := realNum) c (exactHeader h) dIn dOut clamps (B2R minIn) (B2R maxIn) (B2R minOut) (B2R maxOut)) as Ac'.
    assert (H' : fourLimits (exactHeader h) dIn dOut clamps (B2R minIn) (B2R maxIn) (B2R minOut) (B2R maxOut)).
    { destruct H as (H1 & H2 & H3 & H4 & H5 & H6 & H7). split; [exact H1|]. split; [exact H2|]. split; [exact H3|].
      split; [now apply exactVals_get|]. split; [now apply exactVals_get|]. split; now apply exactVals_get. }
    rewrite !bitDepthSize_R in Ac'.
    set (fi := fullScale dIn) in *. set (fo := fullScale dOut) in *.
    set (a := B2R minIn / fi) in *. set (b := B2R maxIn / fi) in *. set (o := B2R minOut / fo) in *. set (q := B2R maxOut / fo) in *.
    change (@ndiv R realNum (B2R minIn) fi) with a in Ac'. change (@ndiv R realNum (B2R maxIn) fi) with b in Ac'.
    change (@ndiv R realNum (B2R minOut) fo) with o in Ac'. change (@ndiv R realNum (B2R maxOut) fo) with q in Ac'.
    change (@nsub R realNum q o) with (q - o) in Ac'. change (@nsub R realNum b a) with (b - a) in Ac'.
    assert (Sc : forall f lo hi, 1 <= f -> Rabs lo + Rabs hi <= 1048576 * (hi - lo) -> Rabs (lo / f) + Rabs (hi / f) <= 1048576 * (hi / f - lo / f)).
    { intros f lo hi Hf W. unfold Rdiv. rewrite !Rabs_mult, Rabs_inv, (Rabs_pos_eq f) by lra.
      replace (1048576 * (hi * / f - lo * / f)) with (1048576 * (hi - lo) * / f) by ring. rewrite <- Rmult_plus_distr_r. apply Rmult_le_compat_r; [left; apply Rinv_0_lt_compat; lra|exact W]. }
    pose proof (Sc fi _ _ i1 Win) as Win'. pose proof (Sc fo _ _ o1 Wout) as Wout'. fold a b in Win'. fold o q in Wout'.
    destruct (diff_near _ _ a b Fmi Fma Emi Ema Bmi Bma Win') as [Fd Ed]. destruct (diff_near _ _ o q Fmo Fmao Emo Emao Bmo Bmao Wout') as [Fn En].
    set (mi := ndiv minIn (bitDepthSize dIn)) in *. set (ma := ndiv maxIn (bitDepthSize dIn)) in *. set (mo := ndiv minOut (bitDepthSize dOut)) in *. set (mao := ndiv maxOut (bitDepthSize dOut)) in *.
    assert (W27 : bpow radix2 (-27) <= b - a).
    { replace (b - a) with ((B2R maxIn - B2R minIn) / fi) by (unfold a, b; field; lra). apply Rmult_le_reg_r with fi; [lra|]. unfold Rdiv. rewrite Rmult_assoc, Rinv_l, Rmult_1_r by lra.
      apply Rle_trans with (bpow radix2 (-27) * 65535); [apply Rmult_le_compat_l; [apply bpow_ge_0|exact i2]|]. change (bpow radix2 (-27)) with (/ 134217728). lra. }
    pose proof (bpow_gt_0 radix2 (-27)) as P27.
    pose proof (Rabs_pos a) as Aa. pose proof (Rabs_pos o) as Ao. pose proof (Rabs_pos q) as Aq.
    assert (V26 : 0 <= q - o <= bpow radix2 26).
    { split; [lra|]. change (bpow radix2 26) with 67108864. apply Rabs_le_inv in Bmo. apply Rabs_le_inv in Bmao. lra. }
    destruct (scale_near _ _ (q - o) (b - a) Fn Fd W27 V26 En Ed) as (Dp & Fsc & Esc).
    set (num := nsub mao mo) in *. set (den := nsub ma mi) in *. set (sc := ndiv num den) in *. set (k0 := (q - o) / (b - a)) in *.
    assert (Div : pyfdiv num den = Ok sc).
    { unfold pyfdiv. destruct (neqb den n0) eqn:Q; [|reflexivity]. exfalso. change (Beqb den n0 = true) in Q.
      destruct (ofZ_exact L 0) as [F0 E0]; [lia|]. rewrite Beqb_correct in Q by assumption. change (B2R (n0 : fl)) with 0 in Q. destruct (Req_bool_spec (B2R den) 0); [lra|discriminate]. }
    assert (Div' : pyfdiv (q - o) (b - a) = Ok k0).
    { unfold pyfdiv. destruct (neqb (b - a) n0) eqn:Q; [|reflexivity]. exfalso. change (Reqb (b - a) 0 = true) in Q. unfold Reqb in Q. destruct (Req_EM_T (b - a) 0); [lra|discriminate]. }
    pose proof (range_four c h dIn dOut clamps minIn maxIn minOut maxOut sc H Div) as Ac. specialize (Ac' k0 H' Div').
    fold mi mo mao in Ac.
    assert (K0 : 0 <= k0 <= bpow radix2 60).
    { split; [apply div_nonneg; lra|]. apply Rmult_le_reg_r with (b - a); [lra|]. unfold k0, Rdiv. rewrite Rmult_assoc, Rinv_l, Rmult_1_r by lra.
      apply Rle_trans with (bpow radix2 60 * bpow radix2 (-27)); [rewrite <- bpow_plus; eapply Rle_trans; [apply V26|apply bpow_le; lia]|apply Rmult_le_compat_l; [apply bpow_ge_0|exact W27]]. }
    assert (Kk : k0 * fo = k * fi).
    { unfold k0, k, q, o, a, b. field. repeat split; lra. }
    assert (Hk : 0 <= k).
    { unfold k. apply div_nonneg; [|lra]. unfold wide in Wout. pose proof (Rabs_pos (B2R minOut)). pose proof (Rabs_pos (B2R maxOut)). lra. }
    assert (T132 : bpow radix2 (-132) = 131072 * bpow radix2 (-149)) by exact (bpow_plus radix2 17 (-149)).
    intros px px' e He Ha.
    destruct (PErrors.three px (proj1 He)) as (x & y & z & ->). apply sized3 in He. destruct (apart3 _ _ _ _ _ Ha) as (x' & y' & z' & -> & Ax & Ay & Az).
    eexists. eexists. split; [exact (Ac 3%nat [x; y; z])|]. split; [exact (Ac' 3%nat [x'; y'; z'])|]. cbn [map].
    assert (Ex : forall v', rangeFour (N := realNum) dIn dOut clamps k0 a o q v' = rangeR clamps k0 a o q (v' / fi) * fo).
    { intro v'. unfold rangeFour, rangeR. rewrite denormalize_R, normalize_R. fold fi fo.
      change (@nf32 R realNum) with (fun r : R => r). cbv beta. rewrite pymin_R, pymax_R. reflexivity. }
    rewrite !Ex.
    assert (B0 : 0 <= B) by (destruct He as ([_ A] & _); eapply Rle_trans; [apply Rabs_pos|exact A]).
    assert (Pt : forall v v', is_finite v = true /\ Rabs (B2R v) <= B -> Rabs (B2R v - v') <= e ->
      (is_finite (rangeFour dIn dOut clamps sc mi mo mao v) = true /\ Rabs (B2R (rangeFour dIn dOut clamps sc mi mo mao v)) <= S + E) /\
      Rabs (B2R (rangeFour dIn dOut clamps sc mi mo mao v) - rangeR clamps k0 a o q (v' / fi) * fo) <= k * e + E).
    { intros v v' [Fv Bv] Av.
      assert (Ab : forall r f, 1 <= f -> Rabs (r / f) = Rabs r / f) by (intros r f Hf; unfold Rdiv; rewrite Rabs_mult, Rabs_inv, (Rabs_pos_eq f) by lra; reflexivity).
      assert (Lt : forall r f, 0 <= r -> 1 <= f -> r / f <= r).
      { intros r f Hr Hf. apply Rmult_le_reg_r with f; [lra|]. unfold Rdiv. rewrite Rmult_assoc, Rinv_l, Rmult_1_r by lra. rewrite <- (Rmult_1_r r) at 1. apply Rmult_le_compat_l; lra. }
      assert (HP : Rabs (B2R v / fi) <= bpow radix2 126).
      { rewrite (Ab _ _ i1). eapply Rle_trans; [apply Lt; [apply Rabs_pos|lra]|]. eapply Rle_trans; [exact Bv|]. eapply Rle_trans; [exact HB|apply bpow_le; lia]. }
      assert (S0 : 0 <= S).
      { unfold S. pose proof (Rabs_pos (B2R minIn)). pose proof (Rabs_pos (B2R minOut)). pose proof (Rabs_pos (B2R maxOut)).
        assert (0 <= k * (B + Rabs (B2R minIn))) by (apply Rmult_le_pos; lra). lra. }
      assert (HM : k0 * Rabs (B2R v / fi) + Rabs o + k0 * Rabs a + Rabs q <= S / fo).
      { unfold o, q, a. rewrite !(Ab _ fi i1), !(Ab _ fo o1). apply Rmult_le_reg_r with fo; [lra|].
        replace ((k0 * (Rabs (B2R v) / fi) + Rabs (B2R minOut) / fo + k0 * (Rabs (B2R minIn) / fi) + Rabs (B2R maxOut) / fo) * fo)
          with (k0 * fo * (Rabs (B2R v) + Rabs (B2R minIn)) / fi + Rabs (B2R minOut) + Rabs (B2R maxOut)) by (field; lra).
        rewrite Kk. replace (k * fi * (Rabs (B2R v) + Rabs (B2R minIn)) / fi) with (k * (Rabs (B2R v) + Rabs (B2R minIn))) by (field; lra).
        replace (S / fo * fo) with S by (field; lra). unfold S. assert (k * (Rabs (B2R v) + Rabs (B2R minIn)) <= k * (B + Rabs (B2R minIn))) by (apply Rmult_le_compat_l; lra). lra. }
      assert (HM2 : S / fo <= bpow radix2 101).
      { eapply Rle_trans; [apply Lt; assumption|]. eapply Rle_trans; [exact HS|apply bpow_le; lia]. }
      assert (Ba : Rabs a <= bpow radix2 126) by (eapply Rle_trans; [exact Bmi|]; change 16777216 with (bpow radix2 24); apply bpow_le; lia).
      destruct (range_sample dIn dOut clamps v sc mi mo mao k0 a o q (S / fo) Fv HP K0 HM HM2 Fsc Fmi Fmo Fmao Esc Emi Emo Emao Ba) as [Ff Ef].
      fold fi fo in Ef. set (f := rangeFour dIn dOut clamps sc mi mo mao v) in *.
      assert (EE : (43 / 10 * (bpow radix2 (-23) * (S / fo)) + 35 / 10 * (bpow radix2 (-149) * (1 + k0))) * fo <= E).
      { replace ((43 / 10 * (bpow radix2 (-23) * (S / fo)) + 35 / 10 * (bpow radix2 (-149) * (1 + k0))) * fo)
          with (43 / 10 * (bpow radix2 (-23) * S) + 35 / 10 * (bpow radix2 (-149) * (fo + k0 * fo))) by (field; lra). rewrite Kk. unfold E. rewrite T132.
        assert (0 <= bpow radix2 (-23) * S) by (apply Rmult_le_pos; lra).
        assert (k * fi <= k * 65535) by (apply Rmult_le_compat_l; lra).
        assert (bpow radix2 (-149) * (fo + k * fi) <= bpow radix2 (-149) * (65535 * (1 + k))) by (apply Rmult_le_compat_l; lra).
        assert (0 <= bpow radix2 (-149) * (1 + k)) by (apply Rmult_le_pos; lra).
        replace (bpow radix2 (-149) * (65535 * (1 + k))) with (65535 * (bpow radix2 (-149) * (1 + k))) in * by ring.
        replace (131072 * bpow radix2 (-149) * (1 + k)) with (131072 * (bpow radix2 (-149) * (1 + k))) by ring. lra. }
      set (g := rangeR clamps k0 a o q (B2R v / fi)) in *. set (g' := rangeR clamps k0 a o q (v' / fi)).
      destruct (rangeR_bound clamps k0 a o q (B2R v / fi) (S / fo) (proj1 K0) HM) as [Bg _]. fold g in Bg.
      assert (Bg2 : Rabs (g * fo) <= S).
      { rewrite Rabs_mult, (Rabs_pos_eq fo) by lra. replace S with (S / fo * fo) by (field; lra). apply Rmult_le_compat_r; lra. }
      split; [split; [exact Ff|]|].
      - pose proof (abs_near (B2R f) (g * fo) _ Ef). lra.
      - replace (B2R f - g' * fo) with ((B2R f - g * fo) + (g - g') * fo) by ring. eapply Rle_trans; [apply Rabs_triang|].
        assert (Sl : Rabs ((g - g') * fo) <= k * e).
        { rewrite Rabs_mult, (Rabs_pos_eq fo) by lra. pose proof (rangeR_slope clamps k0 a o q (B2R v / fi) (v' / fi) (proj1 K0)) as Z. fold g g' in Z.
          apply Rle_trans with (k0 * Rabs (B2R v / fi - v' / fi) * fo); [apply Rmult_le_compat_r; lra|].
          replace (B2R v / fi - v' / fi) with ((B2R v - v') / fi) by (field; lra). rewrite (Ab _ fi i1).
          replace (k0 * (Rabs (B2R v - v') / fi) * fo) with (k0 * fo * Rabs (B2R v - v') / fi) by (field; lra). rewrite Kk.
          replace (k * fi * Rabs (B2R v - v') / fi) with (k * Rabs (B2R v - v')) by (field; lra). apply Rmult_le_compat_l; assumption. }
        lra. }
    destruct He as (H1 & H2 & H3).
    destruct (Pt x x' H1 Ax) as [S1 A1]. destruct (Pt y y' H2 Ay) as [S2 A2]. destruct (Pt z z' H3 Az) as [S3 A3].
    split; [apply sized3; auto|now apply apart3_intro].
  Qed.
End RangeStage.
