(** Sizes of rounding errors. *)
From Coq Require Import Reals Lra Lia ZArith Psatz.
From Flocq Require Import Core BinarySingleNaN Relative.
From Verif Require Import NumF PIeee PIeeeArith.
Local Open Scope R_scope.

Section One.
  Context {p e : Z} {Hp : Prec_gt_0 p} {He : Prec_lt_emax p e}.

  (** Half a unit in the last place of the binade. *)
  Lemma rnd_half f r : Rabs r <= bpow radix2 f -> (3 - e <= f)%Z -> Rabs (rnd (p := p) (e := e) r - r) <= bpow radix2 (f - p - 1).
  Proof.
    intros B Hf. destruct (Req_dec (Rabs r) (bpow radix2 f)) as [E|E].
    - assert (G : generic_format radix2 (SpecFloat.fexp p e) r).
      { apply generic_format_abs_inv. rewrite E. apply generic_format_bpow. unfold SpecFloat.fexp, SpecFloat.emin. unfold Prec_gt_0 in Hp. lia. }
      rewrite (rnd_format _ G). rewrite Rminus_diag_eq, Rabs_R0 by reflexivity. apply bpow_ge_0.
    - destruct (Req_dec r 0) as [->|Z].
      { rewrite rnd_0, Rminus_0_r, Rabs_R0. apply bpow_ge_0. }
      pose proof fexp_valid (p := p) (e := e) as V.
      assert (U : Rabs (rnd (p := p) (e := e) r - r) <= / 2 * ulp radix2 (SpecFloat.fexp p e) r) by (apply error_le_half_ulp; exact V).
      eapply Rle_trans; [exact U|]. rewrite ulp_neq_0 by exact Z. replace (f - p - 1)%Z with (-1 + (f - p))%Z by lia.
      rewrite bpow_plus. change (bpow radix2 (-1)) with (/ 2). apply Rmult_le_compat_l; [lra|]. apply bpow_le.
      unfold cexp, SpecFloat.fexp, SpecFloat.emin. assert (M : (mag radix2 r <= f)%Z).
      { apply mag_le_bpow; [exact Z|]. lra. }
      unfold Prec_gt_0 in Hp. lia.
  Qed.

  Lemma Rounds_finite z r f : Rounds (p := p) (e := e) z r -> Rabs r <= bpow radix2 f -> (f < e)%Z -> (3 - e <= f)%Z ->
    is_finite z = true /\ B2R z = rnd (p := p) (e := e) r.
  Proof.
    intros H B Hf Hl. unfold Rounds in H. rewrite Rlt_bool_true in H; [exact H|].
    apply Rle_lt_trans with (bpow radix2 f); [|now apply bpow_lt].
    unfold rnd. apply abs_round_le_generic; [apply fexp_valid|apply valid_rnd_N| |exact B].
    apply generic_format_bpow. unfold SpecFloat.fexp, SpecFloat.emin. unfold Prec_gt_0 in Hp. lia.
  Qed.

  (** Relative error, up to underflow. *)
  Lemma rnd_rel r : Rabs (rnd (p := p) (e := e) r - r) <= bpow radix2 (- p) * Rabs r + bpow radix2 (2 - e - p).
  Proof.
    destruct (error_N_FLT radix2 (3 - e - p) p Hp (fun x => negb (Z.even x)) r) as (d & t & D & Ht & _ & E).
    change (rnd r) with (round radix2 (FLT_exp (3 - e - p) p) (Znearest (fun x => negb (Z.even x))) r). rewrite E.
    replace (r * (1 + d) + t - r) with (d * r + t) by ring. eapply Rle_trans; [apply Rabs_triang|]. rewrite Rabs_mult.
    apply Rplus_le_compat.
    - apply Rmult_le_compat_r; [apply Rabs_pos|]. eapply Rle_trans; [exact D|]. right. change (/ 2) with (bpow radix2 (-1)). rewrite <- bpow_plus. f_equal. lia.
    - eapply Rle_trans; [exact Ht|]. right. change (/ 2) with (bpow radix2 (-1)). rewrite <- bpow_plus. f_equal. lia.
  Qed.
End One.

(** A number stored into a float32 array. *)
Definition stored (z : fl) (r : R) : Prop := is_finite z = true /\ Rabs (B2R z - r) <= bpow radix2 (-23) * Rabs r + bpow radix2 (-149).

Lemma f32_finite (w : fl) f : is_finite w = true -> Rabs (B2R w) <= bpow radix2 f -> (f < 128)%Z -> (-125 <= f)%Z ->
  is_finite (f64 (f32of w)) = true /\ B2R (f64 (f32of w)) = rnd (p := 24) (e := 128) (B2R w).
Proof.
  intros F B Hf Hl. destruct (Rounds_finite (p := 24) (e := 128) _ _ f (toFormat_Rounds w F) B Hf ltac:(lia)) as [F2 E2].
  destruct (widen_exact (p2 := 53) (e2 := 1024) (toFormat 24 128 w)) as [F3 E3]; try lia; [exact F2|].
  unfold f64, f32of. split; [exact F3|]. now rewrite E3.
Qed.

Lemma rounds_near (w : fl) r : Rounds (p := 53) (e := 1024) w r -> Rabs r <= bpow radix2 127 ->
  is_finite w = true /\ Rabs (B2R w - r) <= bpow radix2 (-53) * Rabs r + bpow radix2 (-1075).
Proof.
  intros H B. destruct (Rounds_finite w r 127 H B) as [F E]; [lia|lia|]. split; [exact F|]. rewrite E. exact (rnd_rel (p := 53) (e := 1024) r).
Qed.
Lemma small_facts : 0 < bpow radix2 (-53) <= bpow radix2 (-23) / 1000 /\ 0 < bpow radix2 (-23) <= 1 / 1000 /\
  bpow radix2 (-24) = bpow radix2 (-23) / 2 /\ 0 < bpow radix2 (-1075) <= bpow radix2 (-149) / 1000 /\ 0 < bpow radix2 (-149) <= 1 / 1000 /\
  bpow radix2 (-150) = bpow radix2 (-149) / 2.
Proof.
  assert (K : forall a b, (a + 10 <= b)%Z -> bpow radix2 a <= bpow radix2 b / 1000).
  { intros a b H. apply Rle_trans with (bpow radix2 (b - 10)); [apply bpow_le; lia|]. unfold Z.sub. rewrite bpow_plus.
    change (bpow radix2 (-(10))) with (/ 1024). pose proof (bpow_gt_0 radix2 b). lra. }
  assert (D : forall a, bpow radix2 (a - 1) = bpow radix2 a / 2).
  { intro a. unfold Z.sub. rewrite bpow_plus. reflexivity. }
  repeat split; try apply bpow_gt_0; try (apply K; lia).
  - eapply Rle_trans; [apply (K _ 0%Z); lia|]. change (bpow radix2 0) with 1. lra.
  - exact (D (-23)%Z).
  - eapply Rle_trans; [apply (K _ 0%Z); lia|]. change (bpow radix2 0) with 1. lra.
  - exact (D (-149)%Z).
Qed.
Lemma near_stored (w : fl) r : is_finite w = true -> Rabs (B2R w - r) <= bpow radix2 (-53) * Rabs r + bpow radix2 (-1075) -> Rabs r <= bpow radix2 126 ->
  stored (f64 (f32of w)) r.
Proof.
  intros F W B.
  destruct small_facts as (U & E & E2 & S & T & T2).
  pose proof (Rabs_pos r) as P. pose proof (Rabs_triang (B2R w - r) r) as Tr. replace (B2R w - r + r) with (B2R w) in Tr by ring.
  assert (M : bpow radix2 127 = 2 * bpow radix2 126) by exact (bpow_plus radix2 1 126).
  assert (G : 1 <= bpow radix2 126) by (change 1 with (bpow radix2 0); apply bpow_le; lia).
  assert (Q : bpow radix2 (-53) * Rabs r <= Rabs r / 1000) by nra.
  destruct (f32_finite w 127 F) as [F3 E3]; [lra|lia|lia|]. split; [exact F3|]. rewrite E3.
  pose proof (rnd_rel (p := 24) (e := 128) (B2R w)) as R2. change (2 - 128 - 24)%Z with (-150)%Z in R2. change (- (24))%Z with (-24)%Z in R2. rewrite E2, T2 in R2.
  pose proof (Rabs_triang (rnd (p := 24) (e := 128) (B2R w) - B2R w) (B2R w - r)) as Tr2.
  replace (rnd (p := 24) (e := 128) (B2R w) - B2R w + (B2R w - r)) with (rnd (p := 24) (e := 128) (B2R w) - r) in Tr2 by ring.
  set (ee := bpow radix2 (-23)) in *. set (u := bpow radix2 (-53)) in *. set (t := bpow radix2 (-149)) in *. set (s := bpow radix2 (-1075)) in *.
  clearbody ee u t s. assert (ee / 2 * Rabs (B2R w) <= ee / 2 * (Rabs r + Rabs r / 1000 + s)) by (apply Rmult_le_compat_l; lra).
  assert (u * Rabs r <= ee / 1000 * Rabs r) by (apply Rmult_le_compat_r; lra).
  assert (ee * s <= s) by nra. nra.
Qed.
Lemma store (w : fl) r : Rounds (p := 53) (e := 1024) w r -> Rabs r <= bpow radix2 126 -> stored (f64 (f32of w)) r.
Proof.
  intros H B. destruct (rounds_near w r H) as [F W]; [eapply Rle_trans; [exact B|apply bpow_le; lia]|]. now apply near_stored.
Qed.
Lemma near_is_stored (w : fl) r : is_finite w = true -> Rabs (B2R w - r) <= bpow radix2 (-53) * Rabs r + bpow radix2 (-1075) -> stored w r.
Proof.
  intros F W. split; [exact F|]. eapply Rle_trans; [exact W|]. destruct small_facts as (U & E & E2 & S & T & T2).
  pose proof (Rabs_pos r). apply Rplus_le_compat; [apply Rmult_le_compat_r; lra|lra].
Qed.
Lemma minus_Rounds (x y : fl) : is_finite x = true -> is_finite y = true -> Rounds (Bminus mode_NE x y) (B2R x - B2R y).
Proof.
  intros Fx Fy. assert (E : Bminus mode_NE x y = Bplus mode_NE x (Bopp y)) by (destruct x, y; try discriminate; try reflexivity; destruct s, s0; reflexivity).
  rewrite E. unfold Rminus. rewrite <- B2R_Bopp. apply plus_Rounds; [exact Fx|]. now rewrite is_finite_Bopp.
Qed.
