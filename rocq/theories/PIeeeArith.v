(** Monotonicity of the IEEE operations, and integers as doubles. *)
From Coq Require Import Reals Lra Psatz.
From Flocq Require Import Core BinarySingleNaN.
From Verif Require Export NumF PIeee.
Local Open Scope R_scope.

Section Mono.
  Context {p e : Z} {Hp : Prec_gt_0 p} {He : Prec_lt_emax p e}.
  Notation bf := (binary_float p e).

  Lemma Bltb_le (x y : bf) : Bltb x y = true -> Bleb x y = true.
  Proof.
    unfold Bltb, Bleb, SpecFloat.SFltb, SpecFloat.SFleb. destruct (SpecFloat.SFcompare (B2SF x) (B2SF y)) as [[]|]; (reflexivity || discriminate).
  Qed.
  Lemma Bleb_not_nan (x y : bf) : Bleb x y = true -> is_nan x = false /\ is_nan y = false.
  Proof. destruct x as [|[]| |[] ? ?], y as [|[]| |[] ? ?]; cbn; intro H; try discriminate; auto. Qed.
  Lemma Bleb_refl (x : bf) : is_nan x = false -> Bleb x x = true.
  Proof.
    destruct (is_finite x) eqn:F.
    - intros _. rewrite Bleb_correct by assumption. apply Rle_bool_true. lra.
    - destruct x as [|[]| |]; try discriminate; reflexivity.
  Qed.
  Lemma Bleb_trans (x y z : bf) : Bleb x y = true -> Bleb y z = true -> Bleb x z = true.
  Proof.
    intros H1 H2. pose proof (Bleb_not_nan _ _ H1) as [Nx Ny]. pose proof (Bleb_not_nan _ _ H2) as [_ Nz].
    destruct (is_finite x) eqn:Fx.
    - destruct (is_finite z) eqn:Fz.
      + destruct (is_finite y) eqn:Fy.
        * rewrite Bleb_correct in H1, H2 |- * by assumption.
          apply Rle_bool_true. destruct (Rle_bool_spec (B2R x) (B2R y)); [|discriminate].
          destruct (Rle_bool_spec (B2R y) (B2R z)); [|discriminate]. lra.
        * exfalso. destruct y as [|[]| |[] ? ?]; try discriminate.
          -- destruct x as [|[]| |[] ? ?]; discriminate.
          -- destruct z as [|[]| |[] ? ?]; discriminate.
      + destruct z as [|[]| |[] ? ?]; try discriminate.
        * exfalso. destruct y as [|[]| |[] ? ?]; try discriminate. destruct x as [|[]| |[] ? ?]; discriminate.
        * now apply SFleb_inf_r.
    - destruct x as [|[]| |[] ? ?]; try discriminate.
      + now apply SFleb_inf_l.
      + destruct y as [|[]| |[] ? ?]; try discriminate. destruct z as [|[]| |[] ? ?]; try discriminate. reflexivity.
  Qed.

  Lemma Bltb_false_le (x y : bf) : is_nan x = false -> is_nan y = false -> Bltb x y = false -> Bleb y x = true.
  Proof.
    intros Nx Ny H. destruct (is_finite x) eqn:Fx.
    - destruct (is_finite y) eqn:Fy.
      + rewrite Bltb_correct in H by assumption. rewrite Bleb_correct by assumption.
        apply Rle_bool_true. destruct (Rlt_bool_spec (B2R x) (B2R y)); [discriminate|assumption].
      + destruct y as [|[]| |[] ? ?]; try discriminate.
        * now apply SFleb_inf_l.
        * destruct x as [|[]| |[] ? ?]; discriminate.
    - destruct x as [|[]| |[] ? ?]; try discriminate.
      + destruct y as [|[]| |[] ? ?]; try discriminate. reflexivity.
      + now apply SFleb_inf_r.
  Qed.

  (** Multiplication and division by a positive number keep order. *)
  Lemma mult_le (x y c : bf) :
    is_finite c = true -> 0 < B2R c -> Bleb x y = true -> Bleb (Bmult mode_NE x c) (Bmult mode_NE y c) = true.
  Proof.
    intros Fc Pc H. pose proof (Bleb_not_nan _ _ H) as [Nx Ny].
    assert (NN : forall z : bf, is_nan z = false -> is_nan (Bmult mode_NE z c) = false).
    { intros z Nz. destruct (is_finite z) eqn:Fz.
      - eapply Rounds_not_nan. now apply mult_Rounds.
      - destruct z as [|[]| |[] ? ?]; try discriminate; destruct c as [|[]| |[] ? ?]; try discriminate; try reflexivity;
          cbn in Pc; lra. }
    assert (I : forall s, Bmult mode_NE (B754_infinity s) c = B754_infinity s).
    { intro s. destruct c as [|[]| |[] ? ?]; try discriminate; try (cbn in Pc; lra); cbn.
      - exfalso. apply (Rlt_irrefl 0). eapply Rlt_trans; [exact Pc|]. cbn. apply F2R_lt_0. reflexivity.
      - destruct s; reflexivity. }
    destruct (is_finite x) eqn:Fx.
    - destruct (is_finite y) eqn:Fy.
      + eapply Rounds_le; [now apply mult_Rounds|now apply mult_Rounds|].
        rewrite Bleb_correct in H by assumption.
        destruct (Rle_bool_spec (B2R x) (B2R y)); [|discriminate]. apply Rmult_le_compat_r; lra.
      + destruct y as [|[]| |[] ? ?]; try discriminate.
        * exfalso. destruct x as [|[]| |[] ? ?]; discriminate.
        * rewrite I. apply SFleb_inf_r. now apply NN.
    - destruct x as [|[]| |[] ? ?]; try discriminate.
      + rewrite I. apply SFleb_inf_l. now apply NN.
      + destruct y as [|[]| |[] ? ?]; try discriminate. rewrite I. reflexivity.
  Qed.

  Lemma div_le (x y c : bf) :
    is_finite c = true -> 0 < B2R c -> Bleb x y = true -> Bleb (Bdiv mode_NE x c) (Bdiv mode_NE y c) = true.
  Proof.
    intros Fc Pc H. pose proof (Bleb_not_nan _ _ H) as [Nx Ny].
    assert (NN : forall z : bf, is_nan z = false -> is_nan (Bdiv mode_NE z c) = false).
    { intros z Nz. destruct (is_finite z) eqn:Fz.
      - eapply Rounds_not_nan. apply div_Rounds; [assumption|assumption|lra].
      - destruct z as [|[]| |[] ? ?]; try discriminate; destruct c as [|[]| |[] ? ?]; try discriminate; try reflexivity;
          cbn in Pc; lra. }
    assert (I : forall s, Bdiv mode_NE (B754_infinity s) c = B754_infinity s).
    { intro s. destruct c as [|[]| |[] ? ?]; try discriminate; try (cbn in Pc; lra); cbn.
      - exfalso. apply (Rlt_irrefl 0). eapply Rlt_trans; [exact Pc|]. cbn. apply F2R_lt_0. reflexivity.
      - destruct s; reflexivity. }
    destruct (is_finite x) eqn:Fx.
    - destruct (is_finite y) eqn:Fy.
      + eapply Rounds_le; [apply div_Rounds; [assumption|assumption|lra]|apply div_Rounds; [assumption|assumption|lra]|].
        rewrite Bleb_correct in H by assumption.
        destruct (Rle_bool_spec (B2R x) (B2R y)); [|discriminate].
        apply Rmult_le_compat_r; [left; apply Rinv_0_lt_compat; lra|lra].
      + destruct y as [|[]| |[] ? ?]; try discriminate.
        * exfalso. destruct x as [|[]| |[] ? ?]; discriminate.
        * rewrite I. apply SFleb_inf_r. now apply NN.
    - destruct x as [|[]| |[] ? ?]; try discriminate.
      + rewrite I. apply SFleb_inf_l. now apply NN.
      + destruct y as [|[]| |[] ? ?]; try discriminate. rewrite I. reflexivity.
  Qed.
End Mono.

(** Integers below 2^53 are doubles. *)
Lemma ofZ_exact (L : libm) (z : Z) : (Z.abs z < 2 ^ 53)%Z ->
  is_finite (@nofZ fl (ieeeNum L) z) = true /\ B2R (@nofZ fl (ieeeNum L) z) = IZR z.
Proof.
  intro H. cbn [nofZ ieeeNum].
  pose proof (normalize_Rounds (p:=53) (e:=1024) z 0 false) as R.
  assert (E : F2R (Float radix2 z 0) = IZR z) by (unfold F2R; cbn; ring).
  rewrite E in R.
  assert (G : generic_format radix2 (SpecFloat.fexp 53 1024) (IZR z)).
  { apply generic_format_FLT. exists (Float radix2 z 0); [now rewrite E|exact H|]. vm_compute; discriminate. }
  unfold Rounds in R. rewrite (rnd_format _ G) in R. rewrite Rlt_bool_true in R; [exact R|].
  rewrite <- abs_IZR. apply Rlt_le_trans with (IZR (2 ^ 53)); [now apply IZR_lt|].
  change (2 ^ 53)%Z with (Zpower radix2 53). rewrite IZR_Zpower by lia. apply bpow_le. lia.
Qed.
