(** IEEE arithmetic: rounding of one number, and the laws it satisfies. *)
From Coq Require Import Reals Lra Psatz.
From Flocq Require Import Core BinarySingleNaN.
From Verif Require Import NumF.
From Verif Require Export PFacts.

Local Open Scope R_scope.

Section Rounds.
  Context {p e : Z} {Hp : Prec_gt_0 p} {He : Prec_lt_emax p e}.

  Definition rnd (r : R) : R := round radix2 (SpecFloat.fexp p e) ZnearestE r.

  (** [z] is the number [r] rounded to nearest even. *)
  Definition Rounds (z : binary_float p e) (r : R) : Prop :=
    if Rlt_bool (Rabs (rnd r)) (bpow radix2 e)
    then is_finite z = true /\ B2R z = rnd r
    else z = B754_infinity (Rlt_bool r 0).

  Lemma fexp_valid : Valid_exp (SpecFloat.fexp p e).
  Proof. apply fexp_correct. exact Hp. Qed.

  Lemma rnd_le r r' : r <= r' -> rnd r <= rnd r'.
  Proof. intro H. pose proof fexp_valid. apply round_le; [exact _|apply valid_rnd_N|exact H]. Qed.
  Lemma rnd_0 : rnd 0 = 0.
  Proof. unfold rnd. apply round_0. apply valid_rnd_N. Qed.
  Lemma rnd_id (x : binary_float p e) : rnd (B2R x) = B2R x.
  Proof. apply round_generic; [apply valid_rnd_N|apply generic_format_B2R]. Qed.
  Lemma rnd_format r : generic_format radix2 (SpecFloat.fexp p e) r -> rnd r = r.
  Proof. intro H. apply round_generic; [apply valid_rnd_N|exact H]. Qed.
  Lemma rnd_neg r : rnd r < 0 -> r < 0.
  Proof.
    intro H. destruct (Rlt_or_le r 0) as [L|L]; [exact L|]. apply rnd_le in L. rewrite rnd_0 in L. lra.
  Qed.

  Lemma SFleb_inf_r (x : binary_float p e) : is_nan x = false -> Bleb x (B754_infinity false) = true.
  Proof. destruct x as [s|[]| |[] m ex H]; try destruct s; try reflexivity; discriminate. Qed.
  Lemma SFleb_inf_l (x : binary_float p e) : is_nan x = false -> Bleb (B754_infinity true) x = true.
  Proof. destruct x as [s|[]| |[] m ex H]; try destruct s; try reflexivity; discriminate. Qed.

  Lemma finite_not_nan (z : binary_float p e) : is_finite z = true -> is_nan z = false.
  Proof. destruct z; try reflexivity; discriminate. Qed.

  Lemma Rounds_not_nan z r : Rounds z r -> is_nan z = false.
  Proof.
    unfold Rounds. destruct (Rlt_bool _ _).
    - intros [H _]. destruct z; try reflexivity; discriminate.
    - intros ->. reflexivity.
  Qed.

  Lemma Rounds_le z z' r r' : Rounds z r -> Rounds z' r' -> r <= r' -> Bleb z z' = true.
  Proof.
    intros H H' L. pose proof (Rounds_not_nan _ _ H) as Nz. pose proof (Rounds_not_nan _ _ H') as Nz'.
    pose proof (rnd_le _ _ L) as Lr. unfold Rounds in *.
    destruct (Rlt_bool_spec (Rabs (rnd r)) (bpow radix2 e)) as [B|B].
    - destruct H as [Fz Ez].
      destruct (Rlt_bool_spec (Rabs (rnd r')) (bpow radix2 e)) as [B'|B'].
      + destruct H' as [Fz' Ez']. rewrite Bleb_correct by assumption. apply Rle_bool_true. lra.
      + subst z'. destruct (Rlt_bool_spec r' 0) as [S|S]; [|now apply SFleb_inf_r].
        exfalso. assert (rnd r' <= 0) by (rewrite <- rnd_0; apply rnd_le; lra).
        rewrite Rabs_left1 in B' by assumption. rewrite Rabs_left1 in B by lra. lra.
    - subst z. destruct (Rlt_bool_spec r 0) as [S|S]; [now apply SFleb_inf_l|].
      assert (0 <= rnd r) by (rewrite <- rnd_0; apply rnd_le; lra).
      rewrite Rabs_pos_eq in B by assumption.
      destruct (Rlt_bool_spec (Rabs (rnd r')) (bpow radix2 e)) as [B'|B'].
      + rewrite Rabs_pos_eq in B' by lra. lra.
      + subst z'. rewrite Rlt_bool_false by lra. reflexivity.
  Qed.

  Lemma Rounds_eq z z' r : Rounds z r -> Rounds z' r -> is_finite z = true -> B2R z = B2R z'.
  Proof.
    unfold Rounds. destruct (Rlt_bool _ _).
    - intros [_ ->] [_ ->]. reflexivity.
    - intros -> _. discriminate.
  Qed.

  Lemma overflow_inf (z : binary_float p e) s : B2SF z = binary_overflow p e mode_NE s -> z = B754_infinity s.
  Proof. cbn. destruct z; try discriminate. cbn. now intros [= ->]. Qed.

  Lemma normalize_Rounds mx ex s :
    Rounds (binary_normalize p e Hp He mode_NE mx ex s) (F2R (Float radix2 mx ex)).
  Proof.
    pose proof (binary_normalize_correct p e Hp He mode_NE mx ex s) as H. cbv zeta in H.
    unfold Rounds, rnd. change (round_mode mode_NE) with ZnearestE in H.
    destruct (Rlt_bool (Rabs _) _).
    - destruct H as [H1 [H2 _]]. auto.
    - now apply overflow_inf.
  Qed.

  Lemma normalize_sign mx ex s :
    is_finite (binary_normalize p e Hp He mode_NE mx ex s) = true ->
    Bsign (binary_normalize p e Hp He mode_NE mx ex s) =
    match Rcompare (F2R (Float radix2 mx ex)) 0 with Eq => s | Lt => true | Gt => false end.
  Proof.
    intro F. pose proof (binary_normalize_correct p e Hp He mode_NE mx ex s) as H. cbv zeta in H.
    destruct (Rlt_bool (Rabs _) _).
    - apply H.
    - apply overflow_inf in H. rewrite H in F. discriminate.
  Qed.

  Lemma mult_Rounds (x y : binary_float p e) :
    is_finite x = true -> is_finite y = true -> Rounds (Bmult mode_NE x y) (B2R x * B2R y).
  Proof.
    intros Fx Fy. pose proof (Bmult_correct p e Hp He mode_NE x y) as H.
    change (round_mode mode_NE) with ZnearestE in H. unfold Rounds, rnd.
    destruct (Rlt_bool_spec (Rabs (round radix2 (SpecFloat.fexp p e) ZnearestE (B2R x * B2R y))) (bpow radix2 e)) as [B|B].
    - destruct H as [H1 [H2 _]]. rewrite Fx, Fy in H2. auto.
    - apply overflow_inf in H. rewrite H. f_equal.
      destruct x as [sx|sx| |sx mx ex Ex]; try discriminate.
      + cbn [B2R] in B. rewrite Rmult_0_l, round_0, Rabs_R0 in B by apply valid_rnd_N.
        pose proof (bpow_gt_0 radix2 e). lra.
      + destruct y as [sy|sy| |sy my ey Ey]; try discriminate.
        * cbn [Bsign B2R]. unfold F2R. cbn [Fnum Fexp].
          pose proof (bpow_gt_0 radix2 ex). pose proof (bpow_gt_0 radix2 ey).
          assert (0 < IZR (Zpos mx)) by (apply IZR_lt; reflexivity).
          assert (0 < IZR (Zpos my)) by (apply IZR_lt; reflexivity).
          assert (0 < IZR (Zpos mx) * bpow radix2 ex) by nra.
          assert (0 < IZR (Zpos my) * bpow radix2 ey) by nra.
          destruct sx, sy; cbn [cond_Zopp xorb]; rewrite ?opp_IZR;
            try (change (Zneg mx) with (- Zpos mx)%Z); try (change (Zneg my) with (- Zpos my)%Z);
            rewrite ?opp_IZR; symmetry; (apply Rlt_bool_true + apply Rlt_bool_false); nra.
  Qed.

  Lemma div_Rounds (x y : binary_float p e) :
    is_finite x = true -> is_finite y = true -> B2R y <> 0 -> Rounds (Bdiv mode_NE x y) (B2R x / B2R y).
  Proof.
    intros Fx Fy Ny. pose proof (Bdiv_correct p e Hp He mode_NE x y Ny) as H.
    change (round_mode mode_NE) with ZnearestE in H. unfold Rounds, rnd.
    destruct (Rlt_bool_spec (Rabs (round radix2 (SpecFloat.fexp p e) ZnearestE (B2R x / B2R y))) (bpow radix2 e)) as [B|B].
    - destruct H as [H1 [H2 _]]. rewrite Fx in H2. auto.
    - apply overflow_inf in H. rewrite H. f_equal.
      destruct x as [sx|sx| |sx mx ex Ex]; try discriminate.
      + cbn [B2R] in B. unfold Rdiv in B. rewrite Rmult_0_l, round_0, Rabs_R0 in B by apply valid_rnd_N.
        pose proof (bpow_gt_0 radix2 e). lra.
      + destruct y as [sy|sy| |sy my ey Ey]; try discriminate.
        * now elim Ny.
        * cbn [Bsign B2R]. unfold F2R. cbn [Fnum Fexp].
          pose proof (bpow_gt_0 radix2 ex). pose proof (bpow_gt_0 radix2 ey).
          assert (0 < IZR (Zpos mx)) by (apply IZR_lt; reflexivity).
          assert (0 < IZR (Zpos my)) by (apply IZR_lt; reflexivity).
          assert (0 < IZR (Zpos mx) * bpow radix2 ex) by nra.
          assert (I : 0 < / (IZR (Zpos my) * bpow radix2 ey)) by (apply Rinv_0_lt_compat; nra).
          destruct sx, sy; cbn [cond_Zopp xorb];
            try (change (Zneg mx) with (- Zpos mx)%Z); try (change (Zneg my) with (- Zpos my)%Z);
            rewrite ?opp_IZR, ?Ropp_mult_distr_l_reverse, ?Rdiv_opp_l; unfold Rdiv;
            rewrite ?Ropp_mult_distr_l_reverse, ?Rinv_opp;
            symmetry; (apply Rlt_bool_true + apply Rlt_bool_false); nra.
  Qed.

  Lemma plus_Rounds (x y : binary_float p e) :
    is_finite x = true -> is_finite y = true -> Rounds (Bplus mode_NE x y) (B2R x + B2R y).
  Proof.
    intros Fx Fy. pose proof (Bplus_correct p e Hp He mode_NE x y Fx Fy) as H.
    change (round_mode mode_NE) with ZnearestE in H. unfold Rounds, rnd.
    destruct (Rlt_bool_spec (Rabs (round radix2 (SpecFloat.fexp p e) ZnearestE (B2R x + B2R y))) (bpow radix2 e)) as [B|B].
    - destruct H as [H1 [H2 _]]. auto.
    - destruct H as [H S]. apply overflow_inf in H. rewrite H. f_equal.
      assert (G : forall z : binary_float p e, (Bsign z = true -> B2R z <= 0) /\ (Bsign z = false -> 0 <= B2R z)).
      { intros [s|s| |s m ex Ex]; cbn [Bsign B2R]; try (split; intros; lra).
        unfold F2R. cbn [Fnum Fexp]. pose proof (bpow_gt_0 radix2 ex).
        assert (0 < IZR (Zpos m)) by (apply IZR_lt; reflexivity).
        destruct s; cbn [cond_Zopp]; try (change (Zneg m) with (- Zpos m)%Z); rewrite ?opp_IZR; split; intros; try discriminate; nra. }
      destruct (G x) as [Gx1 Gx2], (G y) as [Gy1 Gy2]. rewrite <- S in Gy1, Gy2.
      destruct (Bsign x).
      + symmetry. apply Rlt_bool_true. specialize (Gx1 eq_refl). specialize (Gy1 eq_refl).
        destruct (Req_dec (B2R x + B2R y) 0) as [Z|]; [|lra].
        rewrite Z, round_0, Rabs_R0 in B by apply valid_rnd_N. pose proof (bpow_gt_0 radix2 e). lra.
      + symmetry. apply Rlt_bool_false. specialize (Gx2 eq_refl). specialize (Gy2 eq_refl). lra.
  Qed.
End Rounds.

Section Format.
  Context {p1 e1 p2 e2 : Z} {Hp1 : Prec_gt_0 p1} {He1 : Prec_lt_emax p1 e1}
          {Hp2 : Prec_gt_0 p2} {He2 : Prec_lt_emax p2 e2}.

  Lemma toFormat_Rounds (x : binary_float p1 e1) : is_finite x = true -> Rounds (toFormat p2 e2 x) (B2R x).
  Proof.
    destruct x as [s|s| |s m ex Ex]; try discriminate; intros _; cbn [toFormat].
    - cbn [B2R]. unfold Rounds. rewrite rnd_0, Rabs_R0, Rlt_bool_true by apply bpow_gt_0. split; reflexivity.
    - apply normalize_Rounds.
  Qed.

  Lemma toFormat_nan (x : binary_float p1 e1) : is_nan (toFormat p2 e2 x) = is_nan x.
  Proof.
    destruct (is_finite x) eqn:F.
    - rewrite (Rounds_not_nan _ _ (toFormat_Rounds x F)). destruct x; try reflexivity; discriminate.
    - destruct x; try reflexivity; discriminate.
  Qed.

  Lemma toFormat_sign (x : binary_float p1 e1) :
    is_nan x = false -> Bsign (toFormat p2 e2 x) = Bsign x.
  Proof.
    destruct x as [s|s| |s m ex Ex]; try reflexivity; try discriminate. intros _.
    assert (C : Rcompare (F2R (Float radix2 (cond_Zopp s (Zpos m)) ex)) 0 = if s then Lt else Gt).
    { unfold F2R. cbn [Fnum Fexp]. pose proof (bpow_gt_0 radix2 ex).
      assert (0 < IZR (Zpos m)) by (apply IZR_lt; reflexivity).
      destruct s; cbn [cond_Zopp]; try (change (Zneg m) with (- Zpos m)%Z); rewrite ?opp_IZR.
      - apply Rcompare_Lt. nra.
      - apply Rcompare_Gt. nra. }
    pose proof (toFormat_Rounds (B754_finite s m ex Ex) eq_refl) as R. unfold Rounds in R. cbn [toFormat] in *.
    destruct (Rlt_bool (Rabs _) _).
    - destruct R as [F _]. rewrite (normalize_sign _ _ _ F), C. destruct s; reflexivity.
    - rewrite R. cbn [Bsign B2R]. destruct s.
      + apply Rlt_bool_true. now apply Rcompare_Lt_inv.
      + apply Rlt_bool_false. apply Rcompare_Gt_inv in C. lra.
  Qed.

  Lemma toFormat_le (x y : binary_float p1 e1) :
    Bleb x y = true -> Bleb (toFormat p2 e2 x) (toFormat p2 e2 y) = true.
  Proof.
    intro H.
    destruct (is_finite x) eqn:Fx.
    - destruct (is_finite y) eqn:Fy.
      + rewrite Bleb_correct in H by assumption. eapply Rounds_le; [now apply toFormat_Rounds|now apply toFormat_Rounds|].
        destruct (Rle_bool_spec (B2R x) (B2R y)); [assumption|discriminate].
      + destruct y as [s|s| |s m ex Ex]; try discriminate.
        * destruct s; [destruct x as [[]|[]| |[] ? ? ?]; discriminate|].
          apply SFleb_inf_r. rewrite toFormat_nan. destruct x; try reflexivity; discriminate.
        * destruct x as [[]|[]| |[] ? ? ?]; discriminate.
    - destruct x as [s|s| |s m ex Ex]; try discriminate. destruct s.
      + apply SFleb_inf_l. rewrite toFormat_nan. destruct y as [[]|[]| |[] ? ? ?]; try reflexivity; discriminate.
      + destruct y as [[]|[]| |[] ? ? ?]; try discriminate; reflexivity.
  Qed.

  (** A number the target format can hold is kept. *)
  Lemma toFormat_exact (x : binary_float p1 e1) :
    is_finite x = true -> generic_format radix2 (SpecFloat.fexp p2 e2) (B2R x) -> Rabs (B2R x) < bpow radix2 e2 ->
    is_finite (toFormat p2 e2 x) = true /\ B2R (toFormat p2 e2 x) = B2R x.
  Proof.
    intros F G B. pose proof (toFormat_Rounds x F) as R. unfold Rounds in R.
    rewrite (rnd_format _ G), Rlt_bool_true in R by exact B. exact R.
  Qed.
End Format.

(** Widening loses nothing. *)
Lemma widen_format p1 e1 p2 e2 (Hp1 : Prec_gt_0 p1) (Hp2 : Prec_gt_0 p2) r :
  (p1 <= p2)%Z -> (e1 <= e2)%Z -> (3 - e2 - p2 <= 3 - e1 - p1)%Z ->
  generic_format radix2 (SpecFloat.fexp p1 e1) r -> generic_format radix2 (SpecFloat.fexp p2 e2) r.
Proof.
  intros H1 H2 H3. apply generic_inclusion_mag. intros _.
  unfold SpecFloat.fexp, SpecFloat.emin. apply Z.max_lub.
  - apply Z.le_trans with (2 := Z.le_max_l _ _). lia.
  - apply Z.le_trans with (2 := Z.le_max_r _ _). lia.
Qed.

Lemma widen_exact {p1 e1 p2 e2 : Z} {Hp1 : Prec_gt_0 p1} {He1 : Prec_lt_emax p1 e1}
      {Hp2 : Prec_gt_0 p2} {He2 : Prec_lt_emax p2 e2} (x : binary_float p1 e1) :
  (p1 <= p2)%Z -> (e1 <= e2)%Z -> (3 - e2 - p2 <= 3 - e1 - p1)%Z -> is_finite x = true ->
  is_finite (toFormat p2 e2 x) = true /\ B2R (toFormat p2 e2 x) = B2R x.
Proof.
  intros H1 H2 H3 F. apply toFormat_exact; [exact F| |].
  - exact (widen_format p1 e1 p2 e2 Hp1 Hp2 _ H1 H2 H3 (generic_format_B2R p1 e1 x)).
  - eapply Rlt_le_trans; [apply abs_B2R_lt_emax|]. now apply bpow_le.
Qed.

(** Widening and rounding back gives the number back. *)
Lemma narrow_widen {p1 e1 p2 e2 : Z} {Hp1 : Prec_gt_0 p1} {He1 : Prec_lt_emax p1 e1}
      {Hp2 : Prec_gt_0 p2} {He2 : Prec_lt_emax p2 e2} (x : binary_float p1 e1) :
  (p1 <= p2)%Z -> (e1 <= e2)%Z -> (3 - e2 - p2 <= 3 - e1 - p1)%Z ->
  toFormat p1 e1 (toFormat p2 e2 x) = x.
Proof.
  intros H1 H2 H3. destruct (is_finite x) eqn:F.
  - destruct (widen_exact (p2:=p2) (e2:=e2) x H1 H2 H3 F) as [F2 E2].
    destruct (toFormat_exact (p2:=p1) (e2:=e1) (toFormat p2 e2 x) F2) as [F1 E1].
    + rewrite E2. apply generic_format_B2R.
    + rewrite E2. apply abs_B2R_lt_emax.
    + apply B2R_Bsign_inj; [exact F1|exact F|congruence|].
      rewrite !toFormat_sign; [reflexivity| |]; try (apply finite_not_nan; assumption).
  - destruct x; try discriminate; reflexivity.
Qed.

Section Laws.
  Variable L : libm.
  #[local] Instance NL : Num fl := ieeeNum L.

  #[export] Instance ieee_f32 : F32Laws fl.
  Proof.
    split.
    - intro x. cbn [nf32 NL ieeeNum]. unfold f64, f32of. rewrite (narrow_widen (p2:=53) (e2:=1024) (toFormat 24 128 x)) by lia. reflexivity.
    - reflexivity.
  Qed.

  #[export] Instance ieee_ord : OrdLaws fl.
  Proof.
    split. cbn [nisnan nleb NL ieeeNum]. intros x y Nx Ny H.
    destruct (is_finite x) eqn:Fx.
    - destruct (is_finite y) eqn:Fy.
      + rewrite Bleb_correct in * by assumption. apply Rle_bool_true.
        destruct (Rle_bool_spec (B2R x) (B2R y)); [discriminate|lra].
      + destruct y as [s|s| |s m ex Ex]; try discriminate. destruct s.
        * now apply SFleb_inf_l.
        * rewrite SFleb_inf_r in H by assumption. discriminate.
    - destruct x as [s|s| |s m ex Ex]; try discriminate. destruct s.
      + rewrite SFleb_inf_l in H by assumption. discriminate.
      + now apply SFleb_inf_r.
  Qed.
End Laws.
