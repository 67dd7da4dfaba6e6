(** IEEE doubles as text: the laws of [TextOk], and how far a value moves. *)
From Coq Require Import Reals Lra Psatz NArith.
From Flocq Require Import Core BinarySingleNaN.
From Verif Require Export NumFText PNumText PHalfCode PIeeeRange.
Local Open Scope R_scope.

(* ------------------------------------------------------------------ *)
(** * Decimal to binary *)

Definition signed (s : bool) (r : R) : R := if s then - r else r.

Lemma ratio_pos (n d : positive) : 0 < IZR (Zpos n) / IZR (Zpos d).
Proof. apply Rdiv_lt_0_compat; now apply IZR_lt. Qed.

Lemma roundRat_Rounds s n d : Rounds (roundRat s n d) (signed s (IZR (Zpos n) / IZR (Zpos d))) /\ Bsign (roundRat s n d) = s.
Proof.
  pose proof (Bdiv_correct_aux 53 1024 prec53 emax53 mode_NE s n 0 false d 0) as H. cbv zeta in H.
  rewrite xorb_false_r in H. destruct H as [_ H].
  change (let '(mz, ez, lz) := SpecFloat.SFdiv_core_binary 53 1024 (Z.pos n) 0 (Z.pos d) 0 in
          binary_round_aux 53 1024 mode_NE s mz ez lz) with (roundRatSF 53 1024 s n d) in H.
  assert (E : F2R (Float radix2 (SpecFloat.cond_Zopp s (Zpos n)) 0) / F2R (Float radix2 (SpecFloat.cond_Zopp false (Zpos d)) 0) =
              signed s (IZR (Zpos n) / IZR (Zpos d))).
  { unfold F2R. cbn [Fnum Fexp SpecFloat.cond_Zopp bpow]. rewrite !Rmult_1_r.
    destruct s; unfold signed; cbn [SpecFloat.cond_Zopp]; [|reflexivity]. rewrite opp_IZR. unfold Rdiv. ring. }
  rewrite E in H. clear E. unfold Rounds, rnd. change (round_mode mode_NE) with ZnearestE in H.
  assert (S : Rlt_bool (signed s (IZR (Zpos n) / IZR (Zpos d))) 0 = s).
  { pose proof (ratio_pos n d). destruct s; unfold signed; [apply Rlt_bool_true; lra|apply Rlt_bool_false; lra]. }
  destruct (Rlt_bool (Rabs _) _).
  - destruct H as (H1 & H2 & H3). unfold roundRat. rewrite B2R_SF2B, is_finite_SF2B, Bsign_SF2B. auto.
  - assert (X : roundRat s n d = B754_infinity s).
    { apply overflow_inf. unfold roundRat. rewrite B2SF_SF2B. exact H. }
    rewrite X, S. split; reflexivity.
Qed.

Lemma Rounds_unique (x y : fl) r : Rounds x r -> Rounds y r -> Bsign x = Bsign y -> x = y.
Proof.
  unfold Rounds. destruct (Rlt_bool (Rabs _) _).
  - intros [Fx Ex] [Fy Ey] S. apply B2R_Bsign_inj; congruence.
  - intros -> -> _. reflexivity.
Qed.

(** The number a decimal literal denotes. *)
Definition decR (m : N) (k : Z) : R := IZR (Z.of_N m) * powerRZ 10 k.

Lemma powerRZ_Z k : (0 <= k)%Z -> powerRZ 10 k = IZR (10 ^ k).
Proof.
  intro H. rewrite <- (Z2Nat.id k H) at 1. rewrite <- pow_powerRZ. rewrite pow_IZR. f_equal.
  rewrite Z2Nat.id by assumption. reflexivity.
Qed.
Lemma decR_nonneg m k : 0 <= decR m k.
Proof. unfold decR. apply Rmult_le_pos; [apply IZR_le; lia|]. apply powerRZ_le. lra. Qed.
Lemma decR_0 k : decR 0 k = 0. Proof. unfold decR. cbn. lra. Qed.

Lemma flRound_dec neg m k : Rounds (flRound (NumDec neg m k)) (signed neg (decR m k)) /\ Bsign (flRound (NumDec neg m k)) = neg.
Proof.
  destruct m as [|m]; cbn [flRound].
  - rewrite decR_0. split; [|reflexivity]. unfold Rounds. replace (signed neg 0) with 0 by (destruct neg; cbn; lra).
    rewrite rnd_0, Rabs_R0, Rlt_bool_true by apply bpow_gt_0. split; reflexivity.
  - destruct (Z.leb_spec 0 k) as [K|K].
    + replace (decR (N.pos m) k) with (IZR (Zpos (Z.to_pos (Zpos m * 10 ^ k))) / IZR (Zpos 1)); [apply roundRat_Rounds|].
      rewrite Z2Pos.id by (apply Z.mul_pos_pos; [lia|apply Z.pow_pos_nonneg; lia]).
      unfold decR. rewrite powerRZ_Z by assumption. rewrite mult_IZR. cbn [Z.of_N]. field.
    + replace (decR (N.pos m) k) with (IZR (Zpos m) / IZR (Zpos (Z.to_pos (10 ^ (- k))))); [apply roundRat_Rounds|].
      rewrite Z2Pos.id by (apply Z.pow_pos_nonneg; lia). unfold decR.
      assert (E : powerRZ 10 k = / powerRZ 10 (- k)) by (rewrite <- powerRZ_neg', Z.opp_involutive; reflexivity).
      rewrite E, powerRZ_Z by lia. reflexivity.
Qed.

Lemma same_decR m k m' k' c : (0 <= k + c)%Z -> (0 <= k' + c)%Z ->
  (Z.of_N m * 10 ^ (k + c) = Z.of_N m' * 10 ^ (k' + c))%Z -> decR m k = decR m' k'.
Proof.
  intros H H' E. unfold decR. apply (Rmult_eq_reg_r (powerRZ 10 c)); [|apply powerRZ_NOR; lra].
  rewrite !Rmult_assoc, <- !powerRZ_add by lra. rewrite !powerRZ_Z by assumption. rewrite <- !mult_IZR. now rewrite E.
Qed.

Lemma flRound_same n n' : sameNumeral n n' -> flRound n = flRound n'.
Proof.
  destruct n as [s m k|s|], n' as [s' m' k'|s'|]; cbn [sameNumeral]; try contradiction.
  - intros [<- (c & H & H' & E)]. destruct (flRound_dec s m k) as [R S]. destruct (flRound_dec s m' k') as [R' S'].
    rewrite (same_decR m k m' k' c H H' E) in R. apply (Rounds_unique _ _ _ R R'). congruence.
  - now intros ->.
  - reflexivity.
Qed.

(* ------------------------------------------------------------------ *)
(** * Bit patterns *)

Section Bits.
  Context {p em : Z} {Hp : Prec_gt_0 p} {He : Prec_lt_emax p em}.

  Lemma float_bounds m e : SpecFloat.bounded p em m e = true ->
    (Zpos m < 2 ^ p /\ 3 - em - p <= e <= em - p /\ (e = 3 - em - p \/ 2 ^ (p - 1) <= Zpos m))%Z.
  Proof.
    intro B. unfold SpecFloat.bounded in B. apply andb_true_iff in B as [C Le]. apply Zle_bool_imp_le in Le.
    unfold SpecFloat.canonical_mantissa in C. apply Zeq_bool_eq in C. unfold SpecFloat.fexp, SpecFloat.emin in C.
    rewrite Digits.Zpos_digits2_pos in C. pose proof (Digits.Zdigits_correct radix2 (Zpos m)) as D.
    pose proof (Digits.Zdigits_gt_0 radix2 (Zpos m) ltac:(lia)) as P. change (Z.abs (Zpos m)) with (Zpos m) in D.
    set (d := Digits.Zdigits radix2 (Zpos m)) in *. clearbody d.
    assert (Hd : (d <= p)%Z) by lia.
    assert (G : (radix2 ^ d <= 2 ^ p)%Z) by (apply (Z.pow_le_mono_r 2); lia).
    split; [lia|]. split; [lia|].
    destruct (Z.eq_dec e (3 - em - p)) as [|Ne]; [now left|right]. assert (d = p) by lia. subst d.
    change (2 ^ (p - 1))%Z with (radix2 ^ (p - 1))%Z. lia.
  Qed.

  Lemma normalize_finite s m e (B : SpecFloat.bounded p em m e = true) :
    binary_normalize p em Hp He mode_NE (cond_Zopp s (Zpos m)) e s = B754_finite s m e B.
  Proof.
    pose proof (normalize_Rounds (p:=p) (e:=em) (cond_Zopp s (Zpos m)) e s) as R. unfold Rounds in R.
    change (F2R (Float radix2 (cond_Zopp s (Zpos m)) e)) with (B2R (B754_finite s m e B)) in R.
    rewrite (rnd_id (B754_finite s m e B)) in R. rewrite Rlt_bool_true in R by apply abs_B2R_lt_emax.
    destruct R as [F E]. apply B2R_Bsign_inj; [exact F|reflexivity|exact E|].
    rewrite normalize_sign by exact F. cbn [Bsign].
    assert (C : Rcompare (F2R (Float radix2 (cond_Zopp s (Zpos m)) e)) 0 = if s then Lt else Gt).
    { unfold F2R. cbn [Fnum Fexp]. pose proof (bpow_gt_0 radix2 e).
      assert (0 < IZR (Zpos m)) by (apply IZR_lt; reflexivity).
      destruct s; cbn [cond_Zopp]; try (change (Zneg m) with (- Zpos m)%Z); rewrite ?opp_IZR.
      - apply Rcompare_Lt. nra.
      - apply Rcompare_Gt. nra. }
    rewrite C. now destruct s.
  Qed.

  Lemma normalize_zero s e : binary_normalize p em Hp He mode_NE 0 e s = B754_zero s.
  Proof. reflexivity. Qed.

  Context (mw w : Z) (Hmw : mw = (p - 1)%Z) (Hw : (mw < w)%Z) (Hem : em = (2 ^ (w - mw - 1))%Z) (Hmw1 : (1 <= mw)%Z).

  Lemma bits_magnitude m e : SpecFloat.bounded p em m e = true ->
    (0 <= (e - (3 - em - p)) * 2 ^ mw + Zpos m < (2 ^ (w - mw) - 1) * 2 ^ mw)%Z.
  Proof.
    intro B. destruct (float_bounds m e B) as (H1 & H2 & H3). clear B Hp He.
    assert (P : (2 ^ p = 2 * 2 ^ mw)%Z) by (subst mw; rewrite <- Z.pow_succ_r by lia; f_equal; lia).
    assert (Q : (2 ^ (w - mw) = 2 * em)%Z) by (subst em; rewrite <- Z.pow_succ_r by lia; f_equal; lia).
    pose proof (Z.pow_pos_nonneg 2 mw ltac:(lia) ltac:(lia)) as G. rewrite Q, P in *. subst p || idtac.
    assert (e - (3 - em - p) <= 2 * em - 3)%Z by lia. split; [nia|].
    apply Z.lt_le_trans with ((2 * em - 3) * 2 ^ mw + 2 * 2 ^ mw)%Z; nia.
  Qed.

  Lemma bits_range (x : binary_float p em) : (0 <= bitsOf mw w x < 2 ^ (w + 1))%Z.
  Proof.
    assert (W : (2 ^ w = 2 ^ (w - mw) * 2 ^ mw)%Z) by (rewrite <- Z.pow_add_r by lia; f_equal; lia).
    assert (W1 : (2 ^ (w + 1) = 2 * 2 ^ w)%Z) by (rewrite <- Z.pow_succ_r by lia; f_equal; lia).
    assert (M1 : (2 ^ mw = 2 * 2 ^ (mw - 1))%Z) by (rewrite <- Z.pow_succ_r by lia; f_equal; lia).
    pose proof (Z.pow_pos_nonneg 2 (mw - 1) ltac:(lia) ltac:(lia)) as G1.
    assert (G2 : (2 <= 2 ^ (w - mw))%Z) by (apply (Z.pow_le_mono_r 2 1 (w - mw)); lia).
    rewrite W1. destruct x as [s|s| |s m e B]; cbn [bitsOf].
    - destruct s; nia.
    - destruct s; nia.
    - nia.
    - pose proof (bits_magnitude m e B). destruct s; nia.
  Qed.

  Lemma ofBits_split s r : (0 <= r < 2 ^ w)%Z ->
    (((if s : bool then 2 ^ w else 0) + r) / 2 ^ w = if s then 1 else 0)%Z /\ (((if s then 2 ^ w else 0) + r) mod 2 ^ w = r)%Z.
  Proof.
    intro H. destruct s.
    - split; [symmetry; apply (Z.div_unique _ _ _ r); lia|symmetry; apply (Z.mod_unique _ _ 1); lia].
    - rewrite Z.add_0_l. split; [now apply Z.div_small|now apply Z.mod_small].
  Qed.

  Theorem ofBits_bitsOf (x : binary_float p em) : ofBits p em mw w (bitsOf mw w x) = x.
  Proof.
    assert (W : (2 ^ w = 2 ^ (w - mw) * 2 ^ mw)%Z) by (rewrite <- Z.pow_add_r by lia; f_equal; lia).
    assert (M1 : (2 ^ mw = 2 * 2 ^ (mw - 1))%Z) by (rewrite <- Z.pow_succ_r by lia; f_equal; lia).
    pose proof (Z.pow_pos_nonneg 2 (mw - 1) ltac:(lia) ltac:(lia)) as G1.
    assert (G2 : (2 <= 2 ^ (w - mw))%Z) by (apply (Z.pow_le_mono_r 2 1 (w - mw)); lia).
    destruct x as [s|s| |s m e B]; cbn [bitsOf]; unfold ofBits.
    - pose proof (ofBits_split s 0 ltac:(nia)) as [E1 E2]. rewrite Z.add_0_r in *. rewrite E1, E2.
      rewrite Z.div_0_l, Z.mod_0_l by lia. destruct (Z.eqb_spec 0 (2 ^ (w - mw) - 1)); [lia|]. cbn [Z.eqb].
      destruct s; reflexivity.
    - pose proof (ofBits_split s ((2 ^ (w - mw) - 1) * 2 ^ mw) ltac:(nia)) as [E1 E2]. rewrite E1, E2.
      rewrite Z.div_mul, Z.mod_mul by lia. rewrite !Z.eqb_refl. destruct s; reflexivity.
    - pose proof (ofBits_split false ((2 ^ (w - mw) - 1) * 2 ^ mw + 2 ^ (mw - 1)) ltac:(nia)) as [E1 E2].
      cbv iota in E1, E2. rewrite Z.add_0_l in E1, E2. rewrite E1, E2.
      rewrite Z.add_comm, Z.div_add, Z.mod_add, Z.div_small, Z.mod_small by lia. rewrite Z.add_0_l, Z.eqb_refl.
      destruct (Z.eqb_spec (2 ^ (mw - 1)) 0); [lia|reflexivity].
    - destruct (float_bounds m e B) as (H1 & H2 & H3). pose proof (bits_magnitude m e B) as H4.
      assert (P : (2 ^ p = 2 * 2 ^ mw)%Z) by (clear - Hmw Hmw1; subst mw; rewrite <- Z.pow_succ_r by lia; f_equal; lia).
      assert (P1 : (2 ^ (p - 1) = 2 ^ mw)%Z) by (clear - Hmw; now subst mw). rewrite P, P1 in *.
      set (u := (e - (3 - em - p))%Z) in *.
      pose proof (ofBits_split s (u * 2 ^ mw + Zpos m) ltac:(nia)) as [E1 E2]. rewrite E1, E2.
      assert (U : (0 <= u)%Z) by (unfold u; lia).
      assert (Ee : e = (3 - em - p + u)%Z) by (unfold u; lia).
      assert (Es : negb ((if s then 1 else 0) =? 0)%Z = s) by now destruct s. rewrite Es.
      destruct (Z.lt_ge_cases (Zpos m) (2 ^ mw)) as [Lm|Lm].
      + assert (u = 0)%Z by (unfold u; lia). rewrite H, Z.mul_0_l, Z.add_0_l. rewrite Z.div_small, Z.mod_small by lia.
        destruct (Z.eqb_spec 0 (2 ^ (w - mw) - 1)); [lia|]. cbn [Z.eqb].
        replace (3 - em - p)%Z with e by lia. apply (normalize_finite s m e B).
      + assert (D1 : ((u * 2 ^ mw + Zpos m) / 2 ^ mw = u + 1)%Z) by (symmetry; apply (Z.div_unique _ _ _ (Zpos m - 2 ^ mw)); lia).
        assert (D2 : ((u * 2 ^ mw + Zpos m) mod 2 ^ mw = Zpos m - 2 ^ mw)%Z) by (symmetry; apply (Z.mod_unique _ _ (u + 1)); lia).
        rewrite D1, D2. destruct (Z.eqb_spec (u + 1) (2 ^ (w - mw) - 1)) as [X|X]; [nia|].
        destruct (Z.eqb_spec (u + 1) 0); [lia|].
        replace (2 ^ mw + (Zpos m - 2 ^ mw))%Z with (Zpos m) by lia.
        replace (3 - em - p + (u + 1) - 1)%Z with e by lia. apply (normalize_finite s m e B).
  Qed.
End Bits.

(* ------------------------------------------------------------------ *)
(** * Halfs *)

Lemma half_f64 (h : binary_float 11 16) : halfValue (halfBits h) = f64 h.
Proof.
  destruct h as [s|s| |s m e B].
  - apply B2SF_inj. destruct s; vm_compute; reflexivity.
  - apply B2SF_inj. destruct s; vm_compute; reflexivity.
  - apply B2SF_inj. vm_compute; reflexivity.
  - set (h := B754_finite s m e B). destruct (bits_value h eq_refl) as [K V].
    assert (FC : finiteCode (halfBits h)) by (unfold finiteCode; destruct (Bsign h); lia).
    destruct (value_code _ FC) as [F E]. destruct (widen_exact (p2:=53) (e2:=1024) h ltac:(lia) ltac:(lia) ltac:(lia) eq_refl) as [F' E'].
    assert (Z : B2R h <> 0).
    { unfold h. cbn [B2R]. unfold F2R. cbn [Fnum Fexp]. apply Rmult_integral_contrapositive_currified.
      - apply not_0_IZR. destruct s; discriminate.
      - apply Rgt_not_eq, bpow_gt_0. }
    assert (S : forall x y : fl, is_finite x = true -> is_finite y = true -> B2R x = B2R h -> B2R y = B2R h -> x = y).
    { intros x y Fx Fy Ex Ey. destruct x as [sx|sx| |sx mx ex Bx]; try discriminate; [exfalso; apply Z; now rewrite <- Ex|].
      destruct y as [sy|sy| |sy my ey By]; try discriminate; [exfalso; apply Z; now rewrite <- Ey|].
      apply B2R_inj; [reflexivity|reflexivity|congruence]. }
    apply S; [exact F|exact F'|congruence|exact E'].
Qed.

Section Laws.
  Variable L : libm.
  #[local] Hint Extern 0 (Num fl) => exact (ieeeNum L) : typeclass_instances.

  Lemma halfBits_range h : (0 <= halfBits h < 65536)%Z.
  Proof.
    destruct h as [s|s| |s m e B].
    - destruct s; cbn; lia.
    - destruct s; cbn; lia.
    - cbn; lia.
    - destruct (bits_value (B754_finite s m e B) eq_refl) as [K _]. destruct (Bsign _); lia.
  Qed.

  Lemma ieeeOk : TextOk fl.
  Proof.
    split.
    - exact flRound_same.
    - intros k x. cbn [tfixed ieeeText]. destruct x as [s|s| |s m e B]; cbn [flFixed fixedForm]; auto.
    - intro x. exact (half_f64 (f16of x)).
    - intro x. exact (halfBits_range (f16of x)).
    - intro x. cbn [tof32 tbits32 nf32 ieeeText ieeeNum].
      pose proof (bits_range (p:=24) (em:=128) 23 31 eq_refl eq_refl eq_refl ltac:(lia) (f32of x)) as R.
      rewrite Z2N.id by lia. f_equal.
      apply (ofBits_bitsOf (p:=24) (em:=128) 23 31 eq_refl eq_refl eq_refl ltac:(lia)).
    - intro x. cbn [tbits32 ieeeText].
      pose proof (bits_range (p:=24) (em:=128) 23 31 eq_refl eq_refl eq_refl ltac:(lia) (f32of x)) as R.
      change (2 ^ 32)%N with (Z.to_N (2 ^ (31 + 1))). apply Z2N.inj_lt; lia.
    - intro x. cbn [tof64 tbits64 ieeeText].
      pose proof (bits_range (p:=53) (em:=1024) 52 63 eq_refl eq_refl eq_refl ltac:(lia) x) as R.
      rewrite Z2N.id by lia. apply (ofBits_bitsOf (p:=53) (em:=1024) 52 63 eq_refl eq_refl eq_refl ltac:(lia)).
    - intro x. cbn [tbits64 ieeeText].
      pose proof (bits_range (p:=53) (em:=1024) 52 63 eq_refl eq_refl eq_refl ltac:(lia) x) as R.
      change (2 ^ 64)%N with (Z.to_N (2 ^ (63 + 1))). apply Z2N.inj_lt; lia.
    - intro x. cbn [nf16 ieeeNum]. unfold f64, f16of. rewrite (narrow_widen (p2:=53) (e2:=1024)) by lia. reflexivity.
    - intro x. cbn [nf32 ieeeNum]. unfold f64, f32of. rewrite (narrow_widen (p2:=53) (e2:=1024)) by lia. reflexivity.
  Qed.
End Laws.
