(** Range in IEEE arithmetic. *)
From Coq Require Import Reals Lra Psatz.
From Flocq Require Import Core BinarySingleNaN.
From Verif Require Export SpecNum PIeeeArith.
Local Open Scope R_scope.

Section RangeIeee.
  Variable L : libm.
  #[local] Instance NL : Num fl := ieeeNum L.

  Lemma size_pos d : is_finite (bitDepthSize d) = true /\ 0 < B2R (bitDepthSize d : fl).
  Proof.
    unfold bitDepthSize, n1.
    assert (G : forall z, (0 < z < 65536)%Z -> is_finite (nofZ z : fl) = true /\ 0 < B2R (nofZ z : fl)).
    { intros z Hz. destruct (ofZ_exact L z) as [F E]; [lia|]. split; [exact F|].
      change (nofZ z) with (@nofZ fl (ieeeNum L) z). rewrite E. apply IZR_lt. lia. }
    destruct (aval_eqb d (AStr "8i")); [apply G; lia|]. destruct (aval_eqb d (AStr "10i")); [apply G; lia|].
    destruct (aval_eqb d (AStr "12i")); [apply G; lia|]. destruct (aval_eqb d (AStr "16i")); [apply G; lia|]. apply G; lia.
  Qed.

  Lemma denorm_le (x y : fl) d : Bleb x y = true -> Bleb (normalizedToBitDepth x d) (normalizedToBitDepth y d) = true.
  Proof.
    intro H. unfold normalizedToBitDepth.
    assert (G : forall z, (0 < z < 65536)%Z -> Bleb (nmul x (nofZ z)) (nmul y (nofZ z)) = true).
    { intros z Hz. destruct (ofZ_exact L z) as [F E]; [lia|]. apply mult_le; [exact F| |exact H].
      change (nofZ z) with (@nofZ fl (ieeeNum L) z). rewrite E. apply IZR_lt. lia. }
    destruct (aval_eqb d (AStr "8i")); [apply G; lia|]. destruct (aval_eqb d (AStr "10i")); [apply G; lia|].
    destruct (aval_eqb d (AStr "12i")); [apply G; lia|]. destruct (aval_eqb d (AStr "16i")); [apply G; lia|]. exact H.
  Qed.
  Lemma f32_le (x y : fl) : Bleb x y = true -> Bleb (nf32 x) (nf32 y) = true.
  Proof. intro H. cbn [nf32 NL ieeeNum]. unfold f64, f32of. now apply toFormat_le, toFormat_le. Qed.
  Lemma f32_nan (x : fl) : is_nan (nf32 x) = is_nan x.
  Proof. cbn [nf32 NL ieeeNum]. unfold f64, f32of. now rewrite !toFormat_nan. Qed.

  Lemma plus_nan (x y : fl) : is_nan x = true -> Bplus mode_NE x y = B754_nan.
  Proof. destruct x; try discriminate. destruct y; reflexivity. Qed.
  Lemma minus_nan (x y : fl) : is_nan x = true -> Bminus mode_NE x y = B754_nan.
  Proof. destruct x; try discriminate. destruct y; reflexivity. Qed.
  Lemma mult_nan (x y : fl) : is_nan x = true -> Bmult mode_NE x y = B754_nan.
  Proof. destruct x; try discriminate. destruct y; reflexivity. Qed.
  Lemma div_nan (x y : fl) : is_nan x = true -> Bdiv mode_NE x y = B754_nan.
  Proof. destruct x; try discriminate. destruct y; reflexivity. Qed.

  Lemma clamp_between (lo hi y : fl) : Bleb lo hi = true ->
    Bleb lo (pymin hi (pymax lo y)) = true /\ Bleb (pymin hi (pymax lo y)) hi = true /\
    (is_nan y = true -> Bleb (pymin hi (pymax lo y)) lo = true).
  Proof.
    intro H. pose proof (Bleb_not_nan _ _ H) as [Nl Nh]. unfold pymin, pymax. cbn [nltb NL ieeeNum].
    destruct (Bltb lo y) eqn:E1.
    - apply Bltb_le in E1. pose proof (Bleb_not_nan _ _ E1) as [_ Ny]. destruct (Bltb y hi) eqn:E2.
      + apply Bltb_le in E2. repeat split; auto. congruence.
      + repeat split; [exact H|now apply Bleb_refl|congruence].
    - destruct (Bltb lo hi) eqn:E2.
      + repeat split; [now apply Bleb_refl|exact H|]. intros _. now apply Bleb_refl.
      + repeat split; [exact H|now apply Bleb_refl|]. intros _. now apply Bltb_false_le.
  Qed.

  Theorem range_inside_ieee c (h : header fl) dIn dOut MI MA MO MAO values st o :
    dget (h_attrs h) "inBitDepth" = Some dIn -> dget (h_attrs h) "outBitDepth" = Some dOut ->
    (dget (h_attrs h) "style" = None \/ dget (h_attrs h) "style" = Some (AStr "clamp")) ->
    dget (h_vals h) "minInValue" = Some MI -> dget (h_vals h) "maxInValue" = Some MA ->
    dget (h_vals h) "minOutValue" = Some MO -> dget (h_vals h) "maxOutValue" = Some MAO ->
    Bleb MO MAO = true ->
    nodeProcess c (Node h BRange) values st = Ok o ->
    forall i x y, nth_error values i = Some x -> nth_error (po_out o) i = Some y ->
      Bleb (limitSample dOut MO) y = true /\ Bleb y (limitSample dOut MAO) = true /\
      (is_nan x = true -> Bleb y (limitSample dOut MO) = true).
  Proof.
    intros H1 H2 H3 H4 H5 H6 H7 Hle H i x y Hx Hy.
    cbn [nodeProcess] in H. rewrite rangeProcess_elem in H. unfold rangeFun, dgetE in H. rewrite H1, H2 in H.
    cbn [bind] in H. apply bind_ok in H. destruct H as [out [Ho H]]. apply Ok_inj in H. subst o. cbn [po_out] in Hy.
    destruct (mapM_nth _ _ _ _ _ Ho Hx) as [y' [E1 E2]]. assert (y' = y) by congruence. subst y'. clear Ho E2 Hy.
    unfold rangeLimit in E1. rewrite H4, H5, H6, H7 in E1. cbn [orDefault] in E1.
    replace (match dget (h_attrs h) "style" with Some v => aval_eqb v (AStr "clamp") | None => true end) with true in E1
      by (destruct H3 as [-> | ->]; reflexivity).
    unfold rangeElem in E1. apply bind_ok in E1. destruct E1 as [w [Ew E1]]. apply Ok_inj in E1. subst y.
    apply bind_ok in Ew. destruct Ew as [scale [_ Ew]]. apply Ok_inj in Ew. subst w.
    pose proof (size_pos dOut) as [Fs Ps].
    assert (Hn : Bleb (ndiv MO (bitDepthSize dOut)) (ndiv MAO (bitDepthSize dOut)) = true) by (apply div_le; assumption).
    pose proof (clamp_between _ _ (nf32 (nsub (nadd (nmul (nf32 (bitDepthToNormalized x dIn)) scale) (ndiv MO (bitDepthSize dOut)))
                     (nmul (ndiv MI (bitDepthSize dIn)) scale))) Hn) as [C1 [C2 C3]].
    unfold limitSample. split; [|split].
    - apply f32_le, denorm_le, f32_le. exact C1.
    - apply f32_le, denorm_le, f32_le. exact C2.
    - intro Nx. apply f32_le, denorm_le, f32_le. apply C3. rewrite f32_nan.
      assert (N1 : is_nan (nf32 (bitDepthToNormalized x dIn)) = true).
      { rewrite f32_nan. unfold bitDepthToNormalized. cbn [ndiv NL ieeeNum].
        repeat match goal with |- context [if ?b then _ else _] => destruct b end;
          try (rewrite div_nan by exact Nx; reflexivity). exact Nx. }
      cbn [nadd nsub nmul NL ieeeNum]. rewrite minus_nan; [reflexivity|].
      rewrite plus_nan; [reflexivity|]. rewrite mult_nan; [reflexivity|]. exact N1.
  Qed.
End RangeIeee.
