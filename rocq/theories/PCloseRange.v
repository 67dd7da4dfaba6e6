(** Range nodes: order of the results, and errors of changes of depth. *)
From Coq Require Import Reals Lra Lia ZArith List String Psatz Arith.
From Flocq Require Import Core BinarySingleNaN.
From Verif Require Import SpecClose SpecCode PBase PChain PFacts PIeee PIeeeArith PIeeeRange PRange PRound PCloseLut PCode.
Import ListNotations.
Local Open Scope R_scope.

Section RangeOrder.
  Variable L : libm.
  #[local] Instance NLr : Num fl := ieeeNum L.

  (** * Changes of depth *)
  Lemma change1_close d d' x : is_finite x = true -> Rabs (B2R x / fullScale d) <= bpow radix2 125 -> Rabs (B2R x / fullScale d * fullScale d') <= bpow radix2 125 ->
    is_finite (change1 L d d' x) = true /\
    Rabs (B2R (change1 L d d' x) - B2R x / fullScale d * fullScale d') <= 3 * bpow radix2 (-23) * Rabs (B2R x / fullScale d * fullScale d') + bpow radix2 (-132).
  Proof.
    intros F B1 B2. unfold change1.
    assert (G6 : bpow radix2 126 = 2 * bpow radix2 125) by exact (bpow_plus radix2 1 125).
    assert (G : 1 <= bpow radix2 125) by (change 1 with (bpow radix2 0); apply bpow_le; lia).
    destruct (normalized_stored L d x F ltac:(lra)) as [[Fa Ea] _]. set (q := B2R x / fullScale d) in *.
    change (@nf32 fl (ieeeNum L) (@bitDepthToNormalized fl (NL L) x d)) with (nf32 (bitDepthToNormalized x d)).
    set (a := nf32 (bitDepthToNormalized x d)) in *.
    assert (Hs : 1 <= fullScale d' <= 65535) by (destruct (scale_cases L d' x) as (z & -> & Hz & _); split; apply IZR_le; lia).
    destruct tiny as ((U0 & U1) & (S0 & S1) & T1 & E1 & S2). assert (T0 := bpow_gt_0 radix2 (-149)).
    assert (T2 : bpow radix2 (-132) = 131072 * bpow radix2 (-149)) by exact (bpow_plus radix2 17 (-149)).
    set (s := fullScale d') in *. set (e := bpow radix2 (-23)) in *. set (t := bpow radix2 (-149)) in *.
    pose proof (Rabs_pos q) as Pq. set (r := q * s) in *. assert (Er : Rabs r = Rabs q * s) by (unfold r; rewrite Rabs_mult, (Rabs_pos_eq s) by lra; reflexivity).
    assert (D1 : Rabs (B2R a * s - r) <= e * Rabs r + t * s).
    { unfold r. rewrite <- Rmult_minus_distr_r, Rabs_mult, (Rabs_pos_eq s) by lra. fold r. rewrite Er.
      apply Rle_trans with ((e * Rabs q + t) * s); [apply Rmult_le_compat_r; lra|]. lra. }
    pose proof (Rabs_pos r) as Pr.
    assert (ts : 0 <= t * s <= 65535 * t) by (split; [apply Rmult_le_pos; lra|nra]). assert (eR : 0 <= e * Rabs r <= Rabs r / 1000) by (split; [apply Rmult_le_pos; lra|rewrite E1; lra]).
    assert (A : Rabs (B2R a * s) <= Rabs r + (e * Rabs r + t * s)).
    { replace (B2R a * s) with (r + (B2R a * s - r)) by ring. eapply Rle_trans; [apply Rabs_triang|]. lra. }
    destruct (denormalized_stored L d' a Fa) as [Fy Ey]; [fold s; rewrite E1 in *; lra|]. fold s e t in Ey. split; [exact Fy|].
    match goal with |- Rabs (B2R ?z - _) <= _ => change z with (nf32 (normalizedToBitDepth a d')) end.
    set (y := nf32 (normalizedToBitDepth a d')) in *.
    replace (B2R y - r) with ((B2R y - B2R a * s) + (B2R a * s - r)) by ring. eapply Rle_trans; [apply Rabs_triang|].
    assert (e * Rabs (B2R a * s) <= e * (Rabs r + (e * Rabs r + t * s))) by (apply Rmult_le_compat_l; lra).
    assert (e * (e * Rabs r + t * s) <= / 1000 * (e * Rabs r + t * s)) by (apply Rmult_le_compat_r; [lra|rewrite E1; lra]). lra.
  Qed.

  Theorem change_close c d d' : exists f, actsPerSample c (depthChange d d') f /\
    forall x, is_finite x = true -> Rabs (B2R x / fullScale d) <= bpow radix2 125 -> Rabs (B2R x / fullScale d * fullScale d') <= bpow radix2 125 ->
      is_finite (f x) = true /\
      Rabs (B2R (f x) - B2R x / fullScale d * fullScale d') <= 3 * bpow radix2 (-23) * Rabs (B2R x / fullScale d * fullScale d') + bpow radix2 (-132).
  Proof. exists (change1 L d d'). split; [apply change_acts|]. intros x F B1 B2. now apply change1_close. Qed.

  (** * Order *)
  Lemma size_cases d : exists z, (1 <= z < 65536)%Z /\ bitDepthSize d = nofZ z.
  Proof.
    unfold bitDepthSize, n1. destruct (aval_eqb d (AStr "8i")); [now exists 255%Z|]. destruct (aval_eqb d (AStr "10i")); [now exists 1023%Z|].
    destruct (aval_eqb d (AStr "12i")); [now exists 4095%Z|]. destruct (aval_eqb d (AStr "16i")); [now exists 65535%Z|]. now exists 1%Z.
  Qed.
  Lemma le_B (x y : fl) : is_finite x = true -> is_finite y = true -> B2R x <= B2R y -> Bleb x y = true.
  Proof. intros Fx Fy H. rewrite Bleb_correct by assumption. now apply Rle_bool_true. Qed.
  Lemma B_le (x y : fl) : is_finite x = true -> is_finite y = true -> Bleb x y = true -> B2R x <= B2R y.
  Proof. intros Fx Fy H. rewrite Bleb_correct in H by assumption. destruct (Rle_bool_spec (B2R x) (B2R y)); [assumption|discriminate]. Qed.
  Lemma max_mono (lo y y' : fl) : is_nan lo = false -> Bleb y y' = true -> Bleb (pymax lo y) (pymax lo y') = true.
  Proof.
    intros Nl H. pose proof (Bleb_not_nan _ _ H) as [Ny Ny']. unfold pymax. change (@nltb fl NLr) with (@Bltb 53 1024).
    destruct (Bltb lo y) eqn:E1, (Bltb lo y') eqn:E2.
    - exact H.
    - eapply Bleb_trans; [exact H|]. now apply Bltb_false_le.
    - now apply Bltb_le.
    - now apply Bleb_refl.
  Qed.
  Lemma min_mono (hi y y' : fl) : is_nan hi = false -> Bleb y y' = true -> Bleb (pymin hi y) (pymin hi y') = true.
  Proof.
    intros Nl H. pose proof (Bleb_not_nan _ _ H) as [Ny Ny']. unfold pymin. change (@nltb fl NLr) with (@Bltb 53 1024).
    destruct (Bltb y hi) eqn:E1, (Bltb y' hi) eqn:E2.
    - exact H.
    - now apply Bltb_le.
    - eapply Bleb_trans; [|exact H]. now apply Bltb_false_le.
    - now apply Bleb_refl.
  Qed.
  (** Operations on numbers of moderate size. *)
  Lemma at_most (z : fl) r f : Rounds z r -> Rabs r <= bpow radix2 f -> (f < 1000)%Z -> (-1000 <= f)%Z ->
    is_finite z = true /\ B2R z = rnd (p := 53) (e := 1024) r /\ Rabs (B2R z) <= bpow radix2 f.
  Proof.
    intros H B Hf Hl. destruct (Rounds_finite z r f H B) as [F E]; [lia|lia|]. split; [exact F|]. split; [exact E|]. rewrite E.
    apply abs_round_le_generic; [apply fexp_valid|apply valid_rnd_N| |exact B].
    apply generic_format_bpow. unfold SpecFloat.fexp, SpecFloat.emin. lia.
  Qed.
  Lemma limit_stored d (v : fl) : moderate v -> exists z, (1 <= z < 65536)%Z /\ bitDepthSize d = nofZ z /\
    is_finite (ndiv v (bitDepthSize d)) = true /\ B2R (ndiv v (bitDepthSize d)) = rnd (p := 53) (e := 1024) (B2R v / IZR z) /\
    Rabs (B2R (ndiv v (bitDepthSize d))) <= bpow radix2 24 /\ Rabs (B2R (ndiv v (bitDepthSize d)) - B2R v / IZR z) <= bpow radix2 (-28).
  Proof.
    intros [F B]. destruct (size_cases d) as (z & Hz & E). exists z. split; [exact Hz|]. split; [exact E|]. rewrite E.
    destruct (ofZ_exact L z) as [Fz Ez]; [lia|]. assert (P : 1 <= IZR z) by (apply IZR_le; lia).
    assert (H : Rounds (ndiv v (nofZ z)) (B2R v / IZR z)) by (rewrite <- Ez; apply div_Rounds; [exact F|exact Fz|rewrite Ez; lra]).
    assert (Bq : Rabs (B2R v / IZR z) <= bpow radix2 24).
    { unfold Rdiv. rewrite Rabs_mult, Rabs_inv, (Rabs_pos_eq (IZR z)) by lra. change (bpow radix2 24) with 16777216. pose proof (Rabs_pos (B2R v)).
      apply Rmult_le_reg_r with (IZR z); [lra|]. rewrite Rmult_assoc, Rinv_l by lra. nra. }
    destruct (at_most _ _ 24 H Bq) as (F1 & E1 & B1); [lia|lia|]. split; [exact F1|]. split; [exact E1|]. split; [exact B1|].
    rewrite E1. eapply Rle_trans; [apply rnd_rel|]. 
    apply Rle_trans with (bpow radix2 (-53) * bpow radix2 24 + bpow radix2 (-29)).
    - apply Rplus_le_compat; [apply Rmult_le_compat_l; [apply bpow_ge_0|exact Bq]|apply bpow_le; lia].
    - rewrite <- bpow_plus. change (-53 + 24)%Z with (-29)%Z. right. assert (X : bpow radix2 (-28) = 2 * bpow radix2 (-29)) by exact (bpow_plus radix2 1 (-29)). lra.
  Qed.

  Theorem range_order c (h : header fl) dIn dOut clamps minIn maxIn minOut maxOut :
    fourLimits h dIn dOut clamps minIn maxIn minOut maxOut ->
    moderate minIn -> moderate maxIn -> moderate minOut -> moderate maxOut ->
    B2R minIn + / 1024 <= B2R maxIn -> B2R minOut <= B2R maxOut ->
    exists f, actsPerSample c (Node h BRange) f /\
      forall x x', is_finite x = true -> is_finite x' = true -> Rabs (B2R x) <= bpow radix2 126 -> Rabs (B2R x') <= bpow radix2 126 ->
        B2R x <= B2R x' -> Bleb (f x) (f x') = true.
  Proof.
    intros (H1 & H2 & H3 & H4 & H5 & H6 & H7) Mmi Mma Mmo Mmao Hin Hout.
    destruct (limit_stored dIn minIn Mmi) as (z & Hz & Ez & Fmi & Emi & Bmi & Cmi).
    destruct (limit_stored dIn maxIn Mma) as (z1 & Hz1 & Ez1 & Fma & Ema & Bma & Cma).
    destruct (limit_stored dOut minOut Mmo) as (o & Ho & Eo & Fmo & Emo & Bmo & _).
    destruct (limit_stored dOut maxOut Mmao) as (o1 & Ho1 & Eo1 & Fmao & Emao & Bmao & _).
    assert (Same : forall a b, (1 <= a < 65536)%Z -> (1 <= b < 65536)%Z -> (nofZ a : fl) = nofZ b -> a = b).
    { intros a b Ha Hb E. destruct (ofZ_exact L a) as [_ Ea]; [lia|]. destruct (ofZ_exact L b) as [_ Eb]; [lia|]. apply eq_IZR. rewrite <- Ea, <- Eb. now f_equal. }
    assert (z1 = z) by (apply Same; try assumption; congruence). assert (o1 = o) by (apply Same; try assumption; congruence). subst z1 o1. clear Same Ez1 Eo1 Hz1 Ho1.
    set (mi := ndiv minIn (bitDepthSize dIn)) in *. set (ma := ndiv maxIn (bitDepthSize dIn)) in *.
    set (mo := ndiv minOut (bitDepthSize dOut)) in *. set (mao := ndiv maxOut (bitDepthSize dOut)) in *.
    assert (Pz : 1 <= IZR z <= 65535) by (split; apply IZR_le; lia). assert (Po : 1 <= IZR o) by (apply IZR_le; lia).
    (* the denominator *)
    assert (Rd : Rounds (nsub ma mi) (B2R ma - B2R mi)) by (apply minus_Rounds; assumption).
    assert (G25 : bpow radix2 25 = 2 * bpow radix2 24) by exact (bpow_plus radix2 1 24).
    assert (Diff : bpow radix2 (-27) <= B2R ma - B2R mi).
    { assert (E26 : / 1024 / IZR z <= B2R maxIn / IZR z - B2R minIn / IZR z).
      { unfold Rdiv. rewrite <- Rmult_minus_distr_r. apply Rmult_le_compat_r; [left; apply Rinv_0_lt_compat; lra|lra]. }
      assert (Q : bpow radix2 (-26) <= / 1024 / IZR z).
      { apply Rmult_le_reg_r with (IZR z); [lra|]. unfold Rdiv. rewrite Rmult_assoc, Rinv_l, Rmult_1_r by lra. change (bpow radix2 (-26)) with (/ 67108864). lra. }
      apply Rabs_le_inv in Cmi. apply Rabs_le_inv in Cma.
      assert (bpow radix2 (-26) = 4 * bpow radix2 (-28)) by exact (bpow_plus radix2 2 (-28)). assert (bpow radix2 (-27) = 2 * bpow radix2 (-28)) by exact (bpow_plus radix2 1 (-28)). lra. }
    pose proof (bpow_gt_0 radix2 (-27)) as P27.
    destruct (at_most _ _ 25 Rd) as (Fd & Ed & Bd); [|lia|lia|].
    { apply Rabs_le_inv in Bmi. apply Rabs_le_inv in Bma. apply Rabs_le. lra. }
    set (den := nsub ma mi) in *.
    assert (Dlow : bpow radix2 (-27) <= B2R den).
    { rewrite Ed, <- (rnd_format (p := 53) (e := 1024) (bpow radix2 (-27))); [now apply rnd_le|]. apply generic_format_bpow. unfold SpecFloat.fexp, SpecFloat.emin. lia. }
    (* the numerator *)
    assert (Rn : Rounds (nsub mao mo) (B2R mao - B2R mo)) by (apply minus_Rounds; assumption).
    destruct (at_most _ _ 25 Rn) as (Fn & En & Bn); [|lia|lia|].
    { apply Rabs_le_inv in Bmo. apply Rabs_le_inv in Bmao. apply Rabs_le. lra. }
    set (num := nsub mao mo) in *.
    assert (Nlow : 0 <= B2R num).
    { rewrite En, <- (rnd_0 (p := 53) (e := 1024)). apply rnd_le. rewrite Emao, Emo. 
      assert (rnd (p := 53) (e := 1024) (B2R minOut / IZR o) <= rnd (p := 53) (e := 1024) (B2R maxOut / IZR o)); [|lra].
      apply rnd_le. apply Rmult_le_compat_r; [left; apply Rinv_0_lt_compat; lra|exact Hout]. }
    (* the scale *)
    assert (Rs : Rounds (ndiv num den) (B2R num / B2R den)) by (apply div_Rounds; [exact Fn|exact Fd|lra]).
    assert (Qs : 0 <= B2R num / B2R den <= bpow radix2 52).
    { split; [apply div_nonneg; lra|]. apply Rmult_le_reg_r with (B2R den); [lra|]. unfold Rdiv. rewrite Rmult_assoc, Rinv_l, Rmult_1_r by lra.
      rewrite (Rabs_pos_eq (B2R num)) in Bn by lra. apply Rle_trans with (1 := Bn). change (bpow radix2 25) with (bpow radix2 (52 + -27)). rewrite bpow_plus.
      apply Rmult_le_compat_l; [apply bpow_ge_0|exact Dlow]. }
    destruct (at_most _ _ 52 Rs) as (Fs & Es & Bs); [rewrite Rabs_pos_eq; lra|lia|lia|].
    set (scale := ndiv num den) in *.
    assert (Slow : 0 <= B2R scale) by (rewrite Es, <- (rnd_0 (p := 53) (e := 1024)); apply rnd_le; lra).
    assert (Div : pyfdiv num den = Ok scale).
    { unfold pyfdiv. destruct (neqb den n0) eqn:E; [|reflexivity]. exfalso. change (Beqb den n0 = true) in E.
      destruct (ofZ_exact L 0) as [F0 E0]; [lia|]. rewrite Beqb_correct in E by assumption. change (B2R (n0 : fl)) with 0 in E. destruct (Req_bool_spec (B2R den) 0); [lra|discriminate]. }
    (* the offset *)
    assert (Rms : Rounds (nmul mi scale) (B2R mi * B2R scale)) by (apply mult_Rounds; assumption).
    destruct (at_most _ _ 76 Rms) as (Fms & _ & Bms); [|lia|lia|].
    { rewrite Rabs_mult. change 76%Z with (24 + 52)%Z. rewrite bpow_plus. apply Rmult_le_compat; try apply Rabs_pos; assumption. }
    set (off := nmul mi scale) in *.
    set (unclamped := fun x : fl => nf32 (nsub (nadd (nmul (nf32 (bitDepthToNormalized x dIn)) scale) mo) off)).
    exists (fun x => nf32 (normalizedToBitDepth (if clamps then nf32 (pymin mao (pymax mo (unclamped x))) else unclamped x) dOut)).
    split.
    - intros st values. cbn [nodeProcess]. rewrite rangeProcess_elem. unfold rangeFun, dgetE. rewrite H1, H2. cbn [bind].
      unfold rangeLimit. rewrite H4, H5, H6, H7. cbn [orDefault].
      replace (match dget (h_attrs h) "style" with Some v => aval_eqb v (AStr "clamp") | None => true end) with clamps.
      + set (g := fun x => nf32 _). assert (M : mapM (rangeElem dIn dOut clamps (Some mi) (Some ma) (Some mo) (Some mao)) values = Ok (map g values)).
        { induction values as [|x t IH]; [reflexivity|]. cbn [mapM bind map]. rewrite IH. unfold rangeElem. fold num den. rewrite Div. reflexivity. }
        unfold mi, ma, mo, mao in M. rewrite M. reflexivity.
      + destruct (dget (h_attrs h) "style") as [v|]; [|apply H3; now left].
        destruct v as [s|b|]; cbn [aval_eqb].
        * destruct (String.eqb_spec s "clamp") as [->|N]; [apply H3; now right|]. destruct clamps; [|reflexivity]. destruct (proj1 H3 eq_refl) as [X|X]; congruence.
        * destruct clamps; [|reflexivity]. destruct (proj1 H3 eq_refl) as [X|X]; congruence.
        * destruct clamps; [|reflexivity]. destruct (proj1 H3 eq_refl) as [X|X]; congruence.
    - intros x x' Fx Fx' Bx Bx' Hx. pose proof (fullScale_pos dIn) as Pd.
      assert (Ps : 1 <= fullScale dIn) by (destruct (scale_cases L dIn x) as (w & -> & Hw & _); apply IZR_le; lia).
      assert (Bq : forall y, Rabs y <= bpow radix2 126 -> Rabs (y / fullScale dIn) <= bpow radix2 126).
      { intros y By. unfold Rdiv. rewrite Rabs_mult, Rabs_inv, (Rabs_pos_eq (fullScale dIn)) by lra.
        apply Rmult_le_reg_r with (fullScale dIn); [lra|]. rewrite Rmult_assoc, Rinv_l by lra. pose proof (bpow_ge_0 radix2 126). nra. }
      assert (Pos : forall y, is_finite y = true -> Rabs (B2R y) <= bpow radix2 126 -> is_finite (nf32 (bitDepthToNormalized y dIn)) = true /\
        B2R (nf32 (bitDepthToNormalized y dIn)) = rnd (p := 24) (e := 128) (rnd (p := 53) (e := 1024) (B2R y / fullScale dIn)) /\ Rabs (B2R (nf32 (bitDepthToNormalized y dIn))) <= bpow radix2 126).
      { intros y Fy By. destruct (normalized_stored L dIn y Fy (Bq _ By)) as [[F1 _] E1]. split; [exact F1|]. split; [exact E1|].
        match goal with |- Rabs (B2R ?w) <= _ => change w with (@nf32 fl (NLu L) (@bitDepthToNormalized fl (NLu L) y dIn)) end. rewrite E1.
        apply abs_round_le_generic; [apply fexp_valid|apply valid_rnd_N| |].
        - apply generic_format_bpow. unfold SpecFloat.fexp, SpecFloat.emin. lia.
        - apply abs_round_le_generic; [apply fexp_valid|apply valid_rnd_N| |now apply Bq]. apply generic_format_bpow. unfold SpecFloat.fexp, SpecFloat.emin. lia. }
      destruct (Pos x Fx Bx) as (F1 & E1 & B1). destruct (Pos x' Fx' Bx') as (F1' & E1' & B1').
      assert (O1 : B2R (nf32 (bitDepthToNormalized x dIn)) <= B2R (nf32 (bitDepthToNormalized x' dIn))).
      { rewrite E1, E1'. apply rnd_le, rnd_le. apply Rmult_le_compat_r; [left; now apply Rinv_0_lt_compat|exact Hx]. }
      assert (U : Bleb (unclamped x) (unclamped x') = true).
      { unfold unclamped. set (p := nf32 (bitDepthToNormalized x dIn)) in *. set (p' := nf32 (bitDepthToNormalized x' dIn)) in *.
        assert (St : forall w : fl, is_finite w = true -> Rabs (B2R w) <= bpow radix2 126 ->
          is_finite (nsub (nadd (nmul w scale) mo) off) = true /\
          B2R (nsub (nadd (nmul w scale) mo) off) = rnd (p := 53) (e := 1024) (rnd (p := 53) (e := 1024) (rnd (p := 53) (e := 1024) (B2R w * B2R scale) + B2R mo) - B2R off)).
        { intros w Fw Bw.
          assert (Ra : Rounds (nmul w scale) (B2R w * B2R scale)) by (apply mult_Rounds; assumption).
          destruct (at_most _ _ 178 Ra) as (Fa & Ea & Ba); [|lia|lia|].
          { rewrite Rabs_mult. change 178%Z with (126 + 52)%Z. rewrite bpow_plus. apply Rmult_le_compat; try apply Rabs_pos; assumption. }
          assert (Rb : Rounds (nadd (nmul w scale) mo) (B2R (nmul w scale) + B2R mo)) by (apply plus_Rounds; assumption).
          assert (B178 : bpow radix2 179 = 2 * bpow radix2 178) by exact (bpow_plus radix2 1 178). assert (B179 : bpow radix2 180 = 2 * bpow radix2 179) by exact (bpow_plus radix2 1 179).
          assert (L24 : bpow radix2 24 <= bpow radix2 178) by (apply bpow_le; lia). assert (L76 : bpow radix2 76 <= bpow radix2 179) by (apply bpow_le; lia).
          destruct (at_most _ _ 179 Rb) as (Fb & Eb & Bb); [|lia|lia|].
          { eapply Rle_trans; [apply Rabs_triang|]. lra. }
          assert (Rc : Rounds (nsub (nadd (nmul w scale) mo) off) (B2R (nadd (nmul w scale) mo) - B2R off)) by (apply minus_Rounds; assumption).
          destruct (at_most _ _ 180 Rc) as (Fc & Ec & Bc); [|lia|lia|].
          { unfold Rminus. eapply Rle_trans; [apply Rabs_triang|]. rewrite Rabs_Ropp. lra. }
          split; [exact Fc|]. now rewrite Ec, Eb, Ea. }
        destruct (St p F1 B1) as [Fp Ep]. destruct (St p' F1' B1') as [Fp' Ep'].
        apply (f32_le L). apply le_B; [exact Fp|exact Fp'|]. rewrite Ep, Ep'. apply rnd_le. apply Rplus_le_compat_r. apply rnd_le. apply Rplus_le_compat_r. apply rnd_le.
        apply Rmult_le_compat_r; assumption. }
      apply (f32_le L), (denorm_le L). destruct clamps; [|exact U]. apply (f32_le L). apply min_mono; [now apply finite_not_nan|]. apply max_mono; [now apply finite_not_nan|exact U].
  Qed.
End RangeOrder.
