(** Log in exact arithmetic. *)
From Coq Require Import Lra.
From Verif Require Export PGamma.
Local Open Scope R_scope.

Lemma logParams_ok (ps : list (lparam R)) : Forall (fun p => knownChannel (l_chan p)) ps ->
  let L := lastApplying l_chan lchanOf lchanDefault ps in logParams ps = Ok [L 0%nat; L 1%nat; L 2%nat].
Proof.
  intro F. cbv zeta. unfold logParams, lastApplying. generalize (@lchanDefault R realNum) as d.
  assert (G : forall x y z, for_each ps (fun p cs => match l_chan p with
      | None => Ok [lchanOf p; lchanOf p; lchanOf p]
      | Some c => let* k := channelIndex c in setn cs k (lchanOf p) end) [x; y; z] =
    Ok [fold_left (fun v p => if appliesTo (l_chan p) 0 then lchanOf p else v) ps x;
        fold_left (fun v p => if appliesTo (l_chan p) 1 then lchanOf p else v) ps y;
        fold_left (fun v p => if appliesTo (l_chan p) 2 then lchanOf p else v) ps z]).
  { induction F as [|p ps Hp F IH]; intros; [reflexivity|]. cbn [for_each fold_left].
    destruct (l_chan p) as [s|] eqn:Ec.
    - destruct (channel_setn s x y z (lchanOf p) Hp) as [k [Ek Eg]]. rewrite Ek. cbn [bind]. rewrite Eg. cbn [bind]. apply IH.
    - cbn [bind]. apply IH. }
  intros. apply G.
Qed.

Lemma lastApplying_proj {P V W} (chan : P -> option string) (val : P -> V) (pr : V -> W) d (ps : list P) ch :
  pr (lastApplying chan val d ps ch) = lastApplying chan (fun p => pr (val p)) (pr d) ps ch.
Proof.
  unfold lastApplying. revert d. induction ps as [|p ps IH]; intro d; [reflexivity|]. cbn [fold_left]. rewrite IH. now destruct (appliesTo _ _).
Qed.

Definition chanOf (s : logSettings) (ch : nat) : lchan R :=
  {| lc_gamma := lsGamma s ch; lc_white := lsWhite s ch; lc_black := lsBlack s ch; lc_high := lsHigh s ch; lc_shadow := lsShadow s ch |}.

Lemma isLog_params h ps style dIn dOut s : isLog h ps style dIn dOut s ->
  logParams ps = Ok [chanOf s 0; chanOf s 1; chanOf s 2].
Proof.
  intros [_ [_ [_ [F H]]]]. rewrite logParams_ok by assumption. cbv zeta.
  assert (G : forall ch, (ch < 3)%nat -> lastApplying l_chan lchanOf lchanDefault ps ch = chanOf s ch).
  { intros ch Hc. destruct (H ch Hc) as [E1 [E2 [E3 [E4 E5]]]].
    set (L := lastApplying l_chan lchanOf lchanDefault ps ch).
    assert (P1 : lc_gamma L = lsGamma s ch) by (unfold L; rewrite lastApplying_proj; exact E1).
    assert (P2 : lc_white L = lsWhite s ch) by (unfold L; rewrite lastApplying_proj; exact E2).
    assert (P3 : lc_black L = lsBlack s ch) by (unfold L; rewrite lastApplying_proj; exact E3).
    assert (P4 : lc_high L = lsHigh s ch) by (unfold L; rewrite lastApplying_proj; exact E4).
    assert (P5 : lc_shadow L = lsShadow s ch) by (unfold L; rewrite lastApplying_proj; exact E5).
    destruct L. cbn in *. subst. reflexivity. }
  now rewrite !G by lia.
Qed.

Lemma log_acts c h ps style dIn dOut s st (F : nat -> R -> R) :
  isLog h ps style dIn dOut s -> logStyleOf (AStr style) = st -> st <> LOther ->
  (forall ch x, (ch < 3)%nat -> logFun st [chanOf s 0; chanOf s 1; chanOf s 2] ch x = Ok (F ch x)) ->
  actsPerChannel c (Node h (BLog ps)) (fun ch x => F ch (x / fullScale dIn) * fullScale dOut).
Proof.
  intros H Hs Hn Hf n values Hst. pose proof (isLog_params _ _ _ _ _ _ H) as Hp. destruct H as [Hi [Ho [Hc _]]].
  cbn [nodeProcess]. rewrite log_form by lia. unfold dgetE. rewrite Hi, Ho. cbn [bind]. rewrite Hp, Hc. cbn [bind].
  apply pixelwise_colour; [assumption|]. intros px Hl. rewrite Hs, logPixel_form by assumption.
  destruct (three_of px ltac:(lia)) as [x [y [z [t ->]]]].
  cbn [firstn mapMi skipn]. unfold logElem.
  rewrite (conv_R dIn dOut _ x (F 0%nat (x / fullScale dIn))) by (apply Hf; lia).
  rewrite (conv_R dIn dOut _ y (F 1%nat (y / fullScale dIn))) by (apply Hf; lia).
  rewrite (conv_R dIn dOut _ z (F 2%nat (z / fullScale dIn))) by (apply Hf; lia).
  reflexivity.
Qed.

Lemma FLOAT_MIN_R : @FLOAT_MIN R realNum = floatMin.
Proof.
  unfold FLOAT_MIN, floatMin. realize. rewrite Rpow_pos by lra.
  change (-38) with (- (INR 38)) || replace (IZR (-38)) with (- (INR 38)) by (simpl; lra).
  rewrite Rpower_Ropp, Rpower_pow by lra. field.
Qed.
Lemma floatMin_pos : 0 < floatMin.
Proof. unfold floatMin, Rdiv. apply Rmult_lt_0_compat; [lra|]. apply Rinv_0_lt_compat, pow_lt. lra. Qed.

Lemma ln_pos b : 1 < b -> 0 < ln b.
Proof. intro H. rewrite <- ln_1. apply ln_increasing; lra. Qed.
Lemma log_scale b x : 1 < b -> ln x / ln 10 / (ln b / ln 10) = ln x / ln b.
Proof. intro H. pose proof (ln_pos b H). pose proof (ln_pos 10 ltac:(lra)). field. split; lra. Qed.
Lemma Rpower_log b x : 1 < b -> 0 < x -> Rpower b (ln x / ln b) = x.
Proof.
  intros H Hx. pose proof (ln_pos b H). unfold Rpower. replace (ln x / ln b * ln b) with (ln x) by (field; lra). now apply exp_ln.
Qed.
Lemma log_Rpower b y : 1 < b -> ln (Rpower b y) / ln b = y.
Proof. intro H. pose proof (ln_pos b H). unfold Rpower. rewrite ln_exp. field. lra. Qed.

Lemma div_ge d x u : u * fullScale d <= x -> u <= x / fullScale d.
Proof.
  intro H. pose proof (fullScale_pos d). apply (div_le d) in H. replace (u * fullScale d / fullScale d) with u in H by (field; lra). exact H.
Qed.
Lemma div_lt_scale d x u : x < u * fullScale d -> x / fullScale d < u.
Proof.
  intro H. pose proof (fullScale_pos d). apply (Rmult_lt_reg_r (fullScale d)); [assumption|]. replace (x / fullScale d * fullScale d) with x by (field; lra). exact H.
Qed.

Theorem log_pure c hL psL hA psA (b : R) styleL styleA dA dB sL sA :
  (b = 10 /\ styleL = "log10" /\ styleA = "antiLog10") \/ (b = 2 /\ styleL = "log2" /\ styleA = "antiLog2") ->
  isLog hL psL styleL dA dB sL -> isLog hA psA styleA dB dA sA ->
  exists f g, actsPerChannel c (Node hL (BLog psL)) (fun _ => f) /\ actsPerChannel c (Node hA (BLog psA)) (fun _ => g) /\
    (forall x, f x = ln (Rmax (x / fullScale dA) floatMin) / ln b * fullScale dB) /\
    (forall y, g y = Rpower b (y / fullScale dB) * fullScale dA) /\
    (forall x, floatMin * fullScale dA <= x -> g (f x) = x) /\
    (forall x, x < floatMin * fullScale dA -> g (f x) = floatMin * fullScale dA) /\
    (forall y, floatMin <= Rpower b (y / fullScale dB) -> f (g y) = y).
Proof.
  intros Hb HL HA.
  exists (fun x => ln (Rmax (x / fullScale dA) floatMin) / ln b * fullScale dB), (fun y => Rpower b (y / fullScale dB) * fullScale dA).
  assert (B1 : 1 < b) by (destruct Hb as [[-> _]|[-> _]]; lra).
  pose proof (fullScale_pos dA) as PA. pose proof (fullScale_pos dB) as PB. pose proof floatMin_pos as PF.
  repeat match goal with |- _ /\ _ => split end.
  - destruct Hb as [[-> [-> _]]|[-> [-> _]]].
    + apply (log_acts c hL psL "log10" dA dB sL LLog10 (fun _ x => ln (Rmax x floatMin) / ln 10) HL eq_refl); [discriminate|].
      intros ch x _. cbn [logFun]. unfold logLog10. rewrite pymax_R, FLOAT_MIN_R. reflexivity.
    + apply (log_acts c hL psL "log2" dA dB sL LLog2 (fun _ x => ln (Rmax x floatMin) / ln 2) HL eq_refl); [discriminate|].
      intros ch x _. cbn [logFun]. unfold logLog2. rewrite pymax_R, FLOAT_MIN_R. realize. rewrite log_scale by lra. reflexivity.
  - destruct Hb as [[-> [_ ->]]|[-> [_ ->]]].
    + apply (log_acts c hA psA "antiLog10" dB dA sA LAnti10 (fun _ x => Rpower 10 x) HA eq_refl); [discriminate|].
      intros ch x _. cbn [logFun]. unfold logAnti10. realize. now rewrite Rpow_pos by lra.
    + apply (log_acts c hA psA "antiLog2" dB dA sA LAnti2 (fun _ x => Rpower 2 x) HA eq_refl); [discriminate|].
      intros ch x _. cbn [logFun]. unfold logAnti2. realize. now rewrite Rpow_pos by lra.
  - reflexivity.
  - reflexivity.
  - intros x Hx. apply div_ge in Hx. rewrite Rmax_left by assumption.
    replace (ln (x / fullScale dA) / ln b * fullScale dB / fullScale dB) with (ln (x / fullScale dA) / ln b) by (pose proof (ln_pos b B1); field; lra).
    rewrite Rpower_log by lra. field. lra.
  - intros x Hx. apply div_lt_scale in Hx. rewrite Rmax_right by lra.
    replace (ln floatMin / ln b * fullScale dB / fullScale dB) with (ln floatMin / ln b) by (pose proof (ln_pos b B1); field; lra).
    now rewrite Rpower_log by lra.
  - intros y Hy. replace (Rpower b (y / fullScale dB) * fullScale dA / fullScale dA) with (Rpower b (y / fullScale dB)) by (field; lra).
    rewrite Rmax_left by assumption. rewrite log_Rpower by assumption. field. lra.
Qed.

Lemma blackExposure_lt s ch : 0 < blackExposure s ch < 1.
Proof.
  split; [apply Rpower_pos|]. unfold blackExposure. apply Rlt_le_trans with (exp 0); [|rewrite exp_0; lra]. unfold Rpower. apply exp_increasing.
  pose proof (ln_pos 10 ltac:(lra)) as L. pose proof (Rmin_l (- (1 / 100000)) ((lsBlack s ch - lsWhite s ch) * (2 / 1000) / lsGamma s ch)).
  set (m := Rmin _ _) in *. clearbody m. assert (m < 0) by lra. nra.
Qed.

Lemma logBlackGain_R s ch : lsGamma s ch <> 0 -> logBlackGain (chanOf s ch) = Ok (blackExposure s ch, logGain s ch).
Proof.
  intro Hg. unfold logBlackGain, chanOf. cbn [lc_black lc_white lc_gamma lc_high lc_shadow]. realize.
  rewrite pyfdiv_ok by assumption. cbn [bind]. rewrite pymin_R, pypow_pos by lra. cbn [bind].
  replace (-1 / 100000) with (- (1 / 100000)) by field. fold (blackExposure s ch).
  pose proof (blackExposure_lt s ch). rewrite pyfdiv_ok by lra. reflexivity.
Qed.

Lemma pick3 (s : logSettings) ch : (ch < 3)%nat -> getn [chanOf s 0; chanOf s 1; chanOf s 2] ch = Ok (chanOf s ch).
Proof. intro H. destruct ch as [|[|[|]]]; try reflexivity; lia. Qed.

Theorem log_cineon c hT psT hF psF dA dB s :
  isLog hT psT "logToLin" dA dB s -> isLog hF psF "linToLog" dB dA s ->
  (forall ch, (ch < 3)%nat -> lsGamma s ch <> 0 /\ lsHigh s ch <> lsShadow s ch) ->
  exists f g, actsPerChannel c (Node hT (BLog psT)) f /\ actsPerChannel c (Node hF (BLog psF)) g /\
    forall ch, (ch < 3)%nat ->
      let exposure x := Rpower 10 ((1023 * (x / fullScale dA) - lsWhite s ch) * (2 / 1000) / lsGamma s ch) in
      let relative y := blackExposure s ch + (y / fullScale dB - lsShadow s ch) / logGain s ch in
      (forall x, f ch x = ((exposure x - blackExposure s ch) * logGain s ch + lsShadow s ch) * fullScale dB) /\
      (forall y, g ch y = (lsWhite s ch + ln (Rmax floatMin (relative y)) / ln 10 * lsGamma s ch / (2 / 1000)) / 1023 * fullScale dA) /\
      (forall x, floatMin <= exposure x -> g ch (f ch x) = x) /\
      (forall y, floatMin <= relative y -> f ch (g ch y) = y).
Proof.
  intros HT HF Hp.
  exists (fun ch x => ((Rpower 10 ((1023 * (x / fullScale dA) - lsWhite s ch) * (2 / 1000) / lsGamma s ch) - blackExposure s ch) * logGain s ch + lsShadow s ch) * fullScale dB),
         (fun ch y => (lsWhite s ch + ln (Rmax floatMin (blackExposure s ch + (y / fullScale dB - lsShadow s ch) / logGain s ch)) / ln 10 * lsGamma s ch / (2 / 1000)) / 1023 * fullScale dA).
  pose proof (fullScale_pos dA) as PA. pose proof (fullScale_pos dB) as PB. pose proof floatMin_pos as PF.
  split; [|split].
  - apply (log_acts c hT psT "logToLin" dA dB s LLogToLin (fun ch x => (Rpower 10 ((1023 * x - lsWhite s ch) * (2 / 1000) / lsGamma s ch) - blackExposure s ch) * logGain s ch + lsShadow s ch) HT eq_refl); [discriminate|].
    intros ch x Hc. cbn [logFun]. rewrite pick3 by assumption. cbn [bind]. rewrite logBlackGain_R by (now apply Hp). cbn [bind].
    unfold logToLin, chanOf. cbn [lc_black lc_white lc_gamma lc_high lc_shadow]. realize. rewrite Rpow_pos by lra. reflexivity.
  - apply (log_acts c hF psF "linToLog" dB dA s LLinToLog (fun ch y => (lsWhite s ch + ln (Rmax floatMin (blackExposure s ch + (y - lsShadow s ch) / logGain s ch)) / ln 10 * lsGamma s ch / (2 / 1000)) / 1023) HF eq_refl); [discriminate|].
    intros ch x Hc. cbn [logFun]. rewrite pick3 by assumption. cbn [bind]. rewrite logBlackGain_R by (now apply Hp). cbn [bind].
    unfold linToLog, chanOf. cbn [lc_black lc_white lc_gamma lc_high lc_shadow]. rewrite pymax_R, FLOAT_MIN_R. reflexivity.
  - intros ch Hc. cbv zeta. destruct (Hp ch Hc) as [Hg Hh].
    assert (G0 : logGain s ch <> 0).
    { unfold logGain. pose proof (blackExposure_lt s ch). unfold Rdiv. apply Rmult_integral_contrapositive_currified; [lra|]. apply Rinv_neq_0_compat. lra. }
    assert (L10 : ln 10 <> 0) by (pose proof (ln_pos 10 ltac:(lra)); lra).
    split; [reflexivity|]. split; [reflexivity|]. split.
    + intros x Hx. set (E := Rpower 10 _) in *.
      replace (blackExposure s ch + ((((E - blackExposure s ch) * logGain s ch + lsShadow s ch) * fullScale dB) / fullScale dB - lsShadow s ch) / logGain s ch)
        with E by (field; split; lra).
      rewrite Rmax_right by assumption. unfold E. rewrite log_Rpower by lra. field. repeat split; lra.
    + intros y Hy. set (E := blackExposure s ch + _) in *. rewrite Rmax_right by assumption.
      replace ((1023 * ((lsWhite s ch + ln E / ln 10 * lsGamma s ch / (2 / 1000)) / 1023 * fullScale dA / fullScale dA) - lsWhite s ch) * (2 / 1000) / lsGamma s ch)
        with (ln E / ln 10) by (field; repeat split; lra).
      rewrite Rpower_log by lra. unfold E. field. split; [lra|assumption].
Qed.
