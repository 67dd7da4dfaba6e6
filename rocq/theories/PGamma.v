(** Gamma in exact arithmetic. *)
From Coq Require Import Lra.
From Verif Require Export PPow PAct.
Local Open Scope R_scope.

Lemma channel_setn {A} (s : string) (x y z v : A) : knownChannel (Some s) ->
  exists k, channelIndex s = Ok k /\
    setn [x; y; z] k v = Ok [if appliesTo (Some s) 0 then v else x; if appliesTo (Some s) 1 then v else y; if appliesTo (Some s) 2 then v else z].
Proof.
  intros [H|[H|[H|H]]]; [discriminate| | |]; injection H as ->; eexists; split; reflexivity.
Qed.

Lemma gammaParams_ok (ps : list (gparam R)) : Forall (fun p => knownChannel (g_chan p)) ps ->
  let G := lastApplying g_chan g_gamma 1 ps in let O := lastApplying g_chan g_offset 0 ps in
  gammaParams ps = Ok ([G 0%nat; G 1%nat; G 2%nat], [O 0%nat; O 1%nat; O 2%nat]).
Proof.
  intro F. cbv zeta. unfold gammaParams, lastApplying. realize.

  assert (G : forall g0 g1 g2 o0 o1 o2,
    for_each ps (fun p '(gamma, offset) =>
      match g_chan p with
      | None => Ok ([g_gamma p; g_gamma p; g_gamma p], [g_offset p; g_offset p; g_offset p])
      | Some c =>
          let* k := channelIndex c in
          let* gamma := setn gamma k (g_gamma p) in
          let* offset := setn offset k (g_offset p) in
          Ok (gamma, offset)
      end) ([g0; g1; g2], [o0; o1; o2]) =
    Ok ([fold_left (fun v p => if appliesTo (g_chan p) 0 then g_gamma p else v) ps g0;
         fold_left (fun v p => if appliesTo (g_chan p) 1 then g_gamma p else v) ps g1;
         fold_left (fun v p => if appliesTo (g_chan p) 2 then g_gamma p else v) ps g2],
        [fold_left (fun v p => if appliesTo (g_chan p) 0 then g_offset p else v) ps o0;
         fold_left (fun v p => if appliesTo (g_chan p) 1 then g_offset p else v) ps o1;
         fold_left (fun v p => if appliesTo (g_chan p) 2 then g_offset p else v) ps o2])).
  { induction F as [|p ps Hp F IH]; intros; [reflexivity|]. cbn [for_each fold_left].
    destruct (g_chan p) as [s|] eqn:Ec.
    - destruct (channel_setn s g0 g1 g2 (g_gamma p) Hp) as [k [Ek Eg]]. destruct (channel_setn s o0 o1 o2 (g_offset p) Hp) as [k' [Ek' Eo]].
      rewrite Ek in *. injection Ek' as <-. cbn [bind]. rewrite Eg. cbn [bind]. rewrite Eo. cbn [bind]. apply IH.
    - cbn [bind]. apply IH. }
  intros. apply G.
Qed.

Lemma isGamma_params h ps style dIn dOut gamma offset : isGamma h ps style dIn dOut gamma offset ->
  gammaParams ps = Ok ([gamma 0%nat; gamma 1%nat; gamma 2%nat], [offset 0%nat; offset 1%nat; offset 2%nat]).
Proof.
  intros [_ [_ [_ [F H]]]]. rewrite gammaParams_ok by assumption. cbv zeta.
  destruct (H 0%nat ltac:(lia)) as [-> ->]. destruct (H 1%nat ltac:(lia)) as [-> ->]. destruct (H 2%nat ltac:(lia)) as [-> ->]. reflexivity.
Qed.

Lemma conv_R dIn dOut (f : R -> res R) x y : f (x / fullScale dIn) = Ok y -> conv dIn dOut f x = Ok (y * fullScale dOut).
Proof. intro H. unfold conv. rewrite normalize_R. realize. rewrite H. cbn [bind]. now rewrite denormalize_R. Qed.

Lemma gamma_acts c h ps style dIn dOut gamma offset f (F : nat -> R -> R) :
  isGamma h ps style dIn dOut gamma offset -> gammaFun (AStr style) = Some f ->
  (forall ch x, (ch < 3)%nat -> f (gamma ch) (offset ch) x = Ok (F ch x)) ->
  actsPerChannel c (Node h (BGamma ps)) (fun ch x => F ch (x / fullScale dIn) * fullScale dOut).
Proof.
  intros H Hs Hf st values Hst. pose proof (isGamma_params _ _ _ _ _ _ _ H) as Hp. destruct H as [Hi [Ho [Hc _]]].
  cbn [nodeProcess]. rewrite gamma_form by lia. unfold dgetE. rewrite Hi, Ho. cbn [bind]. rewrite Hp, Hc. cbn [bind].
  apply pixelwise_colour; [assumption|]. intros px Hl. rewrite Hs, gammaPixel_form by assumption.
  destruct (three_of px ltac:(lia)) as [x [y [z [t ->]]]].
  cbn [firstn mapMi skipn]. unfold gammaElem.
  rewrite (conv_R dIn dOut _ x (F 0%nat (x / fullScale dIn))) by (cbn [getn nth_error bind]; apply Hf; lia).
  rewrite (conv_R dIn dOut _ y (F 1%nat (y / fullScale dIn))) by (cbn [getn nth_error bind]; apply Hf; lia).
  rewrite (conv_R dIn dOut _ z (F 2%nat (z / fullScale dIn))) by (cbn [getn nth_error bind]; apply Hf; lia).
  reflexivity.
Qed.

(* ------------------------------------------------------------------ *)
(** * basicFwd and basicRev *)

Lemma div_nonneg dIn x : 0 <= x -> 0 <= x / fullScale dIn.
Proof.
  intro H. pose proof (fullScale_pos dIn). unfold Rdiv. apply Rmult_le_pos; [assumption|]. apply Rlt_le, Rinv_0_lt_compat; assumption.
Qed.
Lemma div_le dIn x y : x <= y -> x / fullScale dIn <= y / fullScale dIn.
Proof.
  intro H. pose proof (fullScale_pos dIn). unfold Rdiv. apply Rmult_le_compat_r; [|assumption]. apply Rlt_le, Rinv_0_lt_compat; assumption.
Qed.

Theorem gamma_basic c hF psF hR psR dA dB gamma oF oR :
  isGamma hF psF "basicFwd" dA dB gamma oF -> isGamma hR psR "basicRev" dB dA gamma oR ->
  (forall ch, (ch < 3)%nat -> 0 < gamma ch) ->
  exists f g, actsPerChannel c (Node hF (BGamma psF)) f /\ actsPerChannel c (Node hR (BGamma psR)) g /\
    forall ch, (ch < 3)%nat ->
      (forall x, 0 < x -> f ch x = Rpower (x / fullScale dA) (gamma ch) * fullScale dB) /\
      (forall x, x <= 0 -> f ch x = 0) /\
      (forall x, 0 <= x -> g ch (f ch x) = x) /\
      (forall x, x < 0 -> g ch (f ch x) = 0) /\
      (forall y, 0 <= y -> f ch (g ch y) = y) /\
      (forall x y, x <= y -> f ch x <= f ch y).
Proof.
  intros HF HR Hg.
  exists (fun ch x => Rpow (Rmax 0 (x / fullScale dA)) (gamma ch) * fullScale dB),
         (fun ch x => Rpow (Rmax 0 (x / fullScale dB)) (1 / gamma ch) * fullScale dA).
  assert (Hi : forall ch, (ch < 3)%nat -> 0 < 1 / gamma ch).
  { intros ch Hc. specialize (Hg ch Hc). unfold Rdiv. rewrite Rmult_1_l. now apply Rinv_0_lt_compat. }
  split; [|split].
  - apply (gamma_acts c hF psF "basicFwd" dA dB gamma oF _ (fun ch x => Rpow (Rmax 0 x) (gamma ch)) HF eq_refl).
    intros ch x Hc. unfold gammaBasicFwd. rewrite pymax_R. apply pypow_nonneg; [apply Rmax_l|auto].
  - apply (gamma_acts c hR psR "basicRev" dB dA gamma oR _ (fun ch x => Rpow (Rmax 0 x) (1 / gamma ch)) HR eq_refl).
    intros ch x Hc. unfold gammaBasicRev. rewrite pyfdiv_ok by (specialize (Hg ch Hc); realize; lra). cbn [bind].
    rewrite pymax_R. realize. apply pypow_nonneg; [apply Rmax_l|auto].
  - intros ch Hc. specialize (Hg ch Hc). specialize (Hi ch Hc).
    pose proof (fullScale_pos dA) as PA. pose proof (fullScale_pos dB) as PB.
    assert (Neg : forall x, x <= 0 -> Rmax 0 (x / fullScale dA) = 0).
    { intros x Hx. pose proof (div_le dA x 0 Hx) as D. unfold Rdiv in D at 2. rewrite Rmult_0_l in D. now apply Rmax_left. }
    assert (Pos : forall d x, 0 <= x -> Rmax 0 (x / fullScale d) = x / fullScale d) by (intros d x Hx; apply Rmax_right, div_nonneg, Hx).
    assert (Back : forall u d, 0 < fullScale d -> 0 <= u -> Rmax 0 (u * fullScale d / fullScale d) = u).
    { intros u d Hd Hu. replace (u * fullScale d / fullScale d) with u by (field; lra). now apply Rmax_right. }
    repeat split.
    + intros x Hx. rewrite Pos by lra. rewrite Rpow_pos; [reflexivity|]. unfold Rdiv. apply Rmult_lt_0_compat; [assumption|now apply Rinv_0_lt_compat].
    + intros x Hx. rewrite Neg by assumption. rewrite Rpow_0 by assumption. lra.
    + intros x Hx. rewrite Back; [|assumption|apply Rpow_nonneg, Rmax_l]. rewrite Pos by assumption.
      rewrite Rpow_inv by (assumption || now apply div_nonneg). field. lra.
    + intros x Hx. rewrite Neg by lra. rewrite Rpow_0 by assumption. unfold Rdiv. rewrite !Rmult_0_l, Rmax_left by lra.
      rewrite Rpow_0 by (unfold Rdiv in Hi; exact Hi). lra.
    + intros y Hy. rewrite Back; [|assumption|apply Rpow_nonneg, Rmax_l]. rewrite Pos by assumption.
      replace (gamma ch) with (1 / (1 / gamma ch)) at 2 by (field; lra).
      rewrite Rpow_inv by (assumption || now apply div_nonneg). field. lra.
    + intros x y Hxy. apply Rmult_le_compat_r; [lra|]. apply Rpow_le; [|assumption]. split; [apply Rmax_l|].
      apply Rle_max_compat_l. now apply div_le.
Qed.

(* ------------------------------------------------------------------ *)
(** * moncurveFwd and moncurveRev *)

Section Mon.
  Variables g o : R.
  Hypothesis Hg : 1 < g.
  Hypothesis Ho : 0 < o.

  Definition brk : R := o / (g - 1).
  Definition base : R := g * o / ((g - 1) * (o + 1)).
  Definition slopeF : R := (g - 1) / o * Rpower base g.
  Definition slopeR : R := Rpower ((g - 1) / o) (g - 1) * Rpower ((1 + o) / g) g.
  Definition monF (x : R) : R := if Rle_dec x brk then slopeF * x else Rpower ((x + o) / (o + 1)) g.
  Definition monR (y : R) : R := if Rle_dec y brk then slopeR * y else Rpower y (1 / g) * (1 + o) - o.

  Lemma brk_pos : 0 < brk.
  Proof using Hg Ho. unfold brk, Rdiv. apply Rmult_lt_0_compat; [assumption|apply Rinv_0_lt_compat; lra]. Qed.
  Lemma base_pos : 0 < base.
  Proof using Hg Ho.
    unfold base, Rdiv. apply Rmult_lt_0_compat; [apply Rmult_lt_0_compat; lra|].
    apply Rinv_0_lt_compat, Rmult_lt_0_compat; lra.
  Qed.
  Lemma q_pos : 0 < (g - 1) / o.
  Proof using Hg Ho. unfold Rdiv. apply Rmult_lt_0_compat; [lra|now apply Rinv_0_lt_compat]. Qed.
  Lemma b2_pos : 0 < (1 + o) / g.
  Proof using Hg Ho. unfold Rdiv. apply Rmult_lt_0_compat; [lra|apply Rinv_0_lt_compat; lra]. Qed.

  Lemma slopes : slopeR * slopeF = 1.
  Proof using Hg Ho.
    pose proof base_pos. pose proof q_pos. pose proof b2_pos. unfold slopeR, slopeF.
    replace (Rpower ((g - 1) / o) (g - 1) * Rpower ((1 + o) / g) g * ((g - 1) / o * Rpower base g))
      with ((Rpower ((g - 1) / o) (g - 1) * Rpower ((g - 1) / o) 1) * Rpower ((1 + o) / g) g * Rpower base g)
      by (rewrite (Rpower_1 ((g - 1) / o)) by assumption; ring).
    rewrite <- Rpower_plus. replace (g - 1 + 1) with g by ring.
    rewrite !Rpower_mult_distr by (try assumption; now apply Rmult_lt_0_compat).
    replace ((g - 1) / o * ((1 + o) / g) * base) with 1 by (unfold base; field; repeat split; lra).
    unfold Rpower. rewrite ln_1, Rmult_0_r, exp_0. reflexivity.
  Qed.

  Lemma slopeF_pos : 0 < slopeF.
  Proof using Hg Ho. unfold slopeF. apply Rmult_lt_0_compat; [apply q_pos|apply Rpower_pos]. Qed.
  Lemma slopeR_pos : 0 < slopeR.
  Proof using Hg Ho. unfold slopeR. apply Rmult_lt_0_compat; apply Rpower_pos. Qed.
  Lemma slopeF_brk : slopeF * brk = Rpower base g.
  Proof using Hg Ho. unfold slopeF, brk. field. split; lra. Qed.

  (** The image of the breakpoint does not exceed the breakpoint. *)
  Lemma base_form : ln base = ln brk - ln ((1 + (g - 1) * brk) / g).
  Proof using Hg Ho.
    pose proof brk_pos. assert (0 < (1 + (g - 1) * brk) / g).
    { unfold Rdiv. apply Rmult_lt_0_compat; [nra|apply Rinv_0_lt_compat; lra]. }
    unfold Rminus. rewrite <- ln_Rinv by assumption. rewrite <- ln_mult by (try assumption; now apply Rinv_0_lt_compat).
    f_equal. replace ((1 + (g - 1) * brk) / g) with ((1 + o) / g) by (unfold brk; field; lra).
    unfold base, brk. field. repeat split; try lra. assert (0 < (g - 1) * o) by nra. nra.
  Qed.
  Lemma image_le : Rpower base g <= brk.
  Proof using Hg Ho.
    pose proof brk_pos as Pb. rewrite <- (exp_ln brk) by assumption. unfold Rpower.
    assert (W := weighted_mean g brk Hg Pb). rewrite base_form.
    assert (L : g * (ln brk - ln ((1 + (g - 1) * brk) / g)) <= ln brk).
    { apply (Rmult_le_compat_l g) in W; [|lra]. replace (g * ((g - 1) / g * ln brk)) with ((g - 1) * ln brk) in W by (field; lra). lra. }
    destruct L as [L| ->]; [apply Rlt_le, exp_increasing, L|lra].
  Qed.
  Lemma image_lt : brk <> 1 -> Rpower base g < brk.
  Proof using Hg Ho.
    intro Hn. pose proof brk_pos as Pb. rewrite <- (exp_ln brk) at 1 by assumption. unfold Rpower.
    assert (W := weighted_mean_strict g brk Hg Pb Hn). rewrite base_form. apply exp_increasing.
    apply (Rmult_lt_compat_l g) in W; [|lra]. replace (g * ((g - 1) / g * ln brk)) with ((g - 1) * ln brk) in W by (field; lra). lra.
  Qed.

  (** Past the breakpoint the curve lies above the line. *)
  Lemma above x : brk < x -> slopeF * x < Rpower ((x + o) / (o + 1)) g.
  Proof using Hg Ho.
    intro Hx. pose proof brk_pos as Pb. pose proof base_pos as Pa. set (r := (x + o) / (brk + o)).
    assert (Hr : 1 < r).
    { unfold r. apply (Rmult_lt_reg_r (brk + o)); [lra|]. replace ((x + o) / (brk + o) * (brk + o)) with (x + o) by (field; lra). lra. }
    pose proof (bernoulli g r Hg Hr) as B.
    replace ((x + o) / (o + 1)) with (r * base).
    2:{ unfold r, base, brk. field. repeat split; try lra. intro E.
        assert (0 < o + o * (g - 1)) by nra. lra. }
    rewrite <- Rpower_mult_distr by (assumption || lra). rewrite <- slopeF_brk.
    replace (slopeF * x) with ((x / brk) * (slopeF * brk)) by (field; lra).
    apply Rmult_lt_compat_r; [apply Rmult_lt_0_compat; [apply slopeF_pos|assumption]|].
    replace (x / brk) with (1 + g * (r - 1)); [assumption|].
    unfold r, brk. field. repeat split; try lra. intro E. assert (0 < o + o * (g - 1)) by nra. lra.
  Qed.

  Lemma mon_low x : x <= brk -> monR (monF x) = x.
  Proof using Hg Ho.
    intro H. unfold monF. destruct (Rle_dec x brk); [|lra]. pose proof slopeF_pos. pose proof image_le as I. rewrite <- slopeF_brk in I.
    assert (slopeF * x <= brk) by (apply Rle_trans with (slopeF * brk); [apply Rmult_le_compat_l; lra|exact I]).
    unfold monR. destruct (Rle_dec (slopeF * x) brk); [|lra]. rewrite <- Rmult_assoc, slopes. lra.
  Qed.
  Lemma mon_high x : brk < x -> brk < monF x -> monR (monF x) = x.
  Proof using Hg Ho.
    intros H. unfold monF. destruct (Rle_dec x brk); [lra|]. intro Hy. unfold monR. destruct (Rle_dec _ brk); [lra|].
    rewrite Rpower_mult. replace (g * (1 / g)) with 1 by (field; lra). pose proof brk_pos.
    rewrite Rpower_1; [field; lra|]. unfold Rdiv. apply Rmult_lt_0_compat; [lra|apply Rinv_0_lt_compat; lra].
  Qed.
  Lemma mon_gap x : brk < x -> monF x <= brk -> x < monR (monF x).
  Proof using Hg Ho.
    intros H. pose proof (above x H) as A. unfold monF. destruct (Rle_dec x brk); [lra|]. intro Hy. unfold monR.
    destruct (Rle_dec _ brk); [|lra]. replace x with (slopeR * (slopeF * x)) at 1 by (rewrite <- Rmult_assoc, slopes; ring).
    apply Rmult_lt_compat_l; [apply slopeR_pos|exact A].
  Qed.
  Lemma mon_gap_inhabited : o <> g - 1 -> exists x, brk < x /\ monF x <= brk.
  Proof using Hg Ho.
    intro Hn. pose proof brk_pos as Pb.
    assert (Hb : brk <> 1) by (intro E; apply Hn; unfold brk in E; apply (f_equal (fun z => z * (g - 1))) in E;
      replace (o / (g - 1) * (g - 1)) with o in E by (field; lra); lra).
    pose proof (image_lt Hb) as I. pose proof base_pos as Pa.
    (* brk^(1/g) > base *)
    assert (Hroot : base < Rpower brk (1 / g)).
    { rewrite <- (exp_ln base) by assumption. unfold Rpower. apply exp_increasing.
      apply (Rmult_lt_reg_l g); [lra|]. replace (g * (1 / g * ln brk)) with (ln brk) by (field; lra).
      apply ln_increasing in I; [|apply Rpower_pos]. unfold Rpower in I. now rewrite ln_exp in I. }
    exists (Rpower brk (1 / g) * (o + 1) - o). split.
    - apply (Rmult_lt_compat_r (o + 1)) in Hroot; [|lra].
      replace (base * (o + 1)) with (brk + o) in Hroot; [lra|]. unfold base, brk. field. split; lra.
    - unfold monF. destruct (Rle_dec _ brk) as [L|L].
      + exfalso. apply (Rmult_lt_compat_r (o + 1)) in Hroot; [|lra].
        replace (base * (o + 1)) with (brk + o) in Hroot; [lra|]. unfold base, brk. field. split; lra.
      + replace ((Rpower brk (1 / g) * (o + 1) - o + o) / (o + 1)) with (Rpower brk (1 / g)) by (field; lra).
        rewrite Rpower_mult. replace (1 / g * g) with 1 by (field; lra). rewrite Rpower_1 by assumption. lra.
  Qed.

  Lemma gammaMonFwd_R x : gammaMonFwd g o x = Ok (monF x).
  Proof using Hg Ho.
    unfold gammaMonFwd, monF. pose proof base_pos as Pa.
    assert (Hb0 : (g - 1) * (o + 1) <> 0) by (apply Rmult_integral_contrapositive_currified; lra).
    realize. rewrite pyfdiv_ok by lra. cbn [bind]. fold brk.
    destruct (Rleb x brk) eqn:E; [apply Rleb_spec in E|apply Rleb_false in E]; destruct (Rle_dec x brk); try lra.
    - rewrite !pyfdiv_ok by (assumption || lra). cbn [bind]. fold base. rewrite pypow_pos by assumption. reflexivity.
    - rewrite pymax_R. pose proof brk_pos.
      assert (Hp : 0 < (x + o) / (o + 1)) by (unfold Rdiv; apply Rmult_lt_0_compat; [lra|apply Rinv_0_lt_compat; lra]).
      rewrite Rmax_right by lra. now apply pypow_pos.
  Qed.
  Lemma gammaMonRev_R y : gammaMonRev g o y = Ok (monR y).
  Proof using Hg Ho.
    unfold gammaMonRev, monR. pose proof base_pos as Pa. pose proof brk_pos as Pb.
    assert (Hb0 : (g - 1) * (o + 1) <> 0) by (apply Rmult_integral_contrapositive_currified; lra).
    realize. rewrite !pyfdiv_ok by (assumption || lra). cbn [bind]. fold base. rewrite (pypow_pos base) by assumption. cbn [bind]. fold brk.
    destruct (Rleb y brk) eqn:E; [apply Rleb_spec in E|apply Rleb_false in E]; destruct (Rle_dec y brk); try lra.
    - rewrite (pypow_pos ((g - 1) / o)) by apply q_pos. cbn [bind]. rewrite (pypow_pos ((1 + o) / g)) by apply b2_pos. cbn [bind]. reflexivity.
    - rewrite pymax_R, Rmax_right by lra. rewrite pypow_pos by lra. reflexivity.
  Qed.
End Mon.

Theorem gamma_moncurve c hF psF hR psR dA dB gamma offset :
  isGamma hF psF "moncurveFwd" dA dB gamma offset -> isGamma hR psR "moncurveRev" dB dA gamma offset ->
  (forall ch, (ch < 3)%nat -> 1 < gamma ch /\ 0 < offset ch) ->
  exists f g, actsPerChannel c (Node hF (BGamma psF)) f /\ actsPerChannel c (Node hR (BGamma psR)) g /\
    forall ch, (ch < 3)%nat ->
      let breakpoint := offset ch / (gamma ch - 1) in
      (forall x, x <= breakpoint * fullScale dA -> g ch (f ch x) = x) /\
      (forall x, breakpoint * fullScale dA < x -> breakpoint * fullScale dB < f ch x -> g ch (f ch x) = x) /\
      (forall x, breakpoint * fullScale dA < x -> f ch x <= breakpoint * fullScale dB -> x < g ch (f ch x)) /\
      (offset ch <> gamma ch - 1 -> exists x, breakpoint * fullScale dA < x /\ f ch x <= breakpoint * fullScale dB).
Proof.
  intros HF HR Hp.
  pose proof (fullScale_pos dA) as PA. pose proof (fullScale_pos dB) as PB.
  exists (fun ch x => monF (gamma ch) (offset ch) (x / fullScale dA) * fullScale dB),
         (fun ch x => monR (gamma ch) (offset ch) (x / fullScale dB) * fullScale dA).
  split; [|split].
  - apply (gamma_acts c hF psF "moncurveFwd" dA dB gamma offset _ (fun ch => monF (gamma ch) (offset ch)) HF eq_refl).
    intros ch x Hc. destruct (Hp ch Hc). now apply gammaMonFwd_R.
  - apply (gamma_acts c hR psR "moncurveRev" dB dA gamma offset _ (fun ch => monR (gamma ch) (offset ch)) HR eq_refl).
    intros ch x Hc. destruct (Hp ch Hc). now apply gammaMonRev_R.
  - intros ch Hc. cbv zeta. destruct (Hp ch Hc) as [Hg Ho]. fold (brk (gamma ch) (offset ch)).
    assert (Lo : forall x d, 0 < fullScale d -> x <= brk (gamma ch) (offset ch) * fullScale d -> x / fullScale d <= brk (gamma ch) (offset ch)).
    { intros x d Hd H. apply (div_le d) in H. replace (brk (gamma ch) (offset ch) * fullScale d / fullScale d) with (brk (gamma ch) (offset ch)) in H by (field; lra). exact H. }
    assert (Hi : forall x d, 0 < fullScale d -> brk (gamma ch) (offset ch) * fullScale d < x -> brk (gamma ch) (offset ch) < x / fullScale d).
    { intros x d Hd H. apply (Rmult_lt_reg_r (fullScale d)); [assumption|]. replace (x / fullScale d * fullScale d) with x by (field; lra). exact H. }
    assert (C : forall u d, 0 < fullScale d -> u * fullScale d / fullScale d = u) by (intros u d Hd; field; lra).
    split; [|split; [|split]].
    + intros x Hx. rewrite C by assumption. rewrite mon_low by (try assumption; now apply Lo). field. lra.
    + intros x Hx Hy. apply (Hi _ dB) in Hy; [|assumption]. rewrite C in Hy by assumption.
      rewrite C by assumption. rewrite mon_high by (try assumption; now apply Hi). field. lra.
    + intros x Hx Hy. apply (Lo _ dB) in Hy; [|assumption]. rewrite C in Hy by assumption.
      rewrite C by assumption. pose proof (mon_gap _ _ Hg Ho (x / fullScale dA) (Hi x dA PA Hx) Hy) as G.
      apply (Rmult_lt_compat_r (fullScale dA)) in G; [|assumption]. replace (x / fullScale dA * fullScale dA) with x in G by (field; lra). exact G.
    + intro Hn. destruct (mon_gap_inhabited _ _ Hg Ho Hn) as [u [U1 U2]]. exists (u * fullScale dA). split.
      * now apply Rmult_lt_compat_r.
      * rewrite C by assumption. apply Rmult_le_compat_r; [lra|exact U2].
Qed.

Theorem gamma_moncurve_fwd c h ps dIn dOut gamma offset :
  isGamma h ps "moncurveFwd" dIn dOut gamma offset -> (forall ch, (ch < 3)%nat -> 1 < gamma ch /\ 0 < offset ch) ->
  exists f, actsPerChannel c (Node h (BGamma ps)) f /\
    forall ch x, (ch < 3)%nat ->
      let breakpoint := offset ch / (gamma ch - 1) in
      let curve u := Rpower ((u + offset ch) / (1 + offset ch)) (gamma ch) in
      (breakpoint < x / fullScale dIn -> f ch x = curve (x / fullScale dIn) * fullScale dOut) /\
      (x / fullScale dIn <= breakpoint -> f ch x = x / fullScale dIn / breakpoint * curve breakpoint * fullScale dOut).
Proof.
  intros H Hp. exists (fun ch x => monF (gamma ch) (offset ch) (x / fullScale dIn) * fullScale dOut). split.
  - apply (gamma_acts c h ps "moncurveFwd" dIn dOut gamma offset _ (fun ch => monF (gamma ch) (offset ch)) H eq_refl).
    intros ch x Hc. destruct (Hp ch Hc). now apply gammaMonFwd_R.
  - intros ch x Hc. cbv zeta. destruct (Hp ch Hc) as [Hg Ho]. unfold monF. fold (brk (gamma ch) (offset ch)).
    pose proof (brk_pos (gamma ch) (offset ch) Hg Ho) as Pb.
    split; intro Hx; destruct (Rle_dec (x / fullScale dIn) (brk (gamma ch) (offset ch))); try lra.
    + rewrite (Rplus_comm 1). reflexivity.
    + rewrite <- (Rmult_1_r (x / fullScale dIn)) at 1. replace 1 with (brk (gamma ch) (offset ch) / brk (gamma ch) (offset ch)) at 1 by (field; lra).
      replace (Rpower ((brk (gamma ch) (offset ch) + offset ch) / (1 + offset ch)) (gamma ch)) with (slopeF (gamma ch) (offset ch) * brk (gamma ch) (offset ch)).
      * pose proof (fullScale_pos dIn). field. split; lra.
      * rewrite slopeF_brk by assumption. f_equal. unfold base, brk. field. split; lra.
Qed.
