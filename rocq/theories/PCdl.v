(** CDL in exact arithmetic. *)
From Coq Require Import Lra.
From Verif Require Export PCdlForm PEC PLut3D.
Local Open Scope R_scope.

Lemma clamped_sample d (w : R) : 0 <= nf32 (normalizedToBitDepth (nf32 (clamp w)) d) <= fullScale d.
Proof.
  realize. rewrite denormalize_R, clamp_R. pose proof (clampR_bounds w). pose proof (fullScale_pos d). nra.
Qed.

Theorem cdl_in_range c h v n values st o dOut i y :
  cdlNode h v n -> (3 <= st)%nat -> dget (h_attrs h) "outBitDepth" = Some dOut ->
  (exists s, dget (h_attrs h) "style" = Some (AStr s) /\ In s ["Fwd"; "v1.2_Fwd"; "Rev"; "v1.2_Rev"]%string) ->
  nodeProcess c n values st = Ok o -> (i mod st < 3)%nat -> nth_error (po_out o) i = Some y ->
  0 <= y <= fullScale dOut.
Proof.
  intros Hn H3 Ho Hs H Hi Hy.
  assert (H' : cdlProcess c h v values st = Ok o) by (destruct Hn as [-> | ->]; exact H).
  destruct (cdl_clamped c h v values st o dOut i y H3 Ho Hs H' Hi Hy) as [->|[w ->]].
  - pose proof (fullScale_pos dOut). realize. lra.
  - apply clamped_sample.
Qed.

Definition scaleBy (d : aval) (c : R * R * R) : R * R * R := mapColour (fun _ x => x * fullScale d) c.
Definition unscaleBy (d : aval) (c : R * R * R) : R * R * R := mapColour (fun _ x => x / fullScale d) c.

(** From the stages to the whole node. *)
Lemma cdl_acts c h v n style st dIn dOut s (F1 : nat -> R -> R) (F2 : R -> nat -> R -> R) :
  cdlNode h v n -> isCDL h v style dIn dOut s -> In style ["Fwd"; "FwdNoClamp"; "Rev"; "RevNoClamp"]%string ->
  cdlStyleOf (AStr style) = st -> st <> CdlOther ->
  (forall i x, (i < 3)%nat -> cdlFirst st dIn (three (cdSlope s)) (three (cdOffset s)) (three (cdPower s)) i x = Ok (F1 i (x / fullScale dIn))) ->
  (forall m i x, (i < 3)%nat -> cdlMiddle st (three (cdSlope s)) (three (cdOffset s)) (three (cdPower s)) (cdSat s) m i x = Ok (F2 m i x)) ->
  actsPerColour c n (fun r g b =>
    let w := mapColour F1 (unscaleBy dIn (r, g, b)) in scaleBy dOut (mapColour (F2 (luma709 w)) w)).
Proof.
  intros Hn [Hi [Ho [Hs [E1 [E2 [E3 E4]]]]]] Hin Est Hst H1 H2 k values Hk.
  assert (E : nodeProcess c n values k = cdlProcess c h v values k) by (destruct Hn as [-> | ->]; reflexivity). rewrite E. clear E.
  rewrite cdl_form by lia. assert (L3 : Nat.ltb k 3 = false) by (apply Nat.ltb_ge; lia). rewrite L3.
  unfold dgetE. rewrite Hi, Ho, Hs. cbn [bind].
  assert (A : cdlAutodeskStyle (AStr style) = false) by (destruct Hin as [<-|[<-|[<-|[<-|[]]]]]; reflexivity).
  rewrite A, Bool.andb_false_r, Est.
  change (optD (c_slope v) [n1; n1; n1]) with (valueOr (c_slope v) [1; 1; 1]). change (optD (c_offset v) [n0; n0; n0]) with (valueOr (c_offset v) [0; 0; 0]).
  change (optD (c_power v) [n1; n1; n1]) with (valueOr (c_power v) [1; 1; 1]). change (optD (c_sat v) n1) with (valueOr (c_sat v) 1).
  rewrite E1, E2, E3, E4.
  apply pixelwise_colour; [assumption|]. intros px Hl. rewrite cdlPixel_form by assumption.
  destruct (three_of px ltac:(lia)) as [x [y [z [t ->]]]]. cbn [firstn mapMi skipn].
  rewrite !H1 by lia. cbn [bind]. unfold cdlLuma. cbn [getn nth_error bind mapMi]. unfold cdlSecond.
  rewrite !H2 by lia. cbn [bind app]. rewrite !denormalize_R. reflexivity.
Qed.

Lemma get3 (f : nat -> R) i : (i < 3)%nat -> getn (three f) i = Ok (f i).
Proof. intro H. destruct i as [|[|[|]]]; try reflexivity; lia. Qed.

Definition gradeClamped (s : cdlSettings) (i : nat) (x : R) : R := Rpow (unit01 (x * cdSlope s i + cdOffset s i)) (cdPower s i).

Lemma unit01_bounds x : 0 <= unit01 x <= 1.
Proof. apply clampR_bounds. Qed.
Lemma clamp_unit (x : R) : clamp x = unit01 x.
Proof. apply clamp_R. Qed.
Lemma unit01_id x : 0 <= x <= 1 -> unit01 x = x.
Proof. intros [H1 H2]. unfold unit01. rewrite (Rmax_right 0 x) by assumption. now apply Rmin_right. Qed.

Lemma fwd_acts c h v n dIn dOut s : cdlNode h v n -> isCDL h v "Fwd" dIn dOut s ->
  (forall i, (i < 3)%nat -> 0 < cdPower s i) ->
  actsPerColour c n (fun r g b => scaleBy dOut (mapColour (fun _ => unit01) (saturate (cdSat s) (mapColour (gradeClamped s) (unscaleBy dIn (r, g, b)))))).
Proof.
  intros Hn H Hp. refine (cdl_acts c h v n "Fwd" CdlFwd dIn dOut s (gradeClamped s) (fun m _ x => unit01 (m + cdSat s * (x - m))) Hn H _ eq_refl _ _ _).
  - cbn; auto.
  - discriminate.
  - intros i x Hi. cbn [cdlFirst]. rewrite !get3 by assumption. cbn [bind]. rewrite normalize_R, clamp_unit. realize.
    rewrite pypow_nonneg by (auto; apply unit01_bounds). reflexivity.
  - intros m i x Hi. cbn [cdlMiddle]. rewrite clamp_unit. reflexivity.
Qed.

Lemma fwdNoClamp_acts c h v n dIn dOut s : cdlNode h v n -> isCDL h v "FwdNoClamp" dIn dOut s ->
  actsPerColour c n (fun r g b => scaleBy dOut (saturate (cdSat s) (mapColour (gradeFree s) (unscaleBy dIn (r, g, b))))).
Proof.
  intros Hn H. refine (cdl_acts c h v n "FwdNoClamp" CdlFwdNoClamp dIn dOut s (gradeFree s) (fun m _ x => m + cdSat s * (x - m)) Hn H _ eq_refl _ _ _).
  - cbn; auto.
  - discriminate.
  - intros i x Hi. cbn [cdlFirst]. rewrite !get3 by assumption. cbn [bind]. rewrite normalize_R. realize. unfold gradeFree.
    destruct (Rltb _ 0) eqn:E; [apply Rltb_spec in E|apply Rltb_false in E]; destruct (Rlt_dec _ 0); try lra; reflexivity.
  - intros m i x Hi. reflexivity.
Qed.

Lemma cdlDiv_ok c x s : s <> 0 -> cdlDiv c x s = Ok (x / s).
Proof. intro H. unfold cdlDiv. realize. apply Reqb_false in H. rewrite H. reflexivity. Qed.

Definition ungrade (s : cdlSettings) (i : nat) (y : R) : R := (Rpow (unit01 y) (1 / cdPower s i) - cdOffset s i) / cdSlope s i.

Lemma inv_pos p : 0 < p -> 0 < 1 / p.
Proof. intro H. unfold Rdiv. rewrite Rmult_1_l. now apply Rinv_0_lt_compat. Qed.

Lemma rev_acts c h v n dIn dOut s : cdlNode h v n -> isCDL h v "Rev" dIn dOut s -> invertible s ->
  actsPerColour c n (fun r g b =>
    scaleBy dOut (mapColour (fun i y => unit01 (ungrade s i y)) (saturate (1 / cdSat s) (mapColour (fun _ => unit01) (unscaleBy dIn (r, g, b)))))).
Proof.
  intros Hn H [H0 Hp]. refine (cdl_acts c h v n "Rev" CdlRev dIn dOut s (fun _ => unit01) (fun m i x => unit01 (ungrade s i (m + 1 / cdSat s * (x - m)))) Hn H _ eq_refl _ _ _).
  - cbn; auto.
  - discriminate.
  - intros i x Hi. cbn [cdlFirst]. rewrite normalize_R. realize. now rewrite clamp_unit.
  - intros m i x Hi. destruct (Hp i Hi) as [Hs Hq]. cbn [cdlMiddle]. rewrite pyfdiv_ok by assumption. cbn [bind]. rewrite !get3 by assumption. cbn [bind].
    rewrite pyfdiv_ok by lra. cbn [bind]. rewrite !clamp_unit. realize. rewrite pypow_nonneg by (try apply unit01_bounds; now apply inv_pos). cbn [bind].
    rewrite cdlDiv_ok by assumption. cbn [bind]. now rewrite clamp_unit.
Qed.

Lemma revNoClamp_acts c h v n dIn dOut s : cdlNode h v n -> isCDL h v "RevNoClamp" dIn dOut s -> invertible s ->
  actsPerColour c n (fun r g b =>
    scaleBy dOut (mapColour (ungrade s) (saturate (1 / cdSat s) (unscaleBy dIn (r, g, b))))).
Proof.
  intros Hn H [H0 Hp]. refine (cdl_acts c h v n "RevNoClamp" CdlRevNoClamp dIn dOut s (fun _ x => x) (fun m i x => ungrade s i (m + 1 / cdSat s * (x - m))) Hn H _ eq_refl _ _ _).
  - cbn; auto.
  - discriminate.
  - intros i x Hi. cbn [cdlFirst]. rewrite normalize_R. reflexivity.
  - intros m i x Hi. destruct (Hp i Hi) as [Hs Hq]. cbn [cdlMiddle]. rewrite pyfdiv_ok by assumption. cbn [bind]. realize.
    rewrite !get3 by assumption. cbn [bind]. rewrite (pyfdiv_ok 1 (cdPower s i)) by lra. cbn [bind]. rewrite !clamp_unit. set (q := m + 1 / cdSat s * (x - m)).
    rewrite pypow_nonneg by (try apply unit01_bounds; now apply inv_pos). cbn [bind]. rewrite !cdlDiv_ok by assumption. cbn [bind].
    unfold ungrade. destruct (Rltb q 0) eqn:E; [|reflexivity]. apply Rltb_spec in E.
    assert (Eu : unit01 q = 0) by (unfold unit01; rewrite (Rmax_left 0 q) by lra; apply Rmin_right; lra).
    rewrite Eu. cbn [bind]. rewrite Rpow_0 by now apply inv_pos. reflexivity.
Qed.

Lemma luma_saturate sat c : luma709 (saturate sat c) = luma709 c.
Proof. destruct c as [[r g] b]. unfold saturate, mapColour, luma709. field. Qed.
Lemma unsaturate sat c : sat <> 0 -> saturate (1 / sat) (saturate sat c) = c.
Proof.
  intro H. unfold saturate at 1. rewrite luma_saturate. destruct c as [[r g] b]. unfold saturate, mapColour.
  set (m := luma709 (r, g, b)). f_equal; [f_equal|]; field; assumption.
Qed.

Lemma unscale_scale d c : unscaleBy d (scaleBy d c) = c.
Proof.
  pose proof (fullScale_pos d). destruct c as [[r g] b]. unfold unscaleBy, scaleBy, mapColour. f_equal; [f_equal|]; field; lra.
Qed.
Lemma scale_unscale d c : scaleBy d (unscaleBy d c) = c.
Proof.
  pose proof (fullScale_pos d). destruct c as [[r g] b]. unfold unscaleBy, scaleBy, mapColour. f_equal; [f_equal|]; field; lra.
Qed.
Lemma luma_scale d c : luma709 (scaleBy d c) = luma709 c * fullScale d.
Proof. destruct c as [[r g] b]. unfold scaleBy, mapColour, luma709. field. Qed.

(* ------------------------------------------------------------------ *)

Theorem cdl_luma c h v n h1 v1 m1 dIn dOut s s1 :
  cdlNode h v n -> cdlNode h1 v1 m1 -> isCDL h v "FwdNoClamp" dIn dOut s -> isCDL h1 v1 "FwdNoClamp" dIn dOut s1 ->
  cdSat s1 = 1 ->
  (forall i, (i < 3)%nat -> cdSlope s1 i = cdSlope s i /\ cdOffset s1 i = cdOffset s i /\ cdPower s1 i = cdPower s i) ->
  exists F F1, actsPerColour c n F /\ actsPerColour c m1 F1 /\
    forall r g b, luma709 (F r g b) = luma709 (F1 r g b) /\
      F r g b = saturate (cdSat s) (F1 r g b) /\
      F1 r g b = mapColour (fun i x => gradeFree s i (x / fullScale dIn) * fullScale dOut) (r, g, b).
Proof.
  intros Hn Hn1 H H1 E1 Eq.
  exists (fun r g b => scaleBy dOut (saturate (cdSat s) (mapColour (gradeFree s) (unscaleBy dIn (r, g, b))))),
         (fun r g b => scaleBy dOut (saturate (cdSat s1) (mapColour (gradeFree s1) (unscaleBy dIn (r, g, b))))).
  split; [eapply fwdNoClamp_acts; eauto|]. split; [eapply fwdNoClamp_acts; eauto|]. intros r g b.
  assert (EG : mapColour (gradeFree s1) (unscaleBy dIn (r, g, b)) = mapColour (gradeFree s) (unscaleBy dIn (r, g, b))).
  { unfold unscaleBy, mapColour, gradeFree.
    destruct (Eq 0%nat ltac:(lia)) as [-> [-> ->]]. destruct (Eq 1%nat ltac:(lia)) as [-> [-> ->]]. destruct (Eq 2%nat ltac:(lia)) as [-> [-> ->]]. reflexivity. }
  rewrite EG, E1. set (w := mapColour (gradeFree s) (unscaleBy dIn (r, g, b))).
  assert (S1 : saturate 1 w = w).
  { destruct w as [[a b'] c']. unfold saturate, mapColour. f_equal; [f_equal|]; ring. }
  rewrite S1. split; [rewrite !luma_scale, luma_saturate; reflexivity|]. split.
  - unfold saturate at 2. rewrite luma_scale. set (m := luma709 w). unfold saturate. fold m. destruct w as [[a b'] c'].
    unfold scaleBy, mapColour. f_equal; [f_equal|]; ring.
  - reflexivity.
Qed.


Lemma saturate1 w : saturate 1 w = w.
Proof. destruct w as [[a b'] c']. unfold saturate, mapColour. f_equal; [f_equal|]; ring. Qed.
Lemma gradeFree_neutral s i x : neutral s -> (i < 3)%nat -> gradeFree s i x = x.
Proof.
  intros [_ H] Hi. destruct (H i Hi) as [E1 [E2 E3]]. unfold gradeFree. rewrite E1, E2, E3. replace (x * 1 + 0) with x by ring.
  destruct (Rlt_dec x 0); [reflexivity|]. apply Rpow_1. lra.
Qed.
Lemma gradeClamped_neutral s i x : neutral s -> (i < 3)%nat -> gradeClamped s i x = unit01 x.
Proof.
  intros [_ H] Hi. destruct (H i Hi) as [E1 [E2 E3]]. unfold gradeClamped. rewrite E1, E2, E3. replace (x * 1 + 0) with x by ring.
  apply Rpow_1, unit01_bounds.
Qed.
Lemma unit01_unit01 x : unit01 (unit01 x) = unit01 x.
Proof. apply unit01_id, unit01_bounds. Qed.

Lemma perColour_ext st (F G : R -> R -> R -> R * R * R) values : (forall r g b, F r g b = G r g b) -> perColour st F values = perColour st G values.
Proof.
  intro E. unfold perColour, indexed. apply map_ext. intros [i x]. cbn [fst snd]. destruct (Nat.ltb _ _); [|reflexivity]. cbv zeta. now rewrite E.
Qed.

Theorem cdl_neutral c h v n dIn dOut s style :
  cdlNode h v n -> isCDL h v style dIn dOut s -> neutral s ->
  (style = "FwdNoClamp" -> actsPerChannel c n (fun _ x => x / fullScale dIn * fullScale dOut)) /\
  (style = "Fwd" -> actsPerChannel c n (fun _ x => unit01 (x / fullScale dIn) * fullScale dOut)).
Proof.
  intros Hn H Hneu. split; intros ->.
  - pose proof (fwdNoClamp_acts c h v n dIn dOut s Hn H) as A. intros st values Hst. rewrite (A st values Hst). f_equal.
    assert (E : forall r g b, scaleBy dOut (saturate (cdSat s) (mapColour (gradeFree s) (unscaleBy dIn (r, g, b)))) =
      (r / fullScale dIn * fullScale dOut, g / fullScale dIn * fullScale dOut, b / fullScale dIn * fullScale dOut)).
    { intros. rewrite (proj1 Hneu), saturate1. unfold scaleBy, unscaleBy, mapColour. rewrite !gradeFree_neutral by (auto; lia). reflexivity. }
    apply perColour_ext. exact E.
  - assert (Hp : forall i, (i < 3)%nat -> 0 < cdPower s i) by (intros i Hi; destruct (proj2 Hneu i Hi) as [_ [_ ->]]; lra).
    pose proof (fwd_acts c h v n dIn dOut s Hn H Hp) as A. intros st values Hst. rewrite (A st values Hst). f_equal.
    assert (E : forall r g b, scaleBy dOut (mapColour (fun _ => unit01) (saturate (cdSat s) (mapColour (gradeClamped s) (unscaleBy dIn (r, g, b))))) =
      (unit01 (r / fullScale dIn) * fullScale dOut, unit01 (g / fullScale dIn) * fullScale dOut, unit01 (b / fullScale dIn) * fullScale dOut)).
    { intros. rewrite (proj1 Hneu), saturate1. unfold scaleBy, unscaleBy, mapColour. rewrite !gradeClamped_neutral by (auto; lia). now rewrite !unit01_unit01. }
    apply perColour_ext. exact E.
Qed.

(* ------------------------------------------------------------------ *)
(** * Rev after Fwd *)

Lemma Rpow_unit x p : 0 <= x <= 1 -> 0 < p -> 0 <= Rpow x p <= 1.
Proof.
  intros [H1 H2] Hp. split; [now apply Rpow_nonneg|]. replace 1 with (Rpow 1 p); [now apply Rpow_le|].
  rewrite Rpow_pos by lra. unfold Rpower. rewrite ln_1, Rmult_0_r. apply exp_0.
Qed.

Lemma mapColour_id f w : everyChannel (fun i x => f i x = x) w -> mapColour f w = w.
Proof. destruct w as [[a b] c]. cbn. intros [-> [-> ->]]. reflexivity. Qed.
Lemma mapColour_map f g w : mapColour f (mapColour g w) = mapColour (fun i x => f i (g i x)) w.
Proof. destruct w as [[a b] c]. reflexivity. Qed.
Lemma every_mapColour P f w : everyChannel P (mapColour f w) <-> everyChannel (fun i x => P i (f i x)) w.
Proof. destruct w as [[a b] c]. reflexivity. Qed.
Lemma every_impl (P Q : nat -> R -> Prop) w : (forall i x, (i < 3)%nat -> P i x -> Q i x) -> everyChannel P w -> everyChannel Q w.
Proof. destruct w as [[a b] c]. cbn. intros H [H1 [H2 H3]]. repeat split; apply H; auto; lia. Qed.

Theorem cdl_rev_fwd c hF vF nF hR vR nR dA dB s :
  cdlNode hF vF nF -> cdlNode hR vR nR -> isCDL hF vF "Fwd" dA dB s -> isCDL hR vR "Rev" dB dA s -> invertible s ->
  exists F G, actsPerColour c nF F /\ actsPerColour c nR G /\
    forall r g b,
      everyChannel (fun _ x => 0 <= x <= fullScale dA) (r, g, b) ->
      everyChannel (fun i x => 0 <= x / fullScale dA * cdSlope s i + cdOffset s i <= 1) (r, g, b) ->
      everyChannel (fun _ y => 0 <= y <= 1)
        (saturate (cdSat s) (mapColour (fun i x => Rpow (x / fullScale dA * cdSlope s i + cdOffset s i) (cdPower s i)) (r, g, b))) ->
      let '(r', g', b') := F r g b in G r' g' b' = (r, g, b).
Proof.
  intros HnF HnR HF HR Hinv. pose proof Hinv as [H0 Hp].
  exists (fun r g b => scaleBy dB (mapColour (fun _ => unit01) (saturate (cdSat s) (mapColour (gradeClamped s) (unscaleBy dA (r, g, b)))))),
    (fun r g b => scaleBy dA (mapColour (fun i y => unit01 (ungrade s i y)) (saturate (1 / cdSat s) (mapColour (fun _ => unit01) (unscaleBy dB (r, g, b)))))).
  split; [apply (fwd_acts c hF vF nF dA dB s HnF HF); intros i Hi; apply Hp, Hi|].
  split; [now apply (rev_acts c hR vR nR dB dA s HnR HR)|].
  intros r g b Hx Hu Hq. set (rgb := (r, g, b)) in *.
  assert (E1 : mapColour (gradeClamped s) (unscaleBy dA rgb) = mapColour (fun i x => Rpow (x / fullScale dA * cdSlope s i + cdOffset s i) (cdPower s i)) rgb).
  { unfold unscaleBy. rewrite mapColour_map. unfold rgb, mapColour, gradeClamped. cbn in Hu. destruct Hu as [U1 [U2 U3]].
    now rewrite !unit01_id by assumption. }
  rewrite E1. set (w := mapColour _ rgb) in Hq |- *.
  rewrite (mapColour_id (fun _ => unit01) (saturate (cdSat s) w)) by (eapply every_impl; [|exact Hq]; intros; now apply unit01_id).
  set (q := saturate (cdSat s) w) in *. destruct (scaleBy dB q) as [[r' g'] b'] eqn:Eq. rewrite <- Eq, unscale_scale.
  rewrite (mapColour_id (fun _ => unit01) q) by (eapply every_impl; [|exact Hq]; intros; now apply unit01_id).
  unfold q. rewrite unsaturate by assumption. unfold w. rewrite mapColour_map.
  assert (Eback : mapColour (fun i x => unit01 (ungrade s i (Rpow (x / fullScale dA * cdSlope s i + cdOffset s i) (cdPower s i)))) rgb = unscaleBy dA rgb).
  { pose proof (fullScale_pos dA) as PA. assert (B : forall i x, (i < 3)%nat -> 0 <= x <= fullScale dA -> 0 <= x / fullScale dA * cdSlope s i + cdOffset s i <= 1 ->
      unit01 (ungrade s i (Rpow (x / fullScale dA * cdSlope s i + cdOffset s i) (cdPower s i))) = x / fullScale dA).
    { intros i x Hi X U. destruct (Hp i Hi) as [Hs Hq']. unfold ungrade. rewrite (unit01_id (Rpow _ _)) by (now apply Rpow_unit).
      rewrite Rpow_inv by tauto. replace ((x / fullScale dA * cdSlope s i + cdOffset s i - cdOffset s i) / cdSlope s i) with (x / fullScale dA) by (field; split; lra).
      apply unit01_id. split; [now apply div_nonneg|]. replace 1 with (fullScale dA / fullScale dA) by (field; lra). now apply div_le. }
    cbn in Hx, Hu. destruct Hx as [X1 [X2 X3]], Hu as [U1 [U2 U3]]. unfold rgb, mapColour, unscaleBy. now rewrite !B by (lia || assumption). }
  rewrite Eback. apply scale_unscale.
Qed.

(** RevNoClamp after FwdNoClamp, exactly. *)
Theorem cdl_revNoClamp c hF vF nF hR vR nR dA dB s :
  cdlNode hF vF nF -> cdlNode hR vR nR -> isCDL hF vF "FwdNoClamp" dA dB s -> isCDL hR vR "RevNoClamp" dB dA s -> invertible s ->
  exists F G, actsPerColour c nF F /\ actsPerColour c nR G /\
    forall r g b, let '(r', g', b') := F r g b in
      G r' g' b' = mapColour (fun i x => (unit01 (x / fullScale dA * cdSlope s i + cdOffset s i) - cdOffset s i) / cdSlope s i * fullScale dA) (r, g, b).
Proof.
  intros HnF HnR HF HR Hinv. pose proof Hinv as [H0 Hp].
  exists (fun r g b => scaleBy dB (saturate (cdSat s) (mapColour (gradeFree s) (unscaleBy dA (r, g, b))))),
    (fun r g b => scaleBy dA (mapColour (ungrade s) (saturate (1 / cdSat s) (unscaleBy dB (r, g, b))))).
  split; [now apply (fwdNoClamp_acts c hF vF nF dA dB s HnF HF)|].
  split; [now apply (revNoClamp_acts c hR vR nR dB dA s HnR HR)|].
  intros r g b. destruct (scaleBy dB _) as [[r' g'] b'] eqn:Eq. rewrite <- Eq, unscale_scale, unsaturate by assumption.
  assert (B : forall i x, (i < 3)%nat -> ungrade s i (gradeFree s i x) = (unit01 (x * cdSlope s i + cdOffset s i) - cdOffset s i) / cdSlope s i).
  { intros i x Hi. destruct (Hp i Hi) as [Hs Hq]. unfold ungrade, gradeFree. set (u := x * cdSlope s i + cdOffset s i). do 2 f_equal.
    destruct (Rlt_dec u 0).
    - assert (Eu : unit01 u = 0) by (unfold unit01; rewrite (Rmax_left 0 u) by lra; apply Rmin_right; lra).
      rewrite Eu. apply Rpow_0, inv_pos, Hq.
    - destruct (Rle_dec u 1) as [L|L].
      + rewrite (unit01_id u) by lra. rewrite unit01_id by (apply Rpow_unit; [lra|assumption]). apply Rpow_inv; lra.
      + assert (Eu : unit01 u = 1) by (unfold unit01; rewrite (Rmax_right 0 u) by lra; apply Rmin_left; lra). rewrite Eu.
        assert (1 <= Rpow u (cdPower s i)).
        { replace 1 with (Rpow 1 (cdPower s i)); [apply Rpow_le; lra|]. rewrite Rpow_pos by lra. unfold Rpower. rewrite ln_1, Rmult_0_r. apply exp_0. }
        assert (E1 : unit01 (Rpow u (cdPower s i)) = 1) by (unfold unit01; rewrite (Rmax_right 0 (Rpow u (cdPower s i))) by lra; apply Rmin_left; lra).
        rewrite E1, Rpow_pos by lra. unfold Rpower. rewrite ln_1, Rmult_0_r. apply exp_0. }
  unfold unscaleBy. rewrite mapColour_map. unfold scaleBy. rewrite !mapColour_map. unfold mapColour. now rewrite !B by lia.
Qed.
