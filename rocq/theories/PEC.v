(** ExposureContrast in exact arithmetic. *)
From Coq Require Import Lra.
From Verif Require Export PLog.
Local Open Scope R_scope.

(** What style linear does to a colour sample. *)
Definition ecCurve (p : eparam R) (dIn dOut : aval) (x : R) : R :=
  e_pivot p * Rpow (Rmax 0 (Rpower 2 (e_exposure p) * (x / fullScale dIn) / e_pivot p)) (e_contrast p) * fullScale dOut.

Lemma ecElem_R dIn dOut p x : 0 < e_contrast p -> ecElem dIn dOut p x = Ok (ecCurve p dIn dOut x).
Proof.
  intros Hc. unfold ecElem, ecCurve. apply conv_R. unfold ecLinear. realize. rewrite Rpow_pos by lra.
  rewrite pymax_R, pypow_nonneg by (assumption || apply Rmax_l). reflexivity.
Qed.

Theorem ec_linear c h p dIn dOut :
  isEC h "linear" dIn dOut -> 0 < e_pivot p -> 0 < e_contrast p ->
  exists f,
    (forall st values, (3 <= st)%nat -> (st <= List.length values)%nat ->
       outcome (nodeProcess c (Node h (BExposureContrast p)) values st) =
       Ok (perPixel st (fun px => map f (firstn 3 px) ++ skipn 3 (firstn st values)) values)) /\
    (forall x, 0 < x -> f x = e_pivot p * Rpower (Rpower 2 (e_exposure p) * (x / fullScale dIn) / e_pivot p) (e_contrast p) * fullScale dOut) /\
    (forall x, x <= 0 -> f x = 0) /\
    (e_exposure p = 0 -> f (e_pivot p * fullScale dIn) = e_pivot p * fullScale dOut) /\
    (e_exposure p = 0 -> e_contrast p = 1 -> forall x, 0 <= x -> f x = x / fullScale dIn * fullScale dOut).
Proof.
  intros [Hi [Ho Hs]] Hp Hc. exists (ecCurve p dIn dOut).
  pose proof (fullScale_pos dIn) as PI. pose proof (fullScale_pos dOut) as PO.
  assert (P2 : Rpower 2 0 = 1) by (unfold Rpower; rewrite Rmult_0_l; apply exp_0).
  repeat match goal with |- _ /\ _ => split end.
  - intros st values H3 Hl. cbn [nodeProcess]. rewrite ec_form by lia. unfold dgetE. rewrite Hi, Ho, Hs. cbn [bind].
    apply pixelwise_pixels; [lia|]. intros px Hpx. change (ecStyleOf (AStr "linear")) with ECLinear.
    unfold ecFull, ecExtra. rewrite ecCore_form by lia. replace (Nat.min 3 st) with 3%nat by lia.
    destruct (three_of px ltac:(lia)) as [x [y [z [t ->]]]]. cbn [firstn mapM skipn map].
    rewrite !ecElem_R by assumption. cbn [bind firstn app]. split; [reflexivity|].
    assert (Hf : List.length (firstn st values) = st) by (rewrite firstn_length; lia). destruct (firstn st values) as [|? [|? [|? ?]]]; cbn [List.length] in *; lia.
  - intros x Hx. unfold ecCurve. assert (0 < Rpower 2 (e_exposure p) * (x / fullScale dIn) / e_pivot p).
    { unfold Rdiv. repeat apply Rmult_lt_0_compat; try assumption; try apply Rpower_pos; now apply Rinv_0_lt_compat. }
    rewrite Rmax_right by lra. now rewrite Rpow_pos.
  - intros x Hx. unfold ecCurve. rewrite Rmax_left; [rewrite Rpow_0 by assumption; ring|].
    apply (div_le dIn) in Hx. unfold Rdiv in Hx at 2. rewrite Rmult_0_l in Hx. pose proof (Rpower_pos 2 (e_exposure p)).
    assert (0 < / e_pivot p) by (now apply Rinv_0_lt_compat).
    assert (Rpower 2 (e_exposure p) * (x / fullScale dIn) <= 0) by nra. unfold Rdiv at 1. nra.
  - intro E. unfold ecCurve. rewrite E, P2.
    replace (1 * (e_pivot p * fullScale dIn / fullScale dIn) / e_pivot p) with 1 by (field; split; lra).
    rewrite Rmax_right, Rpow_pos by lra. unfold Rpower. rewrite ln_1, Rmult_0_r, exp_0. ring.
  - intros E E1 x Hx. unfold ecCurve. rewrite E, E1, P2. pose proof (div_nonneg dIn x Hx).
    assert (0 <= 1 * (x / fullScale dIn) / e_pivot p).
    { unfold Rdiv at 1. apply Rmult_le_pos; [lra|]. apply Rlt_le, Rinv_0_lt_compat, Hp. }
    rewrite Rmax_right by assumption. rewrite Rpow_1 by assumption. field. split; lra.
Qed.

Theorem ec_pivot c h p dIn dOut px :
  isEC h "linear" dIn dOut -> 0 < e_pivot p -> e_exposure p = 0 -> (3 <= List.length px)%nat ->
  firstn 3 px = repeat (e_pivot p * fullScale dIn) 3 ->
  outcome (nodeProcess c (Node h (BExposureContrast p)) px (List.length px)) =
  Ok (repeat (e_pivot p * fullScale dOut) 3 ++ skipn 3 px).
Proof.
  intros [Hi [Ho Hs]] Hp He H3 Hpx. pose proof (fullScale_pos dIn) as PI.
  assert (P2 : Rpower 2 0 = 1) by (unfold Rpower; rewrite Rmult_0_l; apply exp_0).
  cbn [nodeProcess]. rewrite ec_form by lia. unfold dgetE. rewrite Hi, Ho, Hs. cbn [bind].
  change (ecStyleOf (AStr "linear")) with ECLinear.
  assert (F : ecFull ECLinear dIn dOut p (List.length px) (ecExtra (List.length px) px) px = Ok (repeat (e_pivot p * fullScale dOut) 3 ++ skipn 3 px)).
  { unfold ecFull, ecExtra. rewrite ecCore_form by lia. replace (Nat.min 3 (List.length px)) with 3%nat by lia.
    rewrite Hpx, firstn_all. cbn [repeat mapM].
    assert (E : ecElem dIn dOut p (e_pivot p * fullScale dIn) = Ok (e_pivot p * fullScale dOut)).
    { unfold ecElem. apply conv_R. unfold ecLinear. realize. rewrite He, Rpow_pos, P2 by lra.
      replace (1 * (e_pivot p * fullScale dIn / fullScale dIn) / e_pivot p) with 1 by (field; split; lra).
      rewrite pymax_R, Rmax_right, pypow_pos by lra. cbn [bind]. unfold Rpower. rewrite ln_1, Rmult_0_r, exp_0. f_equal. ring. }
    rewrite !E. reflexivity. }
  destruct (pixels_concat (List.length px) [px] ltac:(lia) ltac:(repeat constructor)) as [E1 E2].
  cbn [concat] in E1, E2. rewrite app_nil_r in E1, E2.
  unfold pixelwise. rewrite E1, E2. cbn [mapM]. rewrite F. cbn [bind outcome po_out concat].
  cbn [List.length repeat]. now rewrite !app_nil_r.
Qed.

Theorem ec_video c h p st values dIn dOut :
  isEC h "video" dIn dOut -> 0 < e_pivot p -> (1 <= st)%nat -> (st <= List.length values)%nat ->
  nodeProcess c (Node h (BExposureContrast p)) values st = Err TypeError.
Proof.
  intros [Hi [Ho Hs]] Hp H1 Hl. cbn [nodeProcess]. rewrite ec_form by lia. unfold dgetE. rewrite Hi, Ho, Hs. cbn [bind].
  apply pixelwise_err; [lia|assumption|]. intros px Hpx. change (ecStyleOf (AStr "video")) with ECVideo.
  unfold ecFull, ecCore. destruct px as [|x t]; [cbn in Hpx; lia|]. cbn [upd getn nth_error bind setn].
  rewrite pypow_pos by assumption. cbn [bind]. rewrite pyfdiv_ok by (realize; lra). reflexivity.
Qed.

(** Style log: NameError in any arithmetic; style video always raises something. *)
Section AnyArithmetic.
  Context {T : Type} {N : Num T}.
  Lemma ec_log_any c (h : header T) p st values :
    hasDepths h -> dget (h_attrs h) "style" = Some (AStr "log") -> (1 <= st)%nat -> (st <= List.length values)%nat ->
    nodeProcess c (Node h (BExposureContrast p)) values st = Err NameError.
  Proof.
    intros [[dIn Hi] [dOut Ho]] Hs H1 Hl. cbn [nodeProcess]. rewrite ec_form by lia. unfold dgetE. rewrite Hi, Ho, Hs. cbn [bind].
    apply pixelwise_err; [lia|assumption|]. intros px Hpx. change (ecStyleOf (AStr "log")) with ECLog.
    unfold ecFull, ecCore. destruct px as [|x t]; [cbn in Hpx; lia|]. reflexivity.
  Qed.
  Lemma ec_video_any c (h : header T) p st values :
    hasDepths h -> dget (h_attrs h) "style" = Some (AStr "video") -> (1 <= st)%nat -> (st <= List.length values)%nat ->
    exists e, nodeProcess c (Node h (BExposureContrast p)) values st = Err e.
  Proof.
    intros [[dIn Hi] [dOut Ho]] Hs H1 Hl. cbn [nodeProcess]. rewrite ec_form by lia. unfold dgetE. rewrite Hi, Ho, Hs. cbn [bind].
    apply pixelwise_fails; [lia|assumption|]. intros px Hpx. change (ecStyleOf (AStr "video")) with ECVideo.
    unfold ecFull, ecCore. destruct px as [|x t]; [cbn in Hpx; lia|].
    destruct (upd (x :: t) 0 _); [|eexists; reflexivity]. cbn [bind].
    destruct (pypow _ _); [|eexists; reflexivity]. cbn [bind].
    destruct (pyfdiv _ _); eexists; reflexivity.
  Qed.
End AnyArithmetic.
