(** filterImageWithCLF on half and float images. *)
From Coq Require Import Reals Lra Lia ZArith List String Psatz.
From Flocq Require Import Core BinarySingleNaN Double_rounding.
From Verif Require Import NumF SpecReal PBase PFilter PIeee PIeeeArith PRound PPack PCode PCloseRange PFilterCode PFilterTool PTextIeee MFilterTool SpecFloatImage.
Import ListNotations.
Local Open Scope string_scope.
Local Open Scope list_scope.
Local Open Scope nat_scope.

(** * Formats *)
Lemma single_kept (L : libm) (x : fl) : isSingle x -> @nf32 fl (ieeeNum L) x = x.
Proof. intros [h ->]. cbn [nf32 ieeeNum]. unfold f64, f32of. now rewrite (narrow_widen (p2:=53) (e2:=1024) h) by lia. Qed.
Lemma half_kept (L : libm) (x : fl) : isHalf x -> @nf16 fl (ieeeNum L) x = x.
Proof. intros [h ->]. cbn [nf16 ieeeNum]. unfold f64, f16of. now rewrite (narrow_widen (p2:=53) (e2:=1024) h) by lia. Qed.
Lemma widen_special {p1 e1 p2 e2 : Z} {Hp1 : Prec_gt_0 p1} {He1 : Prec_lt_emax p1 e1} {Hp2 : Prec_gt_0 p2} {He2 : Prec_lt_emax p2 e2} (x : binary_float p1 e1) :
  is_finite x = false -> toFormat p2 e2 x = match x with B754_infinity s => B754_infinity s | _ => B754_nan end.
Proof. destruct x; try discriminate; reflexivity. Qed.
Lemma half_single (x : fl) : isHalf x -> isSingle x.
Proof.
  intros [h ->]. exists (toFormat 24 128 h). unfold f64. destruct (is_finite h) eqn:F.
  - destruct (widen_exact (p2 := 53) (e2 := 1024) h ltac:(lia) ltac:(lia) ltac:(lia) F) as [F1 E1].
    destruct (widen_exact (p2 := 24) (e2 := 128) h ltac:(lia) ltac:(lia) ltac:(lia) F) as [F2 E2].
    destruct (widen_exact (p2 := 53) (e2 := 1024) (toFormat 24 128 h) ltac:(lia) ltac:(lia) ltac:(lia) F2) as [F3 E3].
    apply B2R_Bsign_inj; [exact F1|exact F3|congruence|]. rewrite !toFormat_sign; try reflexivity; now apply finite_not_nan.
  - destruct h; try discriminate; reflexivity.
Qed.

(** * An image through an empty list *)
Section Run.
  Variable L : libm.
  #[local] Instance NLf : Num fl := ieeeNum L.

  Lemma run_empty c (l : plist fl) (s : stored fl) o k img tagged d' :
    readPixelArray (Some s) = Ok (img, tagged) -> 2 <= i_height img -> i_width img * i_channels img <> 0 ->
    List.length (i_pixels img) = i_height img * (i_width img * i_channels img) -> outDepthOf img o = d' -> procs_of l = [] -> 2 <= k ->
    let r := match writePixelArray d' tagged (map (sampleOut L (AStr (i_depth img)) (AStr d')) (i_pixels img)) with
             | Ok (p, t) => TWrites p t | Err e => TRaises e end in
    filterCall c l (Some s) o k r /\ forall e, filterCall c l (Some s) o k e -> e = r \/ e = TNothing.
  Proof.
    intros E P1 P2 P3 Od Hl Hk r.
    destruct (cut_rows (i_width img * i_channels img) (i_height img) (i_pixels img) P3) as [rows Hr].
    assert (W : forall f, filterInTime c l img o k f -> f = FWrite (map (sampleOut L (AStr (i_depth img)) (AStr d')) (i_pixels img))).
    { intros f Hf. rewrite (multi_result c l img o k rows f P1 P2 Hr Hf). unfold thr. rewrite Od.
      rewrite (each_map _ (sampleOut L (AStr (i_depth img)) (AStr d'))) by (intro r'; now apply empty_row).
      destruct Hr as [[<- _] _]. f_equal. rewrite map_map. apply map_ext. intro x. unfold sampleOut, change1. apply f32_twice. }
    split.
    - destruct (multi_runs c l img o k) as [f Hf]; [lia|]. pose proof (W f Hf) as Ef. subst f.
      pose proof (CallRun c l (Some s) o k img tagged _ E (in_time_is_run c l img o k _ Hk Hf)) as C. cbn beta iota in C. rewrite Od in C. exact C.
    - intros e C. destruct C as [e' E'|img' tagged' f E' Hf]; [congruence|]. rewrite E in E'. apply Ok_inj in E'. injection E' as <- <-.
      destruct (multi_or_timeout c l img o k f Hk Hf) as [->|Ht]; [now right|]. left. rewrite (W f Ht), Od. reflexivity.
  Qed.

  Definition imageOf (s : stored fl) d (xs : list fl) : image fl :=
    {| i_width := o_width s; i_height := o_height s; i_channels := o_channels s; i_depth := d; i_pixels := xs |}.
  Definition taggedOf (s : stored fl) : bool := match o_bits s with Some _ => true | None => false end.
  Lemma read_numbers s d xs : holdsNumbers s d xs -> readPixelArray (Some s) = Ok (imageOf s d xs, taggedOf s) /\ floatDepth d /\ Forall isSingle xs.
  Proof.
    intros [ys E F|ys E F]; (split; [unfold readPixelArray; rewrite E; reflexivity|]); split; try (now left); try (now right); try assumption.
    eapply Forall_impl; [|exact F]. exact half_single.
  Qed.
  Lemma asked_out d o d' (img : image fl) : i_depth img = d -> knownDepth d' -> asked d o d' -> outDepthOf img o = d'.
  Proof.
    intros Ei H A. unfold outDepthOf. destruct A as [->|[-> ->]]; [|exact Ei].
    assert (X : existsb (String.eqb d') ["8i"; "10i"; "12i"; "16i"; "16f"; "32f"] = true) by (apply existsb_exists; exists d'; split; [exact H|apply String.eqb_refl]).
    now rewrite X.
  Qed.
  Lemma float_scale d : floatDepth d -> largestCode (AStr d) = None.
  Proof. intros [-> | ->]; reflexivity. Qed.
  Lemma sample_float d d' x : floatDepth d -> floatDepth d' -> isSingle x -> sampleOut L (AStr d) (AStr d') x = x.
  Proof.
    intros H H' S. unfold sampleOut, change1.
    assert (N1 : forall x : fl, bitDepthToNormalized x ANone = x) by reflexivity. assert (N2 : forall x : fl, normalizedToBitDepth x ANone = x) by reflexivity.
    change (@normalizedToBitDepth fl (NL L)) with (@normalizedToBitDepth fl NLf). change (@bitDepthToNormalized fl (NL L)) with (@bitDepthToNormalized fl NLf).
    rewrite N1, N2. rewrite (proj1 (depth_float L _ (float_scale d H) _)), (proj2 (depth_float L _ (float_scale d' H') _)).
    change (@nf32 fl (NLt L)) with (@nf32 fl (ieeeNum L)). now rewrite !(single_kept L x S).
  Qed.
End Run.
