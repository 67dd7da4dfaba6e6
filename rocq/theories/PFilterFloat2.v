(** Half and float images: rounding, codes, failures and packing. *)
From Coq Require Import Reals Lra Lia ZArith List String Psatz Bool.
From Flocq Require Import Core BinarySingleNaN Double_rounding.
From Verif Require Import NumF SpecReal PBase PFilter PIeee PIeeeArith PRound PPack PCode PCloseRange PFilterCode PFilterTool PTextIeee PHalf PFilterFloat MFilterTool SpecFloatImage.
Import ListNotations.
Local Open Scope string_scope.
Local Open Scope list_scope.
Local Open Scope nat_scope.

(** * Halfs *)
Section Halfs.
  Variable L : libm.
  #[local] Instance NLg : Num fl := ieeeNum L.
  Local Open Scope R_scope.

  Lemma edge_up : f16of (@nofZ fl (ieeeNum L) 65520) = B754_infinity false.
  Proof. apply B2SF_inj. vm_compute. reflexivity. Qed.
  Lemma edge_down : f16of (@nofZ fl (ieeeNum L) (-65520)) = B754_infinity true.
  Proof. apply B2SF_inj. vm_compute. reflexivity. Qed.

  Lemma below_edge r : Rabs r < 65520 -> Rabs (rnd (p := 11) (e := 16) r) < bpow radix2 16.
  Proof.
    intro H. set (y := rnd (p := 11) (e := 16) r).
    assert (F : forall v, In v [65504; -65504]%Z -> generic_format radix2 (SpecFloat.fexp 11 16) (IZR v)).
    { intros v Hv. apply generic_format_FLT. exists (Defs.Float radix2 (v / 32) 5).
      - unfold F2R. cbn [Fnum Fexp]. destruct Hv as [<-|[<-|[]]]; cbn; lra.
      - cbn [Fnum]. destruct Hv as [<-|[<-|[]]]; cbn; lia.
      - cbn [Fexp]. unfold SpecFloat.emin. lia. }
    pose proof (round_N_pt radix2 (SpecFloat.fexp 11 16) (fun x => negb (Z.even x)) r) as [_ Nr].
    fold (rnd (p := 11) (e := 16) r) in Nr. fold y in Nr.
    assert (B1 := Nr 65504 (F 65504%Z ltac:(now left))). assert (B2 := Nr (-65504) (F (-65504)%Z ltac:(right; now left))).
    change (bpow radix2 16) with 65536. apply Rabs_def2 in H.
    assert (M1 : -65504 <= r -> r <= 65504 -> Rabs y <= 65504).
    { intros H1 H2. apply Rabs_le. split.
      - pose proof (rnd_le (p := 11) (e := 16) (-65504) r H1) as G. rewrite (rnd_format (p := 11) (e := 16) (-65504) (F (-65504)%Z ltac:(right; now left))) in G. fold y in G. lra.
      - pose proof (rnd_le (p := 11) (e := 16) r 65504 H2) as G. rewrite (rnd_format (p := 11) (e := 16) 65504 (F 65504%Z ltac:(now left))) in G. exact G. }
    destruct (Rle_dec r 65504) as [G|G]; [destruct (Rle_dec (-65504) r) as [G2|G2]|].
    - specialize (M1 G2 G). lra.
    - rewrite (Rabs_pos_eq (IZR (-65504) - r)) in B2 by lra. apply Rabs_le_inv in B2. apply Rabs_def1; lra.
    - rewrite (Rabs_left1 (65504 - r)) in B1 by lra. apply Rabs_le_inv in B1. apply Rabs_def1; lra.
  Qed.
  Lemma inf_top (z : binary_float 11 16) : Bleb (B754_infinity false) z = true -> z = B754_infinity false.
  Proof. destruct z as [[]|[]| |[] ? ? ?]; try discriminate; reflexivity. Qed.
  Lemma inf_bottom (z : binary_float 11 16) : Bleb z (B754_infinity true) = true -> z = B754_infinity true.
  Proof. destruct z as [[]|[]| |[] ? ? ?]; try discriminate; reflexivity. Qed.

  Lemma as_half (x : fl) : asHalf x (@nf16 fl (ieeeNum L) x).
  Proof.
    split; [now exists (f16of x)|]. split; [|split].
    - intros F B. pose proof (toFormat_Rounds (p2 := 11) (e2 := 16) x F) as R. unfold Rounds in R. rewrite Rlt_bool_true in R by now apply below_edge.
      destruct R as [F1 E1]. destruct (widen_exact (p2 := 53) (e2 := 1024) (toFormat 11 16 x) ltac:(lia) ltac:(lia) ltac:(lia) F1) as [F2 E2].
      split; [exact F2|]. etransitivity; [exact E2|exact E1].
    - intros F B. cbn [nf16 ieeeNum]. destruct (Rle_or_lt 0 (B2R x)) as [G|G].
      + rewrite Rabs_pos_eq in B by exact G. destruct (ofZ_exact L 65520) as [F0 E0]; [lia|].
        assert (H : Bleb (@nofZ fl (ieeeNum L) 65520) x = true) by (apply le_B; [exact F0|exact F|rewrite E0; exact B]).
        apply (toFormat_le (p2 := 11) (e2 := 16)) in H. change (toFormat 11 16 (@nofZ fl (ieeeNum L) 65520)) with (f16of (@nofZ fl (ieeeNum L) 65520)) in H.
        rewrite edge_up in H. apply inf_top in H. unfold f16of. rewrite H.
        assert (S : Bsign x = false). { pose proof (toFormat_sign (p2 := 11) (e2 := 16) x (finite_not_nan x F)) as S. rewrite H in S. symmetry. exact S. }
        rewrite S. reflexivity.
      + rewrite Rabs_left in B by exact G. destruct (ofZ_exact L (-65520)) as [F0 E0]; [lia|].
        assert (H : Bleb x (@nofZ fl (ieeeNum L) (-65520)) = true) by (apply le_B; [exact F|exact F0|rewrite E0; lra]).
        apply (toFormat_le (p2 := 11) (e2 := 16)) in H. change (toFormat 11 16 (@nofZ fl (ieeeNum L) (-65520))) with (f16of (@nofZ fl (ieeeNum L) (-65520))) in H.
        rewrite edge_down in H. apply inf_bottom in H. unfold f16of. rewrite H.
        assert (S : Bsign x = true). { pose proof (toFormat_sign (p2 := 11) (e2 := 16) x (finite_not_nan x F)) as S. rewrite H in S. symmetry. exact S. }
        rewrite S. reflexivity.
    - intro F. destruct x; try discriminate; reflexivity.
  Qed.
End Halfs.

(** * Between float images *)
Section Float.
  Variable L : libm.
  #[local] Instance NLh : Num fl := ieeeNum L.

  Lemma picture (s : stored fl) {A} (ks : list A) d xs : hasPicture s ks -> List.length xs = List.length ks ->
    2 <= i_height (imageOf s d xs) /\ i_width (imageOf s d xs) * i_channels (imageOf s d xs) <> 0 /\
    List.length (i_pixels (imageOf s d xs)) = i_height (imageOf s d xs) * (i_width (imageOf s d xs) * i_channels (imageOf s d xs)).
  Proof. intros (P1 & P2 & P3) E. cbn [imageOf i_height i_width i_channels i_pixels]. repeat split; try assumption. congruence. Qed.
  Lemma known_float d : floatDepth d -> knownDepth d.
  Proof. intros [-> | ->]; cbn; tauto. Qed.
  Lemma samples_float d d' xs : floatDepth d -> floatDepth d' -> Forall isSingle xs -> map (sampleOut L (AStr d) (AStr d')) xs = xs.
  Proof. intros H H' F. induction F as [|x t Hx F IH]; [reflexivity|]. cbn [map]. rewrite IH. now rewrite (sample_float L d d' x H H' Hx). Qed.

  Theorem numbers_kept c (l : plist fl) (s : stored fl) d xs o d' k :
    holdsNumbers s d xs -> o_bits s = None -> hasPicture s xs -> asked d o d' -> d' = d \/ d' = "32f" -> procs_of l = [] -> 2 <= k ->
    filterCall c l (Some s) o k (TWrites (writtenNumbers d' xs) None) /\
    forall e, filterCall c l (Some s) o k e -> e = TWrites (writtenNumbers d' xs) None \/ e = TNothing.
  Proof.
    intros H Hb P A Hd Hl Hk. destruct (read_numbers L s d xs H) as (E & Fd & Fx).
    assert (Fd' : floatDepth d') by (destruct Hd as [->| ->]; [exact Fd|now right]).
    destruct (picture s xs d xs P eq_refl) as (P1 & P2 & P3).
    pose proof (run_empty L c l s o k _ _ d' E P1 P2 P3 (asked_out d o d' (imageOf s d xs) eq_refl (known_float d' Fd') A) Hl Hk) as R.
    cbn [imageOf i_depth i_pixels] in R. rewrite (samples_float d d' xs Fd Fd' Fx) in R. unfold taggedOf in R. rewrite Hb in R.
    assert (W : writePixelArray d' false xs = Ok (writtenNumbers d' xs, None)).
    { destruct Fd' as [-> | ->]; [|reflexivity]. destruct Hd as [<-|Hd]; [|discriminate]. unfold writePixelArray, packPixels.
      cbn [sampleTypeOf String.eqb Ascii.eqb Bool.eqb orb bind bitsTag]. unfold writtenNumbers. cbn [String.eqb Ascii.eqb Bool.eqb].
      assert (M : map nf16 xs = xs).
      { inversion H as [ys E' F'|]; subst. clear - F'. induction F' as [|x t Hx F IH]; [reflexivity|]. cbn [map]. rewrite IH. f_equal. exact (half_kept L x Hx). }
      rewrite M. reflexivity. }
    cbv zeta in R. change (@NLf L) with NLh in R. rewrite W in R. exact R.
  Qed.

  Theorem to_half c (l : plist fl) (s : stored fl) xs o k :
    holdsNumbers s "32f" xs -> o_bits s = None -> hasPicture s xs -> asked "32f" o "16f" -> procs_of l = [] -> 2 <= k ->
    exists ys, Forall2 asHalf xs ys /\
      filterCall c l (Some s) o k (TWrites (PHalfs ys) None) /\
      forall e, filterCall c l (Some s) o k e -> e = TWrites (PHalfs ys) None \/ e = TNothing.
  Proof.
    intros H Hb P A Hl Hk. destruct (read_numbers L s "32f" xs H) as (E & Fd & Fx).
    exists (map nf16 xs). split; [clear; induction xs; constructor; [apply (as_half L)|assumption]|].
    destruct (picture s xs "32f" xs P eq_refl) as (P1 & P2 & P3).
    pose proof (run_empty L c l s o k _ _ "16f" E P1 P2 P3 (asked_out "32f" o "16f" (imageOf s "32f" xs) eq_refl (known_float "16f" (or_introl eq_refl)) A) Hl Hk) as R.
    cbn [imageOf i_depth i_pixels] in R. rewrite (samples_float "32f" "16f" xs Fd (or_introl eq_refl) Fx) in R. unfold taggedOf in R. rewrite Hb in R. exact R.
  Qed.
End Float.

(** * Codes to floats and back *)
Section Codes.
  Variable L : libm.
  #[local] Instance NLi : Num fl := ieeeNum L.
  Notation "'code' k" := (@nofZ fl (ieeeNum L) k) (at level 9).

  Lemma code_bound d a : largestCode (AStr d) = Some a -> (255 <= a <= 65535)%Z.
  Proof. intro H. destruct (depth_cases L (AStr d) a H) as (n & Hn & -> & _). destruct Hn as [<-|[<-|[<-|[<-|[]]]]]; cbn; lia. Qed.
  Lemma quotient d a k : largestCode (AStr d) = Some a -> isCode a k ->
    change1 L (AStr d) (AStr "32f") (code k) = @nf32 fl (ieeeNum L) (ndiv (code k) (code a)).
  Proof.
    intros H Hk. unfold change1. destruct (depth_cases L (AStr d) a H) as (n & _ & _ & E). rewrite (proj1 (E _)).
    rewrite (proj2 (depth_float L (AStr "32f") eq_refl _)). apply f32_twice.
  Qed.
  Lemma nearest_quotient a k : (255 <= a <= 65535)%Z -> isCode a k -> nearest 24 128 (IZR k / IZR a) (@nf32 fl (ieeeNum L) (ndiv (code k) (code a))).
  Proof.
    intros Ha Hk. destruct (ofZ_exact L k) as [Fk Ek]; [destruct Hk; lia|]. destruct (ofZ_exact L a) as [Fa Ea]; [lia|].
    assert (Pa : (255 <= IZR a <= 65535)%R) by (split; apply IZR_le; lia).
    assert (Pk : (0 <= IZR k <= IZR a)%R) by (destruct Hk; split; apply IZR_le; lia).
    assert (D : Rounds (@ndiv fl (ieeeNum L) (code k) (code a)) (IZR k / IZR a)) by (rewrite <- Ek, <- Ea; apply div_Rounds; [exact Fk|exact Fa|rewrite Ea; lra]).
    assert (Q : (0 <= IZR k / IZR a <= 1)%R).
    { split; [apply Rmult_le_pos; [lra|left; apply Rinv_0_lt_compat; lra]|]. apply Rmult_le_reg_r with (IZR a); [lra|]. unfold Rdiv. rewrite Rmult_assoc, Rinv_l by lra. lra. }
    destruct (Rounds_finite (p := 53) (e := 1024) _ _ 0 D) as [F1 E1]; [rewrite Rabs_pos_eq by lra; cbn; lra|lia|lia|].
    assert (B : (Rabs (B2R (ndiv (code k) (code a))) <= bpow radix2 0)%R).
    { replace (B2R (ndiv (code k) (code a))) with (rnd (p := 53) (e := 1024) (IZR k / IZR a)) by (symmetry; exact E1). assert (G : (0 <= rnd (p := 53) (e := 1024) (IZR k / IZR a) <= 1)%R).
      { split; [rewrite <- (rnd_0 (p := 53) (e := 1024)); apply rnd_le; lra|].
        rewrite <- (rnd_format (p := 53) (e := 1024) 1); [apply rnd_le; lra|].
        apply generic_format_FLT. exists (Defs.Float radix2 1 0); [unfold F2R; cbn; lra|cbn; lia|cbn [Fexp]; unfold SpecFloat.emin; lia]. }
      rewrite Rabs_pos_eq by lra. cbn. lra. }
    destruct (f32_finite (ndiv (code k) (code a)) 0 F1 B) as [F2 E2]; [lia|lia|].
    split; [exact F2|]. etransitivity; [exact E2|]. etransitivity; [apply f_equal; exact E1|].
    assert (Fo : forall z, (0 <= z <= 65535)%Z -> FLT_format radix2 (3 - 128 - 24) 24 (IZR z)).
    { intros z Hz. exists (Defs.Float radix2 z 0); [unfold F2R; cbn; lra|cbn [Fnum]; change (radix2 ^ 24)%Z with 16777216%Z; lia|cbn [Fexp]; lia]. }
    pose proof (round_round_div_FLT radix2 (3 - 128 - 24) 24 (3 - 1024 - 53) 53 (fun x => negb (Z.even x)) (fun x => negb (Z.even x))
                  (ex_intro _ 1%Z eq_refl) ltac:(lia) ltac:(lia) (IZR k) (IZR a) ltac:(lra) (Fo k ltac:(destruct Hk; lia)) (Fo a ltac:(lia))) as RR.
    unfold round_round_eq in RR. exact RR.
  Qed.

  Lemma code_samples d d' a ks : largestCode (AStr d) = Some a -> Forall (isCode a) ks ->
    map (sampleOut L (AStr d) (AStr d')) (map (fun k => code k) ks) = map (fun k => change1 L (AStr d) (AStr d') (code k)) ks.
  Proof.
    intros H F. rewrite map_map. apply map_ext_in. intros k Hk. rewrite Forall_forall in F. apply sample_change.
    pose proof (code_bound d a H). specialize (F k Hk). destruct F. lia.
  Qed.

  Lemma read_untagged (s : stored fl) d ks : holdsCodes s d ks -> o_bits s = None -> readPixelArray (Some s) = Ok (imageOf s d (map (fun k => code k) ks), false).
  Proof. intros H Hb. destruct H as [ks E H|ks E Eb H|b vs E Eb Hb' H]; [| |congruence]; unfold readPixelArray; rewrite E, Hb; reflexivity. Qed.

  Theorem codes_to_float c (l : plist fl) (s : stored fl) d ks a o k :
    holdsCodes s d ks -> o_bits s = None -> hasPicture s ks -> asked d o "32f" -> largestCode (AStr d) = Some a -> procs_of l = [] -> 2 <= k ->
    exists ys, Forall2 (fun n y => nearest 24 128 (IZR n / IZR a) y) ks ys /\
      filterCall c l (Some s) o k (TWrites (PFloats ys) None) /\
      forall e, filterCall c l (Some s) o k e -> e = TWrites (PFloats ys) None \/ e = TNothing.
  Proof.
    intros H Hb P A Ha Hl Hk. pose proof (codes_in s d ks a H Ha) as F. pose proof (read_untagged s d ks H Hb) as E.
    exists (map (fun n => change1 L (AStr d) (AStr "32f") (code n)) ks). split.
    { induction F as [|n t Hn F IH]; constructor; [|].
      - rewrite (quotient d a n Ha Hn). apply nearest_quotient; [exact (code_bound d a Ha)|exact Hn].
      - clear - F Ha. induction F as [|n t Hn F IH]; constructor; [|exact IH].
        rewrite (quotient d a n Ha Hn). apply nearest_quotient; [exact (code_bound d a Ha)|exact Hn]. }
    destruct (picture s ks d (map (fun n => code n) ks) P ltac:(apply map_length)) as (P1 & P2 & P3).
    pose proof (run_empty L c l s o k _ _ "32f" E P1 P2 P3 (asked_out d o "32f" (imageOf s d (map (fun n => code n) ks)) eq_refl (known_float "32f" (or_intror eq_refl)) A) Hl Hk) as R.
    cbn [imageOf i_depth i_pixels] in R. rewrite (code_samples d "32f" a ks Ha F) in R. exact R.
  Qed.

  (** ** Back *)
  Lemma write_between d' b (ys : list fl) ks tagged : largestCode (AStr d') = Some b ->
    Forall2 (fun y n => is_finite y = true /\ (IZR n <= B2R y < IZR (n + 1))%R /\ isCode b n) ys ks ->
    writePixelArray d' tagged ys = Ok (writtenCodes d' ks, Some (writtenBits d')).
  Proof.
    intros Hb F.
    assert (Tag : bitsTag d' tagged = Ok (Some (writtenBits d'))).
    { unfold bitsTag, sampleTypeOf, bitDepthValue, writtenBits. cbn [largestCode] in Hb.
      destruct (String.eqb_spec d' "8i") as [->|N1]; [destruct tagged; reflexivity|].
      destruct (String.eqb_spec d' "10i") as [->|N2]; [destruct tagged; reflexivity|].
      destruct (String.eqb_spec d' "12i") as [->|N3]; [destruct tagged; reflexivity|].
      destruct (String.eqb_spec d' "16i") as [->|N4]; [destruct tagged; reflexivity|]. exfalso. revert Hb.
      repeat (match goal with |- context [match ?b with _ => _ end] => destruct b end; try discriminate; try congruence). }
    assert (P : forall bits shift, (0 <= shift)%Z -> (shift <= bits <= 16)%Z -> b = (2 ^ (bits - shift) - 1)%Z ->
      mapM (packSample bits shift) ys = Ok (map (fun k => k * 2 ^ shift)%Z ks)).
    { intros bits shift Hs Hbs Eb. clear Tag. induction F as [|y n t t' (Fi & B & Hn) F IH]; [reflexivity|]. cbn [map mapM]. rewrite IH.
      rewrite (pack_between L bits shift n); [reflexivity|exact Hs|exact Hbs|exact Fi|destruct Hn; lia|exact B]. }
    unfold writePixelArray. rewrite Tag. unfold packPixels, sampleTypeOf, writtenCodes, writeShift. cbn [largestCode] in Hb.
    destruct (String.eqb_spec d' "8i") as [->|N1].
    { injection Hb as <-. cbn [bind]. rewrite (P 8%Z 0%Z) by (lia || reflexivity). cbn [bind]. do 2 f_equal. f_equal. etransitivity; [|apply map_id]. apply map_ext. intro. lia. }
    destruct (String.eqb_spec d' "10i") as [->|N2].
    { injection Hb as <-. cbn [bind orb]. rewrite (P 16%Z 6%Z) by (lia || reflexivity). reflexivity. }
    destruct (String.eqb_spec d' "12i") as [->|N3].
    { injection Hb as <-. cbn [bind orb]. rewrite (P 16%Z 4%Z) by (lia || reflexivity). reflexivity. }
    destruct (String.eqb_spec d' "16i") as [->|N4].
    { injection Hb as <-. cbn [bind orb]. rewrite (P 16%Z 0%Z) by (lia || reflexivity). cbn [bind]. do 2 f_equal. f_equal. etransitivity; [|apply map_id]. apply map_ext. intro. lia. }
    exfalso. revert Hb. repeat (match goal with |- context [match ?b with _ => _ end] => destruct b end; try discriminate; try congruence).
  Qed.
  Lemma known_code d a : largestCode (AStr d) = Some a -> knownDepth d.
  Proof.
    intro H. unfold knownDepth. cbn [largestCode] in H.
    destruct (String.eqb_spec d "8i") as [->|N1]; [cbn; tauto|]. destruct (String.eqb_spec d "10i") as [->|N2]; [cbn; tauto|].
    destruct (String.eqb_spec d "12i") as [->|N3]; [cbn; tauto|]. destruct (String.eqb_spec d "16i") as [->|N4]; [cbn; tauto|].
    exfalso. revert H. repeat (match goal with |- context [match ?b with _ => _ end] => destruct b end; try discriminate; try congruence).
  Qed.
  Lemma sample_change1 d d' x : isSingle x -> sampleOut L (AStr d) (AStr d') x = change1 L (AStr d) (AStr d') x.
  Proof.
    intro S. unfold sampleOut, change1.
    assert (N1 : forall x : fl, bitDepthToNormalized x ANone = x) by reflexivity. assert (N2 : forall x : fl, normalizedToBitDepth x ANone = x) by reflexivity.
    change (@normalizedToBitDepth fl (NL L)) with (@normalizedToBitDepth fl NLi). change (@bitDepthToNormalized fl (NL L)) with (@bitDepthToNormalized fl NLi).
    rewrite N1, N2. change (@nf32 fl (NLt L)) with (@nf32 fl (ieeeNum L)). rewrite (single_kept L x S). now rewrite !f32_twice.
  Qed.

  Theorem float_and_back c (l : plist fl) (s s' : stored fl) d ks a ys t k c' (l' : plist fl) k' :
    holdsCodes s d ks -> o_bits s = None -> hasPicture s ks -> largestCode (AStr d) = Some a -> procs_of l = [] -> 2 <= k ->
    filterCall c l (Some s) (Some "32f") k (TWrites (PFloats ys) t) ->
    sameSize s s' -> o_samples s' = SFloat ys -> procs_of l' = [] -> 2 <= k' ->
    filterCall c' l' (Some s') (Some d) k' (TWrites (writtenCodes d ks) (Some (writtenBits d))) /\
    forall e, filterCall c' l' (Some s') (Some d) k' e -> e = TWrites (writtenCodes d ks) (Some (writtenBits d)) \/ e = TNothing.
  Proof.
    intros H Hb P Ha Hl Hk C (S1 & S2 & S3) Es Hl' Hk'. pose proof (codes_in s d ks a H Ha) as F. pose proof (read_untagged s d ks H Hb) as E.
    destruct (picture s ks d (map (fun n => code n) ks) P ltac:(apply map_length)) as (P1 & P2 & P3).
    pose proof (run_empty L c l s (Some "32f") k _ _ "32f" E P1 P2 P3 (asked_out d (Some "32f") "32f" (imageOf s d (map (fun n => code n) ks)) eq_refl (known_float "32f" (or_intror eq_refl)) (or_introl eq_refl)) Hl Hk) as R.
    cbn [imageOf i_depth i_pixels] in R. rewrite (code_samples d "32f" a ks Ha F) in R.
    destruct R as [_ R]. specialize (R _ C). destruct R as [R|R]; [|discriminate]. cbn in R. injection R as Ey _.
    assert (Fy : Forall isSingle ys).
    { subst ys. apply Forall_forall. intros y Hy. apply in_map_iff in Hy as (n & <- & _). unfold change1. cbn [nf32 ieeeNum]. eexists. reflexivity. }
    assert (E' : readPixelArray (Some s') = Ok (imageOf s' "32f" ys, taggedOf s')) by (unfold readPixelArray; rewrite Es; reflexivity).
    assert (P' : hasPicture s' ks) by (destruct P as (Q1 & Q2 & Q3); unfold hasPicture; rewrite S1, S2, S3; auto).
    destruct (picture s' ks "32f" ys P' ltac:(subst ys; apply map_length)) as (P1' & P2' & P3').
    pose proof (run_empty L c' l' s' (Some d) k' _ _ d E' P1' P2' P3' (asked_out "32f" (Some d) d (imageOf s' "32f" ys) eq_refl (known_code d a Ha) (or_introl eq_refl)) Hl' Hk') as R.
    cbn [imageOf i_depth i_pixels] in R.
    assert (M : map (sampleOut L (AStr "32f") (AStr d)) ys = map (fun n => code n) ks).
    { subst ys. rewrite map_map. apply map_ext_in. intros n Hn. rewrite Forall_forall in F. specialize (F n Hn).
      rewrite sample_change1 by (unfold change1; cbn [nf32 ieeeNum]; eexists; reflexivity).
      apply (change_back L (AStr d) (AStr "32f") a n Ha); [discriminate|exact F]. }
    rewrite M in R. cbv zeta in R. change (@NLf L) with NLi in R. rewrite (write_between d a (map (fun n => code n) ks) ks (taggedOf s') Ha) in R; [exact R|].
    clear - F Ha. pose proof (code_bound d a Ha). induction F as [|n t Hn F IH]; constructor; [|exact IH].
    destruct (ofZ_exact L n) as [Fn En]; [destruct Hn; lia|]. split; [exact Fn|]. rewrite En. split; [|exact Hn]. split; [lra|]. apply IZR_lt. lia.
  Qed.

  (** ** Numbers between 0 and 1 to codes *)
  Lemma to_code d t (x : fl) : largestCode (AStr d) = Some t -> is_finite x = true -> (0 <= B2R x <= 1)%R ->
    exists n, codeFor t x n /\ is_finite (change1 L (AStr "32f") (AStr d) x) = true /\ (IZR n <= B2R (change1 L (AStr "32f") (AStr d) x) < IZR (n + 1))%R.
  Proof.
    intros H Fx Bx. pose proof (code_bound d t H) as Bt. assert (Rt : (255 <= IZR t <= 65535)%R) by (split; apply IZR_le; lia).
    assert (G : (1 <= bpow radix2 109)%R) by (change 1%R with (bpow radix2 0); apply bpow_le; lia).
    assert (G2 : bpow radix2 125 = (65536 * bpow radix2 109)%R) by exact (bpow_plus radix2 16 109).
    assert (Q2 : (0 <= B2R x * IZR t <= 65535)%R) by (split; [apply Rmult_le_pos; lra|replace 65535%R with (1 * 65535)%R by lra; apply Rmult_le_compat; lra]).
    assert (Q3 : (B2R x * IZR t <= IZR t)%R) by (rewrite <- (Rmult_1_l (IZR t)) at 2; apply Rmult_le_compat_r; lra).
    destruct (change1_close L (AStr "32f") (AStr d) x Fx) as [F B].
    { replace (fullScale (AStr "32f")) with 1%R by reflexivity. rewrite Rabs_pos_eq; lra. }
    { rewrite (scale_of (AStr d) t H). replace (fullScale (AStr "32f")) with 1%R by reflexivity. unfold Rdiv. rewrite Rinv_1, Rmult_1_r. rewrite Rabs_pos_eq; lra. }
    rewrite (scale_of (AStr d) t H) in B. replace (fullScale (AStr "32f")) with 1%R in B by reflexivity. unfold Rdiv in B. rewrite Rinv_1, Rmult_1_r in B.
    set (y := change1 L (AStr "32f") (AStr d) x) in *. rewrite (Rabs_pos_eq (B2R x * IZR t)) in B by lra.
    assert (Sm : (3 * bpow radix2 (-23) * (B2R x * IZR t) + bpow radix2 (-132) <= 1 / 32)%R).
    { assert (T : (bpow radix2 (-132) <= bpow radix2 (-23))%R) by (apply bpow_le; lia). change (bpow radix2 (-23)) with (/ 8388608)%R in *. lra. }
    assert (Yb : (0 <= B2R y <= IZR t)%R).
    { unfold y, change1. destruct (depth_cases L (AStr d) t H) as (m & _ & _ & E). rewrite (proj2 (E _)), (proj1 (depth_float L (AStr "32f") eq_refl _)).
      set (w := @nf32 fl (ieeeNum L) x).
      assert (W : is_finite w = true /\ B2R w = rnd (p := 24) (e := 128) (B2R x)).
      { apply (f32_finite x 0 Fx); [rewrite Rabs_pos_eq by lra; cbn; lra|lia|lia]. }
      destruct W as [Fw Ew]. assert (One : generic_format radix2 (SpecFloat.fexp 24 128) 1).
      { apply generic_format_FLT. exists (Defs.Float radix2 1 0); [unfold F2R; cbn; lra|cbn; lia|cbn [Fexp]; unfold SpecFloat.emin; lia]. }
      assert (Wb : (0 <= B2R w <= 1)%R).
      { rewrite Ew. split; [rewrite <- (rnd_0 (p := 24) (e := 128)); apply rnd_le; lra|]. rewrite <- (rnd_format (p := 24) (e := 128) 1 One). apply rnd_le. lra. }
      destruct (ofZ_exact L t) as [Ft Et]; [lia|]. assert (Mu : Rounds (@nmul fl (ieeeNum L) w (code t)) (B2R w * IZR t)) by (rewrite <- Et; apply mult_Rounds; [exact Fw|exact Ft]).
      assert (Pb : (0 <= B2R w * IZR t <= IZR t)%R) by (split; [apply Rmult_le_pos; lra|rewrite <- (Rmult_1_l (IZR t)) at 2; apply Rmult_le_compat_r; lra]).
      assert (T17 : forall r, (0 <= r <= IZR t)%R -> (Rabs r <= bpow radix2 17)%R) by (intros r Hr; rewrite Rabs_pos_eq by lra; change (bpow radix2 17) with 131072%R; lra).
      destruct (Rounds_finite (p := 53) (e := 1024) _ _ 17 Mu (T17 _ Pb) ltac:(lia) ltac:(lia)) as [F1 E1].
      assert (Tf : forall p e, (24 <= p)%Z -> (3 - e - p <= 0)%Z -> generic_format radix2 (SpecFloat.fexp p e) (IZR t)).
      { intros p e Hp He. apply generic_format_FLT. exists (Defs.Float radix2 t 0); [unfold F2R; cbn; lra| |cbn [Fexp]; unfold SpecFloat.emin; lia].
        cbn [Fnum]. apply Z.lt_le_trans with (radix2 ^ 24)%Z; [change (radix2 ^ 24)%Z with 16777216%Z; lia|]. apply Z.pow_le_mono_r; [reflexivity|exact Hp]. }
      assert (B1 : (0 <= rnd (p := 53) (e := 1024) (B2R w * IZR t) <= IZR t)%R).
      { split; [rewrite <- (rnd_0 (p := 53) (e := 1024)); apply rnd_le; lra|]. 
        pose proof (rnd_le (p := 53) (e := 1024) _ _ (proj2 Pb)) as U. rewrite (rnd_format (p := 53) (e := 1024) (IZR t) (Tf 53%Z 1024%Z ltac:(lia) ltac:(lia))) in U. exact U. }
      destruct (f32_finite (@nmul fl (ieeeNum L) w (code t)) 17 F1) as [F2 E2]; [rewrite E1; exact (T17 _ B1)|lia|lia|].
      assert (Y2 : B2R (@nf32 fl (ieeeNum L) (@nmul fl (ieeeNum L) w (code t))) = rnd (p := 24) (e := 128) (rnd (p := 53) (e := 1024) (B2R w * IZR t))) by (etransitivity; [exact E2|f_equal; exact E1]).
      match goal with |- (0 <= B2R ?v <= _)%R => change v with (@nf32 fl (ieeeNum L) (@nmul fl (ieeeNum L) w (code t))) end. rewrite Y2.
      split; [rewrite <- (rnd_0 (p := 24) (e := 128)); apply rnd_le; lra|]. 
      pose proof (rnd_le (p := 24) (e := 128) _ _ (proj2 B1)) as U. rewrite (rnd_format (p := 24) (e := 128) (IZR t) (Tf 24%Z 128%Z ltac:(lia) ltac:(lia))) in U. exact U. }
    exists (Zfloor (B2R y)). pose proof (Zfloor_lb (B2R y)) as Lb. pose proof (Zfloor_ub (B2R y)) as Ub. apply Rabs_le_inv in B.
    split; [|split; [exact F|rewrite plus_IZR; lra]]. split.
    - split; [apply Zfloor_lub; lra|]. apply le_IZR. lra.
    - lra.
  Qed.

  Theorem numbers_to_codes c (l : plist fl) (s : stored fl) d xs o d' t k :
    holdsNumbers s d xs -> Forall (fun x => is_finite x = true /\ (0 <= B2R x <= 1)%R) xs -> hasPicture s xs -> asked d o d' ->
    largestCode (AStr d') = Some t -> procs_of l = [] -> 2 <= k ->
    exists ks, Forall2 (codeFor t) xs ks /\
      filterCall c l (Some s) o k (TWrites (writtenCodes d' ks) (Some (writtenBits d'))) /\
      forall e, filterCall c l (Some s) o k e -> e = TWrites (writtenCodes d' ks) (Some (writtenBits d')) \/ e = TNothing.
  Proof.
    intros H Fr P A Ht Hl Hk. destruct (read_numbers L s d xs H) as (E & Fd & Fx).
    assert (Ex : exists ks, Forall2 (fun x n => codeFor t x n /\ is_finite (change1 L (AStr "32f") (AStr d') x) = true /\
       (IZR n <= B2R (change1 L (AStr "32f") (AStr d') x) < IZR (n + 1))%R) xs ks).
    { clear - Fr Ht. induction Fr as [|x r [Hf Hb] Fr [ks IH]]; [exists []; constructor|].
      destruct (to_code d' t x Ht Hf Hb) as (n & Hn). exists (n :: ks). now constructor. }
    destruct Ex as [ks K]. exists ks. split; [clear - K; induction K as [|? ? ? ? [Hc _] K IH]; constructor; assumption|].
    destruct (picture s xs d xs P eq_refl) as (P1 & P2 & P3).
    pose proof (run_empty L c l s o k _ _ d' E P1 P2 P3 (asked_out d o d' (imageOf s d xs) eq_refl (known_code d' t Ht) A) Hl Hk) as R.
    cbn [imageOf i_depth i_pixels] in R. cbv zeta in R. change (@NLf L) with NLi in R.
    rewrite (write_between d' t _ ks (taggedOf s) Ht) in R; [exact R|].
    clear - K Fx Fd. revert Fx. induction K as [|x n r r' (Cf & Fi & B) K IH]; intro Fx; constructor.
    - inversion Fx as [|? ? Sx Fx']; subst. rewrite (sample_change1 d d' x Sx).
      assert (Eq : change1 L (AStr d) (AStr d') x = change1 L (AStr "32f") (AStr d') x) by (destruct Fd as [-> | ->]; reflexivity).
      rewrite Eq. split; [exact Fi|]. split; [exact B|apply Cf].
    - apply IH. now inversion Fx.
  Qed.

  (** ** Not finite *)
  Lemma mapM_err {A B} (f : A -> res B) xs x : In x xs -> (exists e, f x = Err e) -> exists e, mapM f xs = Err e.
  Proof.
    intros H [e E]. induction xs as [|y t IH]; [destruct H|]. cbn [mapM]. destruct H as [->|H].
    - rewrite E. eexists. reflexivity.
    - destruct (f y) as [v|e']; [|eexists; reflexivity]. cbn [bind]. destruct (IH H) as [e'' ->]. eexists. reflexivity.
  Qed.
  Lemma special_out d d' t x : floatDepth d -> isSingle x -> largestCode (AStr d') = Some t -> is_finite x = false -> is_finite (sampleOut L (AStr d) (AStr d') x) = false.
  Proof.
    intros Fd Sx Ht F. rewrite (sample_change1 d d' x Sx). pose proof (code_bound d' t Ht) as Bt. destruct (depth_cases L (AStr d') t Ht) as (m & _ & _ & E).
    assert (K : forall z : fl, is_finite z = false -> @nf32 fl (ieeeNum L) z = z) by (intros z Hz; destruct z; try discriminate; reflexivity).
    assert (Q : forall z : fl, is_finite z = false -> is_finite (@nmul fl (ieeeNum L) z (code t)) = false).
    { intros z Hz. destruct (ofZ_exact L t) as [Ft Et]; [lia|]. cbn [nmul ieeeNum].
      destruct z as [sz|sz| |sz mz ez Bz]; try discriminate; [|reflexivity].
      revert Ft Et. generalize (code t). intros u Ft Et. destruct u as [su|su| |su mu eu Bu]; try discriminate; [|reflexivity].
      exfalso. cbn in Et. symmetry in Et. apply (eq_IZR t 0) in Et. lia. }
    unfold change1. rewrite (proj2 (E _)), (proj1 (depth_float L (AStr d) (float_scale d Fd) _)).
    match goal with |- is_finite ?v = false => change v with (@nf32 fl (ieeeNum L) (@nmul fl (ieeeNum L) (@nf32 fl (ieeeNum L) x) (code t))) end.
    rewrite (K x F). pose proof (Q x F) as G. rewrite (K _ G). exact G.
  Qed.
  Theorem special_not_written c (l : plist fl) (s : stored fl) d xs o d' t k x :
    holdsNumbers s d xs -> In x xs -> is_finite x = false -> hasPicture s xs -> asked d o d' ->
    largestCode (AStr d') = Some t -> procs_of l = [] -> 2 <= k ->
    forall e, filterCall c l (Some s) o k e -> (exists x, e = TRaises x) \/ e = TNothing.
  Proof.
    intros H Hx Hf P A Ht Hl Hk e C. destruct (read_numbers L s d xs H) as (E & Fd & Fx).
    destruct (picture s xs d xs P eq_refl) as (P1 & P2 & P3).
    pose proof (run_empty L c l s o k _ _ d' E P1 P2 P3 (asked_out d o d' (imageOf s d xs) eq_refl (known_code d' t Ht) A) Hl Hk) as [_ R].
    cbn [imageOf i_depth i_pixels] in R. destruct (R e C) as [->| ->]; [|now right]. left.
    assert (W : exists e, writePixelArray d' (taggedOf s) (map (sampleOut L (AStr d) (AStr d')) xs) = Err e).
    { assert (Pk : forall bits shift, exists e, mapM (packSample bits shift) (map (sampleOut L (AStr d) (AStr d')) xs) = Err e).
      { intros bits shift. apply (mapM_err _ _ (sampleOut L (AStr d) (AStr d') x)); [now apply in_map|].
        pose proof (special_out d d' t x Fd (proj1 (Forall_forall _ _) Fx x Hx) Ht Hf) as G. unfold packSample, pyint. destruct (sampleOut L (AStr d) (AStr d') x) as [?|?| |? ? ? ?]; try discriminate; eexists; reflexivity. }
      unfold writePixelArray, packPixels, sampleTypeOf. cbn [largestCode] in Ht.
      destruct (String.eqb_spec d' "8i") as [->|N1]; [destruct (Pk 8%Z 0%Z) as [e' ->]; eexists; reflexivity|].
      destruct (String.eqb_spec d' "10i") as [->|N2]; [destruct (Pk 16%Z 6%Z) as [e' Ee]; cbn [bind orb]; unfold writeShift; cbn [String.eqb Ascii.eqb Bool.eqb]; rewrite Ee; eexists; reflexivity|].
      destruct (String.eqb_spec d' "12i") as [->|N3]; [destruct (Pk 16%Z 4%Z) as [e' Ee]; cbn [bind orb]; unfold writeShift; cbn [String.eqb Ascii.eqb Bool.eqb]; rewrite Ee; eexists; reflexivity|].
      destruct (String.eqb_spec d' "16i") as [->|N4]; [destruct (Pk 16%Z 0%Z) as [e' Ee]; cbn [bind orb]; unfold writeShift; cbn [String.eqb Ascii.eqb Bool.eqb]; rewrite Ee; eexists; reflexivity|].
      exfalso. revert Ht. repeat (match goal with |- context [match ?b with _ => _ end] => destruct b end; try discriminate; try congruence). }
    destruct W as [e' W]. change (@NLf L) with NLi. exists e'. cbv zeta. rewrite W. reflexivity.
  Qed.
End Codes.

(** * Tagged images *)
Theorem tagged_not_float {T} {N : Num T} c (l : plist T) (s : MFilterTool.stored T) o k e b :
  o_bits s = Some b -> (exists d, o = Some d /\ floatDepth d) \/ (o = None /\ exists xs, o_samples s = SHalf xs \/ o_samples s = SFloat xs) ->
  filterCall c l (Some s) o k e -> forall p t, e <> TWrites p t.
Proof.
  intros Hb A C p t. destruct C as [e' E'|img tagged f E Hf]; [discriminate|]. destruct f as [px| |]; try discriminate.
  assert (Tg : tagged = true /\ floatDepth (outDepthOf img o)).
  { split.
    - unfold readPixelArray in E. rewrite Hb in E. destruct (o_samples s); try (injection E as _ <-; reflexivity); [|discriminate].
      destruct (mapM _ _); [|discriminate]. injection E as _ <-. reflexivity.
    - unfold outDepthOf. destruct A as [(d & -> & D)|(-> & xs & X)]; [destruct D as [-> | ->]; [now left|now right]|].
      unfold readPixelArray in E. destruct X as [X|X]; rewrite X in E; injection E as <- _; [now left|now right]. }
  destruct Tg as [-> D]. assert (B : exists e, bitsTag (outDepthOf img o) true = Err e) by (destruct D as [-> | ->]; eexists; reflexivity).
  destruct B as [e B]. unfold writePixelArray. destruct (packPixels (outDepthOf img o) px); [|discriminate]. cbn [bind]. rewrite B. discriminate.
Qed.

(** * Concrete images *)
Section Cases.
  Variable L : libm.
  #[local] Instance NLj : Num fl := ieeeNum L.

  (** An 8 bit image as halfs and back. *)
  Definition darkest : MFilterTool.stored fl := {| o_width := 1; o_height := 2; o_channels := 1; o_bits := None; o_samples := SUInt8 [1; 0]%Z |}.
  Definition onlyNodes : plist fl := PList [] [] [] [].
  Theorem half_loses : exists (s s' : MFilterTool.stored fl) d ks ys c l k e,
    holdsCodes s d ks /\ hasPicture s ks /\ procs_of l = [] /\ 2 <= k /\
    filterCall c l (Some s) (Some "16f") k (TWrites (PHalfs ys) None) /\
    sameSize s s' /\ o_samples s' = SHalf ys /\
    filterCall c l (Some s') (Some d) k e /\ e <> TNothing /\ forall t, e <> TWrites (writtenCodes d ks) t.
  Proof.
    assert (H : holdsCodes darkest "8i" [1; 0]%Z) by (apply Codes8; [reflexivity|repeat constructor; unfold isCode; lia]).
    assert (P : hasPicture darkest [1; 0]%Z) by (split; [cbn; lia|split; [cbn; lia|reflexivity]]).
    set (ys := map nf16 (map (sampleOut L (AStr "8i") (AStr "16f")) (map (fun k => @nofZ fl (ieeeNum L) k) [1; 0]%Z))).
    set (s' := {| o_width := 1; o_height := 2; o_channels := 1; o_bits := None; o_samples := SHalf ys |}).
    exists darkest, s', "8i", [1; 0]%Z, ys, 0%Z, onlyNodes, 2, (TWrites (PInts 8 [0; 0]%Z) (Some 8%Z)).
    split; [exact H|]. split; [exact P|]. split; [reflexivity|]. split; [lia|].
    pose proof (read_untagged L darkest "8i" [1; 0]%Z H eq_refl) as E.
    destruct (picture darkest [1; 0]%Z "8i" (map (fun n => @nofZ fl (ieeeNum L) n) [1; 0]%Z) P eq_refl) as (P1 & P2 & P3).
    pose proof (run_empty L 0%Z onlyNodes darkest (Some "16f") 2 _ _ "16f" E P1 P2 P3 eq_refl eq_refl (Nat.le_refl 2)) as [R _].
    split; [exact R|]. split; [repeat split|]. split; [reflexivity|].
    assert (E' : readPixelArray (Some s') = Ok (imageOf s' "16f" ys, false)) by reflexivity.
    assert (P' : hasPicture s' ys) by (split; [cbn; lia|split; [cbn; lia|reflexivity]]).
    destruct (picture s' ys "16f" ys P' eq_refl) as (P1' & P2' & P3').
    pose proof (run_empty L 0%Z onlyNodes s' (Some "8i") 2 _ _ "8i" E' P1' P2' P3' eq_refl eq_refl (Nat.le_refl 2)) as [R' _].
    cbn [imageOf i_depth i_pixels] in R'. cbv zeta in R'.
    assert (W : @writePixelArray fl (NLf L) "8i" false (map (sampleOut L (AStr "16f") (AStr "8i")) ys) = Ok (PInts 8 [0; 0]%Z, Some 8%Z)) by (vm_compute; reflexivity).
    rewrite W in R'. split; [exact R'|]. split; [discriminate|]. intros t E2. injection E2 as E2 _. discriminate.
  Qed.

  (** A 16 bit code whose half is not the nearest one. *)
  Definition nearWhite : MFilterTool.stored fl := {| o_width := 1; o_height := 2; o_channels := 1; o_bits := None; o_samples := SUInt16 [65519; 0]%Z |}.
  Theorem not_nearest : exists (s : MFilterTool.stored fl) d ks ys a c l k n y h,
    holdsCodes s d ks /\ hasPicture s ks /\ largestCode (AStr d) = Some a /\ procs_of l = [] /\ 2 <= k /\
    filterCall c l (Some s) (Some "16f") k (TWrites (PHalfs ys) None) /\
    In (n, y) (combine ks ys) /\ isHalf h /\ is_finite h = true /\ (Rabs (B2R h - IZR n / IZR a) < Rabs (B2R y - IZR n / IZR a))%R.
  Proof.
    assert (H : holdsCodes nearWhite "16i" [65519; 0]%Z) by (apply Codes16; [reflexivity|reflexivity|repeat constructor; unfold isCode; lia]).
    assert (P : hasPicture nearWhite [65519; 0]%Z) by (split; [cbn; lia|split; [cbn; lia|reflexivity]]).
    set (ys := map nf16 (map (sampleOut L (AStr "16i") (AStr "16f")) (map (fun k => @nofZ fl (ieeeNum L) k) [65519; 0]%Z))).
    set (y := nf16 (sampleOut L (AStr "16i") (AStr "16f") (@nofZ fl (ieeeNum L) 65519))).
    set (h := @nf16 fl (ieeeNum L) (binary_normalize 53 1024 eq_refl eq_refl mode_NE 2047 (-11) false)).
    exists nearWhite, "16i", [65519; 0]%Z, ys, 65535%Z, 0%Z, onlyNodes, 2, 65519%Z, y, h.
    split; [exact H|]. split; [exact P|]. split; [reflexivity|]. split; [reflexivity|]. split; [lia|].
    pose proof (read_untagged L nearWhite "16i" [65519; 0]%Z H eq_refl) as E.
    destruct (picture nearWhite [65519; 0]%Z "16i" (map (fun n => @nofZ fl (ieeeNum L) n) [65519; 0]%Z) P eq_refl) as (P1 & P2 & P3).
    pose proof (run_empty L 0%Z onlyNodes nearWhite (Some "16f") 2 _ _ "16f" E P1 P2 P3 eq_refl eq_refl (Nat.le_refl 2)) as [R _].
    split; [exact R|]. split; [left; reflexivity|]. split; [eexists; reflexivity|]. split; [vm_compute; reflexivity|].
    assert (Ey : B2SF y = SpecFloat.S754_finite false 4503599627370496 (-52)) by (vm_compute; reflexivity).
    assert (Eh : B2SF h = SpecFloat.S754_finite false 9002801208229888 (-53)) by (vm_compute; reflexivity).
    rewrite <- !SF2R_B2SF, Ey, Eh. cbn [SF2R]. unfold F2R. cbn [Fnum Fexp cond_Zopp].
    change (bpow radix2 (-52)) with (/ 4503599627370496)%R. change (bpow radix2 (-53)) with (/ 9007199254740992)%R.
    rewrite (Rabs_left1 (9002801208229888 * / 9007199254740992 - 65519 / 65535)) by lra. rewrite (Rabs_pos_eq (4503599627370496 * / 4503599627370496 - 65519 / 65535)) by lra. lra.
  Qed.

  (** * Packing *)
  Lemma pair_even (ws : list Z) : Nat.Even (List.length ws) -> Forall (fun w => 0 <= w < 65536)%Z ws ->
    exists ps, pairWords ws = Ok ps /\ List.concat (map (fun w => [w mod 65536; w / 65536]%Z) ps) = ws.
  Proof.
    remember (List.length ws) as n eqn:En. revert ws En. induction n as [n IH] using lt_wf_ind. intros ws En Ev F.
    destruct ws as [|a [|b t]]; [exists []; split; reflexivity|cbn in En; subst n; destruct Ev; lia|].
    cbn [List.length] in En. destruct (IH (n - 2) ltac:(lia) t ltac:(lia)) as (ps & Ep & Ec).
    - destruct Ev as [m Em]. exists (m - 1). lia.
    - inversion F as [|? ? ? F']; inversion F'; assumption.
    - exists ((a + 65536 * b)%Z :: ps). cbn [pairWords]. rewrite Ep. split; [reflexivity|]. cbn [map List.concat app]. rewrite Ec.
      inversion F as [|? ? Ha F']; inversion F' as [|? ? Hb _]; subst. f_equal; [|f_equal].
      + rewrite Z.mul_comm, Z.mod_add by lia. apply Z.mod_small. exact Ha.
      + rewrite Z.mul_comm, Z.div_add by lia. rewrite Z.div_small by exact Ha. reflexivity.
  Qed.
  Lemma pair_odd (ws : list Z) : Nat.Odd (List.length ws) -> pairWords ws = Err ValueError.
  Proof.
    remember (List.length ws) as n eqn:En. revert ws En. induction n as [n IH] using lt_wf_ind. intros ws En [m Em].
    destruct ws as [|a [|b t]]; [cbn in En; lia|reflexivity|]. cbn [List.length] in En. cbn [pairWords].
    rewrite (IH (n - 2) ltac:(lia) t ltac:(lia)); [reflexivity|]. exists (m - 1). lia.
  Qed.
  Theorem packing old (xs : list fl) : Forall isHalf xs ->
    (old = false \/ Nat.Even (List.length xs) -> exists ws, npHalfArrayToOIIOFloatPixels old xs = Ok ws /\ oiioFloatPixelsToNPHalfArray old ws = xs) /\
    (old = true -> Nat.Odd (List.length xs) -> npHalfArrayToOIIOFloatPixels old xs = Err ValueError).
  Proof.
    intro F. assert (B : map nhalf (map nhbits xs) = xs).
    { induction F as [|x t [h ->] F IH]; [reflexivity|]. cbn [map]. rewrite IH. f_equal. etransitivity; [apply f_equal; exact (hbits_half L h)|]. apply half_f64. }
    split.
    - intros H. unfold npHalfArrayToOIIOFloatPixels, oiioFloatPixelsToNPHalfArray. destruct old.
      + destruct H as [H|H]; [discriminate|]. destruct (pair_even (map nhbits xs)) as (ps & Ep & Ec).
        * now rewrite map_length.
        * apply Forall_forall. intros w Hw. apply in_map_iff in Hw as (x & <- & _). apply halfBits_range.
        * exists ps. split; [exact Ep|]. now rewrite Ec.
      + eexists. split; [reflexivity|exact B].
    - intros -> O. unfold npHalfArrayToOIIOFloatPixels. apply pair_odd. now rewrite map_length.
  Qed.
  Theorem packing_pair (x y : fl) : isHalf x -> isHalf y -> floatToHalfs (halfsToFloat x y) = (x, y).
  Proof.
    intros [h ->] [g ->]. unfold floatToHalfs, halfsToFloat. change (@nhbits fl NLj) with (@nhbits fl (ieeeNum L)).
    rewrite (hbits_half L h : @nhbits fl (ieeeNum L) (f64 h) = halfBits h), (hbits_half L g : @nhbits fl (ieeeNum L) (f64 g) = halfBits g).
    assert (Bh := halfBits_range h). rewrite Z.mul_comm, Z.mod_add, Z.mod_small by lia. rewrite Z.div_add, (Z.div_small (halfBits h)) by lia.
    change (0 + halfBits g)%Z with (halfBits g). change (@nhalf fl NLj) with halfValue. rewrite !half_f64. reflexivity.
  Qed.
End Cases.
