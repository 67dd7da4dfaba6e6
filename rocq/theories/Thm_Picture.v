(** Whole images filtered through a list, compared with exact arithmetic (C92). *)
From Coq Require Import Reals Lra Lia ZArith List String.
From Flocq Require Import Core BinarySingleNaN.
From Verif Require Import SpecPicture SpecXmlText PBase PAct PSampling PList PIeeeArith PErrors PErrorsRange PFilterMain PNumText PTextIeee PPicture Thm_Range Thm_Errors.
Import ListNotations.
Local Open Scope string_scope.
Local Open Scope list_scope.
Local Open Scope R_scope.

(** Written as floats, every colour of an RGB image is within the error of the budget. *)
Theorem C92_floats :
  forall (L : libm), let N := ieeeNum L in
  forall c l s d o k pxs B B' e',
    showsColours s d pxs -> o_bits s = None -> asked d o "32f" ->
    Forall (noneInside isExposureContrast) (procs_of l) -> pictureBudget c l d "32f" B B' e' -> Forall (sized B) pxs -> (2 <= k)%nat ->
    exists yss, Forall2 (fun px ys => exists ys', exactPixel c l d "32f" px = Ok ys' /\ sized B' ys /\ apart e' ys ys') pxs yss /\
      filterCall c l (Some s) o k (TWrites (PFloats (List.concat yss)) None) /\
      forall e, filterCall c l (Some s) o k e -> e = TWrites (PFloats (List.concat yss)) None \/ e = TNothing.
Proof. exact picture_floats. Qed.
Print Assumptions C92_floats.

(** Written at an integer depth whose codes hold the exact colours, every code is less than
    one code and the error away. *)
Theorem C92_codes :
  forall (L : libm), let N := ieeeNum L in
  forall c l s d d' t o k pxs B B' e',
    showsColours s d pxs -> largestCode (AStr d') = Some t -> asked d o d' ->
    Forall (noneInside isExposureContrast) (procs_of l) -> pictureBudget c l d d' B B' e' -> Forall (sized B) pxs -> (2 <= k)%nat -> e' < 1 ->
    Forall (fun px => forall ys', exactPixel c l d d' px = Ok ys' -> Forall (fun y => 0 <= y <= IZR t) ys') pxs ->
    exists kss, Forall2 (fun px ks => exists ys', exactPixel c l d d' px = Ok ys' /\ Forall2 (codeNear e') ks ys') pxs kss /\
      filterCall c l (Some s) o k (TWrites (writtenCodes d' (List.concat kss)) (Some (writtenBits d'))) /\
      forall e, filterCall c l (Some s) o k e -> e = TWrites (writtenCodes d' (List.concat kss)) (Some (writtenBits d')) \/ e = TNothing.
Proof. exact picture_codes. Qed.
Print Assumptions C92_codes.

(** A Range without limits as a node of a list (C88). *)
Theorem C88_depth_change :
  forall (L : libm), let N := ieeeNum L in
  forall c d d' B, B <= bpow radix2 100 ->
    let K := fullScale d' / fullScale d in let E := 3 * bpow radix2 (-23) * (K * B) + bpow radix2 (-132) in
    follows c (depthChange d d') B K E (K * B + E).
Proof. exact change_follows. Qed.
Print Assumptions C88_depth_change.

(** The tool run on a file saved from a clean list (C89) filters with that list, its numbers as
    their text keeps them. *)
Theorem C92_saved :
  forall (L : libm), let N := ieeeNum L in
  forall zip unzip c c' gz (l : plist fl) fs clf limit cpus images o input output,
    gzipWorks zip unzip -> cleanList false l -> is_ok (listWrite c false l) -> gz = false \/ duiker_on c = true ->
    autodesk_on c' = true -> duiker_on c' = true ->
    (forall d, fo_outBitDepth o = Some d -> d = "" \/ knownDepth d) ->
    fo_clf o = Some clf -> fo_input o = Some input -> fo_output o = Some output ->
    exists steps b, writeFile (textFiles zip unzip) c false gz l = (Ok true, steps ++ [b]) /\
      (storableList (loadFrom (textFiles zip unzip) limit c' (putFile fs clf b)) l ->
       forall r, filterMain (textFiles zip unzip) (S limit) c' cpus (putFile fs clf b) images o r <->
         exists e, filterCall c' (keptList l) (images input) (fo_outBitDepth o) (Z.to_nat (Z.min cpus (Z.max 1 (fo_multithreaded o)))) e /\
           r = (match e with TWrites _ _ => Some output | _ => None end, e)).
Proof. exact saved_picture. Qed.
Print Assumptions C92_saved.

(** The legal range of 8 bits to 10 bits, for an image of two colours. *)
Definition legalList (L : libm) : plist fl := PList [] [] [] [errorRange L].
Definition legalCodes : list Z := [0; 16; 100; 235; 255; 128]%Z.
Definition legalImage : stored fl := {| o_width := 1; o_height := 2; o_channels := 3; o_bits := None; o_samples := SUInt8 legalCodes |}.
Definition legalColours (L : libm) : list (list fl) := let N := ieeeNum L in [map nofZ [0; 16; 100]%Z; map nofZ [235; 255; 128]%Z].
Example C92_budget_case (L : libm) c : let N := ieeeNum L in
  exists B' e', pictureBudget c (legalList L) "8i" "10i" 255 B' e' /\ e' <= 1 / 100.
Proof.
  intro N.
  assert (E : forall z, (Z.abs z < 2 ^ 53)%Z -> B2R (@nofZ fl (ieeeNum L) z) = IZR z) by (intros z Hz; apply (ofZ_exact L z Hz)).
  destruct (C88_range_case L) as (R1 & R2 & R3 & R4 & R5 & R6 & R7 & R8).
  assert (P23 : bpow radix2 (-23) = / 8388608) by reflexivity.
  assert (P132 : 0 < bpow radix2 (-132) <= / 8388608) by (split; [apply bpow_gt_0|rewrite <- P23; apply bpow_le; lia]).
  assert (P149 : 0 < bpow radix2 (-149) <= / 8388608) by (split; [apply bpow_gt_0|rewrite <- P23; apply bpow_le; lia]).
  assert (T40 : bpow radix2 40 = 1099511627776) by reflexivity.
  assert (T99 : bpow radix2 40 <= bpow radix2 99) by (apply bpow_le; lia).
  assert (T100 : bpow radix2 40 <= bpow radix2 100) by (apply bpow_le; lia). assert (T125 : bpow radix2 40 <= bpow radix2 125) by (apply bpow_le; lia).
  eexists. eexists. split.
  - split; [lra|]. cbv zeta. eexists. eexists. split; [|split; [|reflexivity]].
    + eapply budget_cons; [reflexivity| |apply budget_nil].
      refine (range_follows L c _ _ _ _ _ _ _ _ _ R1 R2 R3 R4 R5 R6 R7 R8 _ _);
        unfold stored32, rescaledBy; cbn [fst snd]; rewrite ?E by lia; rewrite ?Rabs_pos_eq by lra; rewrite P23;
        change (entryDepth (legalList L)) with (AStr "8i"); cbn [fullScale]; lra.
    + unfold stored32, rescaledBy; cbn [fst snd]; rewrite ?E by lia; rewrite ?Rabs_pos_eq by lra; rewrite P23;
        change (entryDepth (legalList L)) with (AStr "8i"); cbn [fullScale]; lra.
  - unfold stored32, rescaledBy. cbn [fst snd]. rewrite ?E by lia. rewrite ?Rabs_pos_eq by lra. rewrite P23.
    change (entryDepth (legalList L)) with (AStr "8i"). change (exitDepth (legalList L)) with (AStr "10i"). cbn [fullScale]. lra.
Qed.
Example C92_case (L : libm) c : let N := ieeeNum L in
  showsColours legalImage "8i" (legalColours L) /\ asked "8i" (Some "10i") "10i" /\ largestCode (AStr "10i") = Some 1023%Z /\
  Forall (noneInside isExposureContrast) (procs_of (legalList L)) /\ Forall (sized 255) (legalColours L) /\
  Forall (fun px => forall ys', exactPixel c (legalList L) "8i" "10i" px = Ok ys' -> Forall (fun y => 0 <= y <= IZR 1023) ys') (legalColours L).
Proof.
  intro N.
  assert (E : forall z, (Z.abs z < 2 ^ 53)%Z -> B2R (@nofZ fl (ieeeNum L) z) = IZR z) by (intros z Hz; apply (ofZ_exact L z Hz)).
  assert (Fi : forall z, (Z.abs z < 2 ^ 53)%Z -> is_finite (@nofZ fl (ieeeNum L) z) = true) by (intros z Hz; apply (ofZ_exact L z Hz)).
  split; [|split; [now left|split; [reflexivity|split; [constructor; [split; [reflexivity|exact I]|constructor]|split]]]].
  - split; [repeat split; try (cbn; lia); constructor; [reflexivity|constructor; [reflexivity|constructor]]|].
    right. exists legalCodes. split; [|reflexivity]. apply Codes8; [reflexivity|]. unfold legalCodes, isCode. repeat (constructor; [lia|]). constructor.
  - constructor; [|constructor; [|constructor]]; apply sized3; rewrite !E, !Fi by lia; rewrite !Rabs_pos_eq by lra; repeat split; lra.
  - apply Forall_forall. intros px Hpx ys' H.
    assert (Hl : List.length px = 3%nat) by (destruct Hpx as [<-|[<-|[]]]; reflexivity).
    unfold exactPixel in H. apply bind_ok in H. destruct H as (ys & H & Ey). apply Ok_inj in Ey. subst ys'.
    unfold colourThrough in H. rewrite runList_outcome in H by (now rewrite map_length). rewrite list_outcome in H.
    change (procs_of (SpecErrors.exactList (legalList L))) with [SpecErrors.exactNode (errorRange L)] in H. cbn [chainOut] in H.
    change (skips _ (SpecErrors.exactNode (errorRange L))) with false in H. cbn iota in H.
    apply bind_ok in H. destruct H as (w & H & Ew). apply Ok_inj in Ew. subst ys. apply bind_ok in H. destruct H as (o & H & Eo). apply Ok_inj in Eo. subst w.
    change (SpecErrors.exactNode (errorRange L)) with (Node (exactHeader (nheader (errorRange L))) (@BRange R)) in H.
    assert (I : isRange (exactHeader (nheader (errorRange L))) {| r_in := AStr "8i"; r_out := AStr "10i"; r_clamps := true; r_default := false;
       r_minIn := Some (B2R (nofZ 16 : fl)); r_maxIn := Some (B2R (nofZ 235 : fl)); r_minOut := Some (B2R (nofZ 0 : fl)); r_maxOut := Some (B2R (nofZ 1023 : fl)) |}).
    { split; [reflexivity|]. split; [reflexivity|]. split; [split; [right; reflexivity|reflexivity]|].
      split; [split; [discriminate|intro X; contradiction X; reflexivity]|]. repeat split; reflexivity. }
    assert (Q : Forall (fun y => B2R (nofZ 0 : fl) <= y <= B2R (nofZ 1023 : fl)) (po_out o)).
    { refine (C02_range_stays_inside c _ _ _ _ _ _ _ I eq_refl _ _ eq_refl eq_refl _ H); try discriminate. rewrite !E by lia. lra. }
    change (exitDepth (legalList L)) with (AStr "10i"). cbn [fullScale].
    rewrite !E in Q by lia. apply Forall_forall. intros y Hy. apply in_map_iff in Hy. destruct Hy as (v & <- & Hv).
    rewrite Forall_forall in Q. specialize (Q v Hv). lra.
Qed.
