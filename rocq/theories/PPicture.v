(** A whole image filtered through a list, compared with exact arithmetic. *)
From Coq Require Import Reals Lra Lia ZArith List String Psatz Arith.
From Flocq Require Import Core BinarySingleNaN.
From Verif Require Import SpecPicture SpecXmlText PNumText PTextIeee PXmlTextDoc PFilterMain PBase PFacts PAct PChain PList PSampling PReal PIeee PIeeeArith PRound PClose PCloseLut PCode PCloseRange PBypass PErrors PFilter PPack PFilterTool PFilterFloat PFilterFloat2.
Import ListNotations.
Local Open Scope string_scope.
Local Open Scope list_scope.
Local Open Scope R_scope.

Lemma scale_bounds d : 1 <= fullScale d <= 65535.
Proof.
  unfold fullScale. repeat match goal with |- context [match ?x with _ => _ end] => destruct x end; lra.
Qed.
Lemma exit_out {T} (l : plist T) : listOutDepth l = exitDepth l.
Proof.
  unfold listOutDepth, exitDepth. destruct (procs_of l) as [|p ps] using rev_ind; [reflexivity|]. rewrite rev_app_distr, map_app. cbn [rev app map]. now rewrite last_last.
Qed.

Lemma apart_more e e' px px' : e <= e' -> apart e px px' -> apart e' px px'.
Proof. intros H A. induction A as [|x x' px px' Hx A IH]; constructor; [lra|exact IH]. Qed.

Section Picture.
  Variable L : libm.
  #[local] Hint Extern 0 (Num fl) => exact (ieeeNum L) : typeclass_instances.

  (** A change of depth follows. *)
  Lemma change_follows c d d' B : B <= bpow radix2 100 ->
    let K := fullScale d' / fullScale d in let E := 3 * bpow radix2 (-23) * (K * B) + bpow radix2 (-132) in
    follows c (depthChange d d') B K E (K * B + E).
  Proof.
    intros HB K E px px' e Hs Ha.
    destruct (change_close L c d d') as (f & Ac & Cl).
    destruct (three px (proj1 Hs)) as (x & y & z & ->). apply sized3 in Hs. destruct (apart3 _ _ _ _ _ Ha) as (x' & y' & z' & -> & Ax & Ay & Az).
    pose proof (scale_bounds d) as Sd. pose proof (scale_bounds d') as Sd'.
    assert (B0 : 0 <= B) by (destruct Hs as ([_ A] & _); eapply Rle_trans; [apply Rabs_pos|exact A]).
    assert (Kp : 0 < K <= 65535).
    { unfold K. split; [apply Rdiv_lt_0_compat; lra|]. apply Rmult_le_reg_r with (fullScale d); [lra|]. unfold Rdiv. rewrite Rmult_assoc, Rinv_l by lra. nra. }
    assert (P : forall (v : fl) v', is_finite v = true /\ Rabs (B2R v) <= B -> Rabs (B2R v - v') <= e ->
      (is_finite (f v) = true /\ Rabs (B2R (f v)) <= K * B + E) /\ Rabs (B2R (f v) - factor d d' v') <= K * e + E).
    { intros v v' [F Bv] Av.
      assert (Ev : B2R v / fullScale d * fullScale d' = K * B2R v) by (unfold K; field; lra).
      assert (Bk : Rabs (K * B2R v) <= K * B) by (rewrite Rabs_mult, (Rabs_pos_eq K) by lra; apply Rmult_le_compat_l; lra).
      assert (P116 : 65535 * bpow radix2 100 <= bpow radix2 125).
      { apply Rle_trans with (bpow radix2 16 * bpow radix2 100); [apply Rmult_le_compat_r; [apply bpow_ge_0|change (bpow radix2 16) with 65536; lra]|]. rewrite <- bpow_plus. apply bpow_le. lia. }
      assert (KB : K * B <= bpow radix2 125).
      { eapply Rle_trans; [|exact P116]. apply Rmult_le_compat; lra. }
      destruct (Cl v F) as [Ff Cf].
      - unfold Rdiv. rewrite Rabs_mult, (Rabs_pos_eq (/ fullScale d)) by (left; apply Rinv_0_lt_compat; lra).
        apply Rle_trans with (B * 1); [apply Rmult_le_compat; [apply Rabs_pos|left; apply Rinv_0_lt_compat; lra|exact Bv|]|].
        + rewrite <- Rinv_1. apply Rinv_le_contravar; lra.
        + rewrite Rmult_1_r. eapply Rle_trans; [exact HB|]. apply bpow_le. lia.
      - rewrite Ev. lra.
      - rewrite Ev in Cf. assert (Ce : Rabs (B2R (f v) - K * B2R v) <= E).
        { eapply Rle_trans; [exact Cf|]. unfold E. apply Rplus_le_compat_r. apply Rmult_le_compat_l; [|exact Bk]. pose proof (bpow_gt_0 radix2 (-23)). lra. }
        split; [split; [exact Ff|]|].
        + replace (B2R (f v)) with ((B2R (f v) - K * B2R v) + K * B2R v) by ring. eapply Rle_trans; [apply Rabs_triang|]. lra.
        + unfold factor. fold K. replace (B2R (f v) - v' * K) with ((B2R (f v) - K * B2R v) + K * (B2R v - v')) by ring.
          eapply Rle_trans; [apply Rabs_triang|]. rewrite (Rabs_mult K), (Rabs_pos_eq K) by lra.
          assert (K * Rabs (B2R v - v') <= K * e) by (apply Rmult_le_compat_l; lra). lra. }
    destruct Hs as (H1 & H2 & H3). destruct (P x x' H1 Ax) as [Sx Ax']. destruct (P y y' H2 Ay) as [Sy Ay']. destruct (P z z' H3 Az) as [Sz Az'].
    exists [f x; f y; f z], [factor d d' x'; factor d d' y'; factor d d' z'].
    split; [exact (Ac 3%nat [x; y; z])|]. split; [exact (rescale_acts c d d' 3%nat [x'; y'; z'])|].
    split; [apply sized3; auto|]. now apply apart3_intro.
  Qed.

  Lemma rescaled_follows c d d' B e px px' : B <= bpow radix2 100 -> sized B px -> apart e px px' ->
    let K := fullScale d' / fullScale d in
    exists ys, rescaled c d d' 3 px = Some ys /\ sized (fst (rescaledBy K (B, e))) ys /\
      apart (snd (rescaledBy K (B, e))) ys (map (factor d d') px').
  Proof.
    intros HB Hs Ha K. unfold rescaled. destruct (aval_eqb d d') eqn:E.
    - apply aval_eqb_eq in E. subst d'. exists px. split; [reflexivity|]. pose proof (scale_bounds d) as Sd.
      assert (K1 : K = 1) by (unfold K; field; lra). rewrite K1. unfold rescaledBy. cbn [fst snd].
      assert (B0 : 0 <= B) by (destruct (three px (proj1 Hs)) as (x & y & z & ->); apply sized3 in Hs; destruct Hs as ([_ A] & _); eapply Rle_trans; [apply Rabs_pos|exact A]).
      assert (R0 : 0 <= 3 * bpow radix2 (-23) * (1 * B) + bpow radix2 (-132)).
      { pose proof (bpow_gt_0 radix2 (-23)). pose proof (bpow_gt_0 radix2 (-132)). assert (0 <= 3 * bpow radix2 (-23) * (1 * B)) by (apply Rmult_le_pos; lra). lra. }
      split.
      + split; [apply Hs|]. eapply Forall_impl; [|apply (proj2 Hs)]. cbn beta. intros v [F Bv]. split; [exact F|]. lra.
      + rewrite (map_ext _ (fun x => x)) by (intro; apply factor_self). rewrite map_id. apply (apart_more e); [lra|exact Ha].
    - destruct (change_follows c d d' B HB px px' e Hs Ha) as (ys & ys' & O & O' & S & A).
      fold K in S, A. unfold depthChange in O. destruct (outcome_ok _ _ O) as (o & Eo & <-). rewrite Eo. exists (po_out o). split; [reflexivity|]. split; [exact S|].
      assert (Ey : ys' = map (factor d d') px').
      { apply Ok_inj. rewrite <- O'. exact (rescale_acts c d d' 3%nat px'). }
      rewrite <- Ey. exact A.
  Qed.

  Lemma stored_follows B e px px' : B <= bpow radix2 126 -> sized B px -> apart e px px' ->
    sized (fst (stored32 (B, e))) (map nf32 px) /\ apart (snd (stored32 (B, e))) (map nf32 px) px'.
  Proof.
    intros HB Hs Ha. destruct (three px (proj1 Hs)) as (x & y & z & ->). apply sized3 in Hs. destruct (apart3 _ _ _ _ _ Ha) as (x' & y' & z' & -> & Ax & Ay & Az).
    unfold stored32. cbn [fst snd]. set (r := bpow radix2 (-23) * B + bpow radix2 (-149)).
    assert (K : forall (v : fl) v', is_finite v = true /\ Rabs (B2R v) <= B -> Rabs (B2R v - v') <= e ->
      (is_finite (nf32 v) = true /\ Rabs (B2R (nf32 v)) <= B + r) /\ Rabs (B2R (nf32 v) - v') <= e + r).
    { intros v v' [F Bv] Av. change (nf32 v) with (f64 (f32of v)).
      destruct (near_stored v (B2R v) F (self_near v F)) as [F' S]; [lra|].
      assert (S' : Rabs (B2R (f64 (f32of v)) - B2R v) <= r).
      { eapply Rle_trans; [exact S|]. unfold r. apply Rplus_le_compat_r, Rmult_le_compat_l; [apply bpow_ge_0|exact Bv]. }
      split; [split; [exact F'|]|].
      - replace (B2R (f64 (f32of v))) with ((B2R (f64 (f32of v)) - B2R v) + B2R v) by ring. eapply Rle_trans; [apply Rabs_triang|]. lra.
      - replace (B2R (f64 (f32of v)) - v') with ((B2R (f64 (f32of v)) - B2R v) + (B2R v - v')) by ring. eapply Rle_trans; [apply Rabs_triang|]. lra. }
    destruct Hs as (H1 & H2 & H3). destruct (K x x' H1 Ax) as [Sx Ax']. destruct (K y y' H2 Ay) as [Sy Ay']. destruct (K z z' H3 Az) as [Sz Az'].
    cbn [map]. split; [apply sized3; auto|now apply apart3_intro].
  Qed.

  (** One pixel. *)
  Lemma pixel_follows c l d d' B B' e' px : pictureBudget c l d d' B B' e' -> sized B px ->
    exists ys ys', filteredRow c l d d' 3 px = Some ys /\ exactPixel c l d d' px = Ok ys' /\
      sized B' (map nf32 ys) /\ apart e' (map nf32 ys) ys'.
  Proof.
    intros (HB & Bl & el & Hb & HBl & Ee) Hs. cbv zeta in Hb.
    assert (A0 : apart 0 px (map B2R px)).
    { clear. induction px as [|x px IH]; [constructor|]. cbn [map]. constructor; [|exact IH]. rewrite Rminus_diag_eq by reflexivity. rewrite Rabs_R0. lra. }
    assert (B0 : 0 <= B) by (destruct (three px (proj1 Hs)) as (x & y & z & ->); apply sized3 in Hs; destruct Hs as ([_ A] & _); eapply Rle_trans; [apply Rabs_pos|exact A]).
    pose proof (scale_bounds (AStr d)) as Sd. pose proof (scale_bounds (AStr d')) as Sd'. pose proof (scale_bounds (entryDepth l)) as Se. pose proof (scale_bounds (exitDepth l)) as Sx.
    assert (Kb : forall a b, 1 <= a <= 65535 -> 1 <= b <= 65535 -> 0 < a / b <= 65535).
    { intros a b Ha Hb'. split; [apply Rdiv_lt_0_compat; lra|]. apply Rmult_le_reg_r with b; [lra|]. unfold Rdiv. rewrite Rmult_assoc, Rinv_l by lra. nra. }
    pose proof (Kb _ _ Se Sd) as K1. pose proof (Kb _ _ Sd' Sx) as K2.
    assert (P100 : 0 < bpow radix2 100) by apply bpow_gt_0.
    assert (P23 : bpow radix2 (-23) = / 8388608) by reflexivity.
    assert (P132 : 0 < bpow radix2 (-132) <= 1) by (split; [apply bpow_gt_0|change 1 with (bpow radix2 0); apply bpow_le; lia]).
    assert (P149 : 0 < bpow radix2 (-149) <= 1) by (split; [apply bpow_gt_0|change 1 with (bpow radix2 0); apply bpow_le; lia]).
    assert (P99 : bpow radix2 100 = 2 * bpow radix2 99) by (change 2 with (bpow radix2 1); now rewrite <- bpow_plus).
    assert (P1 : 8 <= bpow radix2 99) by (change 8 with (bpow radix2 3); apply bpow_le; lia).
    assert (P1' : 1 <= bpow radix2 100) by (change 1 with (bpow radix2 0); apply bpow_le; lia).
    assert (P126 : 67108864 * bpow radix2 100 <= bpow radix2 126).
    { change 67108864 with (bpow radix2 26). rewrite <- bpow_plus. apply bpow_le. lia. }
    destruct (stored_follows B 0 px (map B2R px) ltac:(lra) Hs A0) as [S1 A1].
    (* into the list's depth *)
    assert (Q1 : exists u, rescaled c (AStr d) (entryDepth l) 3 (map nf32 px) = Some u /\
      sized (fst (rescaledBy (fullScale (entryDepth l) / fullScale (AStr d)) (stored32 (B, 0)))) u /\
      apart (snd (rescaledBy (fullScale (entryDepth l) / fullScale (AStr d)) (stored32 (B, 0)))) u (map (factor (AStr d) (entryDepth l)) (map B2R px)) /\
      fst (rescaledBy (fullScale (entryDepth l) / fullScale (AStr d)) (stored32 (B, 0))) <= bpow radix2 126).
    { assert (Hle : fst (stored32 (B, 0)) <= bpow radix2 100).
      { unfold stored32. cbn [fst snd]. rewrite P23, P99. lra. }
      destruct (rescaled_follows c (AStr d) (entryDepth l) (fst (stored32 (B, 0))) (snd (stored32 (B, 0))) _ _ Hle S1 A1) as (u & E & S & A).
      exists u. rewrite <- surjective_pairing in S, A. split; [exact E|]. split; [exact S|]. split; [exact A|].
      unfold rescaledBy. cbn [fst]. set (K := fullScale (entryDepth l) / fullScale (AStr d)) in *. rewrite P23.
      assert (K * fst (stored32 (B, 0)) <= 65535 * bpow radix2 100).
      { apply Rmult_le_compat; try lra. unfold stored32. cbn [fst snd]. rewrite P23. lra. }
      lra. }
    destruct Q1 as (u & Eu & Su & Au & Bu).
    (* the list stores what it is given *)
    destruct (stored_follows _ _ _ _ Bu Su Au) as [S2 A2]. rewrite <- surjective_pairing in S2, A2.
    destruct (budget_chain L c _ _ _ _ _ Hb (autodesk_on c) None None _ _ S2 A2) as (v & v' & Ev & Ev' & S3 & A3).
    destruct (rescaled_follows c (exitDepth l) (AStr d') Bl el v v' HBl S3 A3) as (w & Ew & S4 & A4).
    assert (B4 : fst (rescaledBy (fullScale (AStr d') / fullScale (exitDepth l)) (Bl, el)) <= bpow radix2 126).
    { unfold rescaledBy. cbn [fst]. set (K := fullScale (AStr d') / fullScale (exitDepth l)) in *. rewrite P23.
      assert (Bl0 : 0 <= Bl) by (destruct (three v (proj1 S3)) as (x & y & z & ->); apply sized3 in S3; destruct S3 as ([_ A] & _); eapply Rle_trans; [apply Rabs_pos|exact A]).
      assert (K * Bl <= 65535 * bpow radix2 100) by (apply Rmult_le_compat; lra). lra. }
    destruct (stored_follows _ _ _ _ B4 S4 A4) as [S5 A5]. rewrite <- surjective_pairing in S5, A5.
    exists w, (map (factor (exitDepth l) (AStr d')) v').
    assert (El : colours (listProcess c l u 3) = Some v).
    { pose proof (list_outcome c l u 3) as O. rewrite Ev in O. destruct (outcome_ok _ _ O) as (o & -> & <-). reflexivity. }
    assert (Hl3 : List.length px = 3%nat) by apply Hs.
    split; [|split].
    - unfold filteredRow. change (listInDepth l) with (entryDepth l). rewrite exit_out, Eu, El. exact Ew.
    - unfold exactPixel, colourThrough. rewrite runList_outcome by (now rewrite map_length). rewrite list_outcome, exact_procs.
      assert (Em : map nf32 (map (fun x => B2R x / fullScale (AStr d) * fullScale (entryDepth l)) px) = map (factor (AStr d) (entryDepth l)) (map B2R px)).
      { rewrite !map_map. apply map_ext. intro x. cbn [nf32 realNum]. unfold factor. field. lra. }
      rewrite Em, Ev'. cbn [bind]. f_equal. apply map_ext. intro x. unfold factor. field. lra.
    - rewrite <- Ee in S5, A5. cbn [fst snd] in S5, A5. auto.
  Qed.

  (** The whole image. *)
  Definition pixelOk c l d d' B' e' (px ys : list fl) : Prop := exists ys', exactPixel c l d d' px = Ok ys' /\ sized B' ys /\ apart e' ys ys'.
  Lemma each_follows c l d d' B B' e' pxs : pictureBudget c l d d' B B' e' -> Forall (sized B) pxs ->
    exists yss, each (filteredRow c l d d' 3) pxs = Some (List.concat yss) /\ Forall2 (fun px ys => pixelOk c l d d' B' e' px (map nf32 ys)) pxs yss.
  Proof.
    intros Hb F. induction F as [|px pxs Hp F [yss [IH1 IH2]]]; [exists []; split; [reflexivity|constructor]|].
    destruct (pixel_follows c l d d' B B' e' px Hb Hp) as (ys & ys' & E & X & S & A). exists (ys :: yss). cbn [each List.concat]. rewrite E, IH1.
    split; [reflexivity|]. constructor; [|exact IH2]. exists ys'. auto.
  Qed.
  Lemma read_colours s d pxs : showsColours s d pxs -> exists tagged,
    readPixelArray (Some s) = Ok ({| i_width := o_width s; i_height := o_height s; i_channels := o_channels s; i_depth := d; i_pixels := List.concat pxs |}, tagged).
  Proof.
    intros [_ [H|(ks & H & ->)]].
    - destruct (read_numbers L s d _ H) as (E & _). eexists. exact E.
    - destruct (read_codes L s d ks H) as [t E]. exists t. exact E.
  Qed.
  Lemma tag_none s d pxs : showsColours s d pxs -> o_bits s = None ->
    readPixelArray (Some s) = Ok ({| i_width := o_width s; i_height := o_height s; i_channels := o_channels s; i_depth := d; i_pixels := List.concat pxs |}, false).
  Proof.
    intros H Hb. destruct (read_colours s d pxs H) as [t E]. rewrite E. do 2 f_equal.
    unfold readPixelArray in E. destruct (o_samples s); rewrite ?Hb in E; try discriminate; congruence.
  Qed.

  Lemma run_colours c l s d d' o k pxs B B' e' tagged :
    readPixelArray (Some s) = Ok ({| i_width := o_width s; i_height := o_height s; i_channels := o_channels s; i_depth := d; i_pixels := List.concat pxs |}, tagged) ->
    hasColours s pxs -> knownDepth d' -> asked d o d' ->
    Forall (noneInside isExposureContrast) (procs_of l) -> pictureBudget c l d d' B B' e' -> Forall (sized B) pxs -> (2 <= k)%nat ->
    exists yss, Forall2 (pixelOk c l d d' B' e') pxs yss /\
      let r := match writePixelArray d' tagged (List.concat yss) with Ok (p, t) => TWrites p t | Err e => TRaises e end in
      filterCall c l (Some s) o k r /\ forall e, filterCall c l (Some s) o k e -> e = r \/ e = TNothing.
  Proof.
    intros E (Hc & Hh & Hw & Hn & H3) Kd A Ne Hb F Hk.
    set (img := {| i_width := o_width s; i_height := o_height s; i_channels := o_channels s; i_depth := d; i_pixels := List.concat pxs |}) in *.
    pose proof (asked_out d o d' img eq_refl Kd A) as Od.
    destruct (each_follows c l d d' B B' e' pxs Hb F) as (yss & Ey & Fy).
    exists (map (map nf32) yss). split; [clear - Fy; induction Fy; constructor; assumption|].
    assert (W : forall f, filterInTime c l img o k f -> f = FWrite (List.concat (map (map nf32) yss))).
    { intros f Hf. rewrite (multi_pixels c l img o k pxs f Hh Hw ltac:(cbn [img i_channels]; lia) Ne).
      - unfold thr. cbn [img i_depth i_channels]. rewrite Od, Hc, Ey. now rewrite concat_map.
      - split; [reflexivity|]. cbn [img i_channels]. now rewrite Hc.
      - exact Hn.
      - exact Hf. }
    intro r. split.
    - destruct (multi_runs c l img o k) as [f Hf]; [lia|]. pose proof (W f Hf) as Ef. subst f.
      pose proof (CallRun c l (Some s) o k img tagged _ E (in_time_is_run c l img o k _ Hk Hf)) as C. cbn beta iota in C. rewrite Od in C. exact C.
    - intros e C. destruct C as [e0 E'|img' tagged' f E' Hf]; [congruence|]. rewrite E in E'. apply Ok_inj in E'. injection E' as <- <-.
      destruct (multi_or_timeout c l img o k f Hk Hf) as [->|Ht]; [now right|]. left. rewrite (W f Ht), Od. reflexivity.
  Qed.

  Theorem picture_floats c l s d o k pxs B B' e' :
    showsColours s d pxs -> o_bits s = None -> asked d o "32f" ->
    Forall (noneInside isExposureContrast) (procs_of l) -> pictureBudget c l d "32f" B B' e' -> Forall (sized B) pxs -> (2 <= k)%nat ->
    exists yss, Forall2 (fun px ys => exists ys', exactPixel c l d "32f" px = Ok ys' /\ sized B' ys /\ apart e' ys ys') pxs yss /\
      filterCall c l (Some s) o k (TWrites (PFloats (List.concat yss)) None) /\
      forall e, filterCall c l (Some s) o k e -> e = TWrites (PFloats (List.concat yss)) None \/ e = TNothing.
  Proof.
    intros H Hb A Ne Hp F Hk.
    destruct (run_colours c l s d "32f" o k pxs B B' e' false (tag_none s d pxs H Hb) (proj1 H) ltac:(cbn; tauto) A Ne Hp F Hk) as (yss & Fy & R).
    exists yss. split; [exact Fy|exact R].
  Qed.

  (** Codes. *)
  Lemma pack_trunc bits shift k (x : fl) : (0 <= shift)%Z -> (shift <= bits <= 16)%Z -> is_finite x = true ->
    (0 <= k < 2 ^ (bits - shift))%Z -> Ztrunc (B2R x) = k -> packSample bits shift x = Ok (k * 2 ^ shift)%Z.
  Proof.
    intros Hs Hb H Hk E. rewrite (pack_finite L) by assumption. rewrite E. assert (B : (k * 2 ^ shift < 2 ^ bits)%Z).
    { replace bits with ((bits - shift) + shift)%Z by lia. rewrite Z.pow_add_r by lia. apply Z.mul_lt_mono_pos_r; [apply Z.pow_pos_nonneg; lia|lia]. }
    assert (B2 : (2 ^ bits <= 2 ^ 16)%Z) by (apply Z.pow_le_mono_r; lia).
    assert (B3 : (0 <= k * 2 ^ shift)%Z) by (apply Z.mul_nonneg_nonneg; [lia|apply Z.pow_nonneg; lia]).
    destruct (Z.leb_spec (- 2 ^ 63) (k * 2 ^ shift)); [|lia]. destruct (Z.ltb_spec (k * 2 ^ shift) (2 ^ 63)); [|lia]. cbn [andb].
    f_equal. apply Z.mod_small. lia.
  Qed.
  Lemma write_trunc d' b (ys : list fl) ks tagged : largestCode (AStr d') = Some b ->
    Forall2 (fun y n => is_finite y = true /\ Ztrunc (B2R y) = n /\ isCode b n) ys ks ->
    writePixelArray d' tagged ys = Ok (writtenCodes d' ks, Some (writtenBits d')).
  Proof.
    intros Hb F.
    assert (Tag : bitsTag d' tagged = Ok (Some (writtenBits d'))).
    { unfold bitsTag, sampleTypeOf, bitDepthValue, writtenBits. cbn [largestCode] in Hb.
      destruct (String.eqb_spec d' "8i") as [->|N1]; [destruct tagged; reflexivity|].
      destruct (String.eqb_spec d' "10i") as [->|N2]; [destruct tagged; reflexivity|].
      destruct (String.eqb_spec d' "12i") as [->|N3]; [destruct tagged; reflexivity|].
      destruct (String.eqb_spec d' "16i") as [->|N4]; [destruct tagged; reflexivity|]. exfalso. revert Hb.
      repeat (match goal with |- context [match ?b with _ => _ end] => destruct b end; try discriminate; try congruence). }
    assert (P : forall bits shift, (0 <= shift)%Z -> (shift <= bits <= 16)%Z -> b = (2 ^ (bits - shift) - 1)%Z ->
      mapM (packSample bits shift) ys = Ok (map (fun k => k * 2 ^ shift)%Z ks)).
    { intros bits shift Hs Hbs Eb. clear Tag. induction F as [|y n t t' (Fi & B & Hn) F IH]; [reflexivity|]. cbn [map mapM]. rewrite IH.
      rewrite (pack_trunc bits shift n); [reflexivity|exact Hs|exact Hbs|exact Fi|destruct Hn; lia|exact B]. }
    unfold writePixelArray. rewrite Tag. unfold packPixels, sampleTypeOf, writtenCodes, writeShift. cbn [largestCode] in Hb.
    destruct (String.eqb_spec d' "8i") as [->|N1].
    { injection Hb as <-. cbn [bind]. rewrite (P 8%Z 0%Z) by (lia || reflexivity). cbn [bind]. do 2 f_equal. f_equal. etransitivity; [|apply map_id]. apply map_ext. intro. lia. }
    destruct (String.eqb_spec d' "10i") as [->|N2].
    { injection Hb as <-. cbn [bind orb]. rewrite (P 16%Z 6%Z) by (lia || reflexivity). reflexivity. }
    destruct (String.eqb_spec d' "12i") as [->|N3].
    { injection Hb as <-. cbn [bind orb]. rewrite (P 16%Z 4%Z) by (lia || reflexivity). reflexivity. }
    destruct (String.eqb_spec d' "16i") as [->|N4].
    { injection Hb as <-. cbn [bind orb]. rewrite (P 16%Z 0%Z) by (lia || reflexivity). cbn [bind]. do 2 f_equal. f_equal. etransitivity; [|apply map_id]. apply map_ext. intro. lia. }
    exfalso. revert Hb. repeat (match goal with |- context [match ?b with _ => _ end] => destruct b end; try discriminate; try congruence).
  Qed.

  Lemma trunc_near b y y' e : 0 <= y' <= IZR b -> Rabs (y - y') <= e -> e < 1 -> isCode b (Ztrunc y) /\ codeNear e (Ztrunc y) y'.
  Proof.
    intros Hy Ha He. apply Rabs_le_inv in Ha. unfold isCode, codeNear.
    assert (T : (0 <= Ztrunc y <= b)%Z /\ Rabs (IZR (Ztrunc y) - y) < 1).
    { destruct (Rle_dec 0 y) as [H0|H0].
      - rewrite Ztrunc_floor by exact H0. pose proof (Zfloor_lb y). pose proof (Zfloor_ub y). split.
        + split; [apply Zfloor_lub; exact H0|]. apply Z.lt_succ_r. apply lt_IZR. unfold Z.succ. rewrite plus_IZR. lra.
        + apply Rabs_def1; lra.
      - assert (Z0 : Ztrunc y = 0%Z).
        { rewrite Ztrunc_ceil by lra. apply Zceil_imp. cbn. lra. }
        rewrite Z0. split; [split; [lia|]|].
        + apply le_IZR. lra.
        + apply Rabs_def1; lra. }
    destruct T as [T1 T2]. split; [exact T1|]. apply Rabs_def2 in T2. apply Rabs_def1; lra.
  Qed.

  Theorem picture_codes c l s d d' t o k pxs B B' e' :
    showsColours s d pxs -> largestCode (AStr d') = Some t -> asked d o d' ->
    Forall (noneInside isExposureContrast) (procs_of l) -> pictureBudget c l d d' B B' e' -> Forall (sized B) pxs -> (2 <= k)%nat -> e' < 1 ->
    Forall (fun px => forall ys', exactPixel c l d d' px = Ok ys' -> Forall (fun y => 0 <= y <= IZR t) ys') pxs ->
    exists kss, Forall2 (fun px ks => exists ys', exactPixel c l d d' px = Ok ys' /\ Forall2 (codeNear e') ks ys') pxs kss /\
      filterCall c l (Some s) o k (TWrites (writtenCodes d' (List.concat kss)) (Some (writtenBits d'))) /\
      forall e, filterCall c l (Some s) o k e -> e = TWrites (writtenCodes d' (List.concat kss)) (Some (writtenBits d')) \/ e = TNothing.
  Proof.
    intros H Ht A Ne Hp F Hk He Hx. destruct (read_colours s d pxs H) as [tagged E].
    destruct (run_colours c l s d d' o k pxs B B' e' tagged E (proj1 H) (known_code d' t Ht) A Ne Hp F Hk) as (yss & Fy & R).
    assert (Q : forall ys ys', sized B' ys -> apart e' ys ys' -> Forall (fun y => 0 <= y <= IZR t) ys' ->
      Forall2 (fun y n => is_finite y = true /\ Ztrunc (B2R y) = n /\ isCode t n) ys (map (fun y => Ztrunc (B2R y)) ys) /\
      Forall2 (codeNear e') (map (fun y => Ztrunc (B2R y)) ys) ys').
    { intros ys ys' [_ S] Ap. revert S. induction Ap as [|y y' ys ys' Hy Ap IH]; intros S Fr; [split; constructor|].
      inversion S as [|? ? [Fi _] S']; subst. inversion Fr as [|? ? R1 R2]; subst. destruct (IH S' R2) as [I1 I2]. destruct (trunc_near t _ _ e' R1 Hy He) as [C1 C2].
      cbn [map]. split; constructor; auto. }
    exists (map (map (fun y => Ztrunc (B2R y))) yss). 
    assert (Z : Forall2 (fun px ks => exists ys', exactPixel c l d d' px = Ok ys' /\ Forall2 (codeNear e') ks ys') pxs (map (map (fun y => Ztrunc (B2R y))) yss) /\
      Forall2 (fun y n => is_finite y = true /\ Ztrunc (B2R y) = n /\ isCode t n) (List.concat yss) (List.concat (map (map (fun y => Ztrunc (B2R y))) yss))).
    { clear R F H E. revert Hx. induction Fy as [|px ys pxs yss (ys' & X & S & Ap) Fy IH]; intro Hx; [split; constructor|].
      inversion Hx as [|? ? X1 X2]; subst. destruct (IH X2) as [I1 I2]. destruct (Q ys ys' S Ap (X1 ys' X)) as [Q1 Q2].
      cbn [map List.concat]. split; [constructor; [exists ys'; auto|exact I1]|]. now apply Forall2_app. }
    destruct Z as [Z1 Z2]. split; [exact Z1|]. cbv zeta in R. rewrite (write_trunc d' t _ _ tagged Ht Z2) in R. exact R.
  Qed.
End Picture.

(** From the file. *)
Lemma saved_picture (L : libm) : let N := ieeeNum L in
  forall zip unzip c c' gz (l : plist fl) fs clf limit cpus images o input output,
    gzipWorks zip unzip -> cleanList false l -> is_ok (listWrite c false l) -> gz = false \/ duiker_on c = true ->
    autodesk_on c' = true -> duiker_on c' = true ->
    (forall d, fo_outBitDepth o = Some d -> d = "" \/ knownDepth d) ->
    fo_clf o = Some clf -> fo_input o = Some input -> fo_output o = Some output ->
    exists steps b, writeFile (textFiles zip unzip) c false gz l = (Ok true, steps ++ [b]) /\
      (storableList (loadFrom (textFiles zip unzip) limit c' (putFile fs clf b)) l ->
       forall r, filterMain (textFiles zip unzip) (S limit) c' cpus (putFile fs clf b) images o r <->
         exists e, filterCall c' (keptList l) (images input) (fo_outBitDepth o) (Z.to_nat (Z.min cpus (Z.max 1 (fo_multithreaded o)))) e /\
           r = (match e with TWrites _ _ => Some output | _ => None end, e)).
Proof.
  intros N zip unzip c c' gz l fs clf limit cpus images o input output Z C W D A1 A2 G H1 H2 H3.
  pose proof (ieeeOk L) as O. destruct (@text_save_open fl N ieeeText (ieeeOk L) zip unzip c c' gz l fs clf limit false Z C W D A1 A2) as (steps & b & Wf & Op).
  exists steps, b. split; [exact Wf|]. intros S r. exact (main_runs _ _ _ _ _ _ _ _ _ _ _ r G H1 H2 H3 (Op S)).
Qed.
