(** Proofs about inverted 1D LUTs, part 3: half-domain and resampled inverses. *)
From Coq Require Import Lra.
From Verif Require Export PInverse2.
Local Open Scope R_scope.

(* ------------------------------------------------------------------ *)
(** * Half-domain *)

Section HalfAny.
  Context {T : Type} {N : Num T}.
  Theorem half_ignores_range n channels (samples : list T) a b a' b' raw :
    generateLUT1DInverseHalfDomain n channels samples a b raw = generateLUT1DInverseHalfDomain n channels samples a' b' raw.
  Proof. reflexivity. Qed.
End HalfAny.

Section Half.
  Variables (n channels : nat) (samples : list R).
  Hypothesis HT : risingTable n channels samples.
  Let e := column channels samples.

  (** Rows of positions for any inputs. *)
  Definition posRow (y : R) : res (list R) := mapM (fun channel => inverseAt samples channels channel n y) (seq 0 channels).

  Lemma posRow_ok y : exists row, posRow y = Ok row /\ List.length row = channels /\
    forall channel, (channel < channels)%nat -> isPosition n (e channel) y (nth channel row 0).
  Proof.
    destruct (mapM_all_ok (fun channel => inverseAt samples channels channel n y) (seq 0 channels)) as [row Er].
    { intros ch Hch. apply in_seq in Hch. destruct (inverseAt_R n channels samples HT ch y ltac:(lia)) as [p [E _]]. exists p. exact E. }
    exists row. split; [exact Er|]. split; [apply mapM_length in Er; now rewrite seq_length in Er|].
    intros ch Hch. destruct (inverseAt_R n channels samples HT ch y Hch) as [p [E P]].
    rewrite (mapM_seq_nth _ _ _ _ Er Hch 0) in E. apply Ok_inj in E. now rewrite E.
  Qed.

  Lemma posRow_len y row : posRow y = Ok row -> List.length row = channels.
  Proof. intro H. apply mapM_length in H. now rewrite seq_length in H. Qed.

  Lemma posTable codes (input : nat -> R) :
    exists vals,
      for_each (seq 0 codes) (fun i acc =>
        let* row := posRow (input i) in Ok (pySliceSet acc (i * channels) ((i + 1) * channels) row)) (repeat 0 (codes * channels)) = Ok vals /\
      List.length vals = (codes * channels)%nat /\
      forall i channel, (i < codes)%nat -> (channel < channels)%nat ->
        isPosition n (e channel) (input i) (nth (i * channels + channel) vals 0).
  Proof.
    pose proof (fill_rows (T := R) codes channels (fun i => posRow (input i)) (fun i v => posRow_len (input i) v)) as F.
    destruct (mapM_all_ok (fun i => posRow (input i)) (seq 0 codes)) as [rows Er].
    { intros i _. destruct (posRow_ok (input i)) as [row [E _]]. exists row. exact E. }
    rewrite Er in F. cbn [bind] in F. exists (List.concat rows). split; [exact F|].
    assert (HF : Forall (fun r => List.length r = channels) rows).
    { eapply mapM_rows; [|exact Er]. intros i v. apply posRow_len. }
    pose proof (mapM_length _ _ _ Er) as Hl. rewrite seq_length in Hl. split.
    - rewrite (concat_rows_length channels) by assumption. now rewrite Hl.
    - intros i ch Hi Hch. rewrite (concat_rows_nth channels) by (assumption || lia).
      destruct (posRow_ok (input i)) as [row [E [_ P]]]. rewrite (mapM_seq_nth _ _ _ _ Er Hi []) in E. apply Ok_inj in E.
      rewrite E. now apply P.
  Qed.

  Lemma div_rows codes : pydiv (codes * channels) channels = Ok codes.
  Proof. destruct HT as [_ [Hc _]]. unfold pydiv. destruct Hc as [-> | ->]; f_equal; now rewrite Nat.div_mul. Qed.

  Lemma half_built codes (raw : bool) :
    exists h arr,
      (let* inverseSamples := for_each (seq 0 codes) (fun inverseLutIndex acc =>
          let inputValue := nhalf (Z.of_nat inverseLutIndex) in
          let* inverseSample := mapM (fun channel =>
              if nisnan inputValue then Ok inputValue
              else if nisinf inputValue then Ok inputValue
              else inverseAt samples channels channel n inputValue) (seq 0 channels) in
          Ok (pySliceSet acc (inverseLutIndex * channels) ((inverseLutIndex + 1) * channels) inverseSample))
        (repeat n0 (codes * channels)) in
       let* lut := setArray1D (newLUT1D (AStr "16f") (AStr "16f") (AStr "inverse_1d_lut") (AStr "inverse_1d_lut")
                              (AStr "linear") (if raw then ABool true else AStr "") (ABool true)) channels inverseSamples "string" in
       Ok [lut]) = Ok [Node h BLUT1D] /\
      flagSet h "halfDomain" = true /\ lastArray (h_elems h) = Some arr /\ a_dims arr = [codes; channels] /\
      forall k channel, (k < codes)%nat -> (channel < channels)%nat ->
        isPosition n (e channel) (nhalf (Z.of_nat k)) (nth (k * channels + channel) (a_vals arr) 0).
  Proof.
    destruct (posTable codes (fun i => nhalf (Z.of_nat i))) as [vals [Ev [Hl Hv]]].
    set (lhs := for_each (seq 0 codes) _ _).
    assert (El : lhs = Ok vals).
    { rewrite <- Ev. unfold lhs. reflexivity. }
    rewrite El. cbn [bind]. unfold setArray1D. rewrite Hl, div_rows. cbn [bind].
    eexists. exists (mkArray [codes; channels] vals raw false "string").
    split; [|split; [|split; [|split]]]; [reflexivity|destruct raw; reflexivity|destruct raw; reflexivity|reflexivity|].
    exact Hv.
  Qed.

  Theorem half_domain_table a b raw :
    exists h arr,
      generateLUT1DInverseHalfDomain n channels samples a b raw = Ok [Node h BLUT1D] /\
      flagSet h "halfDomain" = true /\ lastArray (h_elems h) = Some arr /\
      forall k channel, (Z.of_nat k < 65536)%Z -> (channel < channels)%nat ->
        isPosition n (e channel) (nhalf (Z.of_nat k)) (nth (k * channels + channel) (a_vals arr) 0).
  Proof.
    destruct (half_built (256 * 256) raw) as [h [arr [E [H1 [H2 [H3 H4]]]]]].
    exists h, arr. split; [exact E|]. split; [exact H1|]. split; [exact H2|].
    intros k ch Hk Hch. apply H4; auto. apply Nat2Z.inj_lt. rewrite Nat2Z.inj_mul. exact Hk.
  Qed.
End Half.

(** One inverse cannot serve two input ranges. *)
Lemma forward_ends n channels samples c mi ma ps : risingTable n channels samples -> mi < ma ->
  forwardLUT channels samples mi ma ps ->
  exists h r, ps = [limitRange "r" "r" mi ma 0 1; Node h BLUT1D] /\ notBypassed (Node h BLUT1D) = true /\
    setArray1D (newLUT1D (AStr "16f") (AStr "16f") (AStr "l") (AStr "l") (AStr "linear") (AStr "") (AStr "")) channels samples "string" = Ok (Node h BLUT1D) /\
    actsPerSample c (limitRange "r" "r" mi ma 0 1) r /\ r mi = 0 /\ r ma = 1.
Proof.
  intros HT Hr Hps. destruct (limitRange_maps c "r" "r" mi ma 0 1 Hr ltac:(lra)) as [r [Hr1 [Hr1s _]]].
  pose proof Hps as [lut [E Eps]].
  destruct (forward_node n channels samples HT ps mi ma Hps) as [h [a [-> [Hl [Hm [Hb He]]]]]].
  injection Eps as <-. exists h, r. split; [reflexivity|]. split; [exact Hb|]. split; [exact E|]. split; [exact Hr1|].
  split; rewrite Hr1s by lra; unfold through; field; lra.
Qed.

Theorem half_one_range n channels samples c a b a' b' raw raw' ps ps' inv inv' :
  risingTable n channels samples -> a < b -> a' < b' ->
  forwardLUT channels samples a b ps -> forwardLUT channels samples a' b' ps' -> raw = raw' ->
  generateLUT1DInverseHalfDomain n channels samples a b raw = Ok inv ->
  generateLUT1DInverseHalfDomain n channels samples a' b' raw' = Ok inv' ->
  (forall x, a <= x <= b -> runList c (bareList (ps ++ inv)) [x; x; x] = Ok [x; x; x]) ->
  (forall x, a' <= x <= b' -> runList c (bareList (ps' ++ inv')) [x; x; x] = Ok [x; x; x]) ->
  a = a' /\ b = b'.
Proof.
  intros HT Hab Hab' Hps Hps' <- E1 E2 H1 H2.
  rewrite (half_ignores_range _ _ _ a b a' b') in E1. rewrite E1 in E2. apply Ok_inj in E2. subst inv'. clear E1.
  destruct (forward_ends n channels samples c a b ps HT Hab Hps) as [h [r [-> [Hb [El [Hr [R0 R1]]]]]]].
  destruct (forward_ends n channels samples c a' b' ps' HT Hab' Hps') as [h' [r' [-> [Hb' [El' [Hr' [R0' R1']]]]]]].
  rewrite El in El'. apply Ok_inj in El'. injection El' as <-.
  assert (G : forall x x', r x = r' x' ->
     runList c (bareList ([limitRange "r" "r" a b 0 1; Node h BLUT1D] ++ inv)) [x; x; x] =
     runList c (bareList ([limitRange "r" "r" a' b' 0 1; Node h BLUT1D] ++ inv)) [x'; x'; x']).
  { intros x x' E. rewrite !runList_outcome by reflexivity. rewrite !list_outcome. cbn [procs_of bareList app map].
    change (@nf32 R realNum) with (fun x : R => x). cbv beta. rewrite !chainOut_cons.
    change (skips (autodesk_on c) (limitRange "r" "r" a b 0 1)) with false.
    change (skips (autodesk_on c) (limitRange "r" "r" a' b' 0 1)) with false. cbv iota.
    destruct (outcome_ok _ _ (Hr 3%nat [x; x; x])) as [o [Eo Lo]]. destruct (outcome_ok _ _ (Hr' 3%nat [x'; x'; x'])) as [o' [Eo' Lo']].
    rewrite Eo, Eo'. cbn [bind]. rewrite Lo, Lo'. cbn [map]. rewrite E. apply chainOut_prev. unfold skips. rewrite Hb. reflexivity. }
  split.
  - pose proof (G a a' ltac:(congruence)) as K. rewrite H1, H2 in K by lra. apply Ok_inj in K. now injection K.
  - pose proof (G b b' ltac:(congruence)) as K. rewrite H1, H2 in K by lra. apply Ok_inj in K. now injection K.
Qed.

(* ------------------------------------------------------------------ *)
(** * Resampled *)

Lemma pyget_neg (l : list R) z : (- Z.of_nat (List.length l) <= z < 0)%Z ->
  pyget l z = Ok (nth (Z.to_nat (z + Z.of_nat (List.length l))) l 0).
Proof.
  intro H. unfold pyget. rewrite (proj2 (Z.ltb_lt z 0)) by lia. rewrite (proj2 (Z.ltb_ge _ 0)) by lia.
  erewrite nth_error_nth'; [reflexivity|]. lia.
Qed.

Section Resampled.
  Variables (n channels : nat) (samples : list R).
  Hypothesis HT : risingTable n channels samples.
  Let e := column channels samples.

  Lemma outRange :
    exists lo hi,
      (let* s0 := getn samples 0 in
       for_each (seq 0 channels) (fun c m => let* s := getn samples c in Ok (pymin m s)) s0) = Ok lo /\
      (let* s1 := pyget samples (- Z.of_nat channels) in
       for_each (seq 0 channels) (fun c m =>
        let* s := pyget samples (- Z.of_nat channels + Z.of_nat c) in Ok (pymax m s)) s1) = Ok hi /\
      (forall ch, (ch < 3)%nat -> lo <= e ch 0%nat /\ e ch (n - 1)%nat <= hi) /\
      (exists ch, (ch < 3)%nat /\ lo = e ch 0%nat) /\ (exists ch, (ch < 3)%nat /\ hi = e ch (n - 1)%nat).
  Proof.
    pose proof HT as [Hn [Hc [Hl _]]].
    assert (Elast : forall c, (c < channels)%nat -> pyget samples (- Z.of_nat channels + Z.of_nat c) = Ok (e c (n - 1)%nat)).
    { intros c Hcc. rewrite pyget_neg by (rewrite Hl; nia). unfold e, column. do 2 f_equal. rewrite Hl. nia. }
    assert (Efirst : forall c, (c < channels)%nat -> getn samples c = Ok (e c 0%nat)).
    { intros c Hcc. rewrite getn_nth by (rewrite Hl; nia). unfold e, column. do 2 f_equal. lia. }
    assert (Emin : forall ch k, e ch k = e (Nat.min ch (channels - 1)) k) by (intros; unfold e, column; do 2 f_equal; lia).
    assert (Elast0 : pyget samples (- Z.of_nat channels) = Ok (e 0%nat (n - 1)%nat)).
    { rewrite <- (Elast 0%nat) by lia. f_equal. lia. }
    destruct Hc as [Ec|Ec].
    - exists (e 0%nat 0%nat), (e 0%nat (n - 1)%nat). rewrite Efirst, Elast0 by lia. assert (Es : seq 0 channels = [0%nat]) by now rewrite Ec. rewrite Es. cbn [for_each bind].
      rewrite Efirst, Elast by lia. cbn [bind]. rewrite pymin_R, pymax_R.
      split; [f_equal; apply Rmin_left; lra|]. split; [f_equal; apply Rmax_left; lra|].
      split; [|split; exists 0%nat; split; auto; lia].
      intros ch Hch. rewrite (Emin ch), (Emin ch (n - 1)%nat). rewrite Ec. replace (Nat.min ch (1 - 1)) with 0%nat by lia. lra.
    - rewrite Efirst, Elast0 by lia. assert (Es : seq 0 channels = [0; 1; 2]%nat) by now rewrite Ec. rewrite Es. cbn [for_each bind].
      rewrite !Efirst, !Elast by lia. cbn [bind]. rewrite !pymin_R, !pymax_R.
      do 2 eexists. split; [reflexivity|]. split; [reflexivity|].
      set (a0 := e 0%nat 0%nat). set (a1 := e 1%nat 0%nat). set (a2 := e 2%nat 0%nat).
      set (b0 := e 0%nat (n - 1)%nat). set (b1 := e 1%nat (n - 1)%nat). set (b2 := e 2%nat (n - 1)%nat).
      split; [|split].
      + intros ch Hch.
        assert (lower : Rmin (Rmin (Rmin a0 a0) a1) a2 <= a0 /\ Rmin (Rmin (Rmin a0 a0) a1) a2 <= a1 /\ Rmin (Rmin (Rmin a0 a0) a1) a2 <= a2)
          by (unfold Rmin; repeat destruct (Rle_dec _ _); lra).
        assert (upper : b0 <= Rmax (Rmax (Rmax b0 b0) b1) b2 /\ b1 <= Rmax (Rmax (Rmax b0 b0) b1) b2 /\ b2 <= Rmax (Rmax (Rmax b0 b0) b1) b2)
          by (unfold Rmax; repeat destruct (Rle_dec _ _); lra).
        destruct ch as [|[|[|ch]]]; try lia; fold a0 a1 a2 b0 b1 b2; tauto.
      + assert (Rmin (Rmin (Rmin a0 a0) a1) a2 = a0 \/ Rmin (Rmin (Rmin a0 a0) a1) a2 = a1 \/ Rmin (Rmin (Rmin a0 a0) a1) a2 = a2) as [H|[H|H]]
          by (unfold Rmin; repeat destruct (Rle_dec _ _); auto);
          [exists 0%nat|exists 1%nat|exists 2%nat]; (split; [lia|exact H]).
      + assert (Rmax (Rmax (Rmax b0 b0) b1) b2 = b0 \/ Rmax (Rmax (Rmax b0 b0) b1) b2 = b1 \/ Rmax (Rmax (Rmax b0 b0) b1) b2 = b2) as [H|[H|H]]
          by (unfold Rmax; repeat destruct (Rle_dec _ _); auto);
          [exists 0%nat|exists 1%nat|exists 2%nat]; (split; [lia|exact H]).
  Qed.

  (** What the generator builds. *)
  Lemma resampled_built mi ma :
    exists lo hi h arr,
      generateLUT1DInverseResampled n channels samples mi ma =
        Ok [limitRange "inverse_1d_range_1" "inverse_1d_range_1" lo hi 0 1; Node h BLUT1D;
            limitRange "inverse_1d_range_2" "inverse_1d_range_2" 0 1 mi ma] /\
      lo < hi /\ (forall ch, (ch < 3)%nat -> lo <= e ch 0%nat /\ e ch (n - 1)%nat <= hi) /\
      (exists ch, (ch < 3)%nat /\ lo = e ch 0%nat) /\ (exists ch, (ch < 3)%nat /\ hi = e ch (n - 1)%nat) /\
      isLUT1D h (AStr "16f") arr (2 * n) /\ indexMaps (h_elems h) = [] /\ notBypassed (Node h BLUT1D) = true /\
      forall i ch, (i < 2 * n)%nat -> (ch < 3)%nat -> isPosition n (e ch) (gridPoint (2 * n) lo hi i) (entry1D arr i ch).
  Proof.
    pose proof (table_n n channels samples HT) as Hn.
    destruct outRange as [lo [hi [Elo [Ehi [Hb [Hlo Hhi]]]]]].
    destruct (posTable n channels samples HT (2 * n) (gridPoint (2 * n) lo hi)) as [vals [Ev [Hl Hv]]].
    exists lo, hi. eexists. exists (mkArray [2 * n; channels]%nat vals false false "string").
    assert (Hlt : lo < hi).
    { destruct (Hb 0%nat ltac:(lia)) as [A B]. pose proof (table_rise n channels samples HT 0 0 (n - 1) ltac:(lia) ltac:(lia) ltac:(lia)) as C.
      fold e in C. lra. }
    split.
    { unfold generateLUT1DInverseResampled.
      destruct (getn samples 0) as [s0|] eqn:E0; [|discriminate]. cbn [bind] in *. rewrite Elo. cbn [bind].
      destruct (pyget samples (- Z.of_nat channels)) as [s1|] eqn:E1; [|discriminate]. cbn [bind] in *. rewrite Ehi. cbn [bind].
      replace (n * 2)%nat with (2 * n)%nat by lia.
      match goal with |- context [for_each (seq 0 (2 * n)) ?f ?s] =>
        assert (Ef : for_each (seq 0 (2 * n)) f s = Ok vals) end.
      { rewrite <- Ev. apply for_each_ext. intros i acc Hi. rewrite samplePos_R by lia. cbn [bind].
        replace (nadd (nmul (INR i / INR (2 * n - 1)) (nsub hi lo)) lo) with (gridPoint (2 * n) lo hi i)
          by (unfold gridPoint; realize; lra). reflexivity. }
      rewrite Ef. cbn [bind]. unfold setArray1D. rewrite Hl, (div_rows n channels samples HT). cbn [bind].
      reflexivity. }
    split; [exact Hlt|]. split; [exact Hb|]. split; [exact Hlo|]. split; [exact Hhi|].
    split; [|split; [reflexivity|split; [reflexivity|]]].
    - split; [reflexivity|]. split; [eexists; reflexivity|]. split; [cbn; discriminate|]. split; [reflexivity|].
      split; [reflexivity|]. split; [|reflexivity]. destruct HT as [? [? [? ?]]].
      exists (2 * n)%nat, channels, []. repeat split; try (cbn; lia).
    - intros i ch Hi Hch.
      assert (Ee : entry1D (mkArray [2 * n; channels]%nat vals false false "string") i ch =
                   nth (i * channels + Nat.min ch (channels - 1)) vals 0).
      { unfold entry1D. cbn [a_dims a_vals mkArray]. destruct HT as [_ [[Hc|Hc] _]]; rewrite Hc; change (@n0 R realNum) with 0; f_equal; lia. }
      rewrite Ee. assert (Hc : (Nat.min ch (channels - 1) < channels)%nat) by (destruct HT as [_ [[Hc|Hc] _]]; lia).
      pose proof (Hv i _ Hi Hc) as P.
      assert (Ec : forall k, column channels samples (Nat.min ch (channels - 1)) k = e ch k) by (intro; unfold e, column; do 2 f_equal; lia).
      unfold isPosition in *. rewrite !Ec in P. destruct P as [P1 [P2 P3]]. split; [exact P1|]. split; [|exact P3].
      intros k Hk. specialize (P2 k Hk). rewrite !Ec in P2. exact P2.
  Qed.

  (** Applying the LUT at the position of [y] gives [y]. *)
  Lemma at_position ch y p F : (ch < 3)%nat ->
    (forall k u, (k + 1 < n)%nat -> INR k <= u * INR (n - 1) <= INR (k + 1) ->
        F u = e ch k + (u * INR (n - 1) - INR k) * (e ch (k + 1)%nat - e ch k)) ->
    e ch 0%nat <= y <= e ch (n - 1)%nat -> isPosition n (e ch) y p -> 0 <= p <= 1 /\ F p = y.
  Proof.
    intros Hch HF Hy [_ [P _]]. pose proof (table_pos n channels samples HT) as Hp.
    destruct (table_cell n channels samples HT ch y Hch Hy) as [k [Hk Hc]].
    pose proof (table_rise n channels samples HT ch k (k + 1) Hch ltac:(lia) ltac:(lia)) as Hlt.
    pose proof (cell_ratio n channels samples HT ch k y Hch Hk Hc) as Hq. fold e in Hc, Hlt, Hq.
    rewrite (P k Hk Hc). set (q := (y - e ch k) / (e ch (k + 1)%nat - e ch k)) in *.
    assert (Hk1 : 0 <= INR k /\ INR k + 1 <= INR (n - 1)).
    { split; [apply pos_INR|]. rewrite <- S_INR. apply le_INR. lia. }
    split.
    - assert (0 < / INR (n - 1)) by now apply Rinv_0_lt_compat. unfold Rdiv. split; [apply Rmult_le_pos; lra|].
      apply Rmult_le_reg_r with (INR (n - 1)); [lra|]. rewrite Rmult_assoc, Rinv_l by lra. lra.
    - rewrite (HF k _ Hk).
      + unfold q. field. split; lra.
      + rewrite plus_INR. cbn [INR]. replace ((INR k + q) / INR (n - 1) * INR (n - 1)) with (INR k + q) by (field; lra). lra.
  Qed.
End Resampled.

Theorem resampled_exact c n channels samples mi ma ps :
  risingTable n channels samples -> mi < ma -> forwardLUT channels samples mi ma ps ->
  exists inv lo hi g,
    generateLUT1DInverseResampled n channels samples mi ma = Ok inv /\
    (forall ch, (ch < 3)%nat -> lo <= column channels samples ch 0 /\ column channels samples ch (n - 1) <= hi) /\
    (exists ch, (ch < 3)%nat /\ lo = column channels samples ch 0) /\
    (exists ch, (ch < 3)%nat /\ hi = column channels samples ch (n - 1)) /\
    mapsRGB c (bareList (inv ++ ps)) g /\
    forall ch i, (ch < 3)%nat -> (i < 2 * n)%nat ->
      let y := gridPoint (2 * n) lo hi i in
      column channels samples ch 0 <= y <= column channels samples ch (n - 1) -> g ch y = y.
Proof.
  intros HT Hr Hps. pose proof (table_n _ _ _ HT) as Hn.
  destruct (resampled_built n channels samples HT mi ma) as [lo [hi [h [arr [E [Hlh [Hb [Hlo [Hhi [Hl [Hm [Hon He]]]]]]]]]]]].
  destruct (forward_node n channels samples HT ps mi ma Hps) as [h2 [a2 [-> [Hl2 [Hm2 [Hb2 He2]]]]]].
  destruct (forward_lut n channels samples HT c h2 a2 Hl2 Hm2 He2) as [F [HF HFs]].
  destruct (limitRange_maps c "r" "r" mi ma 0 1 Hr ltac:(lra)) as [r1 [Hr1 [Hr1s _]]].
  destruct (limitRange_maps c "inverse_1d_range_1" "inverse_1d_range_1" lo hi 0 1 Hlh ltac:(lra)) as [r2 [Hr2 [Hr2s _]]].
  destruct (limitRange_maps c "inverse_1d_range_2" "inverse_1d_range_2" 0 1 mi ma ltac:(lra) ltac:(lra)) as [r3 [Hr3 [Hr3s _]]].
  destruct (lut1d_entries c h _ arr (2 * n) Hl Hm ltac:(lia)) as [P [HP HPs]].
  eexists. exists lo, hi, (fun ch y => F ch (r1 (r3 (P ch (r2 y))))).
  split; [exact E|]. split; [exact Hb|]. split; [exact Hlo|]. split; [exact Hhi|]. split.
  - apply list_maps. cbn [procs_of bareList app].
    apply (chain_cons c _ _ (fun _ => r2) (fun ch x => F ch (r1 (r3 (P ch x))))); [reflexivity|now apply sample_maps|].
    apply (chain_cons c _ _ P (fun ch x => F ch (r1 (r3 x)))); [exact Hon|now apply channel_maps|].
    apply (chain_cons c _ _ (fun _ => r3) (fun ch x => F ch (r1 x))); [reflexivity|now apply sample_maps|].
    apply (chain_cons c _ _ (fun _ => r1) F); [reflexivity|now apply sample_maps|].
    apply (chain_cons c _ _ F (fun _ x => x)); [exact Hb2|now apply channel_maps|apply chain_nil].
  - intros ch i Hch Hi y Hy. destruct (Hb ch Hch) as [B1 B2].
    rewrite Hr2s by lra.
    assert (Hp2 : 0 < INR (2 * n - 1)) by (apply lt_0_INR; lia).
    assert (Eu : through lo 0 hi 1 y = codeAt (AStr "16f") (2 * n) i).
    { unfold through, y, gridPoint, codeAt. cbn [fullScale]. field. split; lra. }
    rewrite Eu. destruct (HPs ch Hch) as [A _]. rewrite A by assumption.
    pose proof (He i ch Hi Hch) as Pos.
    destruct (at_position n channels samples HT ch y (entry1D arr i ch) (F ch) Hch (fun k u => HFs ch k u Hch) Hy Pos) as [Hp Fp].
    rewrite Hr3s by assumption. rewrite Hr1s by (unfold through; nra).
    replace (through mi 0 ma 1 (through 0 mi 1 ma (entry1D arr i ch))) with (entry1D arr i ch) by (unfold through; field; lra).
    exact Fp.
Qed.
