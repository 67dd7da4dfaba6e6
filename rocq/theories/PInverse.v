(** Proofs about inverted 1D LUTs. *)
From Coq Require Import Lra.
From Verif Require Export PSampling.
Local Open Scope R_scope.

(* ------------------------------------------------------------------ *)
(** * The nodes *)

Lemma limitRange_data id name mi ma mo mao :
  exists h, limitRange id name mi ma mo mao = Node h BRange /\
    isRange h {| r_in := AStr "16f"; r_out := AStr "16f"; r_clamps := true; r_default := false;
                 r_minIn := Some mi; r_maxIn := Some ma; r_minOut := Some mo; r_maxOut := Some mao |}.
Proof.
  eexists. split; [reflexivity|]. unfold isRange. cbn. repeat split; try discriminate; auto; congruence.
Qed.

Lemma limitRange_maps c id name mi ma mo mao : mi < ma -> mo <= mao ->
  exists f, actsPerSample c (limitRange id name mi ma mo mao) f /\
    (forall x, mi <= x <= ma -> f x = through mi mo ma mao x) /\
    (forall x, x <= mi -> f x = mo) /\ (forall x, ma <= x -> f x = mao) /\ (forall x y, x <= y -> f x <= f y).
Proof.
  intros H1 H2. destruct (limitRange_data id name mi ma mo mao) as [h [-> D]].
  destruct (range_clamped c h _ mi ma mo mao D eq_refl eq_refl eq_refl eq_refl eq_refl H1 H2) as [f [A [_ [_ [B [C [E F]]]]]]].
  exists f. auto.
Qed.

Lemma limitRange_on id name (mi ma mo mao : R) : notBypassed (limitRange id name mi ma mo mao) = true.
Proof. reflexivity. Qed.

Section Table.
  Variables (n channels : nat) (samples : list R).
  Hypothesis HT : risingTable n channels samples.

  Let e := column channels samples.

  Lemma table_n : (2 <= n)%nat. Proof. apply HT. Qed.
  Lemma table_pos : 0 < INR (n - 1). Proof. pose proof table_n. apply lt_0_INR. lia. Qed.
  Lemma table_rise ch i j : (ch < 3)%nat -> (i < j)%nat -> (j < n)%nat -> e ch i < e ch j.
  Proof.
    intros Hc Hij Hj. induction j as [|j IH]; [lia|]. destruct HT as [_ [_ [_ H]]].
    pose proof (H ch j Hc ltac:(lia)) as Hs. replace (j + 1)%nat with (S j) in Hs by lia.
    destruct (Nat.eq_dec i j) as [->|D]; [exact Hs|]. apply Rlt_trans with (e ch j); [apply IH; lia|exact Hs].
  Qed.

  Lemma table_cell ch y : (ch < 3)%nat -> e ch 0%nat <= y <= e ch (n - 1)%nat ->
    exists k, (k + 1 < n)%nat /\ e ch k <= y <= e ch (k + 1)%nat.
  Proof.
    intros Hc [H0 H1]. pose proof table_n as Hn.
    assert (G : forall m, (m < n - 1)%nat -> y <= e ch (S m) -> exists k, (k + 1 < n)%nat /\ e ch k <= y <= e ch (k + 1)%nat).
    { induction m as [|m IH]; intros Hm Hy.
      - exists 0%nat. split; [lia|]. cbn. split; assumption.
      - destruct (Rle_dec y (e ch (S m))) as [Hle|Hgt]; [apply IH; [lia|assumption]|].
        exists (S m). split; [lia|]. replace (S m + 1)%nat with (S (S m)) by lia. lra. }
    apply (G (n - 2)%nat); [lia|]. replace (S (n - 2)) with (n - 1)%nat by lia. assumption.
  Qed.

  (** A LUT1D node holding the table. *)
  Lemma array_entries a : a_dims a = [n; channels] -> a_vals a = samples ->
    forall k ch, (ch < 3)%nat -> entry1D a k ch = e ch k.
  Proof.
    intros Hd Hv k ch Hch. unfold entry1D, e, column. rewrite Hd, Hv. destruct HT as [_ [Hc _]].
    destruct Hc as [-> | ->]; [f_equal; lia|]. do 2 f_equal. lia.
  Qed.

  Lemma rows : pydiv (List.length samples) channels = Ok n.
  Proof.
    destruct HT as [_ [Hc [-> _]]]. unfold pydiv. destruct Hc as [-> | ->]; f_equal; now rewrite Nat.div_mul.
  Qed.

  Lemma forward_node ps mi ma : forwardLUT channels samples mi ma ps ->
    exists h a, ps = [limitRange "r" "r" mi ma 0 1; Node h BLUT1D] /\ isLUT1D h (AStr "16f") a n /\
      indexMaps (h_elems h) = [] /\ notBypassed (Node h BLUT1D) = true /\
      forall k ch, (ch < 3)%nat -> entry1D a k ch = e ch k.
  Proof.
    intros [lut [E ->]]. unfold setArray1D in E. rewrite rows in E. cbn [bind] in E. apply Ok_inj in E. subst lut.
    eexists. exists (mkArray [n; channels] samples false false "string"). split; [reflexivity|].
    split; [|split; [reflexivity|split; [reflexivity|now apply array_entries]]].
    split; [reflexivity|]. split; [eexists; reflexivity|]. split; [cbn; discriminate|]. split; [reflexivity|].
    split; [reflexivity|]. split; [|reflexivity]. destruct HT as [? [? [? ?]]].
    exists n, channels, []. repeat split; try (cbn; lia).
  Qed.

  Lemma forward_exists mi ma : exists ps, forwardLUT channels samples mi ma ps.
  Proof. eexists. unfold forwardLUT, setArray1D. rewrite rows. eexists. split; reflexivity. Qed.

  (** It maps position k/(n-1) to entry k, linearly in between. *)
  Lemma forward_lut c h a : isLUT1D h (AStr "16f") a n -> indexMaps (h_elems h) = [] ->
    (forall k ch, (ch < 3)%nat -> entry1D a k ch = e ch k) ->
    exists F, actsPerChannel c (Node h BLUT1D) F /\
      forall ch k u, (ch < 3)%nat -> (k + 1 < n)%nat -> INR k <= u * INR (n - 1) <= INR (k + 1) ->
        F ch u = e ch k + (u * INR (n - 1) - INR k) * (e ch (k + 1)%nat - e ch k).
  Proof.
    intros Hl Hm He. destruct (lut1d_entries c h _ a n Hl Hm table_n) as [F [HF HS]]. exists F. split; [exact HF|].
    intros ch k u Hch Hk Hu. destruct (HS ch Hch) as [_ [_ [_ D]]]. pose proof table_pos as Hp.
    assert (Hcode : forall j, codeAt (AStr "16f") n j = INR j / INR (n - 1)) by (intro; unfold codeAt; cbn; lra).
    rewrite (D k u Hk).
    - rewrite !He, !Hcode by assumption. unfold through. rewrite plus_INR. cbn [INR]. field. lra.
    - rewrite !Hcode. assert (0 < / INR (n - 1)) by now apply Rinv_0_lt_compat.
      replace u with (u * INR (n - 1) * / INR (n - 1)) by (field; lra). unfold Rdiv. split; apply Rmult_le_compat_r; lra.
  Qed.

  (* ---------------------------------------------------------------- *)
  (** * The index-map inverse *)

  Definition columnList (ch : nat) : list R := map (fun i => e ch i) (seq 0 n).
  Definition indices : list R := map (fun i => IZR (Z.of_nat i)) (seq 0 n).
  Definition inverseTable : list R := map (fun p => INR (p / channels) / INR (n - 1)) (seq 0 (n * channels)).
  Definition inverseNode : node R :=
    let h : header R := newHeader (AStr "16f") (AStr "16f") (AStr "inverse_1d_lut") (AStr "inverse_1d_lut") in
    let m ch := EIndexMap (mkIndexMap (columnList ch) indices) in
    Node {| h_attrs := dset (h_attrs h) "interpolation" (AStr "linear"); h_vals := []; h_dyn := [];
            h_elems := (if Nat.eqb channels 3 then [m 0%nat; m 1%nat; m 2%nat] else [m 0%nat]) ++
                       [EArray (mkArray [n; channels] inverseTable false false "string")] |} BLUT1D.

  Lemma column_get c : (c < channels)%nat ->
    mapM (fun i => getn samples (i * channels + c)) (seq 0 n) = Ok (columnList c).
  Proof.
    intro Hc. unfold columnList. apply mapM_Ok. intros i Hi. apply in_seq in Hi. destruct HT as [_ [Hch [Hl _]]].
    rewrite getn_nth by (rewrite Hl; nia). unfold e, column. do 3 f_equal. lia.
  Qed.

  Lemma inverseTable_built :
    for_each (seq 0 n) (fun i acc =>
        let* v := samplePos i n in
        for_each (seq 0 channels) (fun c acc => setn acc (i * channels + c)%nat v) acc)
      (repeat 0 (n * channels)) = Ok inverseTable.
  Proof.
    unfold inverseTable. rewrite <- (fill_table n channels (fun i => INR i / INR (n - 1))).
    apply for_each_ext. intros i s _. rewrite samplePos_R by apply table_n. reflexivity.
  Qed.

  Lemma inverse_built mi ma :
    generateLUT1DInverseIndexMap n channels samples mi ma =
    Ok (inverseNode :: if negb (Reqb mi 0) || negb (Reqb ma 1)
                       then [limitRange "inverse_1d_range_1" "inverse_1d_range_1" 0 1 mi ma] else []).
  Proof.
    unfold generateLUT1DInverseIndexMap.
    assert (E : mapM (fun c => let* indexMapInput := mapM (fun i => getn samples (i * channels + c)) (seq 0 n) in
                 Ok (indexMapInput, map (fun i => nofZ (Z.of_nat i)) (seq 0 n))) (seq 0 channels) =
               Ok (map (fun c => (columnList c, indices)) (seq 0 channels))).
    { apply mapM_Ok. intros c Hc. apply in_seq in Hc. rewrite column_get by lia. reflexivity. }
    rewrite E. cbn [bind]. change (@n0 R realNum) with 0 at 1. rewrite inverseTable_built. cbn [bind].
    assert (Er : pydiv (List.length inverseTable) channels = Ok n).
    { unfold inverseTable. rewrite map_length, seq_length. destruct HT as [_ [_ [H _]]]. rewrite <- H. exact rows. }
    unfold setArray1D. rewrite Er. cbn [bind]. unfold inverseNode.
    destruct HT as [_ [[Hc|Hc] _]]; rewrite Hc; reflexivity.
  Qed.

  Lemma indices_nth k : (k < n)%nat -> nth k indices 0 = INR k.
  Proof.
    intro H. unfold indices. rewrite (nth_indep _ 0 (IZR (Z.of_nat 0))) by (rewrite map_length, seq_length; lia).
    rewrite (map_nth (fun i => IZR (Z.of_nat i))), seq_nth by lia. now rewrite <- INR_IZR_INZ.
  Qed.
  Lemma columnList_nth ch k : (k < n)%nat -> nth k (columnList ch) 0 = e ch k.
  Proof.
    intro H. unfold columnList. rewrite (nth_indep _ 0 (e ch 0%nat)) by (rewrite map_length, seq_length; lia).
    now rewrite (map_nth (fun i => e ch i)), seq_nth by lia.
  Qed.
  Lemma columnList_length ch : List.length (columnList ch) = n.
  Proof. unfold columnList. now rewrite map_length, seq_length. Qed.
  Lemma indices_length : List.length indices = n.
  Proof. unfold indices. now rewrite map_length, seq_length. Qed.

  (** The map the node uses for colour channel [ch]. *)
  Definition theMap (ch : nat) : imap R := mkIndexMap (columnList (Nat.min ch (channels - 1))) indices.

  Lemma column_min ch k : e (Nat.min ch (channels - 1)) k = e ch k.
  Proof. unfold e, column. do 2 f_equal. lia. Qed.

  Lemma theMap_good ch : wellFormedMap (theMap ch).
  Proof.
    pose proof table_n. unfold theMap, wellFormedMap. cbn [im_in im_out mkIndexMap]. split; [|split].
    - intro E. pose proof (columnList_length (Nat.min ch (channels - 1))) as L. rewrite E in L. cbn in L. lia.
    - now rewrite columnList_length, indices_length.
    - apply Forall_forall. reflexivity.
  Qed.

  Lemma inverse_maps : indexMaps (h_elems (nheader inverseNode)) =
    if Nat.eqb channels 3 then [theMap 0; theMap 1; theMap 2] else [theMap 0].
  Proof. unfold inverseNode, theMap. destruct HT as [_ [[Hc|Hc] _]]; rewrite Hc; reflexivity. Qed.

  Lemma inverse_mapFor ch : (ch < 3)%nat -> mapFor (indexMaps (h_elems (nheader inverseNode))) ch (theMap ch).
  Proof.
    intro Hch. rewrite inverse_maps. unfold mapFor, theMap. destruct HT as [_ [[Hc|Hc] _]]; rewrite Hc; cbn [Nat.eqb].
    - left. do 3 f_equal. lia.
    - right. split; [cbn; lia|]. destruct ch as [|[|[|ch]]]; try lia; reflexivity.
  Qed.

  Lemma inverse_goodMaps : goodMaps (indexMaps (h_elems (nheader inverseNode))).
  Proof.
    rewrite inverse_maps. destruct (Nat.eqb channels 3).
    - split; [right; cbn; lia|]. repeat constructor; apply theMap_good.
    - split; [left; cbn; lia|]. repeat constructor; apply theMap_good.
  Qed.

  Lemma inverse_isLUT : exists a, isLUT1D (nheader inverseNode) (AStr "16f") a n /\
    forall k ch, (k < n)%nat -> (ch < 3)%nat -> entry1D a k ch = INR k / INR (n - 1).
  Proof.
    exists (mkArray [n; channels] inverseTable false false "string"). split.
    - unfold inverseNode. cbn [nheader]. split; [reflexivity|]. split; [eexists; reflexivity|]. split; [cbn; discriminate|].
      split; [reflexivity|]. destruct HT as [? [? [? ?]]].
      split; [destruct (Nat.eqb channels 3); reflexivity|]. split; [|reflexivity].
      exists n, channels, []. repeat split; try (cbn; lia). cbn [a_vals mkArray]. unfold inverseTable.
      now rewrite map_length, seq_length.
    - intros k ch Hk Hch. apply (sampled_entry (fun i => INR i / INR (n - 1)) n channels); auto. apply HT.
  Qed.

  (** The inverse LUT computes positions, and stays at 0 and 1 outside the table. *)
  Lemma inverse_positions c :
    exists G, actsPerChannel c inverseNode G /\
      forall ch, (ch < 3)%nat ->
        (forall k y, (k + 1 < n)%nat -> e ch k <= y <= e ch (k + 1)%nat ->
           G ch y = (INR k + (y - e ch k) / (e ch (k + 1)%nat - e ch k)) / INR (n - 1)) /\
        (forall y, y <= e ch 0%nat -> G ch y = 0) /\ (forall y, e ch (n - 1)%nat <= y -> G ch y = 1).
  Proof.
    pose proof table_n as Hn. pose proof table_pos as Hp.
    destruct inverse_isLUT as [a [Hl He]].
    assert (Hne : indexMaps (h_elems (nheader inverseNode)) <> []) by (rewrite inverse_maps; destruct (Nat.eqb channels 3); discriminate).
    destruct (lut1d_mapped c _ _ a n Hl inverse_goodMaps Hne Hn) as [G [HG HS]].
    exists G. split; [exact HG|]. intros ch Hch.
    destruct (imap_all (theMap ch) (theMap_good ch)) as [f [Hf [_ [_ [Hlo [Hhi Hk]]]]]].
    assert (Hr : risingInputs (im_in (theMap ch))).
    { intros i Hi. cbn [theMap im_in mkIndexMap] in *. rewrite columnList_length in Hi.
      rewrite !columnList_nth by lia. rewrite !column_min. apply table_rise; lia. }
    destruct (Hk Hr) as [_ Hseg]. clear Hk.
    pose proof (fun x y => HS ch (theMap ch) x y Hch (inverse_mapFor ch Hch)) as HS'.
    cbn [theMap im_in im_out mkIndexMap] in *.
    split; [|split].
    - intros k y Hk Hy.
      pose proof (table_rise ch k (k + 1) Hch ltac:(lia) ltac:(lia)) as Hlt.
      assert (Ef : f y = INR k + (y - e ch k) / (e ch (k + 1)%nat - e ch k)).
      { rewrite (Hseg k y).
        - rewrite !columnList_nth, !indices_nth, !column_min by lia. unfold through. rewrite plus_INR. cbn [INR]. field. lra.
        - rewrite columnList_length. lia.
        - rewrite !columnList_nth, !column_min by lia. exact Hy. }
      assert (Hb : 0 <= (y - e ch k) / (e ch (k + 1)%nat - e ch k) <= 1).
      { assert (0 < / (e ch (k + 1)%nat - e ch k)) by (apply Rinv_0_lt_compat; lra). unfold Rdiv. split.
        - apply Rmult_le_pos; lra.
        - apply Rmult_le_reg_r with (e ch (k + 1)%nat - e ch k); [lra|].
          rewrite Rmult_assoc, Rinv_l by lra. lra. }
      destruct (HS' y (f y) (Hf y)) as [_ [Q _]]. rewrite (Q k Hk).
      + rewrite !He by lia. unfold through. rewrite Ef, plus_INR. cbn [INR]. field. repeat split; lra.
      + rewrite Ef, plus_INR. cbn [INR]. lra.
    - intros y Hy. destruct (HS' y (f y) (Hf y)) as [_ [_ [Q _]]].
      rewrite Q; [rewrite He by lia; cbn [INR]; unfold Rdiv; lra|].
      rewrite Hlo; [rewrite indices_nth by lia; cbn; lra|]. rewrite columnList_nth, column_min by lia. exact Hy.
    - intros y Hy. destruct (HS' y (f y) (Hf y)) as [_ [_ [_ Q]]].
      rewrite Q; [rewrite He by lia; field; lra|].
      pose proof (table_rise ch 0 (n - 1) Hch ltac:(lia) ltac:(lia)) as Hlt.
      rewrite Hhi; [rewrite columnList_length, indices_nth by lia; lra| |].
      + rewrite columnList_nth, column_min by lia. lra.
      + rewrite columnList_length, columnList_nth, column_min by lia. exact Hy.
  Qed.

  Lemma inverse_on : notBypassed inverseNode = true.
  Proof. unfold inverseNode. destruct (Nat.eqb channels 3); reflexivity. Qed.

  Lemma cell_ratio ch k y : (ch < 3)%nat -> (k + 1 < n)%nat -> e ch k <= y <= e ch (k + 1)%nat ->
    0 <= (y - e ch k) / (e ch (k + 1)%nat - e ch k) <= 1.
  Proof.
    intros Hch Hk Hy. pose proof (table_rise ch k (k + 1) Hch ltac:(lia) ltac:(lia)) as Hlt.
    assert (0 < / (e ch (k + 1)%nat - e ch k)) by (apply Rinv_0_lt_compat; lra). unfold Rdiv. split.
    - apply Rmult_le_pos; lra.
    - apply Rmult_le_reg_r with (e ch (k + 1)%nat - e ch k); [lra|]. rewrite Rmult_assoc, Rinv_l by lra. lra.
  Qed.

  (** Everything at once: the two lists, as maps on each channel. *)
  Lemma inverse_pieces c mi ma ps : mi < ma -> forwardLUT channels samples mi ma ps ->
    exists F G inv,
      generateLUT1DInverseIndexMap n channels samples mi ma = Ok inv /\
      chainMaps c ps F /\ chainMaps c inv G /\
      Forall (fun m => notBypassed m = true) ps /\ Forall (fun m => notBypassed m = true) inv /\
      (forall ch x, (ch < 3)%nat -> mi <= x <= ma -> G ch (F ch x) = x) /\
      (forall ch y, (ch < 3)%nat -> e ch 0%nat <= y <= e ch (n - 1)%nat -> F ch (G ch y) = y).
  Proof.
    intros Hr Hps. pose proof table_n as Hn. pose proof table_pos as Hp.
    destruct (forward_node ps mi ma Hps) as [h [a [-> [Hl [Hm [Hb He]]]]]].
    destruct (forward_lut c h a Hl Hm He) as [F [HF HFs]].
    destruct (limitRange_maps c "r" "r" mi ma 0 1 Hr ltac:(lra)) as [r1 [Hr1 [Hr1s _]]].
    destruct (inverse_positions c) as [G [HG HGs]].
    destruct (limitRange_maps c "inverse_1d_range_1" "inverse_1d_range_1" 0 1 mi ma ltac:(lra) ltac:(lra)) as [r2 [Hr2 [Hr2s _]]].
    set (keep := negb (Reqb mi 0) || negb (Reqb ma 1)).
    assert (Hkeep : keep = false -> mi = 0 /\ ma = 1).
    { unfold keep. intro E. apply orb_false_iff in E. destruct E as [E1 E2]. apply negb_false_iff in E1, E2.
      apply Reqb_spec in E1, E2. auto. }
    exists (fun ch x => F ch (r1 x)), (fun ch y => let p := G ch y in if keep then r2 p else p).
    eexists. split; [apply inverse_built|]. fold keep.
    assert (Hup : forall p, 0 <= p <= 1 -> (if keep then r2 p else p) = mi + p * (ma - mi)).
    { intros p H. destruct keep eqn:K.
      - rewrite Hr2s by assumption. unfold through. field.
      - destruct (Hkeep eq_refl) as [-> ->]. lra. }
    split; [|split; [|split; [|split; [|split]]]].
    - apply (chain_cons c _ _ (fun _ => r1) F); [reflexivity|now apply sample_maps|].
      apply (chain_cons c _ _ F (fun _ x => x)); [exact Hb|now apply channel_maps|apply chain_nil].
    - destruct keep.
      + apply (chain_cons c _ _ G (fun _ => r2)); [apply inverse_on|now apply channel_maps|].
        apply (chain_cons c _ _ (fun _ => r2) (fun _ x => x)); [reflexivity|now apply sample_maps|apply chain_nil].
      + apply (chain_cons c _ _ G (fun _ x => x)); [apply inverse_on|now apply channel_maps|apply chain_nil].
    - repeat constructor. exact Hb.
    - constructor; [apply inverse_on|]. destruct keep; repeat constructor.
    - intros ch x Hch Hx. cbv beta zeta. destruct (HGs ch Hch) as [HG1 _].
      rewrite Hr1s by assumption. set (u := through mi 0 ma 1 x).
      assert (Hu : 0 <= u <= 1).
      { unfold u, through. assert (0 < / (ma - mi)) by (apply Rinv_0_lt_compat; lra). unfold Rdiv.
        rewrite Rplus_0_l, Rminus_0_r, Rmult_1_r. split; [apply Rmult_le_pos; lra|].
        apply Rmult_le_reg_r with (ma - mi); [lra|]. rewrite Rmult_assoc, Rinv_l by lra. lra. }
      assert (Ht : 0 <= u * INR (n - 1) <= INR (n - 1)) by nra.
      destruct (find_cell n _ Hn Ht) as [k [Hk Hc]].
      pose proof (table_rise ch k (k + 1) Hch ltac:(lia) ltac:(lia)) as Hlt.
      assert (EF : F ch u = e ch k + (u * INR (n - 1) - INR k) * (e ch (k + 1)%nat - e ch k)) by now apply HFs.
      assert (Hin : e ch k <= F ch u <= e ch (k + 1)%nat).
      { rewrite EF. rewrite plus_INR in Hc. cbn [INR] in Hc. nra. }
      assert (EG : G ch (F ch u) = u).
      { rewrite (HG1 k _ Hk Hin), EF. field. lra. }
      rewrite EG, Hup by assumption. unfold u, through. field. lra.
    - intros ch y Hch Hy. cbv beta zeta. destruct (HGs ch Hch) as [HG1 _].
      destruct (table_cell ch y Hch Hy) as [k [Hk Hc]].
      pose proof (table_rise ch k (k + 1) Hch ltac:(lia) ltac:(lia)) as Hlt.
      pose proof (cell_ratio ch k y Hch Hk Hc) as Hq.
      set (q := (y - e ch k) / (e ch (k + 1)%nat - e ch k)) in *.
      assert (EG : G ch y = (INR k + q) / INR (n - 1)) by now apply HG1.
      assert (Hk1 : 0 <= INR k /\ INR k + 1 <= INR (n - 1)).
      { split; [apply pos_INR|]. rewrite <- S_INR. apply le_INR. lia. }
      assert (Hp1 : 0 <= G ch y <= 1).
      { rewrite EG. assert (0 < / INR (n - 1)) by now apply Rinv_0_lt_compat. unfold Rdiv. split; [apply Rmult_le_pos; lra|].
        apply Rmult_le_reg_r with (INR (n - 1)); [lra|]. rewrite Rmult_assoc, Rinv_l by lra. lra. }
      rewrite Hup by assumption. rewrite Hr1s by nra.
      replace (through mi 0 ma 1 (mi + G ch y * (ma - mi))) with (G ch y) by (unfold through; field; lra).
      rewrite (HFs ch k (G ch y) Hch Hk).
      + rewrite EG. unfold q. field. split; lra.
      + rewrite EG, plus_INR. cbn [INR]. replace ((INR k + q) / INR (n - 1) * INR (n - 1)) with (INR k + q) by (field; lra). lra.
  Qed.
End Table.

Theorem index_map_inverse c n channels samples mi ma ps :
  risingTable n channels samples -> mi < ma -> forwardLUT channels samples mi ma ps ->
  exists inv f g,
    generateLUT1DInverseIndexMap n channels samples mi ma = Ok inv /\
    mapsRGB c (bareList (ps ++ inv)) f /\ mapsRGB c (bareList (inv ++ ps)) g /\
    (forall ch x, (ch < 3)%nat -> mi <= x <= ma -> f ch x = x) /\
    (forall ch y, (ch < 3)%nat -> column channels samples ch 0 <= y <= column channels samples ch (n - 1) -> g ch y = y).
Proof.
  intros HT Hr Hps. destruct (inverse_pieces n channels samples HT c mi ma ps Hr Hps) as [F [G [inv [E [HF [HG [B1 [B2 [H1 H2]]]]]]]]].
  exists inv, (fun ch x => G ch (F ch x)), (fun ch y => F ch (G ch y)). split; [exact E|].
  split; [apply list_maps; cbn [procs_of bareList]; now apply chain_app|].
  split; [apply list_maps; cbn [procs_of bareList]; now apply chain_app|]. auto.
Qed.
