(** Facts about every node and every process list, for any arithmetic. *)
From Verif Require Export PStruct.

Section Nodes.
  Context {T : Type} {N : Num T}.

  Lemma ec_form h p st (values : list T) :
    st <> 0 ->
    ecProcess h p values st =
    let* dIn := dgetE (h_attrs h) "inBitDepth" in
    let* dOut := dgetE (h_attrs h) "outBitDepth" in
    pixelwise (ecFull (ecStyleOf (match dget (h_attrs h) "style" with Some s => s | None => AStr "" end))
                 dIn dOut p st (ecExtra st values)) (Nat.leb st (List.length values)) st values.
  Proof.
    intro H. unfold ecProcess. apply bind_ext; intros dIn _. apply bind_ext; intros dOut _.
    cbv zeta. rewrite effStride_pos by assumption. rewrite ecLoop by assumption.
    destruct (Nat.leb st (List.length values)) eqn:E.
    - apply Nat.leb_le in E. apply pixelLoop_form; [assumption|]. apply ecFull_len.
      apply ecExtra_length. exact E.
    - apply Nat.leb_gt in E. unfold pixelLoop, pixelwise, pydiv, pixels, leftover.
      destruct st; [congruence|]. cbn [bind]. rewrite Nat.div_small by assumption. reflexivity.
  Qed.

  (** Stride 0 means one pixel as long as the buffer. *)
  Lemma leaf_stride0 c h b (values : list T) :
    values <> [] ->
    match b with BGroup _ | BReference _ (Some _) => False | _ => True end ->
    nodeProcess c (Node h b) values 0 = nodeProcess c (Node h b) values (List.length values).
  Proof.
    intros Hv Hb. assert (Hl : List.length values <> 0) by (destruct values; simpl; congruence).
    assert (E : effStride (List.length values) values = effStride 0 values)
      by (rewrite effStride_pos by assumption; reflexivity).
    destruct b as [| | | |v|v|ps|ps|p|w [pl|]|ps]; try contradiction; cbn [nodeProcess]; try reflexivity;
      unfold matrixProcess, lut1dProcess, lut3dProcess, cdlProcess, gammaProcess, logProcess, ecProcess;
      rewrite E; reflexivity.
  Qed.

  Lemma leaf_empty0 c h b o :
    match b with BGroup _ | BReference _ (Some _) => False | _ => True end ->
    nodeProcess c (Node h b) [] 0 = Ok o -> po_out o = [] /\ po_in o = [].
  Proof.
    intros Hb H.
    destruct b as [| | | |v|v|ps|ps|p|w [pl|]|ps]; try contradiction; cbn [nodeProcess] in H.
    - apply rangeProcess_length in H. destruct H as [H1 [H2 _]]. rewrite H2.
      destruct (po_out o); [auto|discriminate].
    - unfold matrixProcess in H. inv_ok. destruct (lastArray (h_elems h)); inv_ok. discriminate.
    - unfold lut1dProcess in H. inv_ok. destruct (lastArray (h_elems h)); [|discriminate].
      unfold pixelLoop in H. inv_ok. discriminate.
    - unfold lut3dProcess in H. inv_ok. destruct (lastArray (h_elems h)); [|discriminate].
      unfold pixelLoop in H. inv_ok. discriminate.
    - unfold cdlProcess in H. simpl in H. injection H as <-. auto.
    - unfold cdlProcess in H. simpl in H. injection H as <-. auto.
    - unfold gammaProcess in H. inv_ok. destruct x1. unfold pixelLoop in H. inv_ok. discriminate.
    - unfold logProcess in H. inv_ok. unfold pixelLoop in H. inv_ok. discriminate.
    - unfold ecProcess in H. inv_ok. unfold pixelLoop in H. inv_ok. discriminate.
    - injection H as <-. auto.
  Qed.

  Lemma leaf_length_pos c h b (values : list T) st o :
    st <> 0 ->
    match b with BGroup _ | BReference _ (Some _) => False | _ => True end ->
    nodeProcess c (Node h b) values st = Ok o ->
    List.length (po_out o) = List.length values /\ List.length (po_in o) = List.length values.
  Proof.
    intros Hst Hb H.
    destruct b as [| | | |v|v|ps|ps|p|w [pl|]|ps]; try contradiction; cbn [nodeProcess] in H.
    - apply rangeProcess_length in H. destruct H as [H1 [H2 _]]. rewrite H2. auto.
    - rewrite matrix_form in H by assumption. inv_ok. destruct (lastArray (h_elems h)); [|discriminate].
      eapply pixelwise_length; [exact Hst | | exact H]. apply matrix_len.
    - rewrite lut1d_form in H by assumption. inv_ok. destruct (lastArray (h_elems h)); [|discriminate].
      eapply pixelwise_length; [exact Hst | | exact H]. apply lut1d_len.
    - rewrite lut3d_form in H by assumption. inv_ok. destruct (lastArray (h_elems h)); [|discriminate].
      eapply pixelwise_length; [exact Hst | | exact H]. apply lut3d_len.
    - rewrite cdl_form in H by assumption. destruct (Nat.ltb st 3); [injection H as <-; auto|].
      inv_ok. cbv zeta in H. destruct (negb _ && _); [discriminate|].
      eapply pixelwise_length; [exact Hst | | exact H]. apply cdl_len.
    - rewrite cdl_form in H by assumption. destruct (Nat.ltb st 3); [injection H as <-; auto|].
      inv_ok. cbv zeta in H. destruct (negb _ && _); [discriminate|].
      eapply pixelwise_length; [exact Hst | | exact H]. apply cdl_len.
    - rewrite gamma_form in H by assumption. inv_ok. destruct x1.
      eapply pixelwise_length; [exact Hst | | exact H]. apply gamma_len.
    - rewrite log_form in H by assumption. inv_ok.
      eapply pixelwise_length; [exact Hst | | exact H]. apply log_len.
    - rewrite ec_form in H by assumption. inv_ok.
      destruct (Nat.leb st (List.length values)) eqn:E.
      + apply Nat.leb_le in E. eapply pixelwise_length; [exact Hst | | exact H].
        apply ecFull_len. now apply ecExtra_length.
      + apply Nat.leb_gt in E. unfold pixelwise, pixels, leftover in H.
        rewrite Nat.div_small in H by assumption. simpl in H. injection H as <-. simpl.
        now rewrite repeat_length.
    - injection H as <-. auto.
  Qed.

  Lemma leaf_length c h b (values : list T) st o :
    match b with BGroup _ | BReference _ (Some _) => False | _ => True end ->
    nodeProcess c (Node h b) values st = Ok o ->
    List.length (po_out o) = List.length values /\ List.length (po_in o) = List.length values.
  Proof.
    intros Hb H. destruct st as [|st]; [|eapply leaf_length_pos; [|exact Hb|exact H]; discriminate].
    destruct values as [|x t].
    - destruct (leaf_empty0 _ _ _ _ Hb H) as [-> ->]. auto.
    - rewrite leaf_stride0 in H; [|discriminate|exact Hb].
      eapply leaf_length_pos; [|exact Hb|exact H]. discriminate.
  Qed.

  Lemma bypassOut_length prev next (v o : list T) :
    bypassOut prev next v = Ok o -> List.length o = List.length v.
  Proof.
    unfold bypassOut. intro H.
    destruct prev as [p|]; [|injection H as <-; auto].
    destruct next as [q|]; [|injection H as <-; auto].
    destruct (negb _); [|injection H as <-; auto].
    apply bind_ok in H. destruct H as [r [H E]]. injection E as <-.
    apply rangeProcess_length in H. tauto.
  Qed.

  Lemma chainOut_length hb run prev ps st (v o : list T) :
    Forall (fun n => forall v o, run n v st = Ok o -> List.length (po_out o) = List.length v) ps ->
    chainOut hb run prev ps st v = Ok o -> List.length o = List.length v.
  Proof.
    revert prev v. induction ps as [|n rest IH]; intros prev v HF H; simpl in H.
    - injection H as <-. reflexivity.
    - inversion HF as [|? ? Hn Hr]; subst. apply bind_ok in H. destruct H as [v1 [H1 H]].
      apply IH in H; [|assumption]. rewrite H.
      destruct (skips hb n).
      + eapply bypassOut_length; eauto.
      + apply bind_ok in H1. destruct H1 as [r [H1 E]]. injection E as <-. eauto.
  Qed.

  Lemma chain_inv_length hb run prev ps st k s s' :
    Forall (fun n => forall v o, run n v st = Ok o ->
              List.length (po_out o) = List.length v /\ List.length (po_in o) = List.length v) ps ->
    List.length (po_in s) = k -> List.length (po_out s) = k ->
    chain hb run prev ps st s = Ok s' -> List.length (po_in s') = k /\ List.length (po_out s') = k.
  Proof.
    revert prev s. induction ps as [|n rest IH]; intros prev s HF H1 H2 H; simpl in H.
    - injection H as <-. auto.
    - inversion HF as [|? ? Hn Hr]; subst. apply bind_ok in H. destruct H as [s1 [Hs H]].
      assert (Hst : forall o v, v = po_out s -> List.length (po_out o) = List.length v -> List.length (po_in o) = List.length v ->
                List.length (po_in (stepOut s o)) = List.length (po_in s) /\
                List.length (po_out (stepOut s o)) = List.length (po_in s)).
      { intros o v -> E1 E2. unfold stepOut. cbn [po_in po_out]. destruct (po_same s); split; congruence. }
      assert (E : List.length (po_in s1) = List.length (po_in s) /\ List.length (po_out s1) = List.length (po_in s)).
      { destruct (notBypassed n || negb hb).
        - apply bind_ok in Hs. destruct Hs as [o [Ho Hs]]. apply Ok_inj in Hs. subst s1.
          destruct (Hn _ _ Ho). eapply Hst; eauto.
        - unfold bypassStep in Hs.
          destruct prev as [p|]; [|injection Hs as <-; auto].
          destruct (hd_error rest) as [q|]; [|injection Hs as <-; auto].
          destruct (negb _); [|injection Hs as <-; auto].
          apply bind_ok in Hs. destruct Hs as [o [Ho Hs]]. apply Ok_inj in Hs. subst s1.
          apply rangeProcess_length in Ho. destruct Ho as [E1 [E2 _]].
          eapply Hst; eauto. congruence. }
      destruct E as [E1 E2]. eapply (IH (Some n) s1); eauto; congruence.
  Qed.

  Lemma node_length c (n : node T) : forall values st o,
    nodeProcess c n values st = Ok o ->
    List.length (po_out o) = List.length values /\ List.length (po_in o) = List.length values.
  Proof.
    induction n as [h b HG HR] using node_deep_ind. intros values st o H.
    destruct b as [| | | |v|v|ps|ps|p|w [[pa pv pe pps]|]|ps]; try (eapply leaf_length; eauto; exact I).
    - cbn [nodeProcess] in H. rewrite bind_ret in H.
      specialize (HR _ _ _ _ _ eq_refl).
      eapply chain_inv_length in H.
      + destruct H as [H1 H2]. split; [exact H2|exact H1].
      + eapply Forall_impl; [|exact HR]. intros m Hm v' o' E. eapply Hm; eauto.
      + reflexivity.
      + cbn [po_out]. now rewrite map_length.
    - cbn [nodeProcess] in H. specialize (HG _ eq_refl).
      eapply chain_inv_length in H.
      + destruct H as [H1 H2]. split; [exact H2|exact H1].
      + eapply Forall_impl; [|exact HG]. intros m Hm v' o' E. eapply Hm; eauto.
      + reflexivity.
      + reflexivity.
  Qed.

  Lemma list_length c (l : plist T) values st o :
    listProcess c l values st = Ok o ->
    List.length (po_out o) = List.length values /\ po_in o = values /\ po_same o = false.
  Proof.
    unfold listProcess. intro H. split.
    - eapply chain_inv_length in H; [ destruct H as [_ H]; exact H | | | ].
      + apply Forall_forall. intros n _ v o' E. eapply node_length; eauto.
      + reflexivity.
      + cbn [po_out]. now rewrite map_length.
    - apply chain_fresh in H; [|reflexivity]. exact H.
  Qed.

  (* ---------------------------------------------------------------- *)
  (** * Pixel independence *)

  Lemma chainOut_pwise hb run prev ps st :
    Forall (fun n => pwise st (fun v => let* o := run n v st in Ok (po_out o)) /\
                     lenpres st (fun v => let* o := run n v st in Ok (po_out o))) ps ->
    pwise st (chainOut hb run prev ps st).
  Proof.
    revert prev. induction ps as [|n rest IH]; intros prev HF; simpl.
    - apply pwise_ok.
    - inversion HF as [|? ? [Hp Hl] Hr]; subst. apply pwise_bind.
      + destruct (skips hb n); [|exact Hp].
        unfold bypassOut. destruct prev as [p|]; [|apply pwise_ok].
        destruct (hd_error rest) as [q|]; [|apply pwise_ok].
        destruct (negb _); [apply range_pwise|apply pwise_ok].
      + destruct (skips hb n); [|exact Hl].
        intros px o Hpx H. apply bypassOut_length in H. congruence.
      + apply IH. assumption.
  Qed.

  Lemma pwise_map32 st (g : list T -> res (list T)) :
    pwise st g -> pwise st (fun v => g (map nf32 v)).
  Proof.
    intro H. apply (pwise_bind st (fun v => Ok (map nf32 v)) g).
    - intros pxs _ _. induction pxs as [|px t IH]; [reflexivity|].
      simpl in *. rewrite <- IH. now rewrite map_app.
    - intros px o Hp E. injection E as <-. now rewrite map_length.
    - exact H.
  Qed.

  Lemma noneInside_group bad h (ps : list (node T)) :
    noneInside bad (Node h (BGroup ps)) -> Forall (noneInside bad) ps.
  Proof.
    intros [_ H]. induction ps as [|p t IH]; constructor; [apply H | apply IH; apply H].
  Qed.
  Lemma noneInside_ref bad h w a v e (ps : list (node T)) :
    noneInside bad (Node h (BReference w (Some (PList a v e ps)))) -> Forall (noneInside bad) ps.
  Proof.
    intros [_ H]. induction ps as [|p t IH]; constructor; [apply H | apply IH; apply H].
  Qed.

  Lemma node_lenpres c (n : node T) st : lenpres st (fun v => let* o := nodeProcess c n v st in Ok (po_out o)).
  Proof.
    intros px o Hp H. apply bind_ok in H. destruct H as [r [H E]]. injection E as <-.
    apply node_length in H. destruct H. congruence.
  Qed.

  Lemma cdl_pwise c h v st :
    st <> 0 -> pwise st (fun w => let* o := cdlProcess (T:=T) c h v w st in Ok (po_out o)).
  Proof.
    intro Hst. set (style := match dget (h_attrs h) "style" with Some s => s | None => AStr "" end).
    destruct (Nat.ltb st 3) eqn:E0;
      [|destruct (dgetE (h_attrs h) "inBitDepth") as [dIn|e] eqn:E1;
        [destruct (dgetE (h_attrs h) "outBitDepth") as [dOut|e] eqn:E2;
          [destruct (negb (autodesk_on c) && cdlAutodeskStyle style) eqn:E3|]|]];
        (eapply pwise_ext;
          [intro w; rewrite cdl_form by assumption; rewrite E0; try (rewrite E1; cbn [bind]);
           try (rewrite E2; cbn [bind]); fold style; cbv zeta; try rewrite E3; reflexivity|]); cbn [bind po_out];
        try apply pwise_err; try apply pwise_ok.
    apply pixelwise_pwise; [assumption|apply cdl_len].
  Qed.

  Lemma node_pwise c (n : node T) st :
    st <> 0 -> noneInside isExposureContrast n ->
    pwise st (fun v => let* o := nodeProcess c n v st in Ok (po_out o)).
  Proof.
    intro Hst. induction n as [h b HG HR] using node_deep_ind. intro HE.
    destruct b as [| | | |v|v|ps|ps|p|w [[pa pv pe pps]|]|ps]; cbn [nodeProcess].
    - apply range_pwise.
    - destruct (dgetE (h_attrs h) "inBitDepth") as [dIn|e] eqn:E1;
        [destruct (dgetE (h_attrs h) "outBitDepth") as [dOut|e] eqn:E2;
          [destruct (lastArray (h_elems h)) as [a|] eqn:E3|]|];
        (eapply pwise_ext;
          [intro w; rewrite matrix_form by assumption; rewrite E1; cbn [bind];
           try (rewrite E2; cbn [bind]); try rewrite E3; reflexivity|]); cbn [bind];
        try apply pwise_err.
      apply pixelwise_pwise; [assumption|apply matrix_len].
    - destruct (dgetE (h_attrs h) "inBitDepth") as [dIn|e] eqn:E1;
        [destruct (dgetE (h_attrs h) "outBitDepth") as [dOut|e] eqn:E2;
          [destruct (lastArray (h_elems h)) as [a|] eqn:E3|]|];
        (eapply pwise_ext;
          [intro w; rewrite lut1d_form by assumption; rewrite E1; cbn [bind];
           try (rewrite E2; cbn [bind]); try rewrite E3; reflexivity|]); cbn [bind];
        try apply pwise_err.
      apply pixelwise_pwise; [assumption|apply lut1d_len].
    - destruct (dgetE (h_attrs h) "inBitDepth") as [dIn|e] eqn:E1;
        [destruct (dgetE (h_attrs h) "outBitDepth") as [dOut|e] eqn:E2;
          [destruct (lastArray (h_elems h)) as [a|] eqn:E3|]|];
        (eapply pwise_ext;
          [intro w; rewrite lut3d_form by assumption; rewrite E1; cbn [bind];
           try (rewrite E2; cbn [bind]); try rewrite E3; reflexivity|]); cbn [bind];
        try apply pwise_err.
      apply pixelwise_pwise; [assumption|apply lut3d_len].
    - now apply cdl_pwise.
    - now apply cdl_pwise.
    - destruct (dgetE (h_attrs h) "inBitDepth") as [dIn|e] eqn:E1;
        [destruct (dgetE (h_attrs h) "outBitDepth") as [dOut|e] eqn:E2;
          [destruct (gammaParams ps) as [[ga of]|e] eqn:E3|]|];
        (eapply pwise_ext;
          [intro w; rewrite gamma_form by assumption; rewrite E1; cbn [bind];
           try (rewrite E2; cbn [bind]); try rewrite E3; reflexivity|]); cbn [bind];
        try apply pwise_err.
      apply pixelwise_pwise; [assumption|apply gamma_len].
    - destruct (dgetE (h_attrs h) "inBitDepth") as [dIn|e] eqn:E1;
        [destruct (dgetE (h_attrs h) "outBitDepth") as [dOut|e] eqn:E2;
          [destruct (logParams ps) as [cs|e] eqn:E3|]|];
        (eapply pwise_ext;
          [intro w; rewrite log_form by assumption; rewrite E1; cbn [bind];
           try (rewrite E2; cbn [bind]); try rewrite E3; reflexivity|]); cbn [bind];
        try apply pwise_err.
      apply pixelwise_pwise; [assumption|apply log_len].
    - destruct HE as [HE _]. discriminate.
    - specialize (HR _ _ _ _ _ eq_refl). apply noneInside_ref in HE.
      eapply pwise_ext with (g := fun v => chainOut (autodesk_on c) (nodeProcess c) None pps st (map nf32 v)).
      { intro v. rewrite bind_ret, chain_out. reflexivity. }
      apply pwise_map32. apply chainOut_pwise.
      clear - HR HE. induction HR; inversion HE; subst; constructor; auto.
      split; [auto|]. apply node_lenpres.
    - apply pwise_ok.
    - specialize (HG _ eq_refl). apply noneInside_group in HE.
      eapply pwise_ext with (g := fun v => chainOut true (nodeProcess c) None ps st v).
      { intro v. rewrite chain_out. reflexivity. }
      apply chainOut_pwise.
      clear - HG HE. induction HG; inversion HE; subst; constructor; auto.
      split; [auto|]. apply node_lenpres.
  Qed.

  Theorem node_pixels c (n : node T) st pxs buf :
    st <> 0 -> noneInside isExposureContrast n -> pxs <> [] -> cutInto st pxs buf ->
    colours (nodeProcess c n buf st) = each (fun px => colours (nodeProcess c n px st)) pxs.
  Proof.
    intros Hst HE Hn [-> HF]. rewrite colours_toOpt, (node_pwise c n st Hst HE pxs Hn HF).
    apply each_ext. intros. now rewrite colours_toOpt.
  Qed.

  Theorem list_pixels c (l : plist T) st pxs buf :
    st <> 0 -> Forall (noneInside isExposureContrast) (procs_of l) -> cutInto st pxs buf -> pxs <> [] ->
    colours (listProcess c l buf st) = each (fun px => colours (listProcess c l px st)) pxs.
  Proof.
    intros Hst HE [-> HF] Hn.
    set (g := fun v => chainOut (autodesk_on c) (nodeProcess c) None (procs_of l) st (map nf32 v)).
    assert (E : forall v, colours (listProcess c l v st) = toOpt (g v)).
    { intro v. unfold listProcess. rewrite chain_colours. reflexivity. }
    rewrite E. assert (Hg : pwise st g).
    { apply pwise_map32. apply chainOut_pwise. eapply Forall_impl; [|exact HE].
      intros n Hne. split; [now apply node_pwise|apply node_lenpres]. }
    rewrite (Hg pxs Hn HF). apply each_ext. intros. now rewrite E.
  Qed.
End Nodes.
