(** Structural facts about nodes and lists, for any arithmetic: pixel
    independence, lengths, float32-ness, bypass, groups, references. *)
From Verif Require Export PChain.

Section Struct.
  Context {T : Type} {N : Num T}.

  (* ---------------------------------------------------------------- *)
  (** * Cutting into pixels *)

  Lemma pixels_concat st (pxs : list (list T)) :
    st <> 0 -> Forall (fun px => List.length px = st) pxs ->
    pixels st (concat pxs) = pxs /\ leftover st (concat pxs) = [].
  Proof.
    intros Hst HF.
    assert (Hl : List.length (concat pxs) = List.length pxs * st) by now apply concat_length_all.
    assert (Hd : List.length (concat pxs) / st = List.length pxs) by (rewrite Hl; now apply Nat.div_mul).
    split.
    - unfold pixels. rewrite Hd. clear Hd Hl.
      induction HF as [|px t Hp HF IH]; [reflexivity|].
      cbn [List.length seq map List.concat]. f_equal.
      + unfold slice. replace ((0 + 1) * st - 0 * st) with (List.length px) by lia. cbn [Nat.mul]. rewrite skipn_O.
        rewrite firstn_app, Nat.sub_diag, firstn_all, firstn_O, app_nil_r. reflexivity.
      + rewrite <- IH at 2. rewrite <- seq_shift, map_map. apply map_ext. intro p.
        rewrite slice_app_skip by (rewrite Hp; nia). rewrite Hp. f_equal; nia.
    - unfold leftover. rewrite Hd. apply skipn_all2. lia.
  Qed.

  Definition pwise (st : nat) (g : list T -> res (list T)) : Prop :=
    forall pxs, pxs <> [] -> Forall (fun px => List.length px = st) pxs ->
    toOpt (g (concat pxs)) = each (fun px => toOpt (g px)) pxs.

  Lemma pwise_err st e : pwise st (fun _ => Err e).
  Proof. intros pxs Hn _. destruct pxs as [|px t]; [congruence|]. reflexivity. Qed.

  Lemma pwise_ok st : pwise st Ok.
  Proof.
    intros pxs _ _. induction pxs as [|px t IH]; [reflexivity|].
    simpl in *. rewrite <- IH. reflexivity.
  Qed.

  Lemma pwise_hdr {A} st (m : res A) (k : A -> list T -> res (list T)) :
    (forall a, m = Ok a -> pwise st (k a)) -> pwise st (fun v => let* a := m in k a v).
  Proof. intro H. destruct m; simpl; [now apply H | apply pwise_err]. Qed.

  Lemma each_mapM f (pxs : list (list T)) :
    each (fun px => toOpt (f px)) pxs = option_map (fun l => concat l) (toOpt (mapM f pxs)).
  Proof.
    induction pxs as [|px t IH]; simpl; [reflexivity|].
    destruct (f px) as [a|e]; simpl; [|reflexivity].
    rewrite IH. destruct (mapM f t); reflexivity.
  Qed.

  Lemma each_ext f g (pxs : list (list T)) :
    (forall px, In px pxs -> f px = g px) -> each f pxs = each g pxs.
  Proof.
    induction pxs as [|px t IH]; intro H; simpl; [reflexivity|].
    rewrite H by (left; reflexivity). rewrite IH; [reflexivity|]. intros; apply H; right; assumption.
  Qed.

  Lemma pwise_ext st g h : (forall v, toOpt (g v) = toOpt (h v)) -> pwise st g -> pwise st h.
  Proof.
    intros E H pxs Hn HF. rewrite <- E, (H pxs Hn HF). apply each_ext. intros; apply E.
  Qed.

  Lemma pwise_bind st g h :
    pwise st g -> lenpres st g -> pwise st h -> pwise st (fun v => let* w := g v in h w).
  Proof.
    intros Hg Hlen Hh pxs Hn HF. specialize (Hg pxs Hn HF).
    rewrite each_mapM in Hg.
    destruct (mapM g pxs) as [outs|e] eqn:E; simpl in Hg.
    - destruct (g (concat pxs)) as [w|]; [|discriminate]. injection Hg as ->. simpl.
      rewrite Hh.
      + clear Hn. revert outs E. induction HF as [|px t Hp HF IH]; intros outs E; simpl in E.
        * injection E as <-. reflexivity.
        * apply bind_ok in E. destruct E as [o [Ho E]]. apply bind_ok in E. destruct E as [os [Hos E]].
          injection E as <-. simpl. rewrite Ho. simpl. rewrite (IH _ Hos). reflexivity.
      + intros ->. apply mapM_length in E. destruct pxs; [congruence|discriminate].
      + eapply mapM_Forall; eauto.
    - destruct (g (concat pxs)) as [w|]; [discriminate|]. simpl. clear Hg Hn HF.
      symmetry. induction pxs as [|px t IH]; simpl in *; [discriminate|].
      destruct (g px) as [o|]; simpl in *; [|reflexivity].
      destruct (mapM g t) as [os|]; [discriminate|]. rewrite IH by assumption. destruct (h o); reflexivity.
  Qed.

  Lemma pixelwise_pwise f b st :
    st <> 0 -> lenpres st f -> pwise st (fun v => let* o := pixelwise f b st v in Ok (po_out o)).
  Proof.
    intros Hst Hf pxs Hn HF.
    assert (E : forall l, Forall (fun px => List.length px = st) l ->
      (let* o := pixelwise f b st (concat l) in Ok (po_out o)) =
      let* outs := mapM f l in Ok (concat outs)).
    { intros l Hl. unfold pixelwise. destruct (pixels_concat st l Hst Hl) as [E1 E2].
      rewrite E1, E2. rewrite bind_assoc. apply bind_ext. intros outs _. simpl.
      rewrite app_nil_r. reflexivity. }
    rewrite E by assumption.
    transitivity (each (fun px => toOpt (f px)) pxs).
    - rewrite each_mapM. destruct (mapM f pxs); reflexivity.
    - apply each_ext. intros px Hp.
      assert (Hl : List.length px = st) by (eapply (proj1 (Forall_forall _ _)) in HF; eauto).
      specialize (E [px] (Forall_cons _ Hl (Forall_nil _))). simpl in E. rewrite app_nil_r in E. rewrite E.
      destruct (f px) as [o|]; simpl; [now rewrite app_nil_r|reflexivity].
  Qed.

  Lemma elemwise_pwise (f : T -> res T) st : pwise st (mapM f).
  Proof.
    intros pxs _ _. induction pxs as [|px t IH]; [reflexivity|].
    simpl. rewrite mapM_app. rewrite <- IH. destruct (mapM f px); simpl; [|reflexivity].
    destruct (mapM f (concat t)); reflexivity.
  Qed.

  Lemma range_pwise (h : header T) st : pwise st (fun v => let* o := rangeProcess h v in Ok (po_out o)).
  Proof.
    eapply pwise_ext with (g := fun v => let* f := rangeFun h in mapM f v).
    - intro v. rewrite rangeProcess_elem. destruct (rangeFun h); simpl; [|reflexivity].
      destruct (mapM a v); reflexivity.
    - apply pwise_hdr. intros f _. apply elemwise_pwise.
  Qed.

  Lemma range_lenpres (h : header T) st : lenpres st (fun v => let* o := rangeProcess h v in Ok (po_out o)).
  Proof.
    intros px o Hp H. apply bind_ok in H. destruct H as [r [H E]]. injection E as <-.
    apply rangeProcess_length in H. destruct H. congruence.
  Qed.

  (* ---------------------------------------------------------------- *)
  (** * ExposureContrast *)

  (** The pixel function without the copy of extra channels. *)
  Definition ecCore (style : ecStyle) (dIn dOut : aval) (p : eparam T) (px : list T) : res (list T) :=
    let norm i px := upd px i (fun x => Ok (bitDepthToNormalized x dIn)) in
    match style with
    | ECLinear =>
        for_each (seq 0 3) (fun i px =>
          let* px := norm i px in
          let* px := upd px i (ecLinear p) in
          upd px i (fun x => Ok (normalizedToBitDepth x dOut))) px
    | ECVideo =>
        let* _ := norm 0%nat px in
        let* _ := pypow (e_pivot p) (ndiv n1 (nlit 183 100)) in
        let* _ := pyfdiv (npow (nofZ 2) (e_exposure p)) (e_pivot p) in
        Err TypeError
    | ECLog => let* _ := norm 0%nat px in Err NameError
    | ECOther => Ok px
    end.

  Lemma ecCore_length style dIn dOut p (px o : list T) :
    ecCore style dIn dOut p px = Ok o -> List.length o = List.length px.
  Proof.
    intro H. unfold ecCore in H. destruct style.
    - eapply for_each_length; [|exact H]. clear. intros i l l' H.
      apply bind_ok in H. destruct H as [l1 [H1 H]]. apply bind_ok in H. destruct H as [l2 [H2 H]].
      apply upd_length in H1, H2, H. congruence.
    - apply bind_ok in H. destruct H as [l1 [H1 H]]. apply bind_ok in H. destruct H as [l2 [H2 H]].
      apply bind_ok in H. destruct H as [l3 [H3 H]]. discriminate.
    - apply bind_ok in H. destruct H as [l1 [H1 H]]. discriminate.
    - injection H as <-. reflexivity.
  Qed.

  Definition ecExtra (st : nat) (vals : list T) : list T := skipn (Nat.min 3 st) (firstn st vals).
  Definition ecFull (style : ecStyle) (dIn dOut : aval) (p : eparam T) (st : nat) (ex px : list T) : res (list T) :=
    let* px' := ecCore style dIn dOut p px in Ok (firstn (Nat.min 3 st) px' ++ ex).

  Lemma copyFrom (src : list T) : forall k m (pre l : list T),
    List.length l = k -> m + k <= List.length src -> m = List.length pre ->
    for_each (seq m k) (fun i px => let* v := getn src i in setn px i v) (pre ++ l)
    = Ok (pre ++ slice src m (m + k)).
  Proof.
    induction k as [|k IH]; intros m pre l Hl Hm Hp; simpl.
    - destruct l; [|discriminate]. unfold slice. rewrite Nat.add_0_r, Nat.sub_diag. reflexivity.
    - destruct l as [|x l]; [discriminate|]. simpl in Hl.
      destruct (getn_lt src m) as [v Hv]; [lia|]. rewrite Hv. simpl.
      assert (Hs : setn (pre ++ x :: l) m v = Ok ((pre ++ [v]) ++ l)).
      { rewrite setn_lt by (rewrite app_length; simpl; lia). subst m.
        rewrite firstn_app, Nat.sub_diag, firstn_all, firstn_O, app_nil_r.
        rewrite skipn_app, skipn_all2 by lia.
        replace (S (List.length pre) - List.length pre) with 1 by lia. simpl.
        now rewrite <- app_assoc. }
      rewrite Hs. simpl. rewrite IH; try lia.
      + f_equal. rewrite <- app_assoc. f_equal. unfold slice.
        replace (m + S k - m) with (S k) by lia. replace (S m + k - S m) with k by lia.
        apply getn_some in Hv.
        assert (E : skipn m src = v :: skipn (S m) src).
        { clear -Hv. revert m Hv. induction src as [|s t IH]; intros [|m] Hv; simpl in *; try discriminate.
          - now injection Hv as ->.
          - now apply IH. }
        rewrite E. reflexivity.
      + rewrite app_length. simpl. lia.
  Qed.

  Lemma ecPixel_full style dIn dOut p st (vals px : list T) :
    List.length px = st -> st <= List.length vals ->
    ecPixel style dIn dOut p st vals px = ecFull style dIn dOut p st (ecExtra st vals) px.
  Proof.
    intros Hp Hv. unfold ecPixel, ecFull.
    change (match style with ECLinear => _ | ECVideo => _ | ECLog => _ | ECOther => _ end)
      with (ecCore style dIn dOut p px).
    apply bind_ext. intros px' Hc. apply ecCore_length in Hc.
    rewrite <- (firstn_skipn (Nat.min 3 st) px') at 1.
    rewrite copyFrom.
    - f_equal. f_equal. unfold ecExtra, slice.
      replace (Nat.min 3 st + (st - Nat.min 3 st)) with st by lia.
      rewrite skipn_firstn_comm. reflexivity.
    - rewrite skipn_length. lia.
    - lia.
    - rewrite firstn_length. lia.
  Qed.

  Lemma ecExtra_length st (vals : list T) :
    st <= List.length vals -> List.length (ecExtra st vals) = st - Nat.min 3 st.
  Proof. intro H. unfold ecExtra. rewrite skipn_length, firstn_length. lia. Qed.

  Lemma ecFull_len style dIn dOut p st ex :
    List.length ex = st - Nat.min 3 st -> lenpres st (ecFull style dIn dOut p st ex).
  Proof.
    intros He px o Hp H. unfold ecFull in H. apply bind_ok in H. destruct H as [px' [H E]].
    apply ecCore_length in H. apply Ok_inj in E. subst o. rewrite app_length, firstn_length. lia.
  Qed.

  Lemma ecLoop style dIn dOut p st (values : list T) :
    st <> 0 ->
    pixelLoop (ecPixel style dIn dOut p st) st values =
    pixelLoop (fun _ => ecFull style dIn dOut p st (ecExtra st values)) st values.
  Proof.
    intro Hst. unfold pixelLoop.
    destruct (Nat.lt_ge_cases (List.length values) st) as [Hlt|Hge].
    { unfold pydiv. destruct st; [congruence|]. cbn [bind]. rewrite Nat.div_small by assumption. reflexivity. }
    apply bind_ext. intros n Hn.
    f_equal.
    assert (Hn' : n * st <= List.length values).
    { unfold pydiv in Hn. destruct st; [congruence|]. apply Ok_inj in Hn. subst n.
      rewrite Nat.mul_comm. apply Nat.mul_div_le. congruence. }
    clear Hn.
    assert (G : forall m k vals outs, k + m = n ->
       List.length vals = List.length values -> ecExtra st vals = ecExtra st values ->
       for_each (seq k m)
         (fun p0 '(vals, outs) =>
            let* o := ecPixel style dIn dOut p st vals (slice vals (p0 * st) ((p0 + 1) * st)) in
            Ok (slice_set vals (p0 * st) o, slice_set outs (p0 * st) o)) (vals, outs) =
       for_each (seq k m)
         (fun p0 '(vals, outs) =>
            let* o := ecFull style dIn dOut p st (ecExtra st values) (slice vals (p0 * st) ((p0 + 1) * st)) in
            Ok (slice_set vals (p0 * st) o, slice_set outs (p0 * st) o)) (vals, outs)).
    { induction m as [|m IH]; intros k vals outs Hk Hl He; [reflexivity|].
      cbn [seq for_each].
      assert (Hlp : List.length (slice vals (k * st) ((k + 1) * st)) = st) by (rewrite slice_length; nia).
      rewrite ecPixel_full by (assumption || lia). rewrite He.
      rewrite !bind_assoc. apply bind_ext. intros o Ho. cbn [bind].
      assert (Hlo : List.length o = st).
      { eapply ecFull_len; [|exact Hlp|exact Ho]. rewrite ecExtra_length; lia. }
      apply IH; [lia | rewrite slice_set_length; nia |].
      destruct k as [|k].
      - unfold ecExtra at 1. unfold slice_set. cbn [Nat.mul firstn app].
        rewrite firstn_app, Hlo, Nat.sub_diag, firstn_O, app_nil_r.
        rewrite <- Hlo at 2. rewrite firstn_all.
        unfold ecFull in Ho. apply bind_ok in Ho. destruct Ho as [px' [Hc Ho]]. apply Ok_inj in Ho. subst o.
        apply ecCore_length in Hc.
        rewrite skipn_app. rewrite skipn_all2 by (rewrite firstn_length; lia).
        rewrite firstn_length. replace (Nat.min 3 st - Nat.min (Nat.min 3 st) (List.length px')) with 0 by lia.
        reflexivity.
      - rewrite <- He. unfold ecExtra. f_equal. unfold slice_set.
        rewrite firstn_app. rewrite firstn_firstn. rewrite firstn_length.
        replace (Nat.min st (S k * st)) with st by nia.
        replace (st - Nat.min (S k * st) (List.length vals)) with 0 by nia.
        rewrite firstn_O, app_nil_r. reflexivity. }
    apply (G n 0 values _ eq_refl eq_refl eq_refl).
  Qed.
End Struct.
