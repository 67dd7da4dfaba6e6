(** Colour nodes, one channel at a time (any arithmetic). *)
From Verif Require Export MBuild PList.

Section Elem.
  Context {T : Type} {N : Num T}.

  (* ---------------------------------------------------------------- *)
  (** * Loops over the first channels *)

  Lemma updX_bind3 (px : list T) i f g h :
    (let* px := upd px i f in let* px := upd px i g in upd px i h) =
    updX px i (fun x => let* a := f x in let* b := g (nf32 a) in let* c := h (nf32 b) in Ok (nf32 c)).
  Proof.
    transitivity (let* p := (let* p := updX px i (fun x => let* y := f x in Ok (nf32 y)) in
                             updX p i (fun x => let* y := g x in Ok (nf32 y))) in
                  updX p i (fun x => let* y := h x in Ok (nf32 y))).
    - rewrite bind_assoc. rewrite upd_updX. apply bind_ext; intros p _. rewrite upd_updX.
      apply bind_ext; intros q _. apply upd_updX.
    - rewrite updX_updX, updX_updX. apply updX_ext. intro x. rewrite !bind_assoc.
      apply bind_ext; intros a _. cbn [bind]. rewrite !bind_assoc. apply bind_ext; intros b _. reflexivity.
  Qed.

  Lemma updX_bind2 (px : list T) i f g :
    (let* px := upd px i f in upd px i g) =
    updX px i (fun x => let* a := f x in let* b := g (nf32 a) in Ok (nf32 b)).
  Proof.
    transitivity (let* p := updX px i (fun x => let* y := f x in Ok (nf32 y)) in
                  updX p i (fun x => let* y := g x in Ok (nf32 y))).
    - rewrite upd_updX. apply bind_ext; intros p _. apply upd_updX.
    - rewrite updX_updX. apply updX_ext. intro x. rewrite !bind_assoc.
      apply bind_ext; intros a _. reflexivity.
  Qed.

  (** A loop over channels [0..k-1] each of which rewrites its own channel. *)
  Lemma channelLoop (g : nat -> T -> res T) (body : nat -> list T -> res (list T)) (px : list T) k :
    (forall i l, body i l = updX l i (g i)) -> k <= List.length px ->
    for_each (seq 0 k) body px = let* ys := mapMi g 0 (firstn k px) in Ok (ys ++ skipn k px).
  Proof. intros H Hk. apply for_each_elem0; assumption. Qed.

  (** Past the end of the pixel the loop fails. *)
  Lemma channelLoop_short (g : nat -> T -> res T) (body : nat -> list T -> res (list T)) k : forall (px : list T) j,
    (forall i l, body i l = updX l i (g i)) -> j <= List.length px -> List.length px < j + k ->
    exists e, for_each (seq j k) body px = Err e.
  Proof.
    induction k as [|k IH]; intros px j H Hj Hk; [lia|]. cbn [seq for_each].
    destruct (body j px) as [px'|e] eqn:E; [|exists e; reflexivity]. cbn [bind].
    rewrite H in E. pose proof (updX_length _ _ _ _ E) as Hl.
    unfold updX in E. apply bind_ok in E. destruct E as [x [Ex _]]. apply getn_ok_lt in Ex.
    apply IH; [assumption|lia|lia].
  Qed.

  (* ---------------------------------------------------------------- *)
  (** * LUT1D *)

  (** Index-map stage of one channel. *)
  Definition stage (ims : list (imap T)) (a : array T) (dIn : aval) (i k : nat) (x : T) : res T :=
    match ims with
    | [] => Ok (nf32 (bitDepthToNormalized x dIn))
    | m0 :: rest =>
        let* m := match rest with [] => Ok m0 | _ => getn ims i end in
        let* v := imapProcess m x in
        let* d := dim a k in
        Ok (nf32 (ndiv (nf32 v) (nofZ (Z.of_nat d - 1))))
    end.

  Lemma indexStage_updX ims a dIn i k (px : list T) :
    indexStage ims a dIn i k px = updX px i (stage ims a dIn i k).
  Proof.
    unfold indexStage, stage. destruct ims as [|m0 rest].
    - rewrite upd_updX. apply updX_ext. reflexivity.
    - set (mm := match rest with [] => Ok m0 | _ => getn (m0 :: rest) i end).
      destruct (Nat.lt_ge_cases i (List.length px)) as [Hi|Hi].
      + destruct mm as [m|e]; cbn [bind].
        * destruct (dim a k) as [d|e] eqn:Ed; cbn [bind].
          -- rewrite updX_bind2. apply updX_ext. intro x. apply bind_ext; intros v _. reflexivity.
          -- unfold upd, updX. destruct (getn_lt px i Hi) as [x Hx]. rewrite Hx. cbn [bind].
             destruct (imapProcess m x); cbn [bind]; [|reflexivity].
             rewrite setn_lt by assumption. reflexivity.
        * unfold updX. destruct (getn_lt px i Hi) as [x Hx]. rewrite Hx. reflexivity.
      + assert (E : forall f, updX px i f = Err IndexError).
        { intro f. unfold updX. now rewrite getn_ge. }
        rewrite E. unfold mm. destruct rest.
        * cbn [bind]. rewrite upd_updX, E. reflexivity.
        * unfold getn at 1. destruct (nth_error (m0 :: i0 :: rest) i); cbn [bind]; [|reflexivity].
          rewrite upd_updX, E. reflexivity.
  Qed.

  Definition lookup1 (a : array T) (cubic hd : bool) (x : T) (i : nat) : res T :=
    if cubic then lookup1DCubic a x i
    else if hd then lookup1DHalfDomain a x i
    else lookup1DLinear a x i.

  Definition lut1dElem (a : array T) (ims : list (imap T)) (dIn : aval) (cubic hd : bool) (i : nat) (x : T) : res T :=
    let* y := stage ims a dIn i 0 x in
    let* z := lookup1 a cubic hd y i in Ok (nf32 z).

  Lemma lut1dPixel_form a ims dIn cubic hd st (px : list T) :
    List.length px = st ->
    lut1dPixel a ims dIn cubic hd st px =
    let* ys := mapMi (lut1dElem a ims dIn cubic hd) 0 (firstn 3 px) in Ok (ys ++ skipn 3 px).
  Proof.
    intro Hl. unfold lut1dPixel.
    rewrite (channelLoop (lut1dElem a ims dIn cubic hd)).
    - rewrite bind_assoc.
      assert (E : firstn (Nat.min 3 st) px = firstn 3 px /\ skipn (Nat.min 3 st) px = skipn 3 px).
      { destruct (Nat.le_gt_cases 3 st) as [H|H].
        - rewrite Nat.min_l by lia. auto.
        - rewrite Nat.min_r by lia. rewrite !firstn_all2, !skipn_all2 by lia. auto. }
      destruct E as [-> ->]. apply bind_ext; intros ys Hy. cbn [bind]. apply copyExtra_id.
      apply mapMi_length in Hy. rewrite app_length, Hy, firstn_length, skipn_length. lia.
    - intros i l. rewrite indexStage_updX.
      transitivity (let* p := updX l i (stage ims a dIn i 0) in
                    updX p i (fun x => let* z := lookup1 a cubic hd x i in Ok (nf32 z))).
      + apply bind_ext; intros p _. unfold lookup1. destruct cubic; [|destruct hd]; apply upd_updX.
      + rewrite updX_updX. reflexivity.
    - lia.
  Qed.

  (* ---------------------------------------------------------------- *)
  (** * Gamma, Log, ExposureContrast *)

  Definition conv (dIn dOut : aval) (f : T -> res T) (x : T) : res T :=
    let* y := f (nf32 (bitDepthToNormalized x dIn)) in
    Ok (nf32 (normalizedToBitDepth (nf32 y) dOut)).

  Definition gammaElem (f : T -> T -> T -> res T) (dIn dOut : aval) (gamma offset : list T) (i : nat) : T -> res T :=
    conv dIn dOut (fun x => let* g := getn gamma i in let* o := getn offset i in f g o x).

  Lemma gammaBody f dIn dOut gamma offset i (px : list T) :
    (let* px := upd px i (fun x => Ok (bitDepthToNormalized x dIn)) in
     let* px := upd px i (fun x => let* g := getn gamma i in let* o := getn offset i in f g o x) in
     upd px i (fun x => Ok (normalizedToBitDepth x dOut))) = updX px i (gammaElem f dIn dOut gamma offset i).
  Proof. rewrite updX_bind3. apply updX_ext. intro x. reflexivity. Qed.

  Lemma keep_length (ys : list T) px k :
    List.length ys = List.length (firstn k px) -> List.length (ys ++ skipn k px) = List.length px.
  Proof. intro H. rewrite app_length, H, firstn_length, skipn_length. lia. Qed.

  Lemma gammaPixel_form f dIn dOut gamma offset st (px : list T) :
    List.length px = st -> 3 <= st ->
    gammaPixel (Some f) dIn dOut gamma offset st px =
    let* ys := mapMi (gammaElem f dIn dOut gamma offset) 0 (firstn 3 px) in Ok (ys ++ skipn 3 px).
  Proof.
    intros Hl H3. unfold gammaPixel. rewrite (channelLoop (gammaElem f dIn dOut gamma offset)).
    - rewrite bind_assoc. apply bind_ext; intros ys Hy. cbn [bind]. apply copyExtra_id.
      apply mapMi_length in Hy. rewrite keep_length; assumption.
    - intros; apply gammaBody.
    - lia.
  Qed.

  Lemma gammaPixel_none dIn dOut gamma offset st (px : list T) :
    List.length px = st -> gammaPixel None dIn dOut gamma offset st px = Ok px.
  Proof. intro H. unfold gammaPixel. cbn [bind]. now apply copyExtra_id. Qed.

  Lemma gammaPixel_short f dIn dOut gamma offset st (px : list T) :
    List.length px < 3 -> exists e, gammaPixel (Some f) dIn dOut gamma offset st px = Err e.
  Proof.
    intro H. unfold gammaPixel.
    destruct (channelLoop_short (gammaElem f dIn dOut gamma offset) _ 3 px 0
               (fun i l => gammaBody f dIn dOut gamma offset i l)) as [e E]; [lia|lia|].
    exists e. rewrite E. reflexivity.
  Qed.

  (** The scalar function of each Log style. *)
  Definition logFun (style : logStyle) (cs : list (lchan T)) (i : nat) (x : T) : res T :=
    match style with
    | LLog10 => Ok (logLog10 x)
    | LLog2 => Ok (logLog2 x)
    | LAnti10 => Ok (logAnti10 x)
    | LAnti2 => Ok (logAnti2 x)
    | LLogToLin => let* c := getn cs i in let* (b, g) := logBlackGain c in Ok (logToLin c b g x)
    | LLinToLog => let* c := getn cs i in let* (b, g) := logBlackGain c in Ok (linToLog c b g x)
    | LOther => Ok x
    end.

  Definition logElem style dIn dOut cs (i : nat) : T -> res T := conv dIn dOut (logFun style cs i).

  Lemma logChannel_updX f dIn dOut i (px : list T) :
    logChannel f dIn dOut i px = updX px i (conv dIn dOut (fun x => Ok (f x))).
  Proof. unfold logChannel. rewrite updX_bind3. apply updX_ext. reflexivity. Qed.

  Lemma cineonBody (f : lchan T -> T -> T -> T -> T) cs dIn dOut i (px : list T) :
    i < List.length px ->
    (let* c := getn cs i in let* (b, g) := logBlackGain c in logChannel (f c b g) dIn dOut i px) =
    updX px i (conv dIn dOut (fun x => let* c := getn cs i in let* (b, g) := logBlackGain c in Ok (f c b g x))).
  Proof.
    intro Hi. destruct (getn_lt px i Hi) as [x Hx].
    destruct (getn cs i) as [c|e] eqn:Ec; cbn [bind].
    - destruct (logBlackGain c) as [[b g]|e] eqn:Eb; cbn [bind].
      + rewrite logChannel_updX. reflexivity.
      + unfold updX, conv. rewrite Hx. reflexivity.
    - unfold updX, conv. rewrite Hx. reflexivity.
  Qed.

  Lemma channelLoop_in (g : nat -> T -> res T) (body : nat -> list T -> res (list T)) (px : list T) k :
    (forall i l, i < List.length l -> body i l = updX l i (g i)) -> k <= List.length px ->
    for_each (seq 0 k) body px = let* ys := mapMi g 0 (firstn k px) in Ok (ys ++ skipn k px).
  Proof.
    intros H Hk. rewrite <- (channelLoop g (fun i l => updX l i (g i))); [|reflexivity|assumption].
    assert (G : forall ks l, (forall i, In i ks -> i < List.length l) ->
              for_each ks body l = for_each ks (fun i l => updX l i (g i)) l).
    { induction ks as [|i t IH]; intros l Hi; cbn [for_each]; [reflexivity|].
      rewrite H by (apply Hi; left; reflexivity). apply bind_ext; intros l' E.
      apply IH. intros j Hj. rewrite (updX_length _ _ _ _ E). apply Hi. now right. }
    apply G. intros i Hi. apply in_seq in Hi. lia.
  Qed.

  Lemma logPixel_form style dIn dOut cs st (px : list T) :
    style <> LOther -> List.length px = st -> 3 <= st ->
    logPixel style dIn dOut cs st px =
    let* ys := mapMi (logElem style dIn dOut cs) 0 (firstn 3 px) in Ok (ys ++ skipn 3 px).
  Proof.
    intros Hs Hl H3. unfold logPixel.
    assert (G : forall m, m = (let* ys := mapMi (logElem style dIn dOut cs) 0 (firstn 3 px) in Ok (ys ++ skipn 3 px)) ->
              (let* p := m in copyExtra st p) =
              let* ys := mapMi (logElem style dIn dOut cs) 0 (firstn 3 px) in Ok (ys ++ skipn 3 px)).
    { intros m ->. rewrite bind_assoc. apply bind_ext; intros ys Hy. cbn [bind]. apply copyExtra_id.
      apply mapMi_length in Hy. rewrite keep_length; assumption. }
    destruct style; try congruence; apply G;
      (apply (channelLoop_in _ _ px 3); [|lia]); intros i l Hi;
      try (apply logChannel_updX); now apply cineonBody.
  Qed.

  Lemma logPixel_other dIn dOut cs st (px : list T) :
    List.length px = st -> logPixel LOther dIn dOut cs st px = Ok px.
  Proof. intro H. unfold logPixel. cbn [bind]. now apply copyExtra_id. Qed.

  Lemma for_each_short (body : nat -> list T -> res (list T)) k : forall (px : list T) j,
    (forall i l l', body i l = Ok l' -> List.length l' = List.length l /\ i < List.length l) ->
    j <= List.length px -> List.length px < j + k ->
    exists e, for_each (seq j k) body px = Err e.
  Proof.
    induction k as [|k IH]; intros px j H Hj Hk; [lia|]. cbn [seq for_each].
    destruct (body j px) as [px'|e] eqn:E; [|exists e; reflexivity]. cbn [bind].
    apply H in E. destruct E. apply IH; [assumption|lia|lia].
  Qed.

  Lemma updX_lt (px : list T) i f px' : updX px i f = Ok px' -> i < List.length px.
  Proof. unfold updX. intro H. apply bind_ok in H. destruct H as [x [H _]]. eapply getn_ok_lt; eauto. Qed.

  Lemma logPixel_short style dIn dOut cs st (px : list T) :
    style <> LOther -> List.length px < 3 -> exists e, logPixel style dIn dOut cs st px = Err e.
  Proof.
    intros Hs H. unfold logPixel.
    assert (Hc : forall f i (l l' : list T), logChannel f dIn dOut i l = Ok l' -> List.length l' = List.length l /\ i < List.length l).
    { intros f i l l' E. rewrite logChannel_updX in E. split; [eapply updX_length|eapply updX_lt]; eauto. }
    assert (Hk : forall (f : lchan T -> T -> T -> T -> T) i (l l' : list T),
      (let* c := getn cs i in let* (b, g) := logBlackGain c in logChannel (f c b g) dIn dOut i l) = Ok l' ->
      List.length l' = List.length l /\ i < List.length l).
    { intros f i l l' E. apply bind_ok in E. destruct E as [c [_ E]]. apply bind_ok in E. destruct E as [[b g] [_ E]].
      eapply Hc; eauto. }
    destruct style; try congruence.
    all: match goal with |- context [for_each (seq 0 3) ?b ?q] => destruct (for_each_short b 3 q 0) as [e E] end;
      [ intros i l l' E; cbv beta in E; first [eapply Hc; eassumption | eapply Hk; eassumption] | lia | lia
      | exists e; rewrite E; reflexivity ].
  Qed.

  Definition ecElem (dIn dOut : aval) (p : eparam T) : T -> res T := conv dIn dOut (ecLinear p).

  Lemma ecBody dIn dOut p i (px : list T) :
    (let* px := upd px i (fun x => Ok (bitDepthToNormalized x dIn)) in
     let* px := upd px i (ecLinear p) in
     upd px i (fun x => Ok (normalizedToBitDepth x dOut))) = updX px i (ecElem dIn dOut p).
  Proof. rewrite updX_bind3. apply updX_ext. intro x. reflexivity. Qed.

  Lemma ecCore_form dIn dOut p (px : list T) :
    3 <= List.length px ->
    ecCore ECLinear dIn dOut p px =
    let* ys := mapM (ecElem dIn dOut p) (firstn 3 px) in Ok (ys ++ skipn 3 px).
  Proof.
    intro H. unfold ecCore. rewrite (channelLoop (fun _ => ecElem dIn dOut p)).
    - rewrite mapMi_mapM. reflexivity.
    - intros; apply ecBody.
    - assumption.
  Qed.

  Lemma ecCore_short style dIn dOut p (px : list T) :
    style <> ECOther -> List.length px < 3 -> exists e, ecCore style dIn dOut p px = Err e.
  Proof.
    intros Hs H. unfold ecCore. destruct style; try congruence.
    - apply (channelLoop_short (fun _ => ecElem dIn dOut p)); [intros; apply ecBody|lia|lia].
    - destruct (upd px 0 _); [|eexists; reflexivity]. cbn [bind].
      destruct (pypow _ _); [|eexists; reflexivity]. cbn [bind].
      destruct (pyfdiv _ _); eexists; reflexivity.
    - destruct (upd px 0 _); eexists; reflexivity.
  Qed.

  (* ---------------------------------------------------------------- *)
  (** * LUT3D *)

  Lemma lut3dPixel_form a ims dIn interp st (px : list T) :
    List.length px = st ->
    lut3dPixel a ims dIn interp st px =
    let* ys := mapMi (fun i => stage ims a dIn i i) 0 (firstn 3 px) in
    let px1 := ys ++ skipn 3 px in
    if aval_eqb interp (AStr "trilinear") then
      let* c := lookup3DTrilinear a px1 in set3 px1 c
    else if aval_eqb interp (AStr "tetrahedral") then
      let* c := lookup3DTetrahedral a px1 in set3 px1 c
    else Ok px1.
  Proof.
    intro Hl. unfold lut3dPixel.
    rewrite (channelLoop (fun i => stage ims a dIn i i)).
    - assert (E : firstn (Nat.min 3 (List.length px)) px = firstn 3 px /\ skipn (Nat.min 3 (List.length px)) px = skipn 3 px).
      { destruct (Nat.le_gt_cases 3 (List.length px)) as [H|H].
        - rewrite Nat.min_l by lia. auto.
        - rewrite Nat.min_r by lia. rewrite !firstn_all2, !skipn_all2 by lia. auto. }
      destruct E as [-> ->]. rewrite bind_assoc. apply bind_ext; intros ys Hy. cbv zeta. cbn [bind].
      apply mapMi_length in Hy. assert (Hk := keep_length ys px 3 Hy).
      assert (G : forall c, 3 <= List.length (ys ++ skipn 3 px) ->
                (let* p := set3 (ys ++ skipn 3 px) c in copyExtra st p) = set3 (ys ++ skipn 3 px) c).
      { intros c H3. destruct (set3 (ys ++ skipn 3 px) c) as [o|e] eqn:Es; [|reflexivity]. cbn [bind].
        apply copyExtra_id. rewrite (set3_length _ _ _ H3 Es). lia. }
      destruct (aval_eqb interp (AStr "trilinear")); [|destruct (aval_eqb interp (AStr "tetrahedral"))].
      + rewrite bind_assoc. apply bind_ext; intros c Hc. apply G. eapply tri_lt; eauto.
      + rewrite bind_assoc. apply bind_ext; intros c Hc. apply G. eapply tet_lt; eauto.
      + cbn [bind]. apply copyExtra_id. lia.
    - intros i l. apply indexStage_updX.
    - lia.
  Qed.

  (* ---------------------------------------------------------------- *)
  (** * Extra channels *)

  Definition keepsExtra (st : nat) (f : list T -> res (list T)) : Prop :=
    forall px o, List.length px = st -> f px = Ok o -> skipn 3 o = skipn 3 px.

  Lemma skipn3_keep (ys px : list T) :
    List.length ys = List.length (firstn 3 px) -> skipn 3 (ys ++ skipn 3 px) = skipn 3 px.
  Proof.
    intro H. rewrite firstn_length in H. rewrite skipn_app.
    destruct (Nat.le_gt_cases 3 (List.length px)) as [H3|H3].
    - rewrite (skipn_all2 ys) by lia. replace (3 - List.length ys) with 0 by lia. reflexivity.
    - rewrite (skipn_all2 px) by lia. rewrite (skipn_all2 ys) by lia. rewrite skipn_nil. reflexivity.
  Qed.

  Lemma updX_extra (px : list T) i f o : i < 3 -> updX px i f = Ok o -> skipn 3 o = skipn 3 px.
  Proof.
    intros Hi H. unfold updX in H. apply bind_ok in H. destruct H as [x [Hx H]].
    apply bind_ok in H. destruct H as [y [_ H]]. apply getn_ok_lt in Hx.
    rewrite setn_lt in H by assumption. apply Ok_inj in H. subst o.
    rewrite skipn_app, firstn_length. rewrite skipn_all2 by (rewrite firstn_length; lia).
    replace (3 - Nat.min i (List.length px)) with (S (2 - i)) by lia.
    change (skipn (S (2 - i)) (y :: skipn (S i) px)) with (skipn (2 - i) (skipn (S i) px)). cbn [app]. rewrite skipn_skipn. f_equal. lia.
  Qed.

  Lemma for_each_extra (body : nat -> list T -> res (list T)) ks (px o : list T) :
    (forall i l l', In i ks -> body i l = Ok l' -> skipn 3 l' = skipn 3 l) ->
    for_each ks body px = Ok o -> skipn 3 o = skipn 3 px.
  Proof.
    revert px. induction ks as [|i t IH]; intros px H E; cbn [for_each] in E.
    - apply Ok_inj in E. now subst.
    - apply bind_ok in E. destruct E as [l [E1 E]].
      rewrite (IH l).
      + eapply H; [left; reflexivity|exact E1].
      + intros; eapply H; [right|]; eassumption.
      + exact E.
  Qed.

  Lemma upd_extra (px : list T) i f o : i < 3 -> upd px i f = Ok o -> skipn 3 o = skipn 3 px.
  Proof. rewrite upd_updX. apply updX_extra. Qed.

  Lemma lut1d_extra a ims dIn cubic hd st : keepsExtra st (lut1dPixel a ims dIn cubic hd st).
  Proof.
    intros px o Hl H. rewrite lut1dPixel_form in H by assumption.
    apply bind_ok in H. destruct H as [ys [Hy H]]. apply Ok_inj in H. subst o.
    apply skipn3_keep. eapply mapMi_length; eauto.
  Qed.

  Lemma set3_extra (px c o : list T) : set3 px c = Ok o -> skipn 3 o = skipn 3 px.
  Proof.
    unfold set3, slice_set. intro H.
    destruct c as [|x [|y [|z [|w t]]]]; try discriminate; apply Ok_inj in H; subst o; reflexivity.
  Qed.

  Lemma lut3d_extra a ims dIn interp st : keepsExtra st (lut3dPixel a ims dIn interp st).
  Proof.
    intros px o Hl H. rewrite lut3dPixel_form in H by assumption.
    apply bind_ok in H. destruct H as [ys [Hy H]]. cbv zeta in H.
    apply mapMi_length in Hy. rewrite <- (skipn3_keep ys px Hy).
    destruct (aval_eqb interp (AStr "trilinear")); [|destruct (aval_eqb interp (AStr "tetrahedral"))].
    - apply bind_ok in H. destruct H as [c [_ H]]. eapply set3_extra; eauto.
    - apply bind_ok in H. destruct H as [c [_ H]]. eapply set3_extra; eauto.
    - apply Ok_inj in H. now subst.
  Qed.

  Lemma copyExtra_any st (px o : list T) : copyExtra st px = Ok o -> o = px.
  Proof.
    unfold copyExtra. generalize (seq (Nat.min 3 st) (st - Nat.min 3 st)) as ks. intro ks. revert px.
    induction ks as [|k t IH]; intros px H; cbn [for_each] in H.
    - apply Ok_inj in H. now subst.
    - apply bind_ok in H. destruct H as [p [H1 H]].
      apply bind_ok in H1. destruct H1 as [v [Hv H1]]. apply getn_some in Hv.
      rewrite setn_self in H1 by assumption. apply Ok_inj in H1. subst p. auto.
  Qed.

  Lemma gamma_extra f dIn dOut ga of st : keepsExtra st (gammaPixel f dIn dOut ga of st).
  Proof.
    intros px o Hl H. unfold gammaPixel in H. apply bind_ok in H. destruct H as [p [H1 H]].
    apply copyExtra_any in H. subst o. destruct f as [f|].
    - eapply for_each_extra; [|exact H1]. intros i l l' Hi E. apply in_seq in Hi.
      cbv beta in E. rewrite gammaBody in E. eapply updX_extra; [|exact E]. lia.
    - apply Ok_inj in H1. now subst.
  Qed.

  Lemma log_extra style dIn dOut cs st : keepsExtra st (logPixel style dIn dOut cs st).
  Proof.
    intros px o Hl H. unfold logPixel in H. apply bind_ok in H. destruct H as [p [H1 H]].
    apply copyExtra_any in H. subst o.
    assert (Hc : forall f i (l l' : list T), In i (seq 0 3) -> logChannel f dIn dOut i l = Ok l' -> skipn 3 l' = skipn 3 l).
    { intros f i l l' Hi E. apply in_seq in Hi. rewrite logChannel_updX in E. eapply updX_extra; [|exact E]. lia. }
    destruct style; try (apply Ok_inj in H1; now subst);
      (eapply for_each_extra; [|exact H1]); intros i l l' Hi E; cbv beta in E; try (eapply Hc; eassumption);
      apply bind_ok in E; destruct E as [c [_ E]]; apply bind_ok in E; destruct E as [[b g] [_ E]];
      eapply Hc; eassumption.
  Qed.

  Lemma cdl_extra style dIn dOut sl of po sat st : keepsExtra st (cdlPixel style dIn dOut sl of po sat st).
  Proof.
    intros px o Hl H. unfold cdlPixel in H. apply bind_ok in H. destruct H as [p [H1 H]].
    apply copyExtra_any in H. subst o.
    assert (U2 : forall i (l l' : list T) f g, In i (seq 0 3) -> (let* p := upd l i f in upd p i g) = Ok l' -> skipn 3 l' = skipn 3 l).
    { intros i l l' f g Hi E. apply in_seq in Hi. apply bind_ok in E. destruct E as [q [E1 E]].
      rewrite (upd_extra q i g l' ltac:(lia) E). eapply upd_extra; [|exact E1]. lia. }
    assert (U3 : forall i (l l' : list T) f g h, In i (seq 0 3) ->
      (let* p := upd l i f in let* p := upd p i g in upd p i h) = Ok l' -> skipn 3 l' = skipn 3 l).
    { intros i l l' f g h Hi E. apply bind_ok in E. destruct E as [q [E1 E]].
      rewrite (U2 i q l' g h Hi E). apply in_seq in Hi. eapply upd_extra; [|exact E1]. lia. }
    assert (U1 : forall i (l l' : list T) f, In i (seq 0 3) -> upd l i f = Ok l' -> skipn 3 l' = skipn 3 l).
    { intros i l l' f Hi E. apply in_seq in Hi. eapply upd_extra; [|exact E]. lia. }
    destruct style.
    5:{ apply Ok_inj in H1. now subst. }
    all: apply bind_ok in H1; destruct H1 as [q [E1 H1]]; apply bind_ok in H1; destruct H1 as [luma [_ H1]];
      apply for_each_extra in E1;
        [| intros i l l' Hi E; cbv beta in E; first [eapply U2; eassumption | eapply U1; eassumption] ];
      apply for_each_extra in H1;
        [| intros i l l' Hi E; cbv beta in E; first [eapply U2; eassumption | eapply U3; eassumption] ];
      congruence.
  Qed.

  (** Where an output pixel comes from. *)
  Lemma pixelwise_pixel f b st (values : list T) o p :
    st <> 0 -> lenpres st f -> pixelwise f b st values = Ok o -> p < List.length values / st ->
    exists px', f (slice values (p * st) ((p + 1) * st)) = Ok px' /\
                slice (po_out o) (p * st) ((p + 1) * st) = px' /\
                (b = true -> slice (po_in o) (p * st) ((p + 1) * st) = px').
  Proof.
    intros Hst Hf H Hp. unfold pixelwise in H. apply bind_ok in H. destruct H as [outs [Ho H]].
    apply Ok_inj in H. subst o. cbn [po_out po_in].
    assert (Hn : nth_error (pixels st values) p = Some (slice values (p * st) ((p + 1) * st))).
    { unfold pixels. rewrite nth_error_map.
      rewrite (nth_error_nth' _ 0) by (rewrite seq_length; exact Hp).
      rewrite seq_nth by exact Hp. reflexivity. }
    destruct (mapM_nth _ _ _ _ _ Ho Hn) as [px' [E1 E2]]. exists px'. split; [assumption|].
    assert (HF : Forall (fun l => List.length l = st) outs).
    { eapply mapM_Forall; [exact Hf| |exact Ho]. now apply pixels_length. }
    assert (G : forall rest : list T, slice (concat outs ++ rest) (p * st) ((p + 1) * st) = px').
    { intro rest. clear Ho Hn Hp E1. revert p E2. induction HF as [|l t Hl HF IH]; intros p E2.
      - destruct p; discriminate.
      - destruct p as [|p]; cbn [nth_error] in E2.
        + injection E2 as ->. unfold slice. cbn [Nat.mul List.concat skipn].
          replace ((0 + 1) * st - 0) with (List.length px') by lia.
          rewrite <- app_assoc, firstn_app, Nat.sub_diag, firstn_all, firstn_O, app_nil_r. reflexivity.
        + cbn [List.concat]. rewrite <- app_assoc. rewrite slice_app_skip by (rewrite Hl; nia).
          rewrite Hl. replace (S p * st - st) with (p * st) by nia.
          replace ((S p + 1) * st - st) with ((p + 1) * st) by nia. now apply IH. }
    split; [apply G|]. intros ->. apply G.
  Qed.

  Lemma slice_nth (l : list T) a b k : a + k < b -> nth_error (slice l a b) k = nth_error l (a + k).
  Proof.
    intro H. unfold slice.
    assert (E : forall (l : list T) n k, k < n -> nth_error (firstn n l) k = nth_error l k).
    { clear. induction l as [|x t IH]; intros [|n] [|k] H; try reflexivity; try lia; cbn. apply IH. lia. }
    rewrite E by lia. clear. revert l. induction a as [|a IH]; intro l; [reflexivity|].
    destruct l; [destruct k; reflexivity|]. apply IH.
  Qed.

  Lemma skipn_nth (l : list T) a k : nth_error (skipn a l) k = nth_error l (a + k).
  Proof. revert l. induction a as [|a IH]; intro l; [reflexivity|]. destruct l; [destruct k; reflexivity|]. apply IH. Qed.

  Lemma pixelwise_extra f b st (values : list T) o p k :
    st <> 0 -> lenpres st f -> keepsExtra st f -> pixelwise f b st values = Ok o ->
    p < List.length values / st -> 3 <= k < st ->
    nth_error (po_out o) (p * st + k) = nth_error values (p * st + k).
  Proof.
    intros Hst Hf He H Hp Hk.
    destruct (pixelwise_pixel f b st values o p Hst Hf H Hp) as [px' [E1 [E2 _]]].
    assert (Hl : (p + 1) * st <= List.length values).
    { pose proof (Nat.mul_div_le (List.length values) st Hst). nia. }
    apply He in E1; [|rewrite slice_length; nia].
    rewrite <- E2 in E1. apply (f_equal (fun l => nth_error l (k - 3))) in E1.
    rewrite !skipn_nth in E1. replace (3 + (k - 3)) with k in E1 by lia.
    rewrite !slice_nth in E1 by nia. exact E1.
  Qed.

  Lemma pixelwise_leftover f b st (values : list T) o i :
    st <> 0 -> lenpres st f -> pixelwise f b st values = Ok o ->
    List.length values / st * st <= i < List.length values ->
    nth_error (po_out o) i = Some n0 /\ (nth_error (po_in o) i = nth_error values i).
  Proof.
    intros Hst Hf H Hi. unfold pixelwise in H. apply bind_ok in H. destruct H as [outs [Ho H]].
    apply Ok_inj in H. subst o. cbn [po_out po_in].
    assert (Hl : List.length (concat outs) = List.length values / st * st).
    { rewrite (concat_length_all st).
      - rewrite (mapM_length _ _ _ Ho). unfold pixels. rewrite map_length, seq_length. reflexivity.
      - eapply mapM_Forall; [exact Hf| |exact Ho]. now apply pixels_length. }
    split.
    - rewrite nth_error_app2 by lia. rewrite leftover_length.
      rewrite (nth_error_nth' _ n0) by (rewrite repeat_length; lia). f_equal. apply nth_repeat.
    - destruct b; [|reflexivity]. rewrite nth_error_app2 by lia. unfold leftover. rewrite skipn_nth. f_equal. lia.
  Qed.
End Elem.
