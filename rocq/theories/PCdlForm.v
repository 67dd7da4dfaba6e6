(** The CDL node for any arithmetic: per-channel stages around the saturation. *)
From Verif Require Export PAct.

Section CdlForm.
  Context {T : Type} {N : Num T}.
  Variables (style : cdlStyle) (dIn dOut : aval) (slope offset power : list T) (sat : T).

  (** Before the luma is taken. *)
  Definition cdlFirst (i : nat) (x : T) : res T :=
    match style with
    | CdlFwd =>
        let* y := (let* s := getn slope i in let* o := getn offset i in let* p := getn power i in
                   pypow (clamp (nadd (nmul (nf32 (bitDepthToNormalized x dIn)) s) o)) p) in Ok (nf32 y)
    | CdlFwdNoClamp =>
        let* y := (let* s := getn slope i in let* o := getn offset i in
                   let tmp := nadd (nmul (nf32 (bitDepthToNormalized x dIn)) s) o in
                   if nltb tmp n0 then Ok tmp else let* p := getn power i in Ok (npow tmp p)) in Ok (nf32 y)
    | CdlRev => Ok (nf32 (clamp (nf32 (bitDepthToNormalized x dIn))))
    | _ => Ok (nf32 (bitDepthToNormalized x dIn))
    end.

  (** With the luma [m]. *)
  Definition cdlMiddle (m : T) (i : nat) (x : T) : res T :=
    match style with
    | CdlFwd => Ok (nf32 (clamp (nadd m (nmul sat (nsub x m)))))
    | CdlFwdNoClamp => Ok (nf32 (nadd m (nmul sat (nsub x m))))
    | CdlRev =>
        let* y := (let* isat := pyfdiv n1 sat in
          let outSat := nadd m (nmul isat (nsub x m)) in
          let* p := getn power i in
          let* ip := pyfdiv n1 p in
          let* w := pypow (clamp outSat) ip in
          let* o := getn offset i in
          let* s := getn slope i in
          cdlDiv (clamp outSat) (nsub w o) s) in
        Ok (nf32 (clamp (nf32 y)))
    | _ =>
        let* y := (let* isat := pyfdiv n1 sat in
          let outSat := nadd m (nmul isat (nsub x m)) in
          if nltb outSat n0 then
            let* o := getn offset i in
            let* s := getn slope i in
            cdlDiv (clamp outSat) (nsub (clamp outSat) o) s
          else
            let* p := getn power i in
            let* ip := pyfdiv n1 p in
            let* w := pypow (clamp outSat) ip in
            let* o := getn offset i in
            let* s := getn slope i in
            cdlDiv (clamp outSat) (nsub w o) s) in
        Ok (nf32 y)
    end.
  Definition cdlSecond (m : T) (i : nat) (x : T) : res T :=
    let* y := cdlMiddle m i x in Ok (nf32 (normalizedToBitDepth y dOut)).

  Lemma upd_one (px : list T) i f : upd px i f = updX px i (fun x => let* y := f x in Ok (nf32 y)).
  Proof. apply upd_updX. Qed.

  Lemma luma_keep (ys t : list T) : List.length ys = 3 -> cdlLuma (ys ++ t) = cdlLuma ys.
  Proof. intro H. destruct ys as [|a [|b [|c [|]]]]; try discriminate. reflexivity. Qed.

  Lemma twoStage (g1 : nat -> T -> res T) (g2 : T -> nat -> T -> res T) b1 b2 (px : list T) :
    3 <= List.length px -> (forall i l, b1 i l = updX l i (g1 i)) -> (forall m i l, b2 m i l = updX l i (g2 m i)) ->
    (let* px := for_each (seq 0 3) b1 px in let* m := cdlLuma px in for_each (seq 0 3) (b2 m) px) =
    let* ys := mapMi g1 0 (firstn 3 px) in let* m := cdlLuma ys in let* zs := mapMi (g2 m) 0 ys in Ok (zs ++ skipn 3 px).
  Proof.
    intros Hl H1 H2. rewrite (channelLoop g1 b1 px 3 H1 Hl). rewrite bind_assoc. apply bind_ext; intros ys Hy. cbn [bind].
    apply mapMi_length in Hy. rewrite firstn_length in Hy. replace (Nat.min 3 (List.length px)) with 3 in Hy by lia.
    rewrite luma_keep by assumption. apply bind_ext; intros m _.
    rewrite (channelLoop (g2 m) (b2 m)); [|apply H2|rewrite app_length; lia].
    assert (E : firstn 3 (ys ++ skipn 3 px) = ys /\ skipn 3 (ys ++ skipn 3 px) = skipn 3 px)
      by (destruct ys as [|? [|? [|? [|]]]]; try discriminate; split; reflexivity).
    destruct E as [E E'].
    rewrite E, E'. reflexivity.
  Qed.

  Lemma copyExtra_keep st (zs t : list T) : List.length zs + List.length t = st -> copyExtra st (zs ++ t) = Ok (zs ++ t).
  Proof. intro H. apply copyExtra_id. now rewrite app_length. Qed.

  Lemma cdlPixel_form st (px : list T) : 3 <= st -> List.length px = st -> style <> CdlOther ->
    cdlPixel style dIn dOut slope offset power sat st px =
    let* ys := mapMi cdlFirst 0 (firstn 3 px) in let* m := cdlLuma ys in let* zs := mapMi (cdlSecond m) 0 ys in Ok (zs ++ skipn 3 px).
  Proof.
    intros H3 Hl Hs. unfold cdlPixel.
    assert (G : forall r, r = (let* ys := mapMi cdlFirst 0 (firstn 3 px) in let* m := cdlLuma ys in let* zs := mapMi (cdlSecond m) 0 ys in Ok (zs ++ skipn 3 px)) ->
                (let* p := r in copyExtra st p) =
                let* ys := mapMi cdlFirst 0 (firstn 3 px) in let* m := cdlLuma ys in let* zs := mapMi (cdlSecond m) 0 ys in Ok (zs ++ skipn 3 px)).
    { intros r ->. rewrite bind_assoc. apply bind_ext; intros ys Hy. rewrite bind_assoc. apply bind_ext; intros m _.
      rewrite bind_assoc. apply bind_ext; intros zs Hz. cbn [bind]. apply copyExtra_keep.
      apply mapMi_length in Hy, Hz. rewrite firstn_length in Hy. rewrite skipn_length. lia. }
    destruct style eqn:Es; try congruence; apply G.
    - apply twoStage; [lia| |].
      + intros i l. rewrite updX_bind2. apply updX_ext. intro x. cbn [bind]. unfold cdlFirst. rewrite Es. reflexivity.
      + intros m i l. rewrite updX_bind2. apply updX_ext. intro x. cbn [bind]. unfold cdlSecond, cdlMiddle. rewrite Es. reflexivity.
    - apply twoStage; [lia| |].
      + intros i l. rewrite updX_bind2. apply updX_ext. intro x. cbn [bind]. unfold cdlFirst. rewrite Es. reflexivity.
      + intros m i l. rewrite updX_bind2. apply updX_ext. intro x. cbn [bind]. unfold cdlSecond, cdlMiddle. rewrite Es. reflexivity.
    - apply twoStage; [lia| |].
      + intros i l. rewrite updX_bind2. apply updX_ext. intro x. cbn [bind]. unfold cdlFirst. rewrite Es. reflexivity.
      + intros m i l. rewrite updX_bind3. apply updX_ext. intro x. cbn [bind]. unfold cdlSecond, cdlMiddle. rewrite Es.
        rewrite !bind_assoc. apply bind_ext; intros a _. cbn [bind]. rewrite !bind_assoc. reflexivity.
    - apply twoStage; [lia| |].
      + intros i l. rewrite upd_one. apply updX_ext. intro x. cbn [bind]. unfold cdlFirst. rewrite Es. reflexivity.
      + intros m i l. rewrite updX_bind2. apply updX_ext. intro x. cbn [bind]. unfold cdlSecond, cdlMiddle. rewrite Es.
        match goal with |- bind ?b _ = _ => destruct b; reflexivity end.
  Qed.

  Lemma cdlSecond_clamped m i x y : style = CdlFwd \/ style = CdlRev -> cdlSecond m i x = Ok y ->
    exists w, y = nf32 (normalizedToBitDepth (nf32 (clamp w)) dOut).
  Proof.
    intros [Hs|Hs] H; unfold cdlSecond, cdlMiddle in H; rewrite Hs in H.
    - cbn [bind] in H. apply Ok_inj in H. eexists. symmetry. exact H.
    - apply bind_ok in H. destruct H as [z [Hz H]]. apply bind_ok in Hz. destruct Hz as [u [_ Hz]].
      apply Ok_inj in Hz, H. subst z. eexists. symmetry. exact H.
  Qed.
End CdlForm.

Section CdlClamp.
  Context {T : Type} {N : Num T}.

  (** Every colour sample a clamping CDL returns is a clamped value in the output
      depth, or zero. *)
  Lemma cdl_clamped c h v values st (o : pout T) dOut i y :
    3 <= st -> dget (h_attrs h) "outBitDepth" = Some dOut ->
    (exists s, dget (h_attrs h) "style" = Some (AStr s) /\ In s ["Fwd"; "v1.2_Fwd"; "Rev"; "v1.2_Rev"]%string) ->
    cdlProcess c h v values st = Ok o -> i mod st < 3 -> nth_error (po_out o) i = Some y ->
    y = n0 \/ exists w, y = nf32 (normalizedToBitDepth (nf32 (clamp w)) dOut).
  Proof.
    intros H3 Ho [s [Hs Hin]] H Hm Hy. assert (H0 : st <> 0) by lia.
    rewrite cdl_form in H by assumption. assert (E3 : Nat.ltb st 3 = false) by (apply Nat.ltb_ge; lia). rewrite E3 in H.
    apply bind_ok in H. destruct H as [dIn [_ H]]. unfold dgetE in H. rewrite Ho, Hs in H. cbn [bind] in H.
    destruct (negb (autodesk_on c) && cdlAutodeskStyle (AStr s)); [discriminate|].
    assert (Hst : cdlStyleOf (AStr s) = CdlFwd \/ cdlStyleOf (AStr s) = CdlRev).
    { destruct Hin as [<-|[<-|[<-|[<-|[]]]]]; auto. }
    assert (Hn : cdlStyleOf (AStr s) <> CdlOther) by (destruct Hst as [E|E]; rewrite E; discriminate).
    set (f := cdlPixel _ _ _ _ _ _ _ _) in H.
    assert (Hf : forall px o', List.length px = st -> f px = Ok o' ->
              exists zs, o' = zs ++ skipn 3 px /\ List.length zs = 3 /\ forall k z, nth_error zs k = Some z -> exists w, z = nf32 (normalizedToBitDepth (nf32 (clamp w)) dOut)).
    { intros px o' Hp E. unfold f in E. rewrite cdlPixel_form in E by assumption.
      apply bind_ok in E. destruct E as [ys [Hy' E]]. apply bind_ok in E. destruct E as [m [_ E]].
      apply bind_ok in E. destruct E as [zs [Hz E]]. apply Ok_inj in E. exists zs. split; [auto|].
      assert (List.length zs = 3) by (apply mapMi_length in Hy', Hz; rewrite firstn_length in Hy'; lia).
      split; [assumption|]. intros k z Hk.
      destruct (nth_error ys k) as [x|] eqn:Ex.
      2:{ apply nth_error_None in Ex. apply mapMi_length in Hz. assert (nth_error zs k <> None) as Hk' by congruence.
          apply nth_error_Some in Hk'. lia. }
      destruct (mapMi_nth _ _ _ _ _ _ Hz Ex) as [z' [E1 E2]]. rewrite Hk in E2. injection E2 as <-.
      eapply cdlSecond_clamped; [|exact E1]. exact Hst. }
    assert (Hl : lenpres st f).
    { intros px o' Hp E. destruct (Hf px o' Hp E) as [zs [-> [Hz _]]]. rewrite app_length, skipn_length. lia. }
    pose proof (pixelwise_length f true st values o H0 Hl H) as [Hlen _].
    assert (Hi : i < List.length values) by (rewrite <- Hlen; apply nth_error_Some; congruence).
    destruct (Nat.lt_ge_cases i (List.length values / st * st)) as [El|El].
    - right. pose proof (div_lt i st _ H0 El) as Hp. pose proof (divmod i st H0) as Hdm.
      destruct (pixelwise_pixel f true st values o (i / st) H0 Hl H Hp) as [px' [E1 [E2 _]]].
      pose proof (Nat.mod_upper_bound i st H0) as Hms.
      set (p := i / st) in *. set (m := i mod st) in *. clearbody p m.
      assert (Hin2 : (p + 1) * st <= List.length values) by (eapply slot_in; eauto).
      assert (Hsl : List.length (slice values (p * st) ((p + 1) * st)) = st) by (rewrite slice_length; [lia|lia|exact Hin2]).
      destruct (Hf _ _ Hsl E1) as [zs [-> [Hz Hc]]].
      apply (f_equal (fun l => nth_error l m)) in E2.
      rewrite slice_nth in E2 by (apply slot; lia). rewrite Hdm, Hy in E2.
      rewrite nth_error_app1 in E2 by lia. apply (Hc m). now symmetry.
    - left. pose proof (proj1 (pixelwise_leftover f true st values o i H0 Hl H ltac:(lia))) as E. congruence.
  Qed.
End CdlClamp.
