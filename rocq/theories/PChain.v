(** Lemmas about nodes and chains that hold for any arithmetic. *)
From Verif Require Export PBase Spec.

(* ------------------------------------------------------------------ *)
(** * Induction over nodes *)

Section NodeInd.
  Context {T : Type}.
  Variable P : node T -> Prop.
  Hypothesis H : forall h b,
    (forall ps, b = BGroup ps -> Forall P ps) ->
    (forall w a v e ps, b = BReference w (Some (PList a v e ps)) -> Forall P ps) ->
    P (Node h b).

  Fixpoint node_deep_ind (n : node T) : P n.
  Proof.
    destruct n as [h b]. apply H.
    - intros ps E. destruct b; try discriminate. injection E as <-.
      induction ps0 as [|p t IH]; constructor; [apply node_deep_ind | exact IH].
    - intros w a v e ps E. destruct b; try discriminate.
      destruct pl as [[a' v' e' ps']|]; [|discriminate]. injection E as <- <- <- <- <-.
      induction ps' as [|p t IH]; constructor; [apply node_deep_ind | exact IH].
  Defined.
End NodeInd.

Section Chain.
  Context {T : Type} {N : Num T}.

  Definition toOpt {A} (r : res A) : option A := match r with Ok a => Some a | Err _ => None end.

  Lemma colours_toOpt (r : res (pout T)) : colours r = toOpt (let* o := r in Ok (po_out o)).
  Proof. destruct r; reflexivity. Qed.

  (* ---------------------------------------------------------------- *)
  (** * Value-only view of a chain *)

  Definition bypassOut (prev next : option (node T)) (v : list T) : res (list T) :=
    match prev, next with
    | Some p, Some q =>
        if negb (aval_eqb (getOutBitDepth p) (getInBitDepth q)) then
          let* o := rangeProcess (adapterHeader (getOutBitDepth p) (getInBitDepth q)) v in Ok (po_out o)
        else Ok v
    | _, _ => Ok v
    end.

  Definition skips (hb : bool) (n : node T) : bool := negb (notBypassed n || negb hb).

  Fixpoint chainOut (hb : bool) (run : node T -> list T -> nat -> res (pout T))
           (prev : option (node T)) (ps : list (node T)) (st : nat) (v : list T) : res (list T) :=
    match ps with
    | [] => Ok v
    | n :: rest =>
        let* v' := if skips hb n then bypassOut prev (hd_error rest) v
                   else let* o := run n v st in Ok (po_out o) in
        chainOut hb run (Some n) rest st v'
    end.

  Lemma chain_out hb run prev ps st s :
    (let* o := chain hb run prev ps st s in Ok (po_out o)) = chainOut hb run prev ps st (po_out s).
  Proof.
    revert prev s. induction ps as [|n rest IH]; intros prev s; simpl; [reflexivity|].
    unfold skips. rewrite bind_assoc.
    destruct (notBypassed n || negb hb); simpl.
    - rewrite !bind_assoc. apply bind_ext; intros o _. simpl. rewrite IH. reflexivity.
    - unfold bypassStep, bypassOut. destruct prev as [p|], (hd_error rest) as [q|]; simpl; try apply IH.
      destruct (negb _); simpl; try apply IH. rewrite !bind_assoc. apply bind_ext; intros o _.
      simpl. rewrite IH. reflexivity.
  Qed.

  Lemma chain_colours hb run prev ps st s :
    colours (chain hb run prev ps st s) = toOpt (chainOut hb run prev ps st (po_out s)).
  Proof. rewrite colours_toOpt, chain_out. reflexivity. Qed.

  Lemma chain_exn hb run prev ps st s :
    match chain hb run prev ps st s, chainOut hb run prev ps st (po_out s) with
    | Ok o, Ok v => po_out o = v
    | Err e, Err e' => e = e'
    | _, _ => False
    end.
  Proof. rewrite <- chain_out. destruct (chain hb run prev ps st s); reflexivity. Qed.

  (** A chain that starts away from the caller's buffer never writes to it. *)
  Lemma chain_fresh hb run prev ps st s s' :
    po_same s = false -> chain hb run prev ps st s = Ok s' ->
    po_in s' = po_in s /\ po_same s' = false.
  Proof.
    revert prev s. induction ps as [|n rest IH]; intros prev s Hs H; simpl in H.
    - injection H as <-. auto.
    - apply bind_ok in H. destruct H as [s1 [H1 H2]].
      assert (Hs1 : po_in s1 = po_in s /\ po_same s1 = false).
      { destruct (notBypassed n || negb hb).
        - apply bind_ok in H1. destruct H1 as [o [_ H1]]. injection H1 as <-.
          unfold stepOut. rewrite Hs. auto.
        - unfold bypassStep in H1.
          destruct prev as [p|]; [|injection H1 as <-; auto].
          destruct (hd_error rest) as [q|]; [|injection H1 as <-; auto].
          destruct (negb _); [|injection H1 as <-; auto].
          apply bind_ok in H1. destruct H1 as [o [_ H1]]. injection H1 as <-.
          unfold stepOut. rewrite Hs. auto. }
      destruct Hs1 as [E1 E2]. destruct (IH _ _ E2 H2) as [E3 E4]. split; congruence.
  Qed.

  Lemma chainOut_app hb run prev A B st v :
    (B = [] \/ match rev A with n :: _ => skips hb n = false | [] => True end) ->
    chainOut hb run prev (A ++ B) st v =
    let* v' := chainOut hb run prev A st v in
    chainOut hb run (match rev A with n :: _ => Some n | [] => prev end) B st v'.
  Proof.
    revert prev v. induction A as [|n A IH]; intros prev v HB.
    - reflexivity.
    - destruct HB as [->|HB].
      + rewrite app_nil_r. symmetry.
        transitivity (let* v' := chainOut hb run prev (n :: A) st v in Ok v'); [reflexivity|apply bind_ret].
      + cbn [app chainOut]. rewrite bind_assoc.
        assert (Hlast : rev (n :: A) = match rev A with [] => [n] | x :: l => x :: (l ++ [n]) end).
        { simpl. destruct (rev A); reflexivity. }
        assert (Htl : match rev A with n :: _ => skips hb n = false | [] => True end).
        { rewrite Hlast in HB. destruct (rev A); auto. }
        assert (E : (if skips hb n then bypassOut prev (hd_error (A ++ B)) v
                     else let* o := run n v st in Ok (po_out o)) =
                    (if skips hb n then bypassOut prev (hd_error A) v
                     else let* o := run n v st in Ok (po_out o))).
        { destruct A as [|m A]; [|reflexivity]. simpl in HB. rewrite HB. reflexivity. }
        rewrite E. apply bind_ext. intros v1 _. rewrite IH by (right; exact Htl).
        apply bind_ext. intros v2 _. rewrite Hlast. destruct (rev A); reflexivity.
  Qed.

  (** The previous node only matters if the first node is skipped. *)
  Lemma chainOut_prev hb run prev prev' ps st v :
    match ps with n :: _ => skips hb n = false | [] => True end ->
    chainOut hb run prev ps st v = chainOut hb run prev' ps st v.
  Proof. destruct ps as [|n rest]; intro H; simpl; [reflexivity|]. rewrite H. reflexivity. Qed.

  Lemma chainOut_run hb run run' prev ps st v :
    Forall (fun n => forall v, (let* o := run n v st in Ok (po_out o)) = (let* o := run' n v st in Ok (po_out o))) ps ->
    chainOut hb run prev ps st v = chainOut hb run' prev ps st v.
  Proof.
    revert prev v. induction ps as [|n rest IH]; intros prev v HF; simpl; [reflexivity|].
    inversion HF as [|? ? Hn Hr]; subst. rewrite Hn. apply bind_ext. intros; apply IH; assumption.
  Qed.

  (* ---------------------------------------------------------------- *)
  (** * Range, element by element *)

  Definition rangeFun (h : header T) : res (T -> res T) :=
    let* dIn := dgetE (h_attrs h) "inBitDepth" in
    let* dOut := dgetE (h_attrs h) "outBitDepth" in
    let clampOn :=
      match dget (h_attrs h) "style" with Some v => aval_eqb v (AStr "clamp") | None => true end in
    let dr := match dget (h_attrs h) "defaultRange" with Some _ => true | None => false end in
    Ok (rangeElem dIn dOut clampOn
          (orDefault dr (rangeLimit h "minInValue" dIn) n0)
          (orDefault dr (rangeLimit h "maxInValue" dIn) n1)
          (orDefault dr (rangeLimit h "minOutValue" dOut) n0)
          (orDefault dr (rangeLimit h "maxOutValue" dOut) n1)).

  Lemma rangeProcess_elem (h : header T) values :
    rangeProcess h values =
    let* f := rangeFun h in
    let* out := mapM f values in
    Ok {| po_in := out; po_out := out; po_same := true |}.
  Proof.
    unfold rangeProcess, rangeFun. rewrite !bind_assoc. apply bind_ext; intros dIn _.
    rewrite !bind_assoc. apply bind_ext; intros dOut _. cbn [bind].
    set (g := rangeElem _ _ _ _ _ _ _). cbv zeta.
    rewrite (for_each_elem0 (fun _ => g)) by (reflexivity || lia).
    rewrite firstn_all, skipn_all, mapMi_mapM.
    rewrite !bind_assoc. apply bind_ext; intros out _. cbn [bind]. rewrite app_nil_r. reflexivity.
  Qed.

  Lemma rangeProcess_length (h : header T) values o :
    rangeProcess h values = Ok o ->
    List.length (po_out o) = List.length values /\ po_in o = po_out o /\ po_same o = true.
  Proof.
    rewrite rangeProcess_elem. intro H. apply bind_ok in H. destruct H as [f [_ H]].
    apply bind_ok in H. destruct H as [out [H1 H]]. injection H as <-. simpl.
    split; [eapply mapM_length; eauto | auto].
  Qed.

  (* ---------------------------------------------------------------- *)
  (** * Pixel functions keep the length *)

  Definition lenpres (st : nat) (f : list T -> res (list T)) : Prop :=
    forall px o, List.length px = st -> f px = Ok o -> List.length o = st.

  Lemma upd_length (px : list T) i f px' : upd px i f = Ok px' -> List.length px' = List.length px.
  Proof. rewrite upd_updX. apply updX_length. Qed.

  Lemma copyExtra_length st (px o : list T) : copyExtra st px = Ok o -> List.length o = List.length px.
  Proof.
    unfold copyExtra. intro H.
    apply (for_each_inv (fun l => List.length l = List.length px)) in H; auto.
    intros i s s' Hs E. apply bind_ok in E. destruct E as [v [_ E]].
    apply setn_length in E. congruence.
  Qed.

  Lemma for_each_length {A} (xs : list A) (f : A -> list T -> res (list T)) px o :
    (forall x l l', f x l = Ok l' -> List.length l' = List.length l) ->
    for_each xs f px = Ok o -> List.length o = List.length px.
  Proof.
    intros Hf H. apply (for_each_inv (fun l => List.length l = List.length px)) in H; auto.
    intros x s s' Hs E. apply Hf in E. congruence.
  Qed.

  Ltac lensolve :=
    repeat match goal with
    | H : bind _ _ = Ok _ |- _ => apply bind_ok in H; destruct H as [? [? H]]
    | H : Ok _ = Ok _ |- _ => injection H as H; try subst
    | H : Err _ = Ok _ |- _ => discriminate H
    | H : upd _ _ _ = Ok _ |- _ => apply upd_length in H
    | H : setn _ _ _ = Ok _ |- _ => apply setn_length in H
    | H : copyExtra _ _ = Ok _ |- _ => apply copyExtra_length in H
    | H : for_each _ _ _ = Ok _ |- _ => apply for_each_length in H; [|clear; intros ? ? ? ?]
    | H : (if ?b then _ else _) = Ok _ |- _ => destruct b
    | H : (let '(_, _) := ?p in _) = Ok _ |- _ => destruct p
    | H : match ?x with _ => _ end = Ok _ |- _ => destruct x
    end; try congruence.

  Lemma indexStage_length ims a dIn i k (px o : list T) :
    indexStage ims a dIn i k px = Ok o -> List.length o = List.length px.
  Proof. unfold indexStage. intro H. lensolve. Qed.

  Lemma lut1d_len a ims dIn cubic hd st : lenpres st (lut1dPixel a ims dIn cubic hd st).
  Proof.
    intros px o Hp H. unfold lut1dPixel in H. lensolve.
    all: try match goal with H : indexStage _ _ _ _ _ _ = Ok _ |- _ => apply indexStage_length in H end.
    all: congruence.
  Qed.

  Lemma set3_length (px c o : list T) : 3 <= List.length px -> set3 px c = Ok o -> List.length o = List.length px.
  Proof.
    intros Hl H. unfold set3 in H.
    destruct c as [|x [|y [|z [|w t]]]]; try discriminate; injection H as <-;
      apply slice_set_length; simpl; lia.
  Qed.

  Lemma axis_lt a (px : list T) k r : axis a px k = Ok r -> k < List.length px.
  Proof. unfold axis. intro H. apply bind_ok in H. destruct H as [p [H _]]. eapply getn_ok_lt; eauto. Qed.

  Lemma tri_lt a (px c : list T) : lookup3DTrilinear a px = Ok c -> 3 <= List.length px.
  Proof.
    unfold lookup3DTrilinear. intro H. apply bind_ok in H. destruct H as [[? ?] [_ H]].
    apply bind_ok in H. destruct H as [[? ?] [_ H]]. apply bind_ok in H. destruct H as [r [H _]].
    apply axis_lt in H. lia.
  Qed.
  Lemma tet_lt a (px c : list T) : lookup3DTetrahedral a px = Ok c -> 3 <= List.length px.
  Proof.
    unfold lookup3DTetrahedral. intro H. apply bind_ok in H. destruct H as [[? ?] [_ H]].
    apply bind_ok in H. destruct H as [[? ?] [_ H]]. apply bind_ok in H. destruct H as [r [H _]].
    apply axis_lt in H. lia.
  Qed.

  Lemma lut3d_len a ims dIn interp st : lenpres st (lut3dPixel a ims dIn interp st).
  Proof.
    intros px o Hp H. unfold lut3dPixel in H.
    apply bind_ok in H. destruct H as [p1 [H1 H]]. apply bind_ok in H. destruct H as [p2 [H2 H]].
    apply copyExtra_length in H. apply for_each_length in H1.
    2:{ intros x l l' E. eapply indexStage_length; eauto. }
    assert (List.length p2 = List.length p1); [|congruence].
    destruct (aval_eqb interp (AStr "trilinear")); [|destruct (aval_eqb interp (AStr "tetrahedral"))].
    - apply bind_ok in H2. destruct H2 as [c [Hc H2]]. apply tri_lt in Hc. eapply set3_length; eauto.
    - apply bind_ok in H2. destruct H2 as [c [Hc H2]]. apply tet_lt in Hc. eapply set3_length; eauto.
    - injection H2 as <-. reflexivity.
  Qed.

  Lemma cdl_len style dIn dOut sl of po sat st : lenpres st (cdlPixel style dIn dOut sl of po sat st).
  Proof.
    intros px o Hp H. unfold cdlPixel in H.
    apply bind_ok in H. destruct H as [p1 [H1 H]]. apply copyExtra_length in H.
    assert (List.length p1 = List.length px); [|congruence]. clear H Hp.
    destruct style; lensolve.
  Qed.

  Lemma gamma_len f dIn dOut ga of st : lenpres st (gammaPixel f dIn dOut ga of st).
  Proof.
    intros px o Hp H. unfold gammaPixel in H.
    apply bind_ok in H. destruct H as [p1 [H1 H]]. apply copyExtra_length in H.
    assert (List.length p1 = List.length px); [|congruence]. clear H Hp.
    destruct f; lensolve.
  Qed.

  Lemma logChannel_length f dIn dOut i (px o : list T) :
    logChannel f dIn dOut i px = Ok o -> List.length o = List.length px.
  Proof. unfold logChannel. intro H. lensolve. Qed.

  Lemma log_len style dIn dOut cs st : lenpres st (logPixel style dIn dOut cs st).
  Proof.
    intros px o Hp H. unfold logPixel in H.
    apply bind_ok in H. destruct H as [p1 [H1 H]]. apply copyExtra_length in H.
    assert (List.length p1 = List.length px); [|congruence]. clear H Hp.
    assert (Hc : forall f i (l l' : list T), logChannel f dIn dOut i l = Ok l' -> List.length l' = List.length l)
      by (intros; eapply logChannel_length; eauto).
    destruct style; try (injection H1 as <-; reflexivity);
      (eapply for_each_length; [|exact H1]); intros i l l' E; simpl in E; try (eapply Hc; eassumption).
    - apply bind_ok in E. destruct E as [c [_ E]]. apply bind_ok in E. destruct E as [[b g] [_ E]].
      eapply Hc; eassumption.
    - apply bind_ok in E. destruct E as [c [_ E]]. apply bind_ok in E. destruct E as [[b g] [_ E]].
      eapply Hc; eassumption.
  Qed.

  Lemma ec_len style dIn dOut p st (vals px o : list T) :
    ecPixel style dIn dOut p st vals px = Ok o -> List.length o = List.length px.
  Proof.
    intro H. unfold ecPixel in H.
    apply bind_ok in H. destruct H as [p1 [H1 H]].
    assert (List.length p1 = List.length px) by (destruct style; lensolve).
    lensolve.
  Qed.

  Lemma matrix_len a st : lenpres st (matrixPixel a st).
  Proof.
    intros px o Hp H. unfold matrixPixel in H.
    apply bind_ok in H. destruct H as [d0 [_ H]]. apply bind_ok in H. destruct H as [o1 [H1 H]].
    apply for_each_length in H1.
    2:{ intros x l l' E. apply bind_ok in E. destruct E as [d1 [_ E]].
        apply bind_ok in E. destruct E as [s [_ E]]. eapply setn_length; eauto. }
    apply for_each_length in H.
    2:{ intros x l l' E. apply bind_ok in E. destruct E as [d1 [_ E]]. eapply setn_length; eauto. }
    rewrite repeat_length in H1. congruence.
  Qed.

  (** The Matrix loop as a map over pixels. *)
  Lemma matrixLoop_gen (f : list T -> res (list T)) (st : nat) (values : list T) :
    st <> 0 -> lenpres st f ->
    (let* n := pydiv (List.length values) st in
     for_each (seq 0 n)
            (fun p outs =>
               let* o := f (slice values (p * st) ((p + 1) * st)) in
               Ok (slice_set outs (p * st) o))
            (repeat n0 (List.length values))) =
    let* outs := mapM f (pixels st values) in
    Ok (concat outs ++ repeat n0 (List.length (leftover st values))).
  Proof.
    intros Hst Hlen. unfold pydiv, pixels, leftover.
    destruct st as [|st']; [congruence|]. set (st := S st') in *. cbn [bind].
    set (n := List.length values / st).
    assert (Hn : n * st <= List.length values).
    { unfold n. rewrite Nat.mul_comm. apply Nat.mul_div_le. exact Hst. }
    clearbody n. clearbody st.
    assert (G : forall m k done, k + m = n -> List.length (concat done) = k * st ->
      for_each (seq k m)
        (fun p outs =>
               let* o := f (slice values (p * st) ((p + 1) * st)) in
               Ok (slice_set outs (p * st) o))
        (concat done ++ repeat n0 (List.length values - k * st)) =
      let* outs := mapM f (map (fun p => slice values (p * st) ((p + 1) * st)) (seq k m)) in
      Ok (concat (done ++ outs) ++ repeat n0 (List.length values - n * st))).
    { induction m as [|m IH]; intros k done Hk Hd.
      - simpl. rewrite app_nil_r. replace k with n by lia. reflexivity.
      - cbn [seq for_each map mapM].
        rewrite !bind_assoc. apply bind_ext. intros o Ho. cbn [bind].
        assert (Hlo : List.length o = st).
        { eapply Hlen; [|exact Ho]. rewrite slice_length; nia. }
        assert (E2 : slice_set (concat done ++ repeat n0 (List.length values - k * st)) (k * st) o
                     = concat (done ++ [o]) ++ repeat n0 (List.length values - S k * st)).
        { rewrite <- Hd at 2. rewrite slice_set_app. rewrite concat_app. cbn [List.concat]. rewrite app_nil_r.
          rewrite <- app_assoc. f_equal. f_equal. rewrite skipn_repeat. f_equal. rewrite Hlo. cbn [Nat.mul]. lia. }
        rewrite E2. rewrite IH.
        + rewrite !bind_assoc. apply bind_ext. intros outs _. cbn [bind].
          rewrite <- app_assoc. reflexivity.
        + lia.
        + rewrite concat_app, app_length. simpl. rewrite app_nil_r. lia. }
    specialize (G n 0 [] eq_refl eq_refl). cbn [concat app] in G.
    rewrite Nat.sub_0_r in G. simpl (concat []) in G. cbn [app] in G. rewrite G.
    apply bind_ext. intros outs _. simpl app.
    f_equal. f_equal. f_equal. rewrite skipn_length. reflexivity.
  Qed.

  (* ---------------------------------------------------------------- *)
  (** * What a pixel node leaves behind *)

  (** The shape every stride-based node shares: [f] maps pixels to pixels. *)
  Definition pixelwise (f : list T -> res (list T)) (inplace : bool) (st : nat) (values : list T) : res (pout T) :=
    let* outs := mapM f (pixels st values) in
    Ok {| po_in := if inplace then concat outs ++ leftover st values else values;
          po_out := concat outs ++ repeat n0 (List.length (leftover st values));
          po_same := false |}.

  Lemma effStride_pos s (values : list T) : s <> 0 -> effStride s values = s.
  Proof. destruct s; [congruence|reflexivity]. Qed.

  Lemma pixelLoop_form f st (values : list T) :
    st <> 0 -> lenpres st f -> pixelLoop (fun _ => f) st values = pixelwise f true st values.
  Proof. intros. unfold pixelwise. now apply pixelLoop_gen. Qed.

  Lemma pixels_length st (values : list T) :
    st <> 0 -> Forall (fun px => List.length px = st) (pixels st values).
  Proof.
    intro H. unfold pixels. apply Forall_forall. intros px Hp. apply in_map_iff in Hp.
    destruct Hp as [p [<- Hp]]. apply in_seq in Hp.
    assert (List.length values / st * st <= List.length values).
    { rewrite Nat.mul_comm. apply Nat.mul_div_le. exact H. }
    rewrite slice_length; nia.
  Qed.

  Lemma leftover_length st (values : list T) :
    List.length (leftover st values) = List.length values - List.length values / st * st.
  Proof. unfold leftover. now rewrite skipn_length. Qed.

  Lemma concat_length_all st (ls : list (list T)) :
    Forall (fun l => List.length l = st) ls -> List.length (concat ls) = List.length ls * st.
  Proof.
    induction 1 as [|l t Hl _ IH]; simpl; [reflexivity|]. rewrite app_length, IH. lia.
  Qed.

  Lemma mapM_Forall st f (pxs outs : list (list T)) :
    lenpres st f -> Forall (fun l => List.length l = st) pxs -> mapM f pxs = Ok outs ->
    Forall (fun l => List.length l = st) outs.
  Proof.
    intros Hf HF. revert outs. induction HF as [|l t Hl _ IH]; intros outs H; simpl in H.
    - injection H as <-. constructor.
    - apply bind_ok in H. destruct H as [y [Hy H]]. apply bind_ok in H. destruct H as [ys [Hys H]].
      injection H as <-. constructor; eauto.
  Qed.

  Lemma pixelwise_length f b st (values : list T) o :
    st <> 0 -> lenpres st f -> pixelwise f b st values = Ok o ->
    List.length (po_out o) = List.length values /\ List.length (po_in o) = List.length values.
  Proof.
    intros Hst Hf H. unfold pixelwise in H. apply bind_ok in H. destruct H as [outs [Ho H]].
    injection H as <-. cbn [po_out po_in].
    assert (Hl : List.length (concat outs) = List.length values / st * st).
    { rewrite (concat_length_all st).
      - rewrite (mapM_length _ _ _ Ho). unfold pixels. rewrite map_length, seq_length. reflexivity.
      - eapply mapM_Forall; [exact Hf| |exact Ho]. now apply pixels_length. }
    assert (List.length values / st * st <= List.length values).
    { rewrite Nat.mul_comm. apply Nat.mul_div_le. exact Hst. }
    split.
    - rewrite app_length, repeat_length, leftover_length. lia.
    - destruct b; [|reflexivity]. rewrite app_length, leftover_length. lia.
  Qed.

  (** Forms of the individual nodes (stride given). *)
  Lemma lut1d_form h st (values : list T) :
    st <> 0 ->
    lut1dProcess h values st =
    let* dIn := dgetE (h_attrs h) "inBitDepth" in
    let* _ := dgetE (h_attrs h) "outBitDepth" in
    match lastArray (h_elems h) with
    | None => Err AttributeError
    | Some a =>
        pixelwise (lut1dPixel a (indexMaps (h_elems h)) dIn
          (match dget (h_attrs h) "interpolation" with Some v => aval_eqb v (AStr "cubic") | None => false end)
          (flagSet h "halfDomain") st) true st values
    end.
  Proof.
    intro H. unfold lut1dProcess. apply bind_ext; intros dIn _. apply bind_ext; intros _ _.
    destruct (lastArray (h_elems h)); [|reflexivity]. rewrite effStride_pos by assumption.
    apply pixelLoop_form; [assumption|apply lut1d_len].
  Qed.

  Lemma lut3d_form h st (values : list T) :
    st <> 0 ->
    lut3dProcess h values st =
    let* dIn := dgetE (h_attrs h) "inBitDepth" in
    let* _ := dgetE (h_attrs h) "outBitDepth" in
    match lastArray (h_elems h) with
    | None => Err AttributeError
    | Some a =>
        pixelwise (lut3dPixel a (indexMaps (h_elems h)) dIn
          (match dget (h_attrs h) "interpolation" with Some v => v | None => AStr "" end) st) true st values
    end.
  Proof.
    intro H. unfold lut3dProcess. apply bind_ext; intros dIn _. apply bind_ext; intros _ _.
    destruct (lastArray (h_elems h)); [|reflexivity]. rewrite effStride_pos by assumption.
    apply pixelLoop_form; [assumption|apply lut3d_len].
  Qed.

  Lemma matrix_form h st (values : list T) :
    st <> 0 ->
    matrixProcess h values st =
    let* _ := dgetE (h_attrs h) "inBitDepth" in
    let* _ := dgetE (h_attrs h) "outBitDepth" in
    match lastArray (h_elems h) with
    | None => Err AttributeError
    | Some a => pixelwise (matrixPixel a st) false st values
    end.
  Proof.
    intro H. unfold matrixProcess. apply bind_ext; intros dIn _. apply bind_ext; intros _ _.
    destruct (lastArray (h_elems h)); [|reflexivity]. cbv zeta. rewrite effStride_pos by assumption.
    rewrite <- bind_assoc. rewrite (matrixLoop_gen (matrixPixel a st) st values H (matrix_len a st)).
    unfold pixelwise. rewrite bind_assoc. reflexivity.
  Qed.

  Lemma gamma_form h ps st (values : list T) :
    st <> 0 ->
    gammaProcess h ps values st =
    let* dIn := dgetE (h_attrs h) "inBitDepth" in
    let* dOut := dgetE (h_attrs h) "outBitDepth" in
    let* (gamma, offset) := gammaParams ps in
    pixelwise (gammaPixel (gammaFun (match dget (h_attrs h) "style" with Some s => s | None => AStr "" end))
                 dIn dOut gamma offset st) true st values.
  Proof.
    intro H. unfold gammaProcess. apply bind_ext; intros dIn _. apply bind_ext; intros dOut _.
    cbv zeta. apply bind_ext; intros [g o] _. rewrite effStride_pos by assumption.
    apply pixelLoop_form; [assumption|apply gamma_len].
  Qed.

  Lemma log_form h ps st (values : list T) :
    st <> 0 ->
    logProcess h ps values st =
    let* dIn := dgetE (h_attrs h) "inBitDepth" in
    let* dOut := dgetE (h_attrs h) "outBitDepth" in
    let* cs := logParams ps in
    pixelwise (logPixel (logStyleOf (match dget (h_attrs h) "style" with Some s => s | None => AStr "" end))
                 dIn dOut cs st) true st values.
  Proof.
    intro H. unfold logProcess. apply bind_ext; intros dIn _. apply bind_ext; intros dOut _.
    cbv zeta. apply bind_ext; intros cs _. rewrite effStride_pos by assumption.
    apply pixelLoop_form; [assumption|apply log_len].
  Qed.

  Lemma cdl_form c h v st (values : list T) :
    st <> 0 ->
    cdlProcess c h v values st =
    if Nat.ltb st 3 then Ok {| po_in := values; po_out := values; po_same := true |}
    else
      let* dIn := dgetE (h_attrs h) "inBitDepth" in
      let* dOut := dgetE (h_attrs h) "outBitDepth" in
      let style := match dget (h_attrs h) "style" with Some s => s | None => AStr "" end in
      if negb (autodesk_on c) && cdlAutodeskStyle style then Err UnsupportedExtensionError
      else
        pixelwise (cdlPixel (cdlStyleOf style) dIn dOut (optD (c_slope v) [n1; n1; n1])
                     (optD (c_offset v) [n0; n0; n0]) (optD (c_power v) [n1; n1; n1])
                     (optD (c_sat v) n1) st) true st values.
  Proof.
    intro H. unfold cdlProcess. rewrite effStride_pos by assumption. cbv zeta.
    destruct (Nat.ltb st 3); [reflexivity|].
    apply bind_ext; intros dIn _. apply bind_ext; intros dOut _.
    destruct (negb (autodesk_on c) && cdlAutodeskStyle _); [reflexivity|].
    apply pixelLoop_form; [assumption|apply cdl_len].
  Qed.
End Chain.
