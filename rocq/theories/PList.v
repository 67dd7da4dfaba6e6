(** Process lists: composition, bypass, groups, references (any arithmetic). *)
From Verif Require Export PNode.

(** What float32 storage is assumed to satisfy. *)
Class F32Laws (T : Type) {N : Num T} : Prop := {
  f32_idem : forall x : T, nf32 (nf32 x) = nf32 x;
  f32_zero : nf32 (n0 : T) = n0
}.

Section Lists.
  Context {T : Type} {N : Num T}.

  Lemma outcome_bind (r : res (pout T)) : outcome r = let* o := r in Ok (po_out o).
  Proof. destruct r; reflexivity. Qed.

  Lemma list_outcome c (l : plist T) v st :
    outcome (listProcess c l v st) = chainOut (autodesk_on c) (nodeProcess c) None (procs_of l) st (map nf32 v).
  Proof. unfold listProcess. rewrite outcome_bind, chain_out. reflexivity. Qed.

  Lemma notBypassed_iff (n : node T) : notBypassed n = false <-> hasBypass n.
  Proof.
    unfold notBypassed, getAttribute, hasBypass. destruct (dget (h_attrs (nheader n)) "bypass") as [[s|b|]|].
    - split; [intros _; eexists; split; [reflexivity|discriminate] | reflexivity].
    - split; [intros _; eexists; split; [reflexivity|discriminate] | reflexivity].
    - split; [discriminate | intros [v [E Hv]]; injection E as <-; congruence].
    - split; [discriminate | intros [v [E Hv]]; discriminate].
  Qed.

  Lemma runs_skips hb (n : node T) : runs (Some n) -> skips hb n = false.
  Proof.
    simpl. intro H. unfold skips. destruct (notBypassed n) eqn:E; [reflexivity|].
    apply notBypassed_iff in E. contradiction.
  Qed.

  Lemma skips_on (n : node T) : hasBypass n -> skips true n = true.
  Proof. intro H. unfold skips. apply notBypassed_iff in H. rewrite H. reflexivity. Qed.

  Lemma skips_off (n : node T) : skips false n = false.
  Proof. unfold skips. destruct (notBypassed n); reflexivity. Qed.

  (* ---------------------------------------------------------------- *)
  (** * float32 everywhere *)

  Section F32.
    Context {L : F32Laws T}.
    Definition isF32 (x : T) : Prop := nf32 x = x.

    Lemma setn_f32 l i y l' : Forall isF32 l -> isF32 y -> setn l i y = Ok l' -> Forall isF32 l'.
    Proof.
      revert i l'. induction l as [|h t IH]; intros [|i] l' HF Hy H; try discriminate; simpl in H;
        inversion HF; subst.
      - injection H as <-. constructor; assumption.
      - apply bind_ok in H. destruct H as [t' [H E]]. injection E as <-. constructor; eauto.
    Qed.

    Lemma getn_f32 l i x : Forall isF32 l -> getn l i = Ok x -> isF32 x.
    Proof.
      intros HF H. apply getn_some in H. apply nth_error_In in H.
      eapply (proj1 (Forall_forall _ _)) in HF; eauto.
    Qed.

    Lemma upd_f32 l i f l' : Forall isF32 l -> upd l i f = Ok l' -> Forall isF32 l'.
    Proof.
      intros HF H. unfold upd in H. inv_ok. eapply setn_f32; eauto. apply f32_idem.
    Qed.

    Lemma for_each_f32 {A} (xs : list A) f l l' :
      (forall x l l', Forall isF32 l -> f x l = Ok l' -> Forall isF32 l') ->
      Forall isF32 l -> for_each xs f l = Ok l' -> Forall isF32 l'.
    Proof. intros Hf Hl H. eapply (for_each_inv (Forall isF32)); eauto. Qed.

    Lemma copyExtra_f32 st l l' : Forall isF32 l -> copyExtra st l = Ok l' -> Forall isF32 l'.
    Proof.
      intros HF H. unfold copyExtra in H. eapply for_each_f32; [|exact HF|exact H].
      intros i m m' Hm E. apply bind_ok in E. destruct E as [y [E1 E]]. eapply setn_f32; [exact Hm| |exact E]. eapply getn_f32; [exact Hm|exact E1].
    Qed.

    Definition f32pres (f : list T -> res (list T)) : Prop :=
      forall px o, Forall isF32 px -> f px = Ok o -> Forall isF32 o.

    Ltac f32go :=
      repeat match goal with
      | H : bind _ _ = Ok _ |- _ => apply bind_ok in H; destruct H as [? [? H]]
      | H : Ok _ = Ok _ |- _ => apply Ok_inj in H; subst
      | H : Err _ = Ok _ |- _ => discriminate H
      | HF : Forall isF32 ?l, H : upd ?l _ _ = Ok _ |- _ => apply (upd_f32 _ _ _ _ HF) in H
      | HF : Forall isF32 ?l, H : copyExtra _ ?l = Ok _ |- _ => apply (copyExtra_f32 _ _ _ HF) in H
      | HF : Forall isF32 ?l, H : for_each _ _ ?l = Ok ?o |- _ =>
          assert (Forall isF32 o) by (eapply for_each_f32; [|exact HF|exact H]; clear - L; intros ? ? ? ? ?; simpl in *; f32go);
          clear H
      | H : (if ?b then _ else _) = Ok _ |- _ => destruct b
      | H : match ?x with _ => _ end = Ok _ |- _ => destruct x
      end; try assumption.

    Lemma indexStage_f32 ims a dIn i k : f32pres (indexStage ims a dIn i k).
    Proof. intros px o HF H. unfold indexStage in H. f32go. Qed.

    Lemma lut1d_f32 a ims dIn cubic hd st : f32pres (lut1dPixel a ims dIn cubic hd st).
    Proof.
      intros px o HF H. unfold lut1dPixel in H.
      apply bind_ok in H. destruct H as [p1 [H1 H]]. eapply copyExtra_f32; [|exact H].
      eapply for_each_f32; [|exact HF|exact H1]. clear - L. intros i l l' HF H.
      apply bind_ok in H. destruct H as [p1 [H1 H]]. apply indexStage_f32 in H1; [|assumption].
      destruct cubic; [|destruct hd]; eapply upd_f32; eauto.
    Qed.

    Lemma set3_f32 px c o : Forall isF32 px -> set3 px c = Ok o -> Forall isF32 o.
    Proof.
      intros HF H. unfold set3 in H.
      assert (G : forall x y z, Forall isF32 (slice_set px 0 [nf32 x; nf32 y; nf32 z])).
      { intros x y z. unfold slice_set. simpl. repeat (constructor; [apply f32_idem|]).
        apply Forall_forall. intros w Hw. eapply (proj1 (Forall_forall _ _)) in HF; eauto.
        rewrite <- (firstn_skipn 3 px). apply in_or_app. right. exact Hw. }
      destruct c as [|x [|y [|z [|w t]]]]; try discriminate; injection H as <-; apply G.
    Qed.

    Lemma lut3d_f32 a ims dIn interp st : f32pres (lut3dPixel a ims dIn interp st).
    Proof.
      intros px o HF H. unfold lut3dPixel in H.
      apply bind_ok in H. destruct H as [p1 [H1 H]]. apply bind_ok in H. destruct H as [p2 [H2 H]].
      eapply copyExtra_f32; [|exact H].
      apply for_each_f32 in H1; [|intros; eapply indexStage_f32; eauto|assumption].
      destruct (aval_eqb interp (AStr "trilinear")); [|destruct (aval_eqb interp (AStr "tetrahedral"))].
      - apply bind_ok in H2. destruct H2 as [c [_ H2]]. eapply set3_f32; eauto.
      - apply bind_ok in H2. destruct H2 as [c [_ H2]]. eapply set3_f32; eauto.
      - apply Ok_inj in H2. subst. assumption.
    Qed.

    Lemma cdl_f32 style dIn dOut sl of po sat st : f32pres (cdlPixel style dIn dOut sl of po sat st).
    Proof.
      intros px o HF H. unfold cdlPixel in H.
      apply bind_ok in H. destruct H as [p1 [H1 H]]. eapply copyExtra_f32; [|exact H].
      clear H. destruct style; f32go.
    Qed.

    Lemma gamma_f32 f dIn dOut ga of st : f32pres (gammaPixel f dIn dOut ga of st).
    Proof.
      intros px o HF H. unfold gammaPixel in H.
      apply bind_ok in H. destruct H as [p1 [H1 H]]. eapply copyExtra_f32; [|exact H].
      clear H. destruct f; f32go.
    Qed.

    Lemma logChannel_f32 f dIn dOut i : f32pres (logChannel f dIn dOut i).
    Proof. intros px o HF H. unfold logChannel in H. f32go. Qed.

    Lemma log_f32 style dIn dOut cs st : f32pres (logPixel style dIn dOut cs st).
    Proof.
      intros px o HF H. unfold logPixel in H.
      apply bind_ok in H. destruct H as [p1 [H1 H]]. eapply copyExtra_f32; [|exact H].
      clear H.
      assert (Hc : forall f i l l', Forall isF32 l -> logChannel f dIn dOut i l = Ok l' -> Forall isF32 l')
        by (intros; eapply logChannel_f32; eauto).
      destruct style; try (apply Ok_inj in H1; subst; assumption);
        (eapply for_each_f32; [|exact HF|exact H1]); intros i l l' Hl E; simpl in E; try (eapply Hc; eassumption).
      - apply bind_ok in E. destruct E as [c [_ E]]. apply bind_ok in E. destruct E as [[b g] [_ E]].
        eapply Hc; eassumption.
      - apply bind_ok in E. destruct E as [c [_ E]]. apply bind_ok in E. destruct E as [[b g] [_ E]].
        eapply Hc; eassumption.
    Qed.

    Lemma Forall_skipn {A} (P : A -> Prop) n l : Forall P l -> Forall P (skipn n l).
    Proof.
      intro H. rewrite <- (firstn_skipn n l) in H. apply Forall_app in H. tauto.
    Qed.
    Lemma Forall_firstn {A} (P : A -> Prop) n l : Forall P l -> Forall P (firstn n l).
    Proof.
      intro H. rewrite <- (firstn_skipn n l) in H. apply Forall_app in H. tauto.
    Qed.

    Lemma ecFull_f32 style dIn dOut p st ex : Forall isF32 ex -> f32pres (ecFull style dIn dOut p st ex).
    Proof.
      intros He px o HF H. unfold ecFull in H. apply bind_ok in H. destruct H as [px' [H E]].
      apply Ok_inj in E. subst o. apply Forall_app. split; [|assumption].
      apply Forall_firstn. unfold ecCore in H. destruct style; f32go.
    Qed.

    Lemma matrixRow_f32 a d0 d1 i (value : list T) s : matrixRow a d0 d1 i value = Ok s -> isF32 s.
    Proof.
      unfold matrixRow. intro H. apply bind_ok in H. destruct H as [x [H1 H]].
      assert (Hx : isF32 x).
      { eapply (for_each_inv isF32); [|exact f32_zero|exact H1].
        intros j acc acc' _ E. cbv beta in E. inv_ok. apply f32_idem. }
      destruct (Nat.eqb d1 (d0 + 1)); inv_ok; [apply f32_idem|assumption].
    Qed.

    Lemma repeat_f32 k : Forall isF32 (repeat (n0 : T) k).
    Proof. induction k; simpl; constructor; [exact f32_zero|assumption]. Qed.

    Lemma matrix_f32 a st : f32pres (matrixPixel a st).
    Proof.
      intros px o HF H. unfold matrixPixel in H.
      apply bind_ok in H. destruct H as [d0 [_ H]]. apply bind_ok in H. destruct H as [o1 [H1 H]].
      eapply for_each_f32; [|eapply for_each_f32; [|apply repeat_f32|exact H1]|exact H].
      - clear - HF L. intros i l l' Hl E. cbv beta in E. apply bind_ok in E. destruct E as [y [E1 E]]. eapply setn_f32; [exact Hl| |exact E]. eapply getn_f32; [exact HF|exact E1].
      - clear - L. intros i l l' Hl E. cbv beta in E. repeat (apply bind_ok in E; destruct E as [? [? E]]). eapply setn_f32; [exact Hl| |exact E]. eapply matrixRow_f32; eassumption.
    Qed.

    Lemma concat_Forall (P : T -> Prop) ls : Forall (Forall P) ls -> Forall P (concat ls).
    Proof. induction 1; simpl; [constructor|]. apply Forall_app. auto. Qed.

    Lemma pixelwise_f32 f b st (values : list T) o :
      f32pres f -> Forall isF32 values -> pixelwise f b st values = Ok o ->
      Forall isF32 (po_out o) /\ Forall isF32 (po_in o).
    Proof.
      intros Hf HF H. unfold pixelwise in H. apply bind_ok in H. destruct H as [outs [Ho H]].
      apply Ok_inj in H. subst o. cbn [po_out po_in].
      assert (Hp : Forall (Forall isF32) (pixels st values)).
      { unfold pixels. apply Forall_forall. intros px Hp. apply in_map_iff in Hp.
        destruct Hp as [p [<- _]]. unfold slice. apply Forall_firstn, Forall_skipn. assumption. }
      assert (Hc : Forall isF32 (concat outs)).
      { apply concat_Forall. revert outs Ho. induction Hp as [|px t Hpx _ IH]; intros outs Ho; simpl in Ho.
        - apply Ok_inj in Ho. subst. constructor.
        - inv_ok. constructor; eauto. }
      split.
      - apply Forall_app. split; [assumption|apply repeat_f32].
      - destruct b; [|assumption]. apply Forall_app. split; [assumption|]. unfold leftover. now apply Forall_skipn.
    Qed.

    Lemma range_f32 (h : header T) values o :
      rangeProcess h values = Ok o -> Forall isF32 (po_out o) /\ Forall isF32 (po_in o).
    Proof.
      rewrite rangeProcess_elem. intro H. apply bind_ok in H. destruct H as [f [Hf H]].
      apply bind_ok in H. destruct H as [out [H E]]. apply Ok_inj in E. subst o. cbn [po_out po_in].
      assert (G : forall x y, f x = Ok y -> isF32 y).
      { unfold rangeFun in Hf. inv_ok. intros u y E. unfold rangeElem in E. inv_ok. apply f32_idem. }
      assert (Forall isF32 out); [|auto].
      revert out H. induction values as [|x t IH]; intros out H; simpl in H.
      - apply Ok_inj in H. subst. constructor.
      - inv_ok. constructor; eauto.
    Qed.

    Lemma leaf_f32_pos c h b (values : list T) st o :
      st <> 0 ->
      match b with BGroup _ | BReference _ (Some _) => False | _ => True end ->
      Forall isF32 values ->
      nodeProcess c (Node h b) values st = Ok o -> Forall isF32 (po_out o) /\ Forall isF32 (po_in o).
    Proof.
      intros Hst Hb HF H.
      destruct b as [| | | |v|v|ps|ps|p|w [pl|]|ps]; try contradiction; cbn [nodeProcess] in H.
      - eapply range_f32; eauto.
      - rewrite matrix_form in H by assumption. inv_ok. destruct (lastArray (h_elems h)); [|discriminate].
        eapply pixelwise_f32; [apply matrix_f32|exact HF|exact H].
      - rewrite lut1d_form in H by assumption. inv_ok. destruct (lastArray (h_elems h)); [|discriminate].
        eapply pixelwise_f32; [apply lut1d_f32|exact HF|exact H].
      - rewrite lut3d_form in H by assumption. inv_ok. destruct (lastArray (h_elems h)); [|discriminate].
        eapply pixelwise_f32; [apply lut3d_f32|exact HF|exact H].
      - rewrite cdl_form in H by assumption. destruct (Nat.ltb st 3); [apply Ok_inj in H; subst; auto|].
        inv_ok. cbv zeta in H. destruct (negb _ && _); [discriminate|].
        eapply pixelwise_f32; [apply cdl_f32|exact HF|exact H].
      - rewrite cdl_form in H by assumption. destruct (Nat.ltb st 3); [apply Ok_inj in H; subst; auto|].
        inv_ok. cbv zeta in H. destruct (negb _ && _); [discriminate|].
        eapply pixelwise_f32; [apply cdl_f32|exact HF|exact H].
      - rewrite gamma_form in H by assumption. inv_ok. destruct x1.
        eapply pixelwise_f32; [apply gamma_f32|exact HF|exact H].
      - rewrite log_form in H by assumption. inv_ok.
        eapply pixelwise_f32; [apply log_f32|exact HF|exact H].
      - rewrite ec_form in H by assumption. inv_ok.
        eapply pixelwise_f32; [apply ecFull_f32|exact HF|exact H].
        unfold ecExtra. now apply Forall_skipn, Forall_firstn.
      - apply Ok_inj in H. subst. auto.
    Qed.

    Lemma leaf_f32 c h b (values : list T) st o :
      match b with BGroup _ | BReference _ (Some _) => False | _ => True end ->
      Forall isF32 values ->
      nodeProcess c (Node h b) values st = Ok o -> Forall isF32 (po_out o) /\ Forall isF32 (po_in o).
    Proof.
      intros Hb HF H. destruct st as [|st]; [|eapply leaf_f32_pos; [|exact Hb|exact HF|exact H]; discriminate].
      destruct values as [|x t].
      - destruct (leaf_empty0 _ _ _ _ Hb H) as [-> ->]. auto.
      - rewrite leaf_stride0 in H; [|discriminate|exact Hb].
        eapply leaf_f32_pos; [|exact Hb|exact HF|exact H]. discriminate.
    Qed.

    Lemma chainOut_f32 hb run prev ps st (v o : list T) :
      Forall (fun n => forall v o, Forall isF32 v -> run n v st = Ok o -> Forall isF32 (po_out o)) ps ->
      Forall isF32 v -> chainOut hb run prev ps st v = Ok o -> Forall isF32 o.
    Proof.
      revert prev v. induction ps as [|n rest IH]; intros prev v HF Hv H; simpl in H.
      - apply Ok_inj in H. subst. assumption.
      - inversion HF as [|? ? Hn Hr]; subst. apply bind_ok in H. destruct H as [v1 [H1 H]].
        eapply IH; [assumption| |exact H].
        destruct (skips hb n).
        + unfold bypassOut in H1.
          destruct prev as [p|]; [|apply Ok_inj in H1; subst; auto].
          destruct (hd_error rest) as [q|]; [|apply Ok_inj in H1; subst; auto].
          destruct (negb _); [|apply Ok_inj in H1; subst; auto].
          apply bind_ok in H1. destruct H1 as [r [H1 E]]. apply Ok_inj in E. subst.
          apply range_f32 in H1. tauto.
        + apply bind_ok in H1. destruct H1 as [r [H1 E]]. apply Ok_inj in E. subst. eauto.
    Qed.

    Lemma map_nf32 (v : list T) : Forall isF32 (map nf32 v).
    Proof. induction v; simpl; constructor; [apply f32_idem|assumption]. Qed.

    Lemma node_f32 c (n : node T) : forall values st o,
      Forall isF32 values -> nodeProcess c n values st = Ok o -> Forall isF32 (po_out o).
    Proof.
      induction n as [h b HG HR] using node_deep_ind. intros values st o HF H.
      destruct b as [| | | |v|v|ps|ps|p|w [[pa pv pe pps]|]|ps];
        try (eapply leaf_f32 in H; [tauto|exact I|exact HF]).
      - cbn [nodeProcess] in H. rewrite bind_ret in H.
        specialize (HR _ _ _ _ _ eq_refl).
        match type of H with chain ?hb ?run ?prev ?ps ?st ?s = _ => pose proof (chain_exn hb run prev ps st s) as X end.
        rewrite H in X. destruct (chainOut _ _ _ _ _ _) eqn:E in X; [|contradiction]. rewrite X.
        eapply chainOut_f32; [| |exact E].
        + eapply Forall_impl; [|exact HR]. intros m Hm v' o' Hv' E'. eapply Hm; eauto.
        + cbn [po_out]. apply map_nf32.
      - cbn [nodeProcess] in H. specialize (HG _ eq_refl).
        match type of H with chain ?hb ?run ?prev ?ps ?st ?s = _ => pose proof (chain_exn hb run prev ps st s) as X end.
        rewrite H in X. destruct (chainOut _ _ _ _ _ _) eqn:E in X; [|contradiction]. rewrite X.
        eapply chainOut_f32; [| |exact E].
        + eapply Forall_impl; [|exact HG]. intros m Hm v' o' Hv' E'. eapply Hm; eauto.
        + exact HF.
    Qed.

    Lemma list_f32 c (l : plist T) values st o :
      listProcess c l values st = Ok o -> Forall isF32 (po_out o).
    Proof.
      intro H. pose proof (list_outcome c l values st) as E. rewrite H in E. simpl in E. symmetry in E.
      eapply chainOut_f32; [| |exact E].
      - apply Forall_forall. intros n _ v o' Hv Eo. eapply node_f32; eauto.
      - apply map_nf32.
    Qed.

    Lemma map_nf32_id (v : list T) : Forall isF32 v -> map nf32 v = v.
    Proof. induction 1; simpl; [reflexivity|]. f_equal; assumption. Qed.

    (** Lists compose where no bypassed node sits at the seam. *)
    Theorem list_app c a v e A B values st :
      (autodesk_on c = false \/ (runs (lastNode A) /\ runs (firstNode B))) ->
      outcome (listProcess c (PList a v e (A ++ B)) values st) =
      match listProcess c (PList a v e A) values st with
      | Ok o => outcome (listProcess c (PList a v e B) (po_out o) st)
      | Err x => Err x
      end.
    Proof.
      intro Hs.
      assert (HA : match rev A with n :: _ => skips (autodesk_on c) n = false | [] => True end).
      { destruct Hs as [->|[Hs _]].
        - destruct (rev A); [exact I|apply skips_off].
        - unfold lastNode in Hs. destruct (rev A); [exact I|]. now apply runs_skips. }
      assert (HB : match B with n :: _ => skips (autodesk_on c) n = false | [] => True end).
      { destruct Hs as [->|[_ Hs]].
        - destruct B; [exact I|apply skips_off].
        - destruct B; [exact I|]. now apply runs_skips. }
      rewrite list_outcome. cbn [procs_of]. rewrite chainOut_app by (right; exact HA).
      pose proof (list_outcome c (PList a v e A) values st) as EA. cbn [procs_of] in EA. rewrite <- EA.
      destruct (listProcess c (PList a v e A) values st) as [o|x] eqn:E; [|reflexivity].
      cbn [outcome bind]. rewrite list_outcome. cbn [procs_of].
      rewrite (map_nf32_id (po_out o)) by (eapply list_f32; eauto).
      apply chainOut_prev. exact HB.
    Qed.
  End F32.

  Theorem list_empty c a v e (values : list T) st :
    listProcess c (PList a v e []) values st = Ok {| po_in := values; po_out := map nf32 values; po_same := false |}.
  Proof. reflexivity. Qed.

  (* ---------------------------------------------------------------- *)
  (** * Bypass *)

  Lemma aval_eqb_refl a : aval_eqb a a = true.
  Proof. destruct a; simpl; [apply String.eqb_refl|destruct b; reflexivity|reflexivity]. Qed.
  Lemma aval_eqb_eq a b : aval_eqb a b = true <-> a = b.
  Proof.
    split; [|intros ->; apply aval_eqb_refl].
    destruct a, b; simpl; intro H; try discriminate; try reflexivity.
    - apply String.eqb_eq in H. congruence.
    - apply Bool.eqb_prop in H. congruence.
  Qed.

  Lemma rev_cases {A} (l : list A) : l = [] \/ exists l' x, l = l' ++ [x].
  Proof. destruct (rev l) eqn:E.
    - left. apply (f_equal (@rev A)) in E. rewrite rev_involutive in E. exact E.
    - right. exists (rev l0), a. apply (f_equal (@rev A)) in E. rewrite rev_involutive in E. exact E.
  Qed.

  Theorem bypass_skip c a v e A n B (values : list T) st :
    autodesk_on c = true -> hasBypass n ->
    runs (lastNode A) -> runs (firstNode B) ->
    (forall p q, lastNode A = Some p -> firstNode B = Some q -> getOutBitDepth p = getInBitDepth q) ->
    outcome (listProcess c (PList a v e (A ++ n :: B)) values st) =
    outcome (listProcess c (PList a v e (A ++ B)) values st).
  Proof.
    intros Hc Hn HA HB Hd. rewrite !list_outcome. cbn [procs_of]. rewrite Hc.
    assert (HA' : match rev A with n :: _ => skips true n = false | [] => True end).
    { unfold lastNode in HA. destruct (rev A); [exact I|]. now apply runs_skips. }
    rewrite !chainOut_app by (right; exact HA'). apply bind_ext. intros w _.
    cbn [chainOut]. rewrite (skips_on _ Hn).
    assert (E : bypassOut (match rev A with n :: _ => Some n | [] => None end) (hd_error B) w = Ok w).
    { unfold bypassOut. unfold lastNode, firstNode in Hd.
      destruct (rev A) as [|p ?]; [reflexivity|]. destruct (hd_error B) as [q|]; [|reflexivity].
      rewrite (Hd p q eq_refl eq_refl), aval_eqb_refl. reflexivity. }
    rewrite E. cbn [bind]. apply chainOut_prev. destruct B; [exact I|]. now apply runs_skips.
  Qed.

  Lemma dget_filter (d : list (string * aval)) k :
    k <> "bypass" -> dget (filter (fun kv => negb (String.eqb (fst kv) "bypass")) d) k = dget d k.
  Proof.
    intro H. induction d as [|[k' v] t IH]; [reflexivity|].
    cbn [filter fst]. destruct (String.eqb k' "bypass") eqn:E; cbn [negb dget].
    - apply String.eqb_eq in E. subst k'. destruct (String.eqb k "bypass") eqn:E2; [|exact IH].
      apply String.eqb_eq in E2. contradiction.
    - rewrite IH. reflexivity.
  Qed.

  Lemma dropBypass_process c (n : node T) values st :
    nodeProcess c (dropBypass n) values st = nodeProcess c n values st.
  Proof.
    destruct n as [h b]. cbn [dropBypass].
    set (h' := {| h_attrs := _; h_vals := _; h_dyn := _; h_elems := _ |}).
    assert (G : forall k, k <> "bypass" -> dget (h_attrs h') k = dget (h_attrs h) k)
      by (intros; now apply dget_filter).
    assert (GE : forall k, k <> "bypass" -> dgetE (h_attrs h') k = dgetE (h_attrs h) k)
      by (intros; unfold dgetE; now rewrite G).
    destruct b as [| | | |v|v|ps|ps|p|w [pl|]|ps]; cbn [nodeProcess]; try reflexivity;
      unfold rangeProcess, matrixProcess, lut1dProcess, lut3dProcess, cdlProcess, gammaProcess, logProcess, ecProcess, flagSet, rangeLimit;
      rewrite ?GE, ?G by discriminate; reflexivity.
  Qed.

  Theorem bypass_ignored c a v e ps (values : list T) st :
    autodesk_on c = false ->
    outcome (listProcess c (PList a v e ps) values st) =
    outcome (listProcess c (PList a v e (map dropBypass ps)) values st).
  Proof.
    intro Hc. rewrite !list_outcome. cbn [procs_of]. rewrite Hc. generalize (map nf32 values) as w.
    generalize (@None (node T)) at 1 as p1. generalize (@None (node T)) as p2.
    induction ps as [|n t IH]; intros p2 p1 w; [reflexivity|].
    cbn [map chainOut]. rewrite !skips_off, dropBypass_process. apply bind_ext. intros; apply IH.
  Qed.

  (* ---------------------------------------------------------------- *)
  (** * Groups and references *)

  Lemma group_outcome c h ps (values : list T) st :
    outcome (nodeProcess c (Node h (BGroup ps)) values st) = chainOut true (nodeProcess c) None ps st values.
  Proof. cbn [nodeProcess]. rewrite outcome_bind, chain_out. reflexivity. Qed.

  Lemma chainOut_hb run prev ps st (v : list T) :
    Forall (fun n => ~ hasBypass n) ps ->
    chainOut true run prev ps st v = chainOut false run prev ps st v.
  Proof.
    revert prev v. induction ps as [|n t IH]; intros prev v HF; [reflexivity|].
    inversion HF as [|? ? Hn Ht]; subst. cbn [chainOut].
    rewrite (runs_skips true n) by exact Hn. rewrite skips_off. apply bind_ext. intros; apply IH; assumption.
  Qed.

  Theorem group_inline c a v e A h gs B (values : list T) st :
    (autodesk_on c = true \/ Forall (fun n => ~ hasBypass n) gs) ->
    ~ hasBypass (Node h (BGroup gs)) ->
    runs (lastNode A) -> runs (firstNode gs) -> runs (lastNode gs) -> runs (firstNode B) ->
    outcome (listProcess c (PList a v e (A ++ Node h (BGroup gs) :: B)) values st) =
    outcome (listProcess c (PList a v e (A ++ gs ++ B)) values st).
  Proof.
    intros Hc Hg HA Hg1 Hg2 HB. rewrite !list_outcome. cbn [procs_of].
    set (hb := autodesk_on c).
    assert (R : forall l : list (node T), runs (lastNode l) -> match rev l with n :: _ => skips hb n = false | [] => True end).
    { intros l Hl. unfold lastNode in Hl. destruct (rev l); [exact I|]. now apply runs_skips. }
    assert (F : forall l : list (node T), runs (firstNode l) -> match l with n :: _ => skips hb n = false | [] => True end).
    { intros l Hl. destruct l; [exact I|]. now apply runs_skips. }
    rewrite !chainOut_app by (right; now apply R). apply bind_ext. intros w _.
    set (p := match rev A with n :: _ => Some n | [] => None end). clearbody p.
    rewrite chainOut_app by (right; now apply R).
    cbn [chainOut]. rewrite (runs_skips hb _ Hg).
    replace (let* o := nodeProcess c (Node h (BGroup gs)) w st in Ok (po_out o))
      with (chainOut hb (nodeProcess c) p gs st w).
    - apply bind_ext. intros w' _. apply chainOut_prev. now apply F.
    - rewrite <- outcome_bind, group_outcome.
      transitivity (chainOut hb (nodeProcess c) None gs st w); [apply chainOut_prev; now apply F|].
      unfold hb. destruct (autodesk_on c); [reflexivity|].
      destruct Hc as [Hc|Hc]; [discriminate|]. symmetry. now apply chainOut_hb.
  Qed.

  Theorem reference_resolved c h w l (values : list T) st :
    nodeProcess c (Node h (BReference w (Some l))) values st = listProcess c l values st.
  Proof. destruct l. cbn [nodeProcess]. rewrite bind_ret. reflexivity. Qed.

  Theorem reference_missing c h w (values : list T) st :
    nodeProcess c (Node h (BReference w None)) values st
    = Ok {| po_in := values; po_out := values; po_same := true |}.
  Proof. reflexivity. Qed.
End Lists.
