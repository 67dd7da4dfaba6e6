(** Node-level facts for any arithmetic, in the form the property files use. *)
From Verif Require Export PElem.

Section Facts.
  Context {T : Type} {N : Num T}.

  (* ---------------------------------------------------------------- *)
  (** * Range *)

  Theorem range_elementwise c (h : header T) dIn dOut :
    dget (h_attrs h) "inBitDepth" = Some dIn -> dget (h_attrs h) "outBitDepth" = Some dOut ->
    exists f : T -> res T, forall values st,
      nodeProcess c (Node h BRange) values st =
      match mapM f values with
      | Ok out => Ok {| po_in := out; po_out := out; po_same := true |}
      | Err e => Err e
      end.
  Proof.
    intros H1 H2.
    assert (exists f, rangeFun h = Ok f) as [f Hf].
    { unfold rangeFun, dgetE. rewrite H1, H2. cbn [bind]. eexists. reflexivity. }
    exists f. intros values st. cbn [nodeProcess]. rewrite rangeProcess_elem, Hf. cbn [bind].
    destruct (mapM f values); reflexivity.
  Qed.


  Lemma limitIs_spec (h : header T) d k dflt v :
    limitIs h d k dflt v <->
    orDefault (match dget (h_attrs h) "defaultRange" with Some _ => true | None => false end)
      (rangeLimit h k d) dflt = Some v.
  Proof.
    unfold limitIs, orDefault, rangeLimit. destruct (dget (h_vals h) k) as [w|].
    - split.
      + intros [[w' [E ->]]|[E _]]; congruence.
      + intro E. left. exists w. split; congruence.
    - destruct (dget (h_attrs h) "defaultRange") as [dr|].
      + split.
        * intros [[w [E _]]|[_ [_ ->]]]; [discriminate|reflexivity].
        * intro E. right. split; [reflexivity|]. split; [discriminate|congruence].
      + split; [|discriminate]. intros [[w [E _]]|[_ [H _]]]; [discriminate|congruence].
  Qed.

  Lemma rangeElem_err dIn dOut cl mi ma mo mao (x : T) e :
    rangeElem dIn dOut cl mi ma mo mao x = Err e <->
    e = ZeroDivisionError /\ exists a b c d, mi = Some a /\ ma = Some b /\ mo = Some c /\ mao = Some d /\
      neqb (nsub b a) n0 = true.
  Proof.
    unfold rangeElem, pyfdiv. split.
    - destruct mi as [a|], ma as [b|], mo as [c|], mao as [d|]; cbn [bind]; try discriminate.
      destruct (neqb (nsub b a) n0) eqn:E; cbn [bind]; [|discriminate].
      intro H. split; [congruence|]. exists a, b, c, d. auto 10.
    - intros [-> [a [b [c [d [-> [-> [-> [-> E]]]]]]]]]. rewrite E. reflexivity.
  Qed.

  Theorem range_fails c (h : header T) dIn dOut values st e :
    dget (h_attrs h) "inBitDepth" = Some dIn -> dget (h_attrs h) "outBitDepth" = Some dOut ->
    nodeProcess c (Node h BRange) values st = Err e <->
    e = ZeroDivisionError /\ values <> [] /\
    exists minIn maxIn minOut maxOut,
      limitIs h dIn "minInValue" n0 minIn /\ limitIs h dIn "maxInValue" n1 maxIn /\
      limitIs h dOut "minOutValue" n0 minOut /\ limitIs h dOut "maxOutValue" n1 maxOut /\
      neqb (nsub maxIn minIn) n0 = true.
  Proof.
    intros H1 H2. cbn [nodeProcess]. rewrite rangeProcess_elem. unfold rangeFun, dgetE. rewrite H1, H2.
    cbn [bind]. set (cl := match dget (h_attrs h) "style" with Some _ => _ | None => _ end).
    set (dr := match dget (h_attrs h) "defaultRange" with Some _ => true | None => false end).
    set (f := rangeElem _ _ _ _ _ _ _).
    assert (G : (exists minIn maxIn minOut maxOut,
      limitIs h dIn "minInValue" n0 minIn /\ limitIs h dIn "maxInValue" n1 maxIn /\
      limitIs h dOut "minOutValue" n0 minOut /\ limitIs h dOut "maxOutValue" n1 maxOut /\
      neqb (nsub maxIn minIn) n0 = true) <-> forall x, f x = Err ZeroDivisionError).
    { split.
      - intros [a [b [c' [d [E1 [E2 [E3 [E4 E5]]]]]]]] x. apply limitIs_spec in E1, E2, E3, E4.
        apply rangeElem_err. split; [reflexivity|]. exists a, b, c', d. auto 10.
      - intro H. specialize (H n0). apply rangeElem_err in H.
        destruct H as [_ [a [b [c' [d [E1 [E2 [E3 [E4 E5]]]]]]]]].
        exists a, b, c', d. rewrite !limitIs_spec. auto 10. }
    rewrite G. split.
    - intro H. destruct (mapM f values) as [out|e'] eqn:E; [discriminate|]. cbn [bind] in H.
      assert (e' = e) by congruence. subst e'. clear H.
      assert (X : exists x, f x = Err e).
      { clear -E. induction values as [|x t IH]; cbn [mapM] in E; [discriminate|].
        destruct (f x) as [y|e'] eqn:Ex; cbn [bind] in E; [|exists x; congruence].
        destruct (mapM f t); cbn [bind] in E; [discriminate|]. apply IH. congruence. }
      destruct X as [x Hx]. assert (Hx' := Hx). apply rangeElem_err in Hx. destruct Hx as [-> [a [b [c' [d [E1 [E2 [E3 [E4 E5]]]]]]]]].
      split; [reflexivity|]. split; [intros ->; discriminate|].
      intro y. apply rangeElem_err. split; [reflexivity|]. exists a, b, c', d. auto 10.
    - intros [-> [Hv H]]. destruct values as [|x t]; [congruence|]. cbn [mapM]. rewrite H. reflexivity.
  Qed.

  (* ---------------------------------------------------------------- *)
  (** * Matrix *)

  Lemma for_each_ok {A S} (P : S -> Prop) (xs : list A) (f : A -> S -> res S) s :
    P s -> (forall x s, In x xs -> P s -> exists s', f x s = Ok s' /\ P s') ->
    exists s', for_each xs f s = Ok s' /\ P s'.
  Proof.
    revert s. induction xs as [|x t IH]; intros s Hs H; cbn [for_each]; [eauto|].
    destruct (H x s (or_introl eq_refl) Hs) as [s1 [E1 H1]]. rewrite E1. cbn [bind].
    apply IH; [assumption|]. intros; apply H; [now right|assumption].
  Qed.

  Lemma setn_ok_ex (l : list T) i x : i < List.length l -> exists l', setn l i x = Ok l' /\ List.length l' = List.length l.
  Proof. intro H. pose proof (setn_lt l i x H) as E. exists (firstn i l ++ x :: skipn (S i) l). split; [exact E|].
    eapply setn_length; eauto. Qed.

  Lemma matrixRow_ok a d0 d1 i (value : list T) :
    (d1 = d0 \/ d1 = d0 + 1) -> List.length (a_vals a) = d0 * d1 -> i < d0 -> d0 <= List.length value ->
    exists s, matrixRow a d0 d1 i value = Ok s.
  Proof.
    intros Hd Hl Hi Hv. unfold matrixRow.
    destruct (for_each_ok (fun _ : T => True) (seq 0 d0)
      (fun j acc =>
           let* m := getn (a_vals a) (j + i * d1) in
           let* v := getn value j in
           Ok (nf32 (nadd acc (amul (a_dt a) m v)))) n0 I) as [s [E _]].
    { intros j acc Hj _. apply in_seq in Hj.
      destruct (getn_lt (a_vals a) (j + i * d1)) as [m Hm]; [nia|].
      destruct (getn_lt value j) as [v Hv']; [lia|]. rewrite Hm, Hv'. cbn [bind]. eauto. }
    rewrite E. cbn [bind]. destruct (Nat.eqb d1 (d0 + 1)) eqn:Ed; [|eauto].
    destruct (getn_lt (a_vals a) (i * d1 + d1 - 1)) as [m Hm]; [apply Nat.eqb_eq in Ed; nia|].
    rewrite Hm. cbn [bind]. eauto.
  Qed.

  Lemma matrixPixel_ok a d0 d1 rest st (px : list T) :
    a_dims a = d0 :: d1 :: rest -> (d1 = d0 \/ d1 = d0 + 1) -> List.length (a_vals a) = d0 * d1 ->
    List.length px = st -> d0 <= st -> exists o, matrixPixel a st px = Ok o.
  Proof.
    intros Hd Hd1 Hl Hp H0. unfold matrixPixel, dim. rewrite Hd. cbn [getn nth_error bind].
    rewrite Nat.min_l by assumption.
    destruct (for_each_ok (fun l : list T => List.length l = st) (seq 0 d0)
      (fun i out => let* s := matrixRow a d0 d1 i px in setn out i s)
      (repeat n0 st)) as [o1 [E1 L1]].
    { apply repeat_length. }
    { intros i l Hi Hlen. apply in_seq in Hi.
      destruct (matrixRow_ok a d0 d1 i px Hd1 Hl) as [s Es]; [lia|lia|]. rewrite Es. cbn [bind].
      destruct (setn_ok_ex l i s) as [l' [E L]]; [lia|]. exists l'. split; [exact E|congruence]. }
    rewrite E1. cbn [bind].
    destruct (for_each_ok (fun l : list T => List.length l = st) (seq d0 (st - d0))
      (fun i out => let* v := getn px i in setn out i v) o1 L1) as [o [E _]].
    { intros i l Hi Hlen. apply in_seq in Hi. destruct (getn_lt px i) as [v Hv]; [lia|]. rewrite Hv. cbn [bind].
      destruct (setn_ok_ex l i v) as [l' [E L]]; [lia|]. exists l'. split; [exact E|congruence]. }
    eauto.
  Qed.

  Lemma matrixPixel_few a d0 d1 rest st (px : list T) :
    a_dims a = d0 :: d1 :: rest -> (d1 = d0 \/ d1 = d0 + 1) -> List.length (a_vals a) = d0 * d1 ->
    List.length px = st -> st < d0 -> st <> 0 -> matrixPixel a st px = Err IndexError.
  Proof.
    intros Hd Hd1 Hl Hp H0 Hst. unfold matrixPixel, dim. rewrite Hd. cbn [getn nth_error bind].
    rewrite Nat.min_r by lia. destruct st as [|st']; [congruence|]. cbn [seq for_each].
    cbn [getn nth_error bind].
    assert (E : matrixRow a d0 d1 0 px = Err IndexError).
    { unfold matrixRow. cbn [Nat.mul].
      assert (G : forall k j acc, j <= List.length px -> List.length px < j + k -> j + k <= d0 ->
        for_each (seq j k) (fun j acc =>
           let* m := getn (a_vals a) (j + 0) in
           let* v := getn px j in
           Ok (nf32 (nadd acc (amul (a_dt a) m v)))) acc = Err IndexError).
      { induction k as [|k IH]; intros j acc Hj Hk Hk2; [lia|]. cbn [seq for_each].
        destruct (getn_lt (a_vals a) (j + 0)) as [m Hm]; [nia|]. rewrite Hm. cbn [bind].
        destruct (Nat.eq_dec j (List.length px)) as [->|Hne].
        - rewrite getn_ge by lia. reflexivity.
        - destruct (getn_lt px j) as [v Hv]; [lia|]. rewrite Hv. cbn [bind]. apply IH; lia. }
      rewrite G; [reflexivity|lia|lia|lia]. }
    rewrite E. reflexivity.
  Qed.

  Lemma mapM_all_ok {A B} (f : A -> res B) l : (forall x, In x l -> is_ok (f x)) -> is_ok (mapM f l).
  Proof.
    induction l as [|x t IH]; intro H; cbn [mapM]; [eexists; reflexivity|].
    destruct (H x (or_introl eq_refl)) as [y Hy]. rewrite Hy. cbn [bind].
    destruct IH as [ys Hys]; [intros; apply H; now right|]. rewrite Hys. eexists; reflexivity.
  Qed.

  Lemma pixelwise_ok f b st (values : list T) :
    st <> 0 -> (forall px, List.length px = st -> is_ok (f px)) -> is_ok (pixelwise f b st values).
  Proof.
    intros Hst H. unfold pixelwise.
    destruct (mapM_all_ok f (pixels st values)) as [outs Ho].
    { intros px Hp. apply H. pose proof (pixels_length st values Hst) as F.
      eapply (proj1 (Forall_forall _ _)) in F; eauto. }
    rewrite Ho. eexists; reflexivity.
  Qed.

  Lemma pixels_head st (values : list T) :
    st <> 0 -> st <= List.length values -> exists px t, pixels st values = px :: t /\ List.length px = st.
  Proof.
    intros Hst Hl. pose proof (pixels_length st values Hst) as F. unfold pixels in *.
    assert (1 <= List.length values / st) by (apply Nat.div_le_lower_bound; lia).
    destruct (List.length values / st) as [|n]; [lia|]. cbn [seq map] in *.
    inversion F; subst. eauto.
  Qed.

  Lemma pixelwise_err f b st (values : list T) e :
    st <> 0 -> st <= List.length values -> (forall px, List.length px = st -> f px = Err e) ->
    pixelwise f b st values = Err e.
  Proof.
    intros Hst Hl H. unfold pixelwise. destruct (pixels_head st values Hst Hl) as [px [t [E Hp]]].
    rewrite E. cbn [mapM]. rewrite H by assumption. reflexivity.
  Qed.

  Lemma pixelwise_fails f b st (values : list T) :
    st <> 0 -> st <= List.length values -> (forall px, List.length px = st -> exists e, f px = Err e) ->
    exists e, pixelwise f b st values = Err e.
  Proof.
    intros Hst Hl H. unfold pixelwise. destruct (pixels_head st values Hst Hl) as [px [t [E Hp]]].
    rewrite E. cbn [mapM]. destruct (H px Hp) as [e He]. rewrite He. exists e. reflexivity.
  Qed.


  Ltac depths H :=
    let d1 := fresh "dIn" in let d2 := fresh "dOut" in let E1 := fresh "EdIn" in let E2 := fresh "EdOut" in
    destruct H as [[d1 E1] [d2 E2]]; unfold dgetE; rewrite ?E1, ?E2; cbn [bind].

  Theorem matrix_succeeds c (h : header T) a d0 d1 rest values st :
    hasDepths h -> lastArray (h_elems h) = Some a ->
    a_dims a = d0 :: d1 :: rest -> (d1 = d0 \/ d1 = d0 + 1) -> List.length (a_vals a) = d0 * d1 ->
    1 <= st -> st <= List.length values ->
    (d0 <= st -> is_ok (nodeProcess c (Node h BMatrix) values st)) /\
    (st < d0 -> nodeProcess c (Node h BMatrix) values st = Err IndexError).
  Proof.
    intros Hh Ha Hd Hd1 Hl Hst Hv. cbn [nodeProcess]. rewrite matrix_form by lia. depths Hh. rewrite Ha.
    split; intro H.
    - apply pixelwise_ok; [lia|]. intros px Hp. eapply matrixPixel_ok; eauto.
    - apply pixelwise_err; [lia|assumption|]. intros px Hp. eapply matrixPixel_few; eauto. lia.
  Qed.

  (* ---------------------------------------------------------------- *)
  (** * Extra channels, left-overs, in-place *)


  Lemma slot p st k : k < st -> p * st + k < (p + 1) * st.
  Proof. nia. Qed.
  Lemma slot_in p st n (l : list T) : st <> 0 -> p < List.length l / st -> n = (p + 1) * st -> n <= List.length l.
  Proof.
    intros H Hp ->. pose proof (Nat.mul_div_le (List.length l) st H). nia.
  Qed.

  Lemma some_pixel i st (l : list T) : st <> 0 -> i < List.length l / st * st -> st <= List.length l.
  Proof.
    intros H Hi. destruct (Nat.le_gt_cases st (List.length l)) as [|Hlt]; [assumption|].
    rewrite Nat.div_small in Hi by assumption. simpl in Hi. lia.
  Qed.

  (** Every colour node with a stride of at least three runs a pixel function. *)
  Lemma colour_form c h b (values : list T) st o :
    colourNode b -> 3 <= st -> nodeProcess c (Node h b) values st = Ok o ->
    exists f, lenpres st f /\ keepsExtra st f /\ pixelwise f true st values = Ok o.
  Proof.
    intros Hb Hst H. assert (H0 : st <> 0) by lia.
    assert (Hlt : Nat.ltb st 3 = false) by (apply Nat.ltb_ge; lia).
    destruct b as [| | | |v|v|ps|ps|p|w [pl|]|ps]; try contradiction; cbn [nodeProcess] in H.
    - rewrite lut1d_form in H by assumption. inv_ok. destruct (lastArray (h_elems h)); [|discriminate].
      eexists. split; [apply lut1d_len|]. split; [apply lut1d_extra|exact H].
    - rewrite lut3d_form in H by assumption. inv_ok. destruct (lastArray (h_elems h)); [|discriminate].
      eexists. split; [apply lut3d_len|]. split; [apply lut3d_extra|exact H].
    - rewrite cdl_form, Hlt in H by assumption. inv_ok. cbv zeta in H. destruct (negb _ && _); [discriminate|].
      eexists. split; [apply cdl_len|]. split; [apply cdl_extra|exact H].
    - rewrite cdl_form, Hlt in H by assumption. inv_ok. cbv zeta in H. destruct (negb _ && _); [discriminate|].
      eexists. split; [apply cdl_len|]. split; [apply cdl_extra|exact H].
    - rewrite gamma_form in H by assumption. inv_ok. destruct x1.
      eexists. split; [apply gamma_len|]. split; [apply gamma_extra|exact H].
    - rewrite log_form in H by assumption. inv_ok.
      eexists. split; [apply log_len|]. split; [apply log_extra|exact H].
  Qed.

  Theorem extra_channels c h b (values : list T) st o p k :
    colourNode b -> nodeProcess c (Node h b) values st = Ok o ->
    p < List.length values / st -> 3 <= k < st ->
    nth_error (po_out o) (p * st + k) = nth_error values (p * st + k).
  Proof.
    intros Hb H Hp Hk. destruct (colour_form c h b values st o Hb ltac:(lia) H) as [f [L [X F]]].
    eapply pixelwise_extra; eauto. lia.
  Qed.

  Theorem extra_channels_ec c h p0 (values : list T) st o p k :
    nodeProcess c (Node h (BExposureContrast p0)) values st = Ok o ->
    p < List.length values / st -> 3 <= k < st ->
    nth_error (po_out o) (p * st + k) = nth_error values k.
  Proof.
    intros H Hp Hk. cbn [nodeProcess] in H. rewrite ec_form in H by lia. inv_ok.
    assert (Hst : st <> 0) by lia.
    assert (Hlen : st <= List.length values).
    { pose proof (Nat.mul_div_le (List.length values) st Hst). nia. }
    assert (L := ecExtra_length st values Hlen).
    destruct (pixelwise_pixel _ _ _ _ _ p Hst (ecFull_len _ _ _ _ _ _ L) H Hp) as [px' [E1 [E2 _]]].
    assert (Hl : (p + 1) * st <= List.length values).
    { pose proof (Nat.mul_div_le (List.length values) st Hst). nia. }
    unfold ecFull in E1. apply bind_ok in E1. destruct E1 as [px'' [E1 E3]]. apply Ok_inj in E3.
    apply ecCore_length in E1. rewrite slice_length in E1 by nia.
    apply (f_equal (fun l => nth_error l k)) in E2. rewrite slice_nth in E2 by (apply slot; lia). rewrite E2, <- E3.
    rewrite nth_error_app2 by (rewrite firstn_length; lia). rewrite firstn_length.
    unfold ecExtra. rewrite skipn_nth.
    replace (Nat.min 3 st + (k - Nat.min (Nat.min 3 st) (List.length px''))) with k by nia.
    rewrite <- (Nat.add_0_l k) at 2. rewrite <- (slice_nth values 0 st k) by lia.
    unfold slice. rewrite Nat.sub_0_r. reflexivity.
  Qed.

  Lemma div_lt i st n : st <> 0 -> i < n * st -> i / st < n.
  Proof. intros. apply Nat.div_lt_upper_bound; [assumption|]. rewrite Nat.mul_comm. assumption. Qed.

  Lemma divmod i st : st <> 0 -> i / st * st + i mod st = i.
  Proof. intro H. rewrite (Nat.div_mod i st H) at 3. rewrite Nat.mul_comm. reflexivity. Qed.


  Lemma pixel_form c h b (values : list T) st o :
    pixelNode b -> 3 <= st -> nodeProcess c (Node h b) values st = Ok o ->
    exists f ip, lenpres st f /\ pixelwise f ip st values = Ok o /\
                 (st <= List.length values -> ip = match b with BMatrix => false | _ => true end).
  Proof.
    intros Hb Hst H. assert (H0 : st <> 0) by lia.
    destruct b as [| | | |v|v|ps|ps|p|w [pl|]|ps]; try contradiction;
      pose proof (fun X => colour_form c h _ values st o X Hst H) as CF;
      try (destruct (CF I) as [f [L [X F]]]; exists f, true; auto).
    - cbn [nodeProcess] in H. rewrite matrix_form in H by assumption. inv_ok. destruct (lastArray (h_elems h)); [|discriminate].
      exists (matrixPixel a st), false. split; [apply matrix_len|]. auto.
    - cbn [nodeProcess] in H. rewrite ec_form in H by assumption. inv_ok.
      destruct (Nat.leb st (List.length values)) eqn:El.
      + apply Nat.leb_le in El. do 2 eexists. split; [|split; [exact H|reflexivity]].
        apply ecFull_len. now apply ecExtra_length.
      + apply Nat.leb_gt in El. exists (fun px => Ok px), false. split.
        * intros px o' Hp E. apply Ok_inj in E. now subst.
        * split; [|lia]. unfold pixelwise, pixels in *. rewrite Nat.div_small in * by assumption. exact H.
  Qed.

  Theorem leftover_zero c h b (values : list T) st o i :
    pixelNode b -> 3 <= st -> nodeProcess c (Node h b) values st = Ok o ->
    List.length values / st * st <= i < List.length values -> nth_error (po_out o) i = Some n0.
  Proof.
    intros Hb Hst H Hi. destruct (pixel_form c h b values st o Hb Hst H) as [f [ip [L [F _]]]].
    exact (proj1 (pixelwise_leftover f ip st values o i ltac:(lia) L F Hi)).
  Qed.

  (** Whole pixels of the caller's buffer end up holding the result. *)
  Theorem in_place c h b (values : list T) st o i :
    pixelNode b -> b <> BMatrix -> 3 <= st -> nodeProcess c (Node h b) values st = Ok o ->
    (i < List.length values / st * st -> nth_error (po_in o) i = nth_error (po_out o) i) /\
    (List.length values / st * st <= i -> nth_error (po_in o) i = nth_error values i).
  Proof.
    intros Hb Hm Hst H. destruct (pixel_form c h b values st o Hb Hst H) as [f [ip [L [F E]]]].
    assert (H0 : st <> 0) by lia.
    split; intro Hi.
    - assert (Hl : st <= List.length values) by (eapply some_pixel; eauto).
      assert (ip = true) by (rewrite E by assumption; destruct b; congruence). subst ip.
      destruct (pixelwise_pixel _ _ _ _ _ (i / st) H0 L F) as [px' [_ [E2 E3]]].
      { now apply div_lt. }
      specialize (E3 eq_refl). rewrite <- E2 in E3.
      apply (f_equal (fun l => nth_error l (i mod st))) in E3.
      pose proof (Nat.mod_upper_bound i st H0). rewrite !slice_nth in E3 by (now apply slot).
      pose proof (divmod i st H0) as Hdm. rewrite (divmod i st H0) in E3. exact E3.
    - destruct (Nat.lt_ge_cases i (List.length values)) as [Hlt|Hge].
      + eapply pixelwise_leftover; eauto.
      + assert (Hlen := pixelwise_length _ _ _ _ _ H0 L F). destruct Hlen as [_ Hlen].
        rewrite !(proj2 (nth_error_None _ _)) by lia. reflexivity.
  Qed.

  Theorem matrix_leaves_input c h (values : list T) st o :
    nodeProcess c (Node h BMatrix) values st = Ok o -> po_in o = values /\ po_same o = false.
  Proof.
    cbn [nodeProcess]. unfold matrixProcess. intro H. inv_ok. destruct (lastArray (h_elems h)); [|discriminate].
    cbv zeta in H. inv_ok. auto.
  Qed.

  (* ---------------------------------------------------------------- *)
  (** * LUT1D *)

  Lemma mapMi_local {A B} (f : nat -> A -> res B) i l l' m m' k :
    mapMi f i l = Ok l' -> mapMi f i m = Ok m' -> nth_error l k = nth_error m k -> nth_error l' k = nth_error m' k.
  Proof.
    intros H1 H2 E. destruct (nth_error l k) as [x|] eqn:El.
    - destruct (mapMi_nth _ _ _ _ _ _ H1 El) as [y [E1 E2]]. symmetry in E.
      destruct (mapMi_nth _ _ _ _ _ _ H2 E) as [y' [E1' E2']]. congruence.
    - symmetry in E. apply nth_error_None in El, E. apply mapMi_length in H1, H2.
      rewrite !(proj2 (nth_error_None _ _)) by lia. reflexivity.
  Qed.

  Lemma nth_firstn_any (l : list T) n k : k < n -> nth_error (firstn n l) k = nth_error l k.
  Proof.
    revert n k. induction l as [|x t IH]; intros [|n] [|k] H; try reflexivity; try lia; cbn. apply IH. lia.
  Qed.

  Lemma lut1dPixel_nth a ims dIn cubic hd st (px o : list T) k :
    List.length px = st -> lut1dPixel a ims dIn cubic hd st px = Ok o ->
    match nth_error px k with
    | None => nth_error o k = None
    | Some x => if Nat.ltb k 3 then exists y, lut1dElem a ims dIn cubic hd k x = Ok y /\ nth_error o k = Some y
                else nth_error o k = Some x
    end.
  Proof.
    intros Hl H. pose proof (lut1d_len _ _ _ _ _ _ _ _ Hl H) as Ho.
    rewrite lut1dPixel_form in H by assumption. apply bind_ok in H. destruct H as [ys [Hy H]].
    apply Ok_inj in H. pose proof (mapMi_length _ _ _ _ Hy) as Hyl. rewrite firstn_length in Hyl.
    destruct (nth_error px k) as [x|] eqn:Ek.
    - assert (Hk : k < List.length px) by (apply nth_error_Some; congruence).
      destruct (Nat.ltb k 3) eqn:E3.
      + apply Nat.ltb_lt in E3. destruct (mapMi_nth _ _ _ _ k x Hy) as [y [E1 E2]].
        { rewrite nth_firstn_any by assumption. exact Ek. }
        exists y. split; [exact E1|]. subst o. rewrite nth_error_app1 by lia. exact E2.
      + apply Nat.ltb_ge in E3. subst o. rewrite nth_error_app2 by lia. rewrite skipn_nth.
        replace (3 + (k - List.length ys)) with k by lia. exact Ek.
    - apply nth_error_None in Ek. apply nth_error_None. lia.
  Qed.

  Lemma lut1d_at c h (values : list T) st o i x :
    1 <= st -> nodeProcess c (Node h BLUT1D) values st = Ok o -> i < List.length values / st * st ->
    nth_error values i = Some x ->
    exists a dIn, lastArray (h_elems h) = Some a /\ dget (h_attrs h) "inBitDepth" = Some dIn /\
    if Nat.ltb (i mod st) 3
    then exists y, lut1dElem a (indexMaps (h_elems h)) dIn
           (match dget (h_attrs h) "interpolation" with Some v => aval_eqb v (AStr "cubic") | None => false end)
           (flagSet h "halfDomain") (i mod st) x = Ok y /\ nth_error (po_out o) i = Some y
    else nth_error (po_out o) i = Some x.
  Proof.
    intros Hst H Hi Hx. assert (H0 : st <> 0) by lia.
    cbn [nodeProcess] in H. rewrite lut1d_form in H by assumption.
    unfold dgetE in H. destruct (dget (h_attrs h) "inBitDepth") as [dIn|]; [|discriminate]. cbn [bind] in H.
    destruct (dget (h_attrs h) "outBitDepth") as [dOut|]; [|discriminate]. cbn [bind] in H.
    destruct (lastArray (h_elems h)) as [a|]; [|discriminate].
    exists a, dIn. split; [reflexivity|]. split; [reflexivity|].
    assert (Hp : i / st < List.length values / st) by (now apply div_lt).
    destruct (pixelwise_pixel _ _ _ _ _ (i / st) H0 (lut1d_len _ _ _ _ _ _) H Hp) as [px' [E1 [E2 _]]].
    assert (Hl : (i / st + 1) * st <= List.length values).
    { pose proof (Nat.mul_div_le (List.length values) st H0). nia. }
    apply (lut1dPixel_nth _ _ _ _ _ _ _ _ (i mod st)) in E1; [|rewrite slice_length; nia].
    pose proof (Nat.mod_upper_bound i st H0). pose proof (divmod i st H0) as Hdm.
    rewrite slice_nth in E1 by (now apply slot). rewrite (divmod i st H0) in E1. rewrite Hx in E1.
    assert (En : nth_error (po_out o) i = nth_error px' (i mod st)).
    { rewrite <- E2, slice_nth by (now apply slot). now rewrite Hdm. }
    rewrite En. exact E1.
  Qed.

  Theorem lut1d_local c h (v1 v2 : list T) st o1 o2 i :
    nodeProcess c (Node h BLUT1D) v1 st = Ok o1 -> nodeProcess c (Node h BLUT1D) v2 st = Ok o2 ->
    List.length v1 = List.length v2 -> nth_error v1 i = nth_error v2 i ->
    nth_error (po_out o1) i = nth_error (po_out o2) i.
  Proof.
    assert (G : forall st, 1 <= st ->
      nodeProcess c (Node h BLUT1D) v1 st = Ok o1 -> nodeProcess c (Node h BLUT1D) v2 st = Ok o2 ->
      List.length v1 = List.length v2 -> nth_error v1 i = nth_error v2 i ->
      nth_error (po_out o1) i = nth_error (po_out o2) i).
    { clear st. intros st Hst H1 H2 Hl E.
      destruct (Nat.lt_ge_cases i (List.length v1 / st * st)) as [Hi|Hi].
      - destruct (nth_error v1 i) as [x|] eqn:Ex.
        + destruct (lut1d_at _ _ _ _ _ _ _ Hst H1 Hi Ex) as [a [d [A1 [D1 R1]]]].
          rewrite Hl in Hi. symmetry in E.
          destruct (lut1d_at _ _ _ _ _ _ _ Hst H2 Hi E) as [a' [d' [A2 [D2 R2]]]].
          assert (a' = a) by congruence. assert (d' = d) by congruence. subst.
          destruct (Nat.ltb (i mod st) 3); [|congruence].
          destruct R1 as [y [R1 N1]], R2 as [y' [R2 N2]]. congruence.
        + apply nth_error_None in Ex. pose proof (Nat.mul_div_le (List.length v1) st ltac:(lia)). nia.
      - assert (F : forall v o, nodeProcess c (Node h BLUT1D) v st = Ok o -> List.length v = List.length v1 ->
                    nth_error (po_out o) i = if Nat.ltb i (List.length v) then Some n0 else None).
        { intros v o Ho Hv. destruct (Nat.ltb i (List.length v)) eqn:El.
          - apply Nat.ltb_lt in El. cbn [nodeProcess] in Ho. rewrite lut1d_form in Ho by lia. inv_ok.
            destruct (lastArray (h_elems h)); [|discriminate].
            eapply pixelwise_leftover in Ho; [destruct Ho as [Ho _]; exact Ho| lia | apply lut1d_len |].
            rewrite Hv. rewrite Hv in El. lia.
          - apply Nat.ltb_ge in El. apply nth_error_None. apply node_length in Ho. lia. }
        rewrite (F v1 o1 H1 eq_refl), (F v2 o2 H2 (eq_sym Hl)). rewrite Hl. reflexivity. }
    destruct st as [|st]; [|apply G; lia].
    intros H1 H2 Hl E.
    destruct v1 as [|x1 t1].
    - destruct v2 as [|x2 t2]; [|discriminate].
      destruct (leaf_empty0 c h BLUT1D o1 I H1) as [-> _]. destruct (leaf_empty0 c h BLUT1D o2 I H2) as [-> _]. reflexivity.
    - destruct v2 as [|x2 t2]; [discriminate|].
      rewrite leaf_stride0 in H1 by (discriminate || exact I). rewrite leaf_stride0 in H2 by (discriminate || exact I).
      rewrite <- Hl in H2. eapply G; [|exact H1|exact H2|exact Hl|exact E]. simpl. lia.
  Qed.

  Lemma lookup1D_flat a idx i i' d0 d1 rest :
    a_dims a = d0 :: d1 :: rest -> d1 <> 3 -> lookup1D a idx i = lookup1D (T:=T) a idx i'.
  Proof.
    intros Hd H3. unfold lookup1D, dim. rewrite Hd. cbn [getn nth_error bind].
    apply Nat.eqb_neq in H3. rewrite H3. reflexivity.
  Qed.

  (** A table whose second dimension is not 3 treats the channels alike. *)
  Theorem lut1d_flat c h a d0 d1 rest (values : list T) st o p i j :
    lastArray (h_elems h) = Some a -> a_dims a = d0 :: d1 :: rest -> d1 <> 3 ->
    List.length (indexMaps (h_elems h)) <= 1 ->
    nodeProcess c (Node h BLUT1D) values st = Ok o ->
    p < List.length values / st -> i < 3 -> j < 3 -> i < st -> j < st ->
    nth_error values (p * st + i) = nth_error values (p * st + j) ->
    nth_error (po_out o) (p * st + i) = nth_error (po_out o) (p * st + j).
  Proof.
    intros Ha Hd H3 Him H Hp Hi Hj Hi' Hj' E.
    assert (Hl : forall k, k < st -> p * st + k < List.length values / st * st) by (intros; nia).
    assert (Hl2 : List.length values / st * st <= List.length values).
    { rewrite Nat.mul_comm. apply Nat.mul_div_le. lia. }
    destruct (nth_error values (p * st + i)) as [x|] eqn:Ex.
    2:{ apply nth_error_None in Ex. specialize (Hl i Hi'). lia. }
    symmetry in E.
    destruct (lut1d_at c h values st o (p * st + i) x ltac:(lia) H (Hl i Hi') Ex) as [a1 [d [A1 [D1 R1]]]].
    destruct (lut1d_at c h values st o (p * st + j) x ltac:(lia) H (Hl j Hj') E) as [a2 [d' [A2 [D2 R2]]]].
    assert (M : forall k, k < st -> (p * st + k) mod st = k).
    { intros k Hk. rewrite Nat.add_comm, Nat.mod_add by lia. now apply Nat.mod_small. }
    rewrite M in R1, R2 by assumption.
    rewrite (proj2 (Nat.ltb_lt i 3) Hi) in R1. rewrite (proj2 (Nat.ltb_lt j 3) Hj) in R2.
    assert (a1 = a) by congruence. assert (a2 = a) by congruence. assert (d' = d) by congruence. subst.
    destruct R1 as [y [R1 N1]], R2 as [y' [R2 N2]].
    assert (Q : lut1dElem a (indexMaps (h_elems h)) d
           (match dget (h_attrs h) "interpolation" with Some v => aval_eqb v (AStr "cubic") | None => false end)
           (flagSet h "halfDomain") i x =
         lut1dElem a (indexMaps (h_elems h)) d
           (match dget (h_attrs h) "interpolation" with Some v => aval_eqb v (AStr "cubic") | None => false end)
           (flagSet h "halfDomain") j x).
    { unfold lut1dElem.
      assert (S : stage (indexMaps (h_elems h)) a d i 0 x = stage (indexMaps (h_elems h)) a d j 0 x).
      { unfold stage. destruct (indexMaps (h_elems h)) as [|m [|m2 t]]; try reflexivity. simpl in Him. lia. }
      rewrite S. apply bind_ext; intros y0 _. f_equal.
      unfold lookup1. destruct (match dget (h_attrs h) "interpolation" with Some v => _ | None => _ end); [reflexivity|].
      destruct (flagSet h "halfDomain").
      - unfold lookup1DHalfDomain.
        repeat match goal with
        | |- context [lookup1D a ?z i] => rewrite (lookup1D_flat a z i j d0 d1 rest Hd H3)
        end.
        destruct (nltb y0 n0); cbv beta iota;
        repeat match goal with
        | |- context [lookup1D a ?z i] => rewrite (lookup1D_flat a z i j d0 d1 rest Hd H3)
        end; reflexivity.
      - unfold lookup1DLinear. apply bind_ext; intros dd _. destruct (nisnan _ || nisinf _); [reflexivity|].
        rewrite (lookup1D_flat a _ i j d0 d1 rest Hd H3). apply bind_ext; intros v1 _.
        rewrite (lookup1D_flat a _ i j d0 d1 rest Hd H3). reflexivity. }
    congruence.
  Qed.

  (** ** Totality *)


  Lemma pyget_ok (l : list T) i : (0 <= i < Z.of_nat (List.length l))%Z -> exists x, pyget l i = Ok x.
  Proof.
    intro H. unfold pyget. destruct (i <? 0)%Z eqn:E; [apply Z.ltb_lt in E; lia|].
    rewrite E. destruct (nth_error l (Z.to_nat i)) as [x|] eqn:En; [eauto|].
    apply nth_error_None in En. lia.
  Qed.

  Lemma lookup1D_ok (a : array T) idx i : wellFormed1D a -> exists x, lookup1D a idx i = Ok x.
  Proof.
    intros [d0 [d1 [rest [Hd [H0 [H1 Hl]]]]]]. unfold lookup1D, dim. rewrite Hd. cbn [getn nth_error bind].
    cbv zeta. destruct (Nat.eqb d1 3) eqn:E3.
    - apply Nat.eqb_eq in E3. subst d1.
      assert (Nat.min 2 i <= 2) by lia.
      destruct (idx <? 0)%Z eqn:E1; [apply pyget_ok; lia|]. apply Z.ltb_ge in E1.
      destruct (Z.of_nat d0 <=? idx)%Z eqn:E2.
      + apply pyget_ok. rewrite Hl. nia.
      + apply Z.leb_gt in E2. apply pyget_ok. rewrite Hl. nia.
    - destruct (idx <? 0)%Z eqn:E1; [apply pyget_ok; nia|]. apply Z.ltb_ge in E1.
      destruct (Z.of_nat d0 <=? idx)%Z eqn:E2.
      + apply pyget_ok. rewrite Hl. nia.
      + apply Z.leb_gt in E2. apply pyget_ok. rewrite Hl. nia.
  Qed.

  Lemma lookup1DLinear_ok (a : array T) x i : wellFormed1D a -> is_ok (lookup1DLinear a x i).
  Proof.
    intro H. assert (H' := H). destruct H' as [d0 [d1 [rest [Hd _]]]].
    unfold lookup1DLinear, dim. rewrite Hd. cbn [getn nth_error bind]. cbv zeta.
    destruct (nisnan _ || nisinf _); [eexists; reflexivity|].
    destruct (lookup1D_ok a (nfloor (nmul x (nofZ (Z.of_nat d0 - 1)))) i H) as [v1 E1].
    destruct (lookup1D_ok a (nceil (nmul x (nofZ (Z.of_nat d0 - 1)))) i H) as [v2 E2].
    rewrite E1, E2. eexists; reflexivity.
  Qed.

  Lemma lookup1DHalf_ok (a : array T) x i : wellFormed1D a -> is_ok (lookup1DHalfDomain a x i).
  Proof.
    intro H. unfold lookup1DHalfDomain.
    assert (G : forall z, is_ok (lookup1D a z i)) by (intro z; apply lookup1D_ok; assumption).
    destruct (nisnan x); [apply G|]. destruct (nf16inf x); [destruct (nltb x n0); apply G|].
    destruct (if nltb x n0 then _ else _) as [[off imin] imax]. cbv zeta.
    match goal with |- is_ok (let* v1 := lookup1D a ?z1 i in let* v2 := lookup1D a ?z2 i in _) =>
      destruct (G z1) as [w1 W1]; destruct (G z2) as [w2 W2]; rewrite W1, W2 end.
    eexists; reflexivity.
  Qed.

  Lemma mapMi_ok {A B} (f : nat -> A -> res B) i l :
    (forall k x, i <= k < i + List.length l -> is_ok (f k x)) -> is_ok (mapMi f i l).
  Proof.
    revert i. induction l as [|x t IH]; intros i H; cbn [mapMi]; [eexists; reflexivity|].
    destruct (H i x) as [y Hy]; [simpl; lia|]. rewrite Hy. cbn [bind].
    destruct (IH (S i)) as [ys Hys]; [intros; apply H; simpl; lia|]. rewrite Hys. eexists; reflexivity.
  Qed.

  Definition imapTotal (m : imap T) : Prop := forall x, is_ok (imapProcess m x).

  (** One map for all channels, one per channel, or none. *)
  Definition totalMaps (ims : list (imap T)) : Prop :=
    (List.length ims <= 1 \/ 3 <= List.length ims) /\ Forall imapTotal ims.

  Lemma stage_ok ims a dIn i k x :
    totalMaps ims -> i < 3 -> is_ok (dim a k) -> is_ok (stage ims a dIn i k x).
  Proof.
    intros [Hc Hm] Hi [d Hd]. unfold stage. destruct ims as [|m0 rest]; [eexists; reflexivity|].
    assert (exists m, match rest with [] => Ok m0 | _ => getn (m0 :: rest) i end = Ok m /\ imapTotal m) as [m [E M]].
    { destruct rest as [|m1 rest].
      - exists m0. split; [reflexivity|]. now inversion Hm.
      - destruct (getn_lt (m0 :: m1 :: rest) i) as [m E]; [simpl in *; lia|].
        exists m. split; [exact E|]. apply getn_some, nth_error_In in E.
        eapply (proj1 (Forall_forall _ _)) in Hm; eauto. }
    rewrite E. cbn [bind]. destruct (M x) as [v Hv]. rewrite Hv, Hd. eexists; reflexivity.
  Qed.

  Theorem lut1d_total c h a (values : list T) st :
    hasDepths h -> lastArray (h_elems h) = Some a -> wellFormed1D a -> totalMaps (indexMaps (h_elems h)) ->
    dget (h_attrs h) "interpolation" <> Some (AStr "cubic") ->
    1 <= st -> is_ok (nodeProcess c (Node h BLUT1D) values st).
  Proof.
    intros Hh Ha Hw Hm Hc Hst. cbn [nodeProcess]. rewrite lut1d_form by lia. depths Hh. rewrite Ha.
    apply pixelwise_ok; [lia|]. intros px Hp. rewrite lut1dPixel_form by assumption.
    destruct (mapMi_ok (lut1dElem a (indexMaps (h_elems h)) dIn
       (match dget (h_attrs h) "interpolation" with Some v => aval_eqb v (AStr "cubic") | None => false end)
       (flagSet h "halfDomain")) 0 (firstn 3 px)) as [ys Hy].
    - intros k x Hk. rewrite firstn_length in Hk. unfold lut1dElem.
      destruct (stage_ok (indexMaps (h_elems h)) a dIn k 0 x Hm) as [y Hy]; [lia| |].
      { destruct Hw as [d0 [d1 [rest [Hd _]]]]. unfold dim. rewrite Hd. eexists; reflexivity. }
      rewrite Hy. cbn [bind]. unfold lookup1.
      assert (Ec : (match dget (h_attrs h) "interpolation" with Some v => aval_eqb v (AStr "cubic") | None => false end) = false).
      { destruct (dget (h_attrs h) "interpolation") as [v|]; [|reflexivity].
        destruct (aval_eqb v (AStr "cubic")) eqn:Ev; [|reflexivity]. apply aval_eqb_eq in Ev. congruence. }
      rewrite Ec. destruct (flagSet h "halfDomain").
      + destruct (lookup1DHalf_ok a y k Hw) as [z Hz]. rewrite Hz. eexists; reflexivity.
      + destruct (lookup1DLinear_ok a y k Hw) as [z Hz]. rewrite Hz. eexists; reflexivity.
    - rewrite Hy. eexists; reflexivity.
  Qed.

  Lemma mapMi_fails {A B} (f : nat -> A -> res B) i l :
    l <> [] -> (forall k x, exists e, f k x = Err e) -> exists e, mapMi f i l = Err e.
  Proof.
    intros Hl H. destruct l as [|x t]; [congruence|]. cbn [mapMi]. destruct (H i x) as [e He]. rewrite He. exists e; reflexivity.
  Qed.

  Theorem lut1d_cubic_fails c h (values : list T) st :
    dget (h_attrs h) "interpolation" = Some (AStr "cubic") -> 1 <= st -> st <= List.length values ->
    exists e, nodeProcess c (Node h BLUT1D) values st = Err e.
  Proof.
    intros Hc Hst Hl. cbn [nodeProcess]. rewrite lut1d_form by lia.
    destruct (dgetE (h_attrs h) "inBitDepth") as [dIn|e]; [|exists e; reflexivity]. cbn [bind].
    destruct (dgetE (h_attrs h) "outBitDepth") as [dOut|e]; [|exists e; reflexivity]. cbn [bind].
    destruct (lastArray (h_elems h)) as [a|]; [|eexists; reflexivity]. rewrite Hc.
    apply pixelwise_fails; [lia|assumption|]. intros px Hp. rewrite lut1dPixel_form by assumption.
    destruct (mapMi_fails (lut1dElem a (indexMaps (h_elems h)) dIn (aval_eqb (AStr "cubic") (AStr "cubic"))
                (flagSet h "halfDomain")) 0 (firstn 3 px)) as [e He].
    - destruct px; [simpl in Hp; lia|discriminate].
    - intros k x. unfold lut1dElem. destruct (stage _ _ _ _ _ _) as [y|e]; [|exists e; reflexivity]. cbn [bind].
      unfold lookup1. cbn [aval_eqb]. rewrite String.eqb_refl. unfold lookup1DCubic.
      destruct (dim a 0); eexists; reflexivity.
    - rewrite He. exists e; reflexivity.
  Qed.

  Theorem lut1d_cubic_name c h a (values : list T) st :
    hasDepths h -> lastArray (h_elems h) = Some a -> a_dims a <> [] -> indexMaps (h_elems h) = [] ->
    dget (h_attrs h) "interpolation" = Some (AStr "cubic") -> 1 <= st -> st <= List.length values ->
    nodeProcess c (Node h BLUT1D) values st = Err NameError.
  Proof.
    intros Hh Ha Hd Hm Hc Hst Hl. cbn [nodeProcess]. rewrite lut1d_form by lia. depths Hh. rewrite Ha, Hc, Hm.
    apply pixelwise_err; [lia|assumption|]. intros px Hp. rewrite lut1dPixel_form by assumption.
    destruct px as [|x t]; [simpl in Hp; lia|]. cbn [firstn mapMi]. unfold lut1dElem, lookup1. cbn [stage bind aval_eqb].
    rewrite String.eqb_refl. unfold lookup1DCubic, dim. destruct (a_dims a); [congruence|]. reflexivity.
  Qed.

  (* ---------------------------------------------------------------- *)
  (** * LUT3D totality *)


  Lemma clampIndex_lt i n : 1 <= n -> clampIndex i n < n.
  Proof. intro H. unfold clampIndex. lia. Qed.

  Lemma lookup3D_ok (a : array T) n i j k :
    wellFormed3D a n -> exists x y z, lookup3D a i j k = Ok [x; y; z].
  Proof.
    intros [[rest Hd] [Hn Hl]]. unfold lookup3D. rewrite Hd. cbv zeta.
    pose proof (clampIndex_lt i n Hn). pose proof (clampIndex_lt j n Hn). pose proof (clampIndex_lt k n Hn).
    set (p := (clampIndex i n * n * n + clampIndex j n * n + clampIndex k n) * 3).
    assert (Hp : p + 3 <= List.length (a_vals a)).
    { unfold p. rewrite Hl. generalize dependent (clampIndex i n). generalize dependent (clampIndex j n).
      generalize dependent (clampIndex k n). intros. nia. }
    assert (L : List.length (slice (a_vals a) p (p + 3)) = 3) by (rewrite slice_length; lia).
    destruct (slice (a_vals a) p (p + 3)) as [|x [|y [|z [|w t]]]]; try discriminate. eauto.
  Qed.

  Lemma corners_ok (a : array T) n r g b :
    wellFormed3D a n -> exists x0 y0 z0 x1 y1 z1 x2 y2 z2 x3 y3 z3 x4 y4 z4 x5 y5 z5 x6 y6 z6 x7 y7 z7,
      corners a r g b = Ok [[x0;y0;z0];[x1;y1;z1];[x2;y2;z2];[x3;y3;z3];[x4;y4;z4];[x5;y5;z5];[x6;y6;z6];[x7;y7;z7]].
  Proof.
    intro H. unfold corners.
    destruct (lookup3D_ok a n r g b H) as [x0 [y0 [z0 E0]]]. rewrite E0.
    destruct (lookup3D_ok a n r g (b + 1) H) as [x1 [y1 [z1 E1]]]. rewrite E1.
    destruct (lookup3D_ok a n r (g + 1) b H) as [x2 [y2 [z2 E2]]]. rewrite E2.
    destruct (lookup3D_ok a n r (g + 1) (b + 1) H) as [x3 [y3 [z3 E3]]]. rewrite E3.
    destruct (lookup3D_ok a n (r + 1) g b H) as [x4 [y4 [z4 E4]]]. rewrite E4.
    destruct (lookup3D_ok a n (r + 1) g (b + 1) H) as [x5 [y5 [z5 E5]]]. rewrite E5.
    destruct (lookup3D_ok a n (r + 1) (g + 1) b H) as [x6 [y6 [z6 E6]]]. rewrite E6.
    destruct (lookup3D_ok a n (r + 1) (g + 1) (b + 1) H) as [x7 [y7 [z7 E7]]]. rewrite E7.
    cbn [bind]. do 24 eexists. reflexivity.
  Qed.

  Lemma axis_ok (a : array T) n px k :
    wellFormed3D a n -> k < 3 -> 3 <= List.length px -> exists i f, axis a px k = Ok (i, f).
  Proof.
    intros [[rest Hd] _] Hk Hp. unfold axis. destruct (getn_lt px k) as [p Ep]; [lia|]. rewrite Ep. cbn [bind].
    unfold dim. rewrite Hd. destruct k as [|[|[|k]]]; try lia; cbn [getn nth_error bind]; eauto.
  Qed.

  Lemma tri_ok (a : array T) n px :
    wellFormed3D a n -> 3 <= List.length px -> exists x y z, lookup3DTrilinear a px = Ok [x; y; z].
  Proof.
    intros H Hp. unfold lookup3DTrilinear.
    destruct (axis_ok a n px 0 H) as [r [fr Er]]; [lia|lia|]. rewrite Er. cbn [bind].
    destruct (axis_ok a n px 1 H) as [g [fg Eg]]; [lia|lia|]. rewrite Eg. cbn [bind].
    destruct (axis_ok a n px 2 H) as [b [fb Eb]]; [lia|lia|]. rewrite Eb. cbn [bind].
    destruct (corners_ok a n r g b H) as
      [x0 [y0 [z0 [x1 [y1 [z1 [x2 [y2 [z2 [x3 [y3 [z3 [x4 [y4 [z4 [x5 [y5 [z5 [x6 [y6 [z6 [x7 [y7 [z7 E]]]]]]]]]]]]]]]]]]]]]]]].
    rewrite E. cbn [bind mix]. eauto.
  Qed.

  Lemma tet_ok (a : array T) n px :
    wellFormed3D a n -> 3 <= List.length px -> exists x y z, lookup3DTetrahedral a px = Ok [x; y; z].
  Proof.
    intros H Hp. unfold lookup3DTetrahedral.
    destruct (axis_ok a n px 0 H) as [r [fr Er]]; [lia|lia|]. rewrite Er. cbn [bind].
    destruct (axis_ok a n px 1 H) as [g [fg Eg]]; [lia|lia|]. rewrite Eg. cbn [bind].
    destruct (axis_ok a n px 2 H) as [b [fb Eb]]; [lia|lia|]. rewrite Eb. cbn [bind].
    destruct (corners_ok a n r g b H) as
      [x0 [y0 [z0 [x1 [y1 [z1 [x2 [y2 [z2 [x3 [y3 [z3 [x4 [y4 [z4 [x5 [y5 [z5 [x6 [y6 [z6 [x7 [y7 [z7 E]]]]]]]]]]]]]]]]]]]]]]]].
    rewrite E. cbn [bind].
    assert (G : forall k, k < 3 -> exists v, tetra k fr fg fb [x0;y0;z0] [x1;y1;z1] [x2;y2;z2] [x3;y3;z3]
       [x4;y4;z4] [x5;y5;z5] [x6;y6;z6] [x7;y7;z7] = Ok v).
    { intros k Hk. unfold tetra, tetra4. destruct k as [|[|[|k]]]; try lia;
        destruct (nltb fg fr), (nltb fb fg), (nltb fb fr), (nltb fg fb), (nltb fr fb); cbn [getn nth_error bind]; eauto. }
    destruct (G 0) as [x Ex]; [lia|]. destruct (G 1) as [y Ey]; [lia|]. destruct (G 2) as [z Ez]; [lia|].
    rewrite Ex, Ey, Ez. cbn [bind]. eauto.
  Qed.

  Theorem lut3d_total c h a n (values : list T) st :
    hasDepths h -> lastArray (h_elems h) = Some a -> wellFormed3D a n -> totalMaps (indexMaps (h_elems h)) ->
    3 <= st -> is_ok (nodeProcess c (Node h BLUT3D) values st).
  Proof.
    intros Hh Ha Hw Hm Hst. cbn [nodeProcess]. rewrite lut3d_form by lia. depths Hh. rewrite Ha.
    apply pixelwise_ok; [lia|]. intros px Hp. rewrite lut3dPixel_form by assumption.
    destruct (mapMi_ok (fun i => stage (indexMaps (h_elems h)) a dIn i i) 0 (firstn 3 px)) as [ys Hy].
    { intros k x Hk. rewrite firstn_length in Hk. apply stage_ok; [assumption|lia|].
      destruct Hw as [[rest Hd] _]. unfold dim. rewrite Hd.
      destruct k as [|[|[|k]]]; try lia; eexists; reflexivity. }
    rewrite Hy. cbn [bind]. cbv zeta. pose proof (mapMi_length _ _ _ _ Hy) as Hyl.
    assert (L : 3 <= List.length (ys ++ skipn 3 px)) by (rewrite keep_length by assumption; lia).
    destruct (aval_eqb _ (AStr "trilinear")); [|destruct (aval_eqb _ (AStr "tetrahedral"))].
    - destruct (tri_ok a n _ Hw L) as [x [y [z E]]]. rewrite E. eexists; reflexivity.
    - destruct (tet_ok a n _ Hw L) as [x [y [z E]]]. rewrite E. eexists; reflexivity.
    - eexists; reflexivity.
  Qed.

  (** An interpolation name LUT3D.process does not know skips the lookup. *)
  Theorem lut3d_unknown c h a d (values : list T) st o i x :
    lastArray (h_elems h) = Some a -> indexMaps (h_elems h) = [] ->
    dget (h_attrs h) "inBitDepth" = Some d ->
    dget (h_attrs h) "interpolation" <> Some (AStr "trilinear") ->
    dget (h_attrs h) "interpolation" <> Some (AStr "tetrahedral") ->
    1 <= st -> nodeProcess c (Node h BLUT3D) values st = Ok o ->
    i < List.length values / st * st -> nth_error values i = Some x ->
    nth_error (po_out o) i = Some (if Nat.ltb (i mod st) 3 then nf32 (bitDepthToNormalized x d) else x).
  Proof.
    intros Ha Hm Hd Hi1 Hi2 Hst H Hi Hx. assert (H0 : st <> 0) by lia.
    cbn [nodeProcess] in H. rewrite lut3d_form in H by lia. unfold dgetE in H. rewrite Hd in H. cbn [bind] in H.
    destruct (dget (h_attrs h) "outBitDepth"); [|discriminate]. cbn [bind] in H. rewrite Ha, Hm in H.
    set (interp := match dget (h_attrs h) "interpolation" with Some v => v | None => AStr "" end) in H.
    assert (I1 : aval_eqb interp (AStr "trilinear") = false).
    { unfold interp. destruct (dget (h_attrs h) "interpolation") as [v|]; [|reflexivity].
      destruct (aval_eqb v (AStr "trilinear")) eqn:E; [|reflexivity]. apply aval_eqb_eq in E. congruence. }
    assert (I2 : aval_eqb interp (AStr "tetrahedral") = false).
    { unfold interp. destruct (dget (h_attrs h) "interpolation") as [v|]; [|reflexivity].
      destruct (aval_eqb v (AStr "tetrahedral")) eqn:E; [|reflexivity]. apply aval_eqb_eq in E. congruence. }
    assert (Hp : i / st < List.length values / st) by (now apply div_lt).
    destruct (pixelwise_pixel _ _ _ _ _ (i / st) H0 (lut3d_len _ _ _ _ _) H Hp) as [px' [E1 [E2 _]]].
    assert (Hl : (i / st + 1) * st <= List.length values).
    { pose proof (Nat.mul_div_le (List.length values) st H0). nia. }
    set (px := slice values (i / st * st) ((i / st + 1) * st)) in *.
    assert (Hpl : List.length px = st) by (unfold px; rewrite slice_length; nia).
    rewrite lut3dPixel_form in E1 by assumption. rewrite I1, I2 in E1.
    apply bind_ok in E1. destruct E1 as [ys [Ey E1]]. cbv zeta in E1. apply Ok_inj in E1.
    pose proof (Nat.mod_upper_bound i st H0). pose proof (divmod i st H0) as Hdm.
    assert (En : nth_error (po_out o) i = nth_error px' (i mod st)).
    { rewrite <- E2, slice_nth by (now apply slot). now rewrite Hdm. }
    assert (Ex : nth_error px (i mod st) = Some x).
    { unfold px. rewrite slice_nth by (now apply slot). rewrite <- Hx. now rewrite Hdm. }
    rewrite En, <- E1. pose proof (mapMi_length _ _ _ _ Ey) as Hyl. rewrite firstn_length in Hyl.
    destruct (Nat.ltb (i mod st) 3) eqn:E3.
    - apply Nat.ltb_lt in E3. rewrite nth_error_app1 by lia.
      destruct (mapMi_nth _ _ _ _ (i mod st) x Ey) as [y [F1 F2]].
      { rewrite nth_firstn_any by assumption. exact Ex. }
      rewrite F2. cbn in F1. congruence.
    - apply Nat.ltb_ge in E3. rewrite nth_error_app2 by lia. rewrite skipn_nth.
      replace (3 + (i mod st - List.length ys)) with (i mod st) by lia. exact Ex.
  Qed.

  (* ---------------------------------------------------------------- *)
  (** * CDL styles *)


  Lemma dget_dset_same {V} (d : list (string * V)) k v : dget (dset d k v) k = Some v.
  Proof.
    induction d as [|[k' v'] t IH]; cbn [dset dget].
    - now rewrite String.eqb_refl.
    - destruct (String.eqb k k') eqn:E; cbn [dget]; [now rewrite String.eqb_refl|]. now rewrite E.
  Qed.
  Lemma dget_dset_other {V} (d : list (string * V)) k k' v : k' <> k -> dget (dset d k v) k' = dget d k'.
  Proof.
    intro H. induction d as [|[k1 v'] t IH]; cbn [dset dget].
    - destruct (String.eqb k' k) eqn:E; [apply String.eqb_eq in E; contradiction|reflexivity].
    - destruct (String.eqb k k1) eqn:E; cbn [dget].
      + apply String.eqb_eq in E. subst k1. destruct (String.eqb k' k) eqn:E2; [|reflexivity].
        apply String.eqb_eq in E2. contradiction.
      + now rewrite IH.
  Qed.


  Lemma cdl_style_eq c h v s s' (values : list T) st :
    In (s, s') autodeskCDL -> autodesk_on c = true -> 
    cdlProcess c (withStyle h s) v values st = cdlProcess c (withStyle h s') v values st.
  Proof.
    intros Hin Ha. unfold cdlProcess. cbv zeta.
    assert (E : forall s, dgetE (h_attrs (withStyle h s)) "inBitDepth" = dgetE (h_attrs h) "inBitDepth" /\
                dgetE (h_attrs (withStyle h s)) "outBitDepth" = dgetE (h_attrs h) "outBitDepth" /\
                dget (h_attrs (withStyle h s)) "style" = Some (AStr s)).
    { intro s0. unfold dgetE. cbn [withStyle h_attrs]. rewrite !dget_dset_other by discriminate.
      rewrite dget_dset_same. auto. }
    destruct (E s) as [-> [-> ->]]. destruct (E s') as [-> [-> ->]]. rewrite Ha. cbn [negb andb].
    assert (S : cdlStyleOf (AStr s) = cdlStyleOf (AStr s')).
    { simpl in Hin. destruct Hin as [H|[H|[H|[H|[]]]]]; injection H as <- <-; reflexivity. }
    rewrite S. reflexivity.
  Qed.

  Theorem cdl_style_gate c h v s s' (values : list T) st :
    In (s, s') autodeskCDL -> hasDepths h ->
    (autodesk_on c = true ->
       nodeProcess c (Node (withStyle h s) (BCDL v)) values st = nodeProcess c (Node (withStyle h s') (BCDL v)) values st) /\
    (autodesk_on c = false -> 3 <= st ->
       nodeProcess c (Node (withStyle h s) (BCDL v)) values st = Err UnsupportedExtensionError).
  Proof.
    intros Hin Hh. split.
    - intro Ha. cbn [nodeProcess]. now apply cdl_style_eq.
    - intros Ha Hst. cbn [nodeProcess]. rewrite cdl_form by lia.
      rewrite (proj2 (Nat.ltb_ge st 3)) by lia. destruct Hh as [[d1 E1] [d2 E2]].
      unfold dgetE, withStyle. cbn [h_attrs]. rewrite !dget_dset_other by discriminate. rewrite E1, E2. cbn [bind].
      rewrite dget_dset_same, Ha. cbv zeta.
      assert (S : cdlAutodeskStyle (AStr s) = true).
      { simpl in Hin. destruct Hin as [H|[H|[H|[H|[]]]]]; injection H as <- <-; reflexivity. }
      rewrite S. reflexivity.
  Qed.


  Lemma mapM_id (l : list (list T)) : mapM Ok l = Ok l.
  Proof. induction l as [|x t IH]; cbn [mapM]; [reflexivity|]. cbn [bind]. rewrite IH. reflexivity. Qed.

  Lemma pixels_rejoin st (values : list T) :
    st <> 0 -> concat (pixels st values) ++ leftover st values = values.
  Proof.
    intro Hst. unfold pixels, leftover.
    assert (G : forall n, n * st <= List.length values ->
      concat (map (fun p => slice values (p * st) ((p + 1) * st)) (seq 0 n)) = firstn (n * st) values).
    { induction n as [|n IH]; intro Hn; [reflexivity|].
      rewrite seq_S, map_app, concat_app, IH by nia. cbn [map List.concat]. rewrite app_nil_r.
      unfold slice. cbn [Nat.add]. replace ((n + 1) * st - n * st) with st by nia.
      replace (S n * st) with (n * st + st) by nia.
      rewrite <- (firstn_skipn (n * st) values) at 3.
      rewrite firstn_app, firstn_firstn, firstn_length.
      replace (Nat.min (n * st + st) (n * st)) with (n * st) by lia.
      f_equal. f_equal. nia. }
    rewrite G by (rewrite Nat.mul_comm; now apply Nat.mul_div_le). apply firstn_skipn.
  Qed.

  Theorem cdl_unknown_style c h v s (values : list T) st o :
    dget (h_attrs h) "style" = Some (AStr s) -> ~ In s knownCDL -> 1 <= st ->
    nodeProcess c (Node h (BCDL v)) values st = Ok o ->
    forall i, i < List.length values / st * st -> nth_error (po_out o) i = nth_error values i.
  Proof.
    intros Hs Hk Hst H i Hi. cbn [nodeProcess] in H. rewrite cdl_form in H by lia.
    destruct (Nat.ltb st 3) eqn:E3; [apply Ok_inj in H; subst; reflexivity|].
    apply bind_ok in H. destruct H as [dIn [_ H]]. apply bind_ok in H. destruct H as [dOut [_ H]].
    rewrite Hs in H. cbv zeta in H.
    assert (So : cdlStyleOf (AStr s) = CdlOther).
    { unfold cdlStyleOf. cbn [aval_eqb].
      assert (F : forall t, In t knownCDL -> String.eqb s t = false).
      { intros t Ht. apply String.eqb_neq. intros ->. contradiction. }
      rewrite !F by (simpl; tauto). reflexivity. }
    rewrite So in H. destruct (negb _ && _); [discriminate|].
    assert (H0 : st <> 0) by lia.
    unfold pixelwise in H. apply bind_ok in H. destruct H as [outs [Ho H]]. apply Ok_inj in H. subst o. cbn [po_out].
    assert (E : outs = pixels st values).
    { assert (mapM (cdlPixel CdlOther dIn dOut (optD (c_slope v) [n1; n1; n1])
         (optD (c_offset v) [n0; n0; n0]) (optD (c_power v) [n1; n1; n1]) (optD (c_sat v) n1) st) (pixels st values)
         = mapM Ok (pixels st values)).
      { apply mapM_ext. intros px Hp. unfold cdlPixel. cbn [bind]. apply copyExtra_id.
        pose proof (pixels_length st values H0) as F. eapply (proj1 (Forall_forall _ _)) in F; eauto. }
      rewrite H, mapM_id in Ho. congruence. }
    subst outs.
    assert (L : List.length (concat (pixels st values)) = List.length values / st * st).
    { rewrite (concat_length_all st) by (now apply pixels_length). unfold pixels. now rewrite map_length, seq_length. }
    transitivity (nth_error (concat (pixels st values) ++ leftover st values) i).
    - rewrite !nth_error_app1 by lia. reflexivity.
    - now rewrite pixels_rejoin.
  Qed.

  Theorem color_correction_fails c dIn dOut id name style (values : list T) st :
    3 <= st -> nodeProcess c (newColorCorrection dIn dOut id name style) values st = Err KeyError.
  Proof.
    intro Hst. unfold newColorCorrection. cbn [nodeProcess]. rewrite cdl_form by lia.
    rewrite (proj2 (Nat.ltb_ge st 3)) by lia. reflexivity.
  Qed.

  (** With fewer than three channels CDL returns its input. *)
  Theorem cdl_few_channels c h v (values : list T) st :
    1 <= st < 3 -> nodeProcess c (Node h (BCDL v)) values st = Ok {| po_in := values; po_out := values; po_same := true |}.
  Proof.
    intro H. cbn [nodeProcess]. rewrite cdl_form by lia. rewrite (proj2 (Nat.ltb_lt st 3)) by lia. reflexivity.
  Qed.

  (* ---------------------------------------------------------------- *)
  (** * Nodes that need three channels *)


  Theorem needs_three c h b s (values : list T) st :
    dget (h_attrs h) "style" = Some s -> knownStyle b s -> 1 <= st < 3 -> st <= List.length values ->
    exists e, nodeProcess c (Node h b) values st = Err e.
  Proof.
    intros Hs Hk Hst Hl. destruct b as [| | | |v|v|ps|ps|p|w [pl|]|ps]; try contradiction; cbn [nodeProcess].
    - rewrite gamma_form by lia. destruct (dgetE _ _) as [dIn|e]; [|exists e; reflexivity]. cbn [bind].
      destruct (dgetE _ _) as [dOut|e]; [|exists e; reflexivity]. cbn [bind].
      destruct (gammaParams ps) as [[g o]|e]; [|exists e; reflexivity]. cbn [bind]. rewrite Hs.
      assert (exists f, gammaFun s = Some f) as [f Ef].
      { simpl in Hk. destruct Hk as [<-|[<-|[<-|[<-|[]]]]]; eexists; reflexivity. }
      rewrite Ef. apply pixelwise_fails; [lia|lia|]. intros px Hp. apply gammaPixel_short. lia.
    - rewrite log_form by lia. destruct (dgetE _ _) as [dIn|e]; [|exists e; reflexivity]. cbn [bind].
      destruct (dgetE _ _) as [dOut|e]; [|exists e; reflexivity]. cbn [bind].
      destruct (logParams ps) as [cs|e]; [|exists e; reflexivity]. cbn [bind]. rewrite Hs.
      assert (Ef : logStyleOf s <> LOther).
      { simpl in Hk. destruct Hk as [<-|[<-|[<-|[<-|[<-|[<-|[]]]]]]]; discriminate. }
      apply pixelwise_fails; [lia|lia|]. intros px Hp. apply logPixel_short; [assumption|lia].
    - rewrite ec_form by lia. destruct (dgetE _ _) as [dIn|e]; [|exists e; reflexivity]. cbn [bind].
      destruct (dgetE _ _) as [dOut|e]; [|exists e; reflexivity]. cbn [bind]. rewrite Hs.
      assert (Ef : ecStyleOf s <> ECOther).
      { simpl in Hk. destruct Hk as [<-|[<-|[<-|[]]]]; discriminate. }
      apply pixelwise_fails; [lia|lia|]. intros px Hp. unfold ecFull.
      destruct (ecCore_short (ecStyleOf s) dIn dOut p px Ef) as [e E]; [lia|]. rewrite E. exists e. reflexivity.
  Qed.

  (** The ungated one-channel nodes accept short pixels. *)
  Theorem accepts_short c h (values : list T) st a d0 d1 rest :
    hasDepths h -> lastArray (h_elems h) = Some a ->
    a_dims a = d0 :: d1 :: rest -> (d1 = d0 \/ d1 = d0 + 1) -> List.length (a_vals a) = d0 * d1 ->
    d0 <= st -> 1 <= st -> is_ok (nodeProcess c (Node h BMatrix) values st).
  Proof.
    intros Hh Ha Hd Hd1 Hl H0 Hst. cbn [nodeProcess]. rewrite matrix_form by lia. depths Hh. rewrite Ha.
    apply pixelwise_ok; [lia|]. intros px Hp. eapply matrixPixel_ok; eauto.
  Qed.
End Facts.

(** What a comparison of two numbers that are not NaN guarantees. *)
Class OrdLaws (T : Type) {N : Num T} : Prop := {
  ord_total : forall x y, nisnan x = false -> nisnan y = false -> nleb x y = false -> nleb y x = true
}.

Section Maps.
  Context {T : Type} {N : Num T} {O : OrdLaws T}.

  Lemma imapSearch_ok (ins outs : list T) x y : forall fuel i,
    List.length outs = List.length ins -> i + 1 < List.length ins ->
    nth_error ins (List.length ins - 1) = Some y -> nleb x y = true ->
    List.length ins - 1 - i <= fuel -> is_ok (imapSearch fuel i ins outs x).
  Proof.
    induction fuel as [|fuel IH]; intros i Ho Hi Hy Hx Hf; [lia|]. cbn [imapSearch].
    destruct (getn_lt ins (i + 1) Hi) as [hi Eh]. rewrite Eh. cbn [bind].
    destruct (nleb x hi) eqn:E.
    - destruct (getn_lt ins i) as [lo El]; [lia|]. rewrite El. cbn [bind].
      destruct (getn_lt outs i) as [ol Eol]; [lia|]. rewrite Eol. cbn [bind].
      destruct (getn_lt outs (i + 1)) as [oh Eoh]; [lia|]. rewrite Eoh. cbn [bind]. eexists; reflexivity.
    - apply IH; try assumption; [|lia].
      destruct (Nat.eq_dec (i + 1) (List.length ins - 1)) as [Heq|Hne]; [|lia].
      rewrite Heq in Eh. apply getn_some in Eh. congruence.
  Qed.

  Lemma imap_total (m : imap T) : wellFormedMap m -> imapTotal m.
  Proof.
    intros [Hne [Hl Hn]] x. unfold imapProcess. cbv zeta.
    destruct (nisnan x) eqn:En; [eexists; reflexivity|]. destruct (nisinf x); [eexists; reflexivity|].
    destruct (im_in m) as [|f t] eqn:Ei; [congruence|].
    assert (Ef : pyget (f :: t) 0 = Ok f) by reflexivity. rewrite Ef. cbn [bind].
    assert (P0 : forall l : list T, l <> [] -> is_ok (pyget l 0)).
    { intros [|a l] H; [congruence|]. eexists; reflexivity. }
    assert (P1 : forall l : list T, l <> [] -> exists z, pyget l (-1) = Ok z /\ nth_error l (List.length l - 1) = Some z).
    { intros l H. unfold pyget. cbn [Z.ltb Z.compare].
      assert (1 <= List.length l) by (destruct l; [congruence|simpl; lia]).
      rewrite (proj2 (Z.ltb_ge _ _)) by lia.
      replace (Z.to_nat (-1 + Z.of_nat (List.length l))) with (List.length l - 1) by lia.
      destruct (nth_error l (List.length l - 1)) as [z|] eqn:Ez; [eauto|]. apply nth_error_None in Ez. lia. }
    assert (Ho : im_out m <> []) by (destruct (im_out m); [discriminate|congruence]).
    destruct (nleb x f) eqn:Exf; [now apply P0|].
    destruct (P1 (f :: t)) as [y [Ey Ny]]; [discriminate|]. rewrite Ey. cbn [bind].
    destruct (nleb y x) eqn:Eyx.
    - destruct (P1 (im_out m) Ho) as [z [Ez _]]. rewrite Ez. eexists; reflexivity.
    - assert (Hxy : nleb x y = true).
      { apply ord_total; [|exact En|exact Eyx]. eapply (proj1 (Forall_forall _ _)) in Hn; [exact Hn|].
        eapply nth_error_In; exact Ny. }
      apply (imapSearch_ok _ _ x y); try assumption; [|lia].
      destruct t as [|g t]; [|simpl; lia]. cbn in Ny. congruence.
  Qed.

  Lemma goodMaps_total (ims : list (imap T)) : goodMaps ims -> totalMaps ims.
  Proof. intros [H F]. split; [exact H|]. eapply Forall_impl; [|exact F]. apply imap_total. Qed.
End Maps.
