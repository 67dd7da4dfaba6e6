(** From the per-pixel form of the nodes to [actsPerColour] and [actsPerChannel]. *)
From Verif Require Export SpecNum PFacts.

Section Act.
  Context {T : Type} {N : Num T}.

  Lemma indexed_length {A B} (f : nat -> A -> B) l : List.length (indexed f l) = List.length l.
  Proof. unfold indexed. rewrite map_length, combine_length, seq_length. lia. Qed.

  Lemma indexed_nth {A B} (f : nat -> A -> B) l i x :
    nth_error l i = Some x -> nth_error (indexed f l) i = Some (f i x).
  Proof.
    unfold indexed. rewrite nth_error_map.
    assert (G : forall (l : list A) m i, nth_error l i = Some x ->
              nth_error (combine (seq m (List.length l)) l) i = Some (m + i, x)).
    { clear. induction l as [|y t IH]; intros m i H; [destruct i; discriminate|].
      destruct i as [|i]; cbn [List.length seq combine nth_error] in *.
      - injection H as ->. do 2 f_equal. lia.
      - rewrite (IH (S m) i H). do 2 f_equal. lia. }
    intro H. rewrite (G l 0 i H). reflexivity.
  Qed.

  Lemma list_eq_nth {A} (l m : list A) :
    List.length l = List.length m -> (forall i x, nth_error m i = Some x -> nth_error l i = Some x) -> l = m.
  Proof.
    intros Hl H. apply nth_error_ext. intro i. destruct (nth_error m i) as [x|] eqn:E; [now apply H|].
    apply nth_error_None in E. apply nth_error_None. lia.
  Qed.

  Lemma perColour_length st F (values : list T) : List.length (perColour st F values) = List.length values.
  Proof. apply indexed_length. Qed.

  (** The colour a pixel function gives. *)
  Definition colourOf (F : T -> T -> T -> T * T * T) (px : list T) : list T :=
    let '(r, g, b) := F (nth 0 px n0) (nth 1 px n0) (nth 2 px n0) in r :: g :: b :: skipn 3 px.

  Lemma nth_slice (l : list T) a b k : a + k < b -> nth k (slice l a b) n0 = nth (a + k) l n0.
  Proof.
    intro H. pose proof (slice_nth l a b k H) as E.
    destruct (nth_error l (a + k)) as [x|] eqn:E2.
    - apply nth_error_nth with (d := n0) in E, E2. congruence.
    - apply nth_error_None in E, E2. rewrite !nth_overflow by assumption. reflexivity.
  Qed.

  Lemma pixelwise_colour f b st F (values : list T) :
    3 <= st -> (forall px, List.length px = st -> f px = Ok (colourOf F px)) ->
    outcome (pixelwise f b st values) = Ok (perColour st F values).
  Proof.
    intros Hst Hf. assert (H0 : st <> 0) by lia.
    assert (Hl : lenpres st f).
    { intros px o Hp H. rewrite Hf in H by assumption. apply Ok_inj in H. subst o. unfold colourOf.
      destruct (F _ _ _) as [[r g] bl]. cbn [List.length]. rewrite skipn_length. lia. }
    destruct (pixelwise_ok f b st values H0) as [o Ho].
    { intros px Hp. rewrite Hf by assumption. eexists; reflexivity. }
    rewrite Ho. cbn [outcome]. f_equal.
    pose proof (pixelwise_length f b st values o H0 Hl Ho) as [Hlen _].
    apply list_eq_nth; [rewrite perColour_length; exact Hlen|].
    intros i y Hy.
    assert (Hi : i < List.length values).
    { rewrite <- (perColour_length st F). apply nth_error_Some. rewrite Hy. discriminate. }
    destruct (nth_error values i) as [x|] eqn:Ex; [|apply nth_error_None in Ex; lia].
    unfold perColour in Hy. rewrite (indexed_nth _ _ _ _ Ex) in Hy. injection Hy as <-.
    destruct (Nat.ltb i (List.length values / st * st)) eqn:El.
    - apply Nat.ltb_lt in El.
      pose proof (div_lt i st _ H0 El) as Hp. pose proof (divmod i st H0) as Hdm.
      pose proof (Nat.mod_upper_bound i st H0) as Hm.
      destruct (pixelwise_pixel f b st values o (i / st) H0 Hl Ho Hp) as [px' [E1 [E2 _]]].
      set (p := i / st) in *. set (m := i mod st) in *. clearbody p m.
      assert (Hin : (p + 1) * st <= List.length values) by (eapply slot_in; eauto).
      rewrite Hf in E1; [|rewrite slice_length; [lia|lia|exact Hin]].
      apply Ok_inj in E1. subst px'.
      apply (f_equal (fun l => nth_error l m)) in E2.
      rewrite slice_nth in E2 by (apply slot; exact Hm). rewrite Hdm in E2. rewrite E2.
      unfold colourOf. rewrite !nth_slice by lia. rewrite Nat.add_0_r.
      destruct (F _ _ _) as [[r g] bl].
      destruct m as [|[|[|m]]]; try reflexivity. cbn [nth_error].
      rewrite skipn_nth. rewrite slice_nth by lia. cbn [Nat.add].
      replace (p * st + S (S (S m))) with i by lia. exact Ex.
    - apply Nat.ltb_ge in El.
      exact (proj1 (pixelwise_leftover f b st values o i H0 Hl Ho ltac:(lia))).
  Qed.

  Lemma slice_pixelAt st p (values : list T) :
    p < List.length values / st -> st <> 0 -> slice values (p * st) ((p + 1) * st) = pixelAt st p values.
  Proof.
    intros Hp H0. assert (Hin : (p + 1) * st <= List.length values) by (eapply slot_in; eauto).
    apply list_eq_nth; [unfold pixelAt; rewrite map_length, seq_length, slice_length; lia|].
    intros k x Hk. unfold pixelAt in Hk. rewrite nth_error_map in Hk.
    destruct (nth_error (seq 0 st) k) as [k'|] eqn:E; [|discriminate]. injection Hk as <-.
    assert (k < st) by (rewrite <- (seq_length st 0); apply nth_error_Some; congruence).
    apply nth_error_nth with (d := 0) in E. rewrite seq_nth in E by assumption. cbn in E. subst k'.
    rewrite slice_nth by (apply slot; assumption). apply nth_error_nth'. pose proof (slot p st k H). lia.
  Qed.

  Lemma perPixel_length st F (values : list T) : List.length (perPixel st F values) = List.length values.
  Proof. apply indexed_length. Qed.

  Lemma pixelwise_pixels f b st F (values : list T) :
    st <> 0 -> (forall px, List.length px = st -> f px = Ok (F px) /\ List.length (F px) = st) ->
    outcome (pixelwise f b st values) = Ok (perPixel st F values).
  Proof.
    intros H0 Hf.
    assert (Hl : lenpres st f).
    { intros px o Hp H. destruct (Hf px Hp) as [E HF]. rewrite E in H. apply Ok_inj in H. now subst o. }
    destruct (pixelwise_ok f b st values H0) as [o Ho].
    { intros px Hp. rewrite (proj1 (Hf px Hp)). eexists; reflexivity. }
    rewrite Ho. cbn [outcome]. f_equal.
    pose proof (pixelwise_length f b st values o H0 Hl Ho) as [Hlen _].
    apply list_eq_nth; [rewrite perPixel_length; exact Hlen|].
    intros i y Hy.
    assert (Hi : i < List.length values).
    { rewrite <- (perPixel_length st F). apply nth_error_Some. rewrite Hy. discriminate. }
    destruct (nth_error values i) as [x|] eqn:Ex; [|apply nth_error_None in Ex; lia].
    unfold perPixel in Hy. rewrite (indexed_nth _ _ _ _ Ex) in Hy. injection Hy as <-.
    destruct (Nat.ltb i (List.length values / st * st)) eqn:El.
    - apply Nat.ltb_lt in El.
      pose proof (div_lt i st _ H0 El) as Hp. pose proof (divmod i st H0) as Hdm.
      pose proof (Nat.mod_upper_bound i st H0) as Hm.
      destruct (pixelwise_pixel f b st values o (i / st) H0 Hl Ho Hp) as [px' [E1 [E2 _]]].
      rewrite slice_pixelAt in E1 by assumption.
      assert (Hpl : List.length (pixelAt st (i / st) values) = st) by (unfold pixelAt; rewrite map_length; apply seq_length).
      destruct (Hf _ Hpl) as [E3 E4]. rewrite E3 in E1. apply Ok_inj in E1. subst px'.
      apply (f_equal (fun l => nth_error l (i mod st))) in E2.
      rewrite slice_nth in E2 by (apply slot; exact Hm). rewrite Hdm in E2. rewrite E2.
      apply nth_error_nth'. lia.
    - apply Nat.ltb_ge in El.
      exact (proj1 (pixelwise_leftover f b st values o i H0 Hl Ho ltac:(lia))).
  Qed.

  (** Two such maps in a row. *)
  Lemma pixelAt_length st p (values : list T) : List.length (pixelAt st p values) = st.
  Proof. unfold pixelAt. now rewrite map_length, seq_length. Qed.

  Lemma pixelAt_perPixel st F (values : list T) p :
    st <> 0 -> (forall px, List.length px = st -> List.length (F px) = st) -> p < List.length values / st ->
    pixelAt st p (perPixel st F values) = F (pixelAt st p values).
  Proof.
    intros H0 HF Hp. assert (Hin : (p + 1) * st <= List.length values) by (eapply slot_in; eauto).
    assert (Hl := HF _ (pixelAt_length st p values)).
    apply list_eq_nth; [rewrite Hl; apply pixelAt_length|].
    intros k x Hk. assert (Hks : k < st) by (rewrite <- Hl; apply nth_error_Some; congruence).
    unfold pixelAt at 1. rewrite nth_error_map.
    rewrite (nth_error_nth' (seq 0 st) 0) by (rewrite seq_length; assumption). cbn [option_map].
    rewrite seq_nth by assumption. cbn [Nat.add]. f_equal.
    pose proof (slot p st k Hks) as Hs.
    destruct (nth_error values (p * st + k)) as [v|] eqn:Ev; [|apply nth_error_None in Ev; lia].
    pose proof (indexed_nth (fun i (_ : T) =>
      if Nat.ltb i (List.length values / st * st) then nth (i mod st) (F (pixelAt st (i / st) values)) n0 else n0) _ _ _ Ev) as E.
    fold (perPixel st F values) in E. apply nth_error_nth with (d := n0) in E. rewrite E.
    assert (Nat.ltb (p * st + k) (List.length values / st * st) = true) as -> by (apply Nat.ltb_lt; nia).
    rewrite Nat.add_comm, Nat.mod_add, Nat.mod_small by assumption.
    rewrite Nat.div_add, Nat.div_small by assumption. cbn [Nat.add]. now apply nth_error_nth.
  Qed.

  Lemma perPixel_ext st F G (values : list T) :
    (forall px, List.length px = st -> F px = G px) -> perPixel st F values = perPixel st G values.
  Proof.
    intro H. unfold perPixel, indexed. apply map_ext. intros [i x]. cbn [fst snd].
    destruct (Nat.ltb _ _); [|reflexivity]. rewrite H; [reflexivity|apply pixelAt_length].
  Qed.

  Lemma perPixel_perPixel st F G (values : list T) :
    st <> 0 -> (forall px, List.length px = st -> List.length (F px) = st) ->
    perPixel st G (perPixel st F values) = perPixel st (fun px => G (F px)) values.
  Proof.
    intros H0 HF. apply list_eq_nth; [rewrite !perPixel_length; reflexivity|].
    intros i y Hy.
    assert (Hi : i < List.length values).
    { rewrite <- (perPixel_length st (fun px => G (F px))). apply nth_error_Some. rewrite Hy. discriminate. }
    destruct (nth_error values i) as [x|] eqn:Ex; [|apply nth_error_None in Ex; lia].
    destruct (nth_error (perPixel st F values) i) as [z|] eqn:Ez;
      [|apply nth_error_None in Ez; rewrite perPixel_length in Ez; lia].
    unfold perPixel in Hy. rewrite (indexed_nth _ _ _ _ Ex) in Hy. injection Hy as <-.
    unfold perPixel at 1. rewrite (indexed_nth _ _ _ _ Ez). f_equal. rewrite perPixel_length.
    destruct (Nat.ltb i _) eqn:El; [|reflexivity]. apply Nat.ltb_lt in El.
    rewrite pixelAt_perPixel; [reflexivity|assumption|assumption|now apply div_lt].
  Qed.

  Lemma perPixel_id st F (values : list T) :
    st <> 0 -> (forall px, List.length px = st -> F px = px) -> List.length values mod st = 0 ->
    perPixel st F values = values.
  Proof.
    intros H0 HF Hm. apply list_eq_nth; [apply perPixel_length|].
    intros i x Ex. unfold perPixel. rewrite (indexed_nth _ _ _ _ Ex). f_equal.
    assert (Hi : i < List.length values) by (apply nth_error_Some; congruence).
    pose proof (divmod (List.length values) st H0) as Hd. rewrite Hm, Nat.add_0_r in Hd. rewrite Hd.
    apply Nat.ltb_lt in Hi. rewrite Hi. rewrite HF by apply pixelAt_length.
    pose proof (Nat.mod_upper_bound i st H0) as Hk.
    unfold pixelAt. rewrite (nth_indep _ n0 (nth (i / st * st + 0) values n0)) by (rewrite map_length, seq_length; lia).
    rewrite (map_nth (fun k => nth (i / st * st + k) values n0)). rewrite seq_nth by assumption. cbn [Nat.add].
    rewrite divmod by assumption. now apply nth_error_nth.
  Qed.

  Lemma three_of (px : list T) : 3 <= List.length px ->
    exists x y z t, px = x :: y :: z :: t.
  Proof. destruct px as [|x [|y [|z t]]]; cbn; intros; try lia. eauto. Qed.

  Lemma mapMi3 (G : nat -> T -> res T) (f : nat -> T -> T) (px : list T) :
    3 <= List.length px -> (forall k x, k < 3 -> G k x = Ok (f k x)) ->
    (let* ys := mapMi G 0 (firstn 3 px) in Ok (ys ++ skipn 3 px)) =
    Ok (colourOf (fun r g b => (f 0 r, f 1 g, f 2 b)) px).
  Proof.
    intros Hp H. destruct (three_of px Hp) as [x [y [z [t ->]]]].
    cbn [firstn mapMi]. rewrite !H by lia. reflexivity.
  Qed.
End Act.

Ltac depths H :=
  let d1 := fresh "dIn" in let d2 := fresh "dOut" in let E1 := fresh "EdIn" in let E2 := fresh "EdOut" in
  destruct H as [[d1 E1] [d2 E2]]; unfold dgetE; rewrite ?E1, ?E2; cbn [bind].

Lemma outcome_ok {A} (r : res (pout A)) l : outcome r = Ok l -> exists o, r = Ok o /\ po_out o = l.
Proof. destruct r as [o|e]; cbn [outcome]; intro H; [|discriminate]. apply Ok_inj in H. eauto. Qed.
