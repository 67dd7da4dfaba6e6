(** A list written and read a second time does not change again. *)
From Coq Require Import Reals Lra Lia ZArith NArith.
From Flocq Require Import Core BinarySingleNaN.
From Verif Require Import NumFText PIeee PIeeeRange PNumText PTextIeee PXmlArray PXmlIeee SpecStable PPack PTextSig PXmlWrite PXmlInline PBase PList PStableNum.
Local Open Scope list_scope.

Section Again.
  Variable L : libm.
  Local Instance NL : Num fl := ieeeNum L.
  Local Instance OL : TextOk fl := ieeeOk L.

  Lemma viaStr_again (x : fl) : viaStr (viaStr x) = viaStr x.
  Proof. apply digits_again. Qed.

  Lemma ntrunc_odd (x : fl) : is_finite x = false -> @ntrunc fl NL x = 0%Z.
  Proof. destruct x as [[]|[]| |]; intro; try discriminate; reflexivity. Qed.
  Lemma viaInt_again (x : fl) : viaInt (viaInt x) = viaInt x.
  Proof.
    destruct (is_finite x) eqn:F.
    - destruct (int_kept L x F) as [Fy Vy]. cbv zeta in Fy, Vy. unfold viaInt at 1.
      assert (E : @ntrunc fl NL (viaInt x) = ntrunc x).
      { unfold NL. rewrite (ntrunc_R L (viaInt x)) by exact Fy. rewrite (ntrunc_R L x) by exact F. etransitivity; [apply f_equal; exact Vy|]. apply Ztrunc_IZR. }
      rewrite E. reflexivity.
    - unfold viaInt. rewrite (ntrunc_odd x F). reflexivity.
  Qed.
  Lemma viaInt_finite (x : fl) : is_finite (viaInt x) = true.
  Proof.
    destruct (is_finite x) eqn:F; [apply (int_kept L x F)|]. unfold viaInt. rewrite (ntrunc_odd x F). reflexivity.
  Qed.

  Lemma viaArray_again raw enc (x : fl) : viaArray raw enc (viaArray raw enc x) = viaArray raw enc x.
  Proof.
    unfold viaArray.
    destruct (raw || inList enc ["integer16bit"; "hex16bit"]%string);
      [exact (roundedTo_again 11 16 x _ _ eq_refl eq_refl (roundedTo_16 L x) (roundedTo_16 L _))|].
    destruct (inList enc ["integer32bit"; "hex32bit"]%string);
      [exact (roundedTo_again 24 128 x _ _ eq_refl eq_refl (roundedTo_32 L x) (roundedTo_32 L _))|].
    destruct (inList enc ["integer64bit"; "hex64bit"]%string); [reflexivity|].
    exact (throughDecimals_again x _ _ (decimals_kept L x) (decimals_kept L _)).
  Qed.

  Lemma offset_zero (x : fl) : @neqb fl NL x n0 = false -> @neqb fl NL (viaStr x) n0 = false.
  Proof.
    intro H. destruct x as [s|s| |s m e B].
    - destruct s; discriminate H.
    - destruct s; reflexivity.
    - reflexivity.
    - pose proof (digits_nonzero (B754_finite s m e B) eq_refl) as Nz.
      assert (V : B2R (B754_finite s m e B : fl) <> 0%R).
      { intro Z. apply eq_0_F2R in Z. destruct s; discriminate Z. }
      specialize (Nz V). change (flRound (flSig 12 (B754_finite s m e B))) with (viaStr (B754_finite s m e B : fl)) in Nz.
      set (y := viaStr (B754_finite s m e B : fl)) in *. clearbody y.
      destruct y as [s'|s'| |s' m' e' B']; [exfalso; exact (Nz s' eq_refl)|destruct s'; reflexivity|reflexivity|destruct s'; reflexivity].
  Qed.

  (** * Tables *)
  Lemma rows_whole {A B} (f : A -> B) k vs : k <> 0%nat -> completeRows k (map f (completeRows k vs)) = map f (completeRows k vs).
  Proof.
    intro Hk. unfold completeRows at 1. rewrite map_length. apply firstn_all2. rewrite map_length. unfold completeRows.
    rewrite firstn_length. set (n := List.length vs). pose proof (Nat.mod_le n k Hk). rewrite Nat.min_l by lia.
    assert (E : (n - n mod k = n / k * k)%nat) by (pose proof (Nat.div_mod n k Hk); lia).
    rewrite E, Nat.mod_mul by exact Hk. lia.
  Qed.
  Lemma rows_again i (a : array fl) : rowLength (a_dims a) <> Some 0%nat -> keptRows (keptArr i a) = a_vals (keptArr i a).
  Proof.
    intro H. unfold keptRows at 1. cbn [keptArr a_dims a_vals]. unfold keptRows. destruct (rowLength (a_dims a)) as [k|]; [|reflexivity].
    apply rows_whole. congruence.
  Qed.
  (** Without columns the division in completeRows leaves the list alone. *)
  Lemma rows_zero i (a : array fl) : rowLength (a_dims a) = Some 0%nat -> keptRows (keptArr i a) = a_vals (keptArr i a).
  Proof.
    intro H. unfold keptRows at 1. cbn [keptArr a_dims a_vals]. rewrite H. unfold keptRows. rewrite H. unfold completeRows.
    cbn [Nat.modulo]. rewrite Nat.sub_diag. rewrite Nat.sub_diag. reflexivity.
  Qed.
  Lemma rows_kept i (a : array fl) : keptRows (keptArr i a) = a_vals (keptArr i a).
  Proof.
    destruct (rowLength (a_dims a)) as [[|k]|] eqn:E; [now apply rows_zero|apply rows_again; congruence|apply rows_again; congruence].
  Qed.
  Lemma encoding_known (enc : string) : let e := if inList enc knownEncodings then enc else "string"%string in
    (if inList e knownEncodings then e else "string"%string) = e.
  Proof. cbv zeta. destruct (inList enc knownEncodings) eqn:E; [now rewrite E|]. destruct (inList _ _); reflexivity. Qed.
  Lemma encoding_again i (a : array fl) : keptEncoding (keptArr i a) = keptEncoding a.
  Proof.
    unfold keptEncoding at 1. rewrite rows_kept. cbn [keptArr a_vals a_enc]. unfold keptEncoding.
    destruct (keptRows a) as [|x t]; [reflexivity|]. cbn [map]. apply encoding_known.
  Qed.
  Lemma via_known raw enc : inList enc knownEncodings = false -> forall x : fl, viaArray raw enc x = viaArray raw "string" x.
  Proof.
    intros H x. unfold viaArray. unfold inList, knownEncodings in *. cbn [existsb] in *.
    destruct raw; [reflexivity|]. rewrite !orb_false_iff in H. cbn [orb].
    repeat match goal with |- context [String.eqb enc ?s] => replace (String.eqb enc s) with false by (symmetry; tauto) end. reflexivity.
  Qed.
  Lemma arr_again i (a : array fl) : keptArr i (keptArr i a) = keptArr i a.
  Proof.
    unfold keptArr at 1. rewrite rows_kept, encoding_again. cbn [keptArr a_dims a_vals a_raw a_enc]. unfold keptArr. f_equal.
    rewrite map_map. unfold keptEncoding. destruct (keptRows a) as [|x t] eqn:K; [reflexivity|]. rewrite <- K. clear K.
    apply map_ext. intro v. destruct (inList (a_enc a) knownEncodings) eqn:E; [apply viaArray_again|].
    rewrite (via_known _ _ E). apply viaArray_again.
  Qed.
  Lemma imap_again (m : imap fl) : keptIMap (keptIMap m) = keptIMap m.
  Proof.
    unfold keptIMap. cbn [im_dim im_in im_out]. rewrite !map_map. f_equal; apply map_ext; [apply viaStr_again|apply viaInt_again].
  Qed.
  Lemma element_again i (e : element fl) : keptElement i (keptElement i e) = keptElement i e.
  Proof. destruct e; cbn [keptElement]; rewrite ?arr_again, ?imap_again; reflexivity. Qed.
  Lemma header_again (h : header fl) : keptHeader (keptHeader h) = keptHeader h.
  Proof.
    unfold keptHeader. cbn [h_attrs h_vals h_dyn h_elems]. rewrite !map_map. f_equal; apply map_ext.
    - intros [k v]. cbn [fst snd]. now rewrite viaStr_again.
    - intro e. apply element_again.
  Qed.
  Lemma cdl_again (v : cdl fl) : keptCdl (keptCdl v) = keptCdl v.
  Proof.
    assert (E : forall o : option (list fl), option_map (map viaStr) (option_map (map viaStr) o) = option_map (map viaStr) o).
    { intros [l|]; [|reflexivity]. cbn [option_map]. rewrite map_map. f_equal. apply map_ext. apply viaStr_again. }
    unfold keptCdl. cbn [c_slope c_offset c_power c_sat]. rewrite !E. f_equal. destruct (c_sat v); [|reflexivity]. cbn [option_map].
    now rewrite viaStr_again.
  Qed.
  Lemma gamma_again (p : gparam fl) : keptGamma (keptGamma p) = keptGamma p.
  Proof.
    unfold keptGamma. cbn [g_gamma g_offset g_chan]. rewrite viaStr_again. f_equal.
    destruct (neqb (g_offset p) n0) eqn:E; [reflexivity|]. rewrite (offset_zero _ E). apply viaStr_again.
  Qed.
  Lemma log_again (p : lparam fl) : keptLog (keptLog p) = keptLog p.
  Proof. unfold keptLog. cbn [l_gamma l_white l_black l_high l_shadow l_chan]. now rewrite !viaStr_again. Qed.
  Lemma ec_again (p : eparam fl) : keptEC (keptEC p) = keptEC p.
  Proof. unfold keptEC. cbn [e_exposure e_contrast e_pivot]. now rewrite !viaStr_again. Qed.

  Lemma map_again {A} (f : A -> A) l : Forall (fun x => f (f x) = f x) l -> map f (map f l) = map f l.
  Proof. intro H. rewrite map_map. induction H as [|x t Hx _ IH]; [reflexivity|]. cbn [map]. now rewrite Hx, IH. Qed.
  Lemma all_Forall {A} (P : A -> Prop) l : (forall x, P x) -> Forall P l.
  Proof. intro H. apply Forall_forall. auto. Qed.

  Lemma node_again (n : node fl) : keptNode (keptNode n) = keptNode n.
  Proof.
    induction n as [h b HG _] using node_deep_ind.
    destruct b; cbn [keptNode]; rewrite header_again; rewrite ?cdl_again, ?ec_again; try reflexivity; do 2 f_equal; apply map_again.
    - apply all_Forall, gamma_again.
    - apply all_Forall, log_again.
    - exact (HG _ eq_refl).
  Qed.
  Theorem kept_again (l : plist fl) : keptList (keptList l) = keptList l.
  Proof. destruct l as [attrs vals elems procs]. cbn [keptList]. f_equal. apply map_again, all_Forall, node_again. Qed.

  (** * What was read can be stored *)
  Lemma keptHeader_attrs (h : header fl) : h_attrs (keptHeader h) = h_attrs h. Proof. reflexivity. Qed.
  Lemma header_storable (h : header fl) b b' : headerOk h b ->
    (ownAttributes b' = ownAttributes b) -> (forall vals, valuesOk b vals -> valuesOk b' vals) ->
    (forall e, elementOk h b e -> elementOk h b' e) -> headerOk (keptHeader h) b'.
  Proof.
    intros (A & V & E) Ho Hv He. split; [|split].
    - unfold attributesOk in *. rewrite Ho. exact A.
    - apply Hv in V. destruct b'; cbn [valuesOk] in *; unfold keptHeader; cbn [h_vals]; try (rewrite V; reflexivity).
      destruct V as [N F]. rewrite map_map. cbn [fst]. split.
      + erewrite map_ext; [exact N|reflexivity].
      + apply Forall_map. exact F.
    - unfold keptHeader at 2. cbn [h_elems]. apply Forall_map. eapply Forall_impl; [|exact E]. intros e Oe. apply He in Oe.
      destruct e; exact Oe.
  Qed.
  Lemma element_same (h : header fl) b b' e :
    (b = b' \/ (exists v v', b = BCDL v /\ b' = BCDL v') \/ (exists v v', b = BColorCorrection v /\ b' = BColorCorrection v') \/
     (exists v v', b = BGamma v /\ b' = BGamma v') \/ (exists v v', b = BLog v /\ b' = BLog v') \/
     (exists v v', b = BExposureContrast v /\ b' = BExposureContrast v') \/
     (exists w w' pl, b = BReference w pl /\ b' = BReference w' pl) \/ (exists v v', b = BGroup v /\ b' = BGroup v')) ->
    elementOk h b e -> elementOk h b' e.
  Proof.
    intros [<-|[(v & v' & -> & ->)|[(v & v' & -> & ->)|[(v & v' & -> & ->)|[(v & v' & -> & ->)|[(v & v' & -> & ->)|
            [(w & w' & pl & -> & ->)|(v & v' & -> & ->)]]]]]]]; [trivial| | | | | | |];
      destruct e; cbn [elementOk]; trivial; try (intros [[E|E] _]; discriminate E); try (intros [[ps E] _]; discriminate E).
    intros [_ Q]. split; [eexists; reflexivity|exact Q].
  Qed.
  Lemma node_storable load (n : node fl) : storable load n -> storable load (keptNode n).
  Proof.
    induction n as [h b HG _] using node_deep_ind. intros [H B].
    destruct b as [| | | |v|v|v|v|v|w pl|ps]; cbn [keptNode storable];
      (split; [eapply header_storable; [exact H|reflexivity|trivial|intro e; apply element_same]|]); try exact B; eauto 12.
    apply storable_all in B. apply storable_all. specialize (HG ps eq_refl). apply Forall_map.
    rewrite Forall_forall in *. intros p Hp. apply HG; auto.
  Qed.
  Theorem list_storable load (l : plist fl) : storableList load l -> storableList load (keptList l).
  Proof.
    destruct l as [attrs vals elems procs]. intros (N & V & E & P). cbn [keptList storableList]. repeat (split; [assumption|]).
    apply Forall_map. eapply Forall_impl; [|exact P]. intros n. apply node_storable.
  Qed.

  Theorem saved_again c c' load strict (l : plist fl) root l1 : autodesk_on c' = true -> duiker_on c' = true -> storableList load l ->
    listWrite c false l = Ok root -> listRead c' load strict emptyList root = Ok l1 ->
    forall c2 root2, listWrite c2 false l1 = Ok root2 -> listRead c' load strict emptyList root2 = Ok l1.
  Proof.
    intros A D S W R c2 root2 W2. rewrite (list_back c c' load strict l root A D S W) in R. apply Ok_inj in R. subst l1.
    rewrite (list_back c2 c' load strict (keptList l) root2 A D (list_storable load l S) W2). now rewrite kept_again.
  Qed.

  (** * When it can be written again *)
  Lemma inside_kept (P1 P2 Q : element fl -> Prop) (n : node fl) :
    (forall b e, Q e -> P1 (keptElement b e) -> P2 (keptElement b e)) ->
    elementsInside Q n -> elementsInside P1 (keptNode n) -> elementsInside P2 (keptNode n).
  Proof.
    intro H. induction n as [h b HG _] using node_deep_ind. intros [Q1 Q2] [A1 A2].
    assert (K : Forall P2 (h_elems (keptHeader h))).
    { unfold keptHeader in *. cbn [h_elems] in *. rewrite Forall_map in *. rewrite Forall_forall in *. intros e He. eapply H; auto. }
    destruct b; cbn [keptNode elementsInside] in *; (split; [exact K|]); try exact Logic.I.
    specialize (HG ps eq_refl). clear - HG Q2 A2. induction HG as [|p t Hp _ IH]; [exact Logic.I|].
    cbn [map] in *. destruct Q2 as [Q2 Q3], A2 as [A2 A3]. split; [exact (Hp Q2 A2)|exact (IH Q3 A3)].
  Qed.
  Lemma arr_writes_again c i (a : array fl) : is_ok (arrayWrite c a) ->
    (is_ok (arrayWrite c (keptArr i a)) <-> (i = true -> Forall (fun x => is_finite x = true) (a_vals (keptArr i a)))).
  Proof.
    intro W. apply (array_writes L) in W. destruct W as (k & D & Nz & Enc & _ & O). rewrite (array_writes L).
    assert (Rows : forall k', rowLength (a_dims (keptArr i a)) = Some k' -> completeRows k' (a_vals (keptArr i a)) = a_vals (keptArr i a)).
    { intros k' E. pose proof (rows_kept i a) as R. unfold keptRows in R at 1. now rewrite E in R. }
    split.
    - intros (k' & D' & _ & _ & I & _). rewrite (Rows k' D') in I. intro Hi. apply Forall_forall. intros x Hx. now apply I.
    - intro F. exists k. split; [exact D|]. split; [exact Nz|]. rewrite (Rows k D).
      assert (Kr : keptRows a = completeRows k (a_vals a)) by (unfold keptRows; now rewrite D).
      split; [|split].
      + intro Ne. cbn [keptArr a_vals a_enc] in *. unfold keptEncoding. destruct (keptRows a) as [|x t] eqn:K; [now contradiction Ne|].
        destruct (inList (a_enc a) knownEncodings); [|now left]. apply Enc. rewrite <- Kr. discriminate.
      + intros Hi x Hx. specialize (F Hi). rewrite Forall_forall in F. now apply F.
      + intros Hr He x y Hx Fx Ry. cbn [keptArr a_vals a_enc a_raw] in *.
        assert (Ea : a_enc a = "hex32bit"%string).
        { unfold keptEncoding in He. destruct (keptRows a); [discriminate|]. destruct (inList (a_enc a) knownEncodings); [exact He|discriminate]. }
        apply in_map_iff in Hx as (x0 & <- & H0). rewrite Hr, Ea in *.
        change (viaArray false "hex32bit" x0) with (@nf32 fl NL x0) in *.
        rewrite (roundedTo_again 24 128 x0 _ _ eq_refl eq_refl (roundedTo_32 L x0) Ry). exact Fx.
  Qed.
  Lemma element_writes_again c i (e : element fl) : is_ok (elementWrite c e) ->
    (is_ok (elementWrite c (keptElement i e)) <-> finiteIntegers (keptElement i e)).
  Proof.
    destruct e as [d|a|m|p]; cbn [elementWrite keptElement finiteIntegers]; intro W.
    - split; [trivial|intros _; exact W].
    - exact (arr_writes_again c i a W).
    - split; [trivial|]. intros _. apply imapWrite_ok in W. apply imapWrite_ok. destruct W as [W1 _]. split.
      + cbn [keptIMap im_in im_out]. now rewrite !map_length.
      + intros b Hb. cbn [keptIMap im_out] in Hb. apply in_map_iff in Hb as (b0 & <- & _). apply (pyint_ok L), viaInt_finite.
    - split; [trivial|intros _; exact W].
  Qed.
  Theorem writes_again c c' load strict (l : plist fl) root l1 : autodesk_on c' = true -> duiker_on c' = true -> storableList load l ->
    listWrite c false l = Ok root -> listRead c' load strict emptyList root = Ok l1 ->
    (is_ok (listWrite c false l1) <-> Forall (elementsInside finiteIntegers) (procs_of l1)).
  Proof.
    intros A D S W R. rewrite (list_back c c' load strict l root A D S W) in R. apply Ok_inj in R. subst l1.
    assert (Wl : is_ok (listWrite c false l)) by (eexists; exact W). rewrite list_writes in Wl. rewrite list_writes.
    destruct l as [attrs vals elems procs]. cbn [keptList procs_of] in *. rewrite !Forall_map. rewrite !Forall_forall in *.
    split; intros H n Hn; specialize (H n Hn); specialize (Wl n Hn); (eapply inside_kept; [|exact Wl|exact H]); intros b e We;
      apply (element_writes_again c b e We).
  Qed.
End Again.
