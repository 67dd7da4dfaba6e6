(** Writing a process list and reading it back. *)
From Coq Require Import List Arith Lia ZArith String Ascii Bool.
From Verif Require Import PBase PChain PRegistry PNumText PXmlArray PXmlIeee PXmlRead SpecWrite.
Import ListNotations.
Local Open Scope list_scope.

(* ------------------------------------------------------------------ *)
(** * Dictionaries *)

Lemma dset_new {V} (d : list (string * V)) k v : ~ In k (map fst d) -> dset d k v = d ++ [(k, v)].
Proof.
  induction d as [|[k' v'] d IH]; intro H; [reflexivity|]. cbn [dset]. destruct (String.eqb_spec k k') as [->|].
  - exfalso. apply H. now left.
  - cbn [app]. f_equal. apply IH. intro K. apply H. now right.
Qed.
Lemma dset_over {V} (d d' : list (string * V)) k v o : ~ In k (map fst d) ->
  dset (d ++ (k, o) :: d') k v = d ++ (k, v) :: d'.
Proof.
  induction d as [|[k' v'] d IH]; intro H; cbn [app dset]; [now rewrite String.eqb_refl|]. destruct (String.eqb_spec k k') as [->|].
  - exfalso. apply H. now left.
  - f_equal. apply IH. intro K. apply H. now right.
Qed.
Lemma dset_all {V} (todo done old : list (string * V)) more :
  map fst todo = map fst old ++ more -> NoDup (map fst done ++ map fst todo) ->
  fold_left (fun d kv => dset d (fst kv) (snd kv)) todo (done ++ old) = done ++ todo.
Proof.
  revert done old more. induction todo as [|[k v] todo IH]; intros done old more E H.
  - destruct old; [|discriminate]. reflexivity.
  - cbn [fold_left fst snd]. cbn [map fst] in E, H.
    assert (K : ~ In k (map fst done)) by (intro K; apply NoDup_remove_2 in H; apply H, in_or_app; now left).
    change (done ++ (k, v) :: todo) with (done ++ [(k, v)] ++ todo). rewrite app_assoc.
    destruct old as [|[k' o] old].
    + rewrite app_nil_r, dset_new by exact K.
      rewrite <- (app_nil_r (done ++ [(k, v)])) at 1. apply (IH (done ++ [(k, v)]) []) with (more := map fst todo); [reflexivity|]. rewrite map_app. cbn [map fst].
      rewrite <- app_assoc. exact H.
    + cbn [map fst app] in E. injection E as <- E. rewrite dset_over by exact K.
      replace (done ++ (k, v) :: old) with ((done ++ [(k, v)]) ++ old) by (rewrite <- app_assoc; reflexivity).
      apply IH with (more := more); [exact E|]. rewrite map_app. cbn [map fst]. rewrite <- app_assoc. exact H.
Qed.

Section Write.
  Context {T : Type} {NM : Num T} {X : NumText T} {OK : TextOk T}.

  (* ---------------------------------------------------------------- *)
  (** * Arrays and index maps in the words of SpecWrite *)

  Lemma keepValue_via raw enc (x : T) : keepValue raw enc x = viaArray raw enc x.
  Proof.
    unfold keepValue, viaArray, inList. cbn [existsb]. rewrite !orb_false_r.
    destruct raw; [reflexivity|]. cbn [orb].
    destruct (String.eqb_spec enc "integer16bit") as [->|]; [reflexivity|]. cbn [orb].
    destruct (String.eqb_spec enc "hex16bit") as [->|]; [reflexivity|]. cbn [orb].
    destruct (String.eqb_spec enc "integer32bit") as [->|]; [reflexivity|]. cbn [orb].
    destruct (String.eqb_spec enc "integer64bit") as [->|]; [reflexivity|].
    destruct (String.eqb_spec enc "hex32bit") as [->|]; reflexivity.
  Qed.
  Lemma keptDt_kind raw enc : keptDt (T := T) raw enc = arrayKind raw enc.
  Proof.
    unfold keptDt, readsAs, arrayKind, inList. cbn [existsb]. rewrite !orb_false_r.
    destruct raw; [reflexivity|]. cbn [orb].
    destruct (String.eqb_spec enc "integer16bit") as [->|]; [reflexivity|]. cbn [orb].
    destruct (String.eqb_spec enc "hex16bit") as [->|]; [reflexivity|]. cbn [orb].
    destruct (String.eqb_spec enc "integer32bit") as [->|]; [reflexivity|]. cbn [orb].
    destruct (String.eqb_spec enc "integer64bit") as [->|]; [reflexivity|].
    destruct (String.eqb_spec enc "hex32bit") as [->|]; [reflexivity|].
    destruct (String.eqb enc "hex64bit"); reflexivity.
  Qed.

  Lemma rows_none (k : nat) (vs : list T) : k <> 0%nat -> (completeRows k vs = [] <-> (List.length vs / k)%nat = 0%nat).
  Proof.
    intro Hk. rewrite completeRows_eq by exact Hk. set (n := (List.length vs / k)%nat).
    assert (L : (n * k <= List.length vs)%nat) by (unfold n; rewrite Nat.mul_comm; apply Nat.mul_div_le; exact Hk).
    clearbody n. split.
    - intro E. apply (f_equal (@List.length _)) in E. rewrite firstn_length in E. cbn in E. nia.
    - intros ->. reflexivity.
  Qed.

  Lemma array_read_back c a e : arrayWrite c a = Ok e ->
    x_tag e = "Array"%string /\
    exists a', arrayRead (emptyArray (a_raw a)) e = Ok a' /\
      forall i, {| a_dims := a_dims a'; a_vals := a_vals a'; a_dt := a_dt a'; a_raw := a_raw a'; a_int := i; a_enc := a_enc a' |} = keptArr i a.
  Proof.
    intro E. split.
    - destruct (arrayWrite_inv c a e E) as (cols & n & rows & _ & _ & _ & _ & ->). reflexivity.
    - destruct (array_back c a e E) as (cols & Hc & Hz & R). eexists. split; [exact R|]. intro i.
      apply columns_ok in Hc. unfold keptArray, keptArr. cbn [a_dims a_vals a_dt a_raw a_enc].
      assert (K : keptRows a = firstn (List.length (a_vals a) / cols * cols) (a_vals a))
        by (unfold keptRows; rewrite Hc; now apply completeRows_eq).
      assert (Ke : match (List.length (a_vals a) / cols)%nat with O => "string"%string | S _ => effective (a_enc a) end = keptEncoding a).
      { unfold keptEncoding, effective. pose proof (rows_none cols (a_vals a) Hz) as Q.
        unfold keptRows. rewrite Hc. destruct (completeRows cols (a_vals a)) eqn:C.
        - now rewrite (proj1 Q eq_refl).
        - destruct (List.length (a_vals a) / cols)%nat; [|reflexivity]. discriminate (proj2 Q eq_refl). }
      rewrite Ke, <- K, keptDt_kind. f_equal. apply map_ext. intro. apply keepValue_via.
  Qed.
  Lemma keptMap_eq (m : imap T) : keptMap m = keptIMap m.
  Proof. reflexivity. Qed.
  Lemma imap_tag (m : imap T) e : imapWrite m = Ok e -> x_tag e = "IndexMap"%string.
  Proof. unfold imapWrite. destruct (mapM imapPair _); [|discriminate]. intro E. apply Ok_eq in E. now subst. Qed.

  (* ---------------------------------------------------------------- *)
  (** * The header *)

  Definition emptyBody (b : body T) : body T :=
    match b with
    | BCDL _ => BCDL cdlEmpty
    | BColorCorrection _ => BColorCorrection cdlEmpty
    | BGamma _ => BGamma []
    | BLog _ => BLog []
    | BExposureContrast _ => BExposureContrast {| e_exposure := n0; e_contrast := n1; e_pivot := n1 |}
    | BReference _ _ => BReference false None
    | BGroup _ => BGroup []
    | _ => b
    end.
  Definition keptBody (b : body T) : body T :=
    match b with
    | BRange => BRange
    | BMatrix => BMatrix
    | BLUT1D => BLUT1D
    | BLUT3D => BLUT3D
    | BCDL v => BCDL (keptCdl v)
    | BColorCorrection v => BColorCorrection (keptCdl v)
    | BGamma ps => BGamma (map keptGamma ps)
    | BLog ps => BLog (map keptLog ps)
    | BExposureContrast p => BExposureContrast (keptEC p)
    | BReference _ pl => BReference false pl
    | BGroup ps => BGroup (map keptNode ps)
    end.
  Lemma keptNode_eq (h : header T) b : keptNode (Node h b) = Node (keptHeader h) (keptBody b).
  Proof. reflexivity. Qed.

  Lemma attr_back (v : aval) : plainValue v -> attrValue (avalText v) = v.
  Proof.
    destruct v as [s|[]|]; try contradiction; try reflexivity. cbn. intros [H1 H2]. unfold attrValue.
    apply String.eqb_neq in H1, H2. now rewrite H1, H2.
  Qed.
  Lemma setAttrs_eq (h : header T) b at_ : setAttrs (Node h b) at_ =
    Node {| h_attrs := fold_left (fun d kv => dset d (fst kv) (attrValue (snd kv))) at_ (h_attrs h);
            h_vals := h_vals h; h_dyn := h_dyn h; h_elems := h_elems h |} b.
  Proof.
    unfold setAttrs. revert h. induction at_ as [|[k v] t IH]; intros [a vs d es]; [reflexivity|].
    cbn [fold_left setAttribute fst snd]. rewrite IH. reflexivity.
  Qed.
  Lemma newNode_back (b : body T) attrs : attributesOk b attrs ->
    exists n0, newNodeOf (elementType (nodeTag b)) = Some n0 /\
      setAttrs n0 (map (fun '(k, v) => (k, avalText v)) attrs) =
      Node {| h_attrs := attrs; h_vals := []; h_dyn := []; h_elems := [] |} (emptyBody b).
  Proof.
    intros (Nd & (more & Em) & Pv).
    assert (A : forall d0 : list (string * aval), map fst d0 = ownAttributes b ->
              fold_left (fun d kv => dset d (fst kv) (attrValue (snd kv))) (map (fun '(k, v) => (k, avalText v)) attrs) d0 = attrs).
    { intros d0 E0.
      assert (F : forall d, fold_left (fun d kv => dset d (fst kv) (attrValue (snd kv))) (map (fun '(k, v) => (k, avalText v)) attrs) d =
                  fold_left (fun d kv => dset d (fst kv) (snd kv)) attrs d).
      { clear - Pv. induction Pv as [|[k v] t Hv _ IH]; intro d; [reflexivity|]. cbn [map fold_left fst snd].
        rewrite (attr_back v Hv). apply IH. }
      rewrite F. apply (dset_all attrs [] d0 more); [now rewrite E0|exact Nd]. }
    destruct b; (eexists; split; [vm_compute; reflexivity|]); rewrite setAttrs_eq; cbn [h_attrs h_vals h_dyn h_elems emptyBody];
      rewrite A by reflexivity; reflexivity.
  Qed.

  Section Features.
    Variables (c' : Z) (ld : string -> res (option (plist T))).
    Hypothesis A : autodesk_on c' = true.
    Variable strict : bool.

    Definition step (e : xelem) (n : node T) : res (node T) := nodeChild c' strict n e (readItem c' ld false e).

    Lemma vals_back (b : body T) attrs vals d es v0 : valuesOk b vals -> NoDup (map fst v0 ++ map fst vals) ->
      for_each (map (fun '(k, v) => leaf k (Some (formatStr v))) vals) step
        (Node {| h_attrs := attrs; h_vals := v0; h_dyn := d; h_elems := es |} (emptyBody b)) =
      Ok (Node {| h_attrs := attrs; h_vals := v0 ++ map (fun kv => (fst kv, viaStr (snd kv))) vals; h_dyn := d; h_elems := es |} (emptyBody b)).
    Proof.
      intro H. revert v0. destruct b; cbn [valuesOk] in H; try (subst vals; intros v0 _; cbn; now rewrite app_nil_r).
      destruct H as [_ H]. induction H as [|[k v] vals Hk _ IH]; intros v0 Nd; [cbn; now rewrite app_nil_r|].
      cbn [map fst] in Nd. cbn [map for_each].
      assert (S1 : step (leaf k (Some (formatStr v))) (Node {| h_attrs := attrs; h_vals := v0; h_dyn := d; h_elems := es |} (emptyBody BRange)) =
                   Ok (Node {| h_attrs := attrs; h_vals := v0 ++ [(k, viaStr v)]; h_dyn := d; h_elems := es |} (emptyBody BRange))).
      { unfold step, nodeChild, leaf. cbn [x_tag emptyBody].
        assert (Et : elementType k = k) by (cbn in Hk; repeat destruct Hk as [<-|Hk]; try reflexivity; contradiction).
        rewrite Et.
        assert (E1 : String.eqb k "Description" = false /\ String.eqb k "DynamicParameter" = false /\ inList k rangeLimits = true)
          by (cbn in Hk; repeat destruct Hk as [<-|Hk]; try (repeat split; reflexivity); contradiction).
        destruct E1 as (-> & -> & E3). cbn [readChild x_tag]. rewrite Et, E3. cbn [x_text floatText].
        rewrite parse_formatStr. cbn [bind]. unfold hSetVal. cbn [h_vals h_attrs h_dyn h_elems].
        rewrite dset_new; [reflexivity|]. intro K. apply NoDup_remove_2 in Nd. apply Nd, in_or_app. now left. }
      rewrite S1. cbn [bind]. rewrite IH; [|rewrite map_app, <- app_assoc; exact Nd].
      rewrite <- app_assoc. reflexivity.
    Qed.

    Lemma dyn_back (b : body T) attrs vals d es ds :
      for_each (map (fun p => XElem "DynamicParameter" [("param"%string, p)] None []) ds) step
        (Node {| h_attrs := attrs; h_vals := vals; h_dyn := d; h_elems := es |} b) =
      Ok (Node {| h_attrs := attrs; h_vals := vals; h_dyn := d ++ ds; h_elems := es |} b).
    Proof.
      revert d. induction ds as [|p ds IH]; intro d; [cbn; now rewrite app_nil_r|]. cbn [map for_each].
      unfold step at 1, nodeChild. cbn [x_tag].
      change (elementType "DynamicParameter") with "DynamicParameter"%string.
      cbn [String.eqb Ascii.eqb Bool.eqb]. rewrite A. cbn [x_attrib dget String.eqb Ascii.eqb Bool.eqb bind hAddDyn h_attrs h_vals h_dyn h_elems].
      unfold hAddDyn. cbn [h_attrs h_vals h_dyn h_elems]. rewrite IH, <- app_assoc. reflexivity.
    Qed.

    Lemma info_back (cs : list (string * option string)) : Forall (fun kv => In (fst kv) infoKinds) cs ->
      infoRead (map (fun '(k, x) => leaf k x) cs) = cs.
    Proof.
      induction 1 as [|[k x] cs Hk _ IH]; [reflexivity|]. unfold infoRead in *. cbn [map flat_map]. rewrite IH. cbn [leaf x_tag x_text].
      cbn [fst] in Hk. unfold infoKinds in Hk. cbn [In] in Hk. repeat destruct Hk as [<-|Hk]; try reflexivity. contradiction.
    Qed.
    Lemma plelem_back (x : plelem) s : match x with
                                     | PEComment k _ => In k commentKinds
                                     | PEInfo cs => Forall (fun kv => In (fst kv) infoKinds) cs
                                     end ->
      readItem c' ld s (plelemWrite x) = Ok (IElem x).
    Proof.
      destruct x as [k t|cs]; cbn [plelemWrite]; intro H.
      - unfold leaf. rewrite readItem_eq. cbv zeta. cbn in H. repeat destruct H as [<-|H]; try reflexivity. contradiction.
      - rewrite readItem_eq. cbv zeta. change (elementType "Info") with "Info"%string.
        cbn [inList commentKinds existsb String.eqb Ascii.eqb Bool.eqb orb]. now rewrite info_back.
    Qed.

    Lemma elem_back c (h : header T) (b : body T) e x : elementWrite c e = Ok x -> elementOk h (emptyBody b) e ->
      step x (Node h (emptyBody b)) = Ok (addElement (Node h (emptyBody b)) (keptElement (outIsInteger (Node h (emptyBody b))) e)).
    Proof.
      intros E Ok_. destruct e as [t|a|m|p]; cbn [elementWrite] in E.
      - apply Ok_eq in E. subst x. reflexivity.
      - destruct (array_read_back c a x E) as (Ht & a' & R & K). unfold step, nodeChild. rewrite Ht.
        change (elementType "Array") with "Array"%string. cbn [String.eqb Ascii.eqb Bool.eqb].
        cbn [elementOk] in Ok_. cbn [keptElement].
        destruct b; cbn [emptyBody] in *; try contradiction; cbn [readChild]; rewrite Ht;
          change (elementType "Array") with "Array"%string; cbn [String.eqb Ascii.eqb Bool.eqb]; unfold arrayChild; rewrite <- Ok_, R; cbn [bind]; now rewrite K.
      - pose proof (imap_tag m x E) as Ht. unfold step, nodeChild. rewrite Ht.
        change (elementType "IndexMap") with "IndexMap"%string. cbn [String.eqb Ascii.eqb Bool.eqb].
        cbn [elementOk] in Ok_. cbn [keptElement]. destruct Ok_ as [Ok_ Dm].
        destruct b; cbn [emptyBody] in *; try (exfalso; destruct Ok_; discriminate); cbn [readChild]; rewrite Ht;
          change (elementType "IndexMap") with "IndexMap"%string; cbn [String.eqb Ascii.eqb Bool.eqb]; unfold imapChild; rewrite (imap_back m x Dm E); reflexivity.
      - apply Ok_eq in E. subst x. cbn [elementOk] in Ok_. destruct Ok_ as [[ps Eb] Hp]. rewrite Eb. clear Eb.
        unfold step, nodeChild. assert (Ht : String.eqb (elementType (x_tag (plelemWrite p))) "Description" = false /\
                                            String.eqb (elementType (x_tag (plelemWrite p))) "DynamicParameter" = false).
        { destruct p as [k t|cs]; [|split; reflexivity]. cbn in Hp. repeat destruct Hp as [<-|Hp]; try (split; reflexivity); contradiction. }
        destruct Ht as [-> ->]. cbn [readChild]. rewrite plelem_back; [reflexivity|].
        destruct p as [k t|cs]; [|exact Hp]. cbn in Hp |- *. tauto.
    Qed.

    Lemma elems_back c (b : body T) attrs vals d es0 es xs : mapM (elementWrite c) es = Ok xs ->
      (forall e, In e es -> forall h, h_attrs h = attrs -> elementOk h (emptyBody b) e) ->
      for_each xs step (Node {| h_attrs := attrs; h_vals := vals; h_dyn := d; h_elems := es0 |} (emptyBody b)) =
      Ok (Node {| h_attrs := attrs; h_vals := vals; h_dyn := d;
                  h_elems := es0 ++ map (keptElement (bitDepthIsInteger match dget attrs "outBitDepth" with Some v => v | None => ANone end)) es |}
               (emptyBody b)).
    Proof.
      revert es0 xs. induction es as [|e es IH]; intros es0 xs M H.
      - apply Ok_eq in M. subst xs. cbn. now rewrite app_nil_r.
      - cbn [mapM] in M. destruct (elementWrite c e) as [x|] eqn:E; [|discriminate]. cbn [bind] in M.
        destruct (mapM (elementWrite c) es) as [xs'|] eqn:M'; [|discriminate]. cbn [bind] in M. apply Ok_eq in M. subst xs.
        cbn [for_each]. rewrite (elem_back c _ b e x E); [|apply H; [now left|reflexivity]]. cbn [bind addElement hAddElem].
        unfold hAddElem. cbn [h_attrs h_vals h_dyn h_elems]. rewrite (IH _ _ eq_refl) by (intros e' He; apply H; now right).
        rewrite <- app_assoc. reflexivity.
    Qed.

    Lemma elementOk_empty (h h' : header T) b e : h_attrs h' = h_attrs h -> elementOk h b e -> elementOk h' (emptyBody b) e.
    Proof.
      intro Ea. destruct e as [t|a|m|x]; cbn [elementOk]; [auto| | |].
      - destruct b; cbn [emptyBody]; auto. unfold flagSet. now rewrite Ea.
      - destruct b; cbn [emptyBody]; auto; intros [[H|H] _]; discriminate.
      - destruct b; cbn [emptyBody]; intros [[ps' H] Hx]; try discriminate. split; [eauto|exact Hx].
    Qed.

    (** The header's children, from the bare node. *)
    Lemma header_back c (h : header T) b tag more e : headerWrite c tag h more = Ok e -> headerOk h b ->
      exists hs, e = XElem tag (map (fun '(k, v) => (k, avalText v)) (h_attrs h)) None (hs ++ more) /\
        for_each hs step (Node {| h_attrs := h_attrs h; h_vals := []; h_dyn := []; h_elems := [] |} (emptyBody b)) =
        Ok (Node (keptHeader h) (emptyBody b)).
    Proof.
      unfold headerWrite. destruct (mapM (elementWrite c) (h_elems h)) as [es|] eqn:M; [|discriminate].
      cbn [bind]. intro E. apply Ok_eq in E. subst e. intros (Ha & Hv & He).
      exists (map (fun '(k, v) => leaf k (Some (formatStr v))) (h_vals h) ++
              map (fun p => XElem "DynamicParameter" [("param"%string, p)] None []) (h_dyn h) ++ es).
      split; [now rewrite <- !app_assoc|].
      rewrite !for_each_app. rewrite vals_back; [|exact Hv|].
      - cbn [bind]. rewrite for_each_app. rewrite dyn_back. cbn [bind].
        rewrite (elems_back c b _ _ _ [] (h_elems h) es M); [reflexivity|].
        intros e Hin h' Ea. apply (elementOk_empty h); [exact Ea|]. exact (proj1 (Forall_forall _ _) He e Hin).
      - cbn [map app]. destruct b; cbn [valuesOk] in Hv; try (rewrite Hv; constructor). exact (proj1 Hv).
    Qed.

    (* -------------------------------------------------------------- *)
    (** * The parameters *)

    Lemma floats_back (vs : list T) : floatsOf (Some (floatsText vs)) = Ok (map viaStr vs).
    Proof.
      unfold floatsOf, floatsText. rewrite split_join.
      - rewrite mapM_map. induction vs as [|v vs IH]; [reflexivity|]. cbn [mapM map]. rewrite parse_formatStr. cbn [bind].
        rewrite IH. reflexivity.
      - apply Forall_forall. intros w Hw. apply in_map_iff in Hw as (v & <- & _). apply word_formatStr.
    Qed.
    Lemma text_back (v : T) : floatText (Some (formatStr v)) = Ok (viaStr v).
    Proof. apply parse_formatStr. Qed.
    Lemma sop_back so of po v : sopRead
        ((match so with Some vs => [leaf "Slope" (Some (floatsText vs))] | None => [] end) ++
         (match of with Some vs => [leaf "Offset" (Some (floatsText vs))] | None => [] end) ++
         (match po with Some vs => [leaf "Power" (Some (floatsText vs))] | None => [] end)) v =
      Ok {| c_slope := match so with Some vs => Some (map viaStr vs) | None => c_slope v end;
            c_offset := match of with Some vs => Some (map viaStr vs) | None => c_offset v end;
            c_power := match po with Some vs => Some (map viaStr vs) | None => c_power v end; c_sat := c_sat v |}.
    Proof.
      unfold sopRead.
      destruct so, of, po; cbn [app for_each leaf x_tag x_text];
        change (elementType "Slope") with "Slope"%string; change (elementType "Offset") with "Offset"%string;
        change (elementType "Power") with "Power"%string;
        cbn [String.eqb Ascii.eqb Bool.eqb]; rewrite ?floats_back; cbn [bind c_slope c_offset c_power c_sat]; try reflexivity.
      destruct v. reflexivity.
    Qed.
    Lemma cdl_back (v : cdl T) (mk : cdl T -> body T) h : (mk = @BCDL T \/ mk = @BColorCorrection T) ->
      for_each (cdlChildren v) step (Node h (mk cdlEmpty)) = Ok (Node h (mk (keptCdl v))).
    Proof.
      intro Hm. unfold cdlChildren. cbn [for_each].
      assert (S1 : forall s, step (XElem "SOPNode" [] None
                 ((match c_slope v with Some vs => [leaf "Slope" (Some (floatsText vs))] | None => [] end) ++
                  (match c_offset v with Some vs => [leaf "Offset" (Some (floatsText vs))] | None => [] end) ++
                  (match c_power v with Some vs => [leaf "Power" (Some (floatsText vs))] | None => [] end))) (Node h (mk s)) =
               let* w := sopRead ((match c_slope v with Some vs => [leaf "Slope" (Some (floatsText vs))] | None => [] end) ++
                  (match c_offset v with Some vs => [leaf "Offset" (Some (floatsText vs))] | None => [] end) ++
                  (match c_power v with Some vs => [leaf "Power" (Some (floatsText vs))] | None => [] end)) s in Ok (Node h (mk w))).
      { intro s. destruct Hm as [-> | ->]; reflexivity. }
      rewrite S1, sop_back. cbn [bind].
      assert (S2 : forall s, step (XElem "SatNode" [] None
                 (match c_sat v with Some x => [leaf "Saturation" (Some (formatStr x))] | None => [] end)) (Node h (mk s)) =
               let* w := satRead (match c_sat v with Some x => [leaf "Saturation" (Some (formatStr x))] | None => [] end) s in Ok (Node h (mk w))).
      { intro s. destruct Hm as [-> | ->]; reflexivity. }
      rewrite S2. unfold satRead, keptCdl. destruct (c_sat v) as [x|]; cbn [for_each leaf x_tag x_text].
      - change (elementType "Saturation") with "Saturation"%string. cbn [String.eqb Ascii.eqb Bool.eqb]. rewrite text_back.
        cbn [bind c_slope c_offset c_power c_sat cdlEmpty option_map]. destruct (c_slope v), (c_offset v), (c_power v); reflexivity.
      - cbn [bind c_slope c_offset c_power c_sat cdlEmpty option_map]. destruct (c_slope v), (c_offset v), (c_power v); reflexivity.
    Qed.

    Lemma gamma_read (p : gparam T) : gammaRead (x_attrib (gammaChild p)) = Ok (keptGamma p).
    Proof.
      unfold gammaChild, keptGamma, gammaRead, attrFloat. cbn [x_attrib].
      destruct (neqb (g_offset p) n0); cbn [negb app]; destruct (g_chan p); cbn [app dget String.eqb Ascii.eqb Bool.eqb];
        rewrite ?parse_formatStr; reflexivity.
    Qed.
    Lemma log_read (p : lparam T) : logRead (x_attrib (logChild p)) = Ok (keptLog p).
    Proof.
      unfold logChild, keptLog, logRead, attrFloat. cbn [x_attrib].
      destruct (l_chan p); cbn [app dget String.eqb Ascii.eqb Bool.eqb]; rewrite ?parse_formatStr; reflexivity.
    Qed.
    Lemma ec_read (p : eparam T) : ecRead (x_attrib (ecChild p)) = Ok (keptEC p).
    Proof.
      unfold ecChild, keptEC, ecRead, attrFloat. cbn [x_attrib]. cbn [app dget String.eqb Ascii.eqb Bool.eqb].
      rewrite ?parse_formatStr; reflexivity.
    Qed.

    Definition plainBody (b : body T) : Prop := match b with BReference _ _ | BGroup _ => False | _ => True end.
    Lemma body_back (h : header T) (b : body T) : plainBody b ->
      for_each (bodyChildren b) step (Node h (emptyBody b)) = Ok (Node h (keptBody b)).
    Proof.
      destruct b; intro P; try contradiction; cbn [bodyChildren emptyBody keptBody]; try reflexivity.
      - apply cdl_back. now left.
      - apply cdl_back. now right.
      - clear P. change (@nil (gparam T)) with (map keptGamma []). rewrite <- (app_nil_l ps) at 2. generalize (@nil (gparam T)).
        induction ps as [|p ps IH]; intro l; cbn [map for_each]; [now rewrite app_nil_r|].
        assert (S1 : step (gammaChild p) (Node h (BGamma (map keptGamma l))) = Ok (Node h (BGamma (map keptGamma (l ++ [p]))))).
        { change (step (gammaChild p) (Node h (BGamma (map keptGamma l)))) with
            (let* q := gammaRead (x_attrib (gammaChild p)) in Ok (Node h (BGamma (map keptGamma l ++ [q])))).
          rewrite gamma_read. cbn [bind]. now rewrite map_app. }
        rewrite S1. cbn [bind]. rewrite IH, <- app_assoc. reflexivity.
      - clear P. change (@nil (lparam T)) with (map keptLog []). rewrite <- (app_nil_l ps) at 2. generalize (@nil (lparam T)).
        induction ps as [|p ps IH]; intro l; cbn [map for_each]; [now rewrite app_nil_r|].
        assert (S1 : step (logChild p) (Node h (BLog (map keptLog l))) = Ok (Node h (BLog (map keptLog (l ++ [p]))))).
        { change (step (logChild p) (Node h (BLog (map keptLog l)))) with
            (let* q := logRead (x_attrib (logChild p)) in Ok (Node h (BLog (map keptLog l ++ [q])))).
          rewrite log_read. cbn [bind]. now rewrite map_app. }
        rewrite S1. cbn [bind]. rewrite IH, <- app_assoc. reflexivity.
      - cbn [for_each].
        change (step (ecChild p) (Node h (BExposureContrast {| e_exposure := n0; e_contrast := n1; e_pivot := n1 |}))) with
            (let* q := ecRead (x_attrib (ecChild p)) in Ok (Node h (BExposureContrast q))).
        rewrite ec_read. reflexivity.
    Qed.
  End Features.

  (* ---------------------------------------------------------------- *)
  (** * Nodes *)

  Lemma readItem_node c' ld strict (b : body T) attrs ch : attributesOk b attrs ->
    readItem c' ld strict (XElem (nodeTag b) (map (fun '(k, v) => (k, avalText v)) attrs) None ch) =
    let* n := for_each ch (step c' ld strict) (Node {| h_attrs := attrs; h_vals := []; h_dyn := []; h_elems := [] |} (emptyBody b)) in
    let* n := readInitialize ld n in Ok (INode n).
  Proof.
    intro H. rewrite readItem_eq. cbv zeta. destruct (newNode_back b attrs H) as (n0 & N0 & S0).
    rewrite N0, S0.
    replace (inList (elementType (nodeTag b)) commentKinds) with false by (destruct b; reflexivity).
    replace (String.eqb (elementType (nodeTag b)) "Info") with false by (destruct b; reflexivity).
    replace (String.eqb (elementType (nodeTag b)) "ProcessNode") with false by (destruct b; reflexivity).
    reflexivity.
  Qed.

  Lemma storable_all ld ps : (fix all (ps : list (node T)) : Prop := match ps with [] => True | p :: t => storable ld p /\ all t end) ps <->
    Forall (storable ld) ps.
  Proof. induction ps as [|p t IH]; [split; auto|]. rewrite Forall_cons_iff, <- IH. reflexivity. Qed.

  Lemma nodesWrite_nil c f : nodesWrite (T := T) c f [] = Ok [].
  Proof. reflexivity. Qed.
  Lemma nodesWrite_cons c f (p : node T) t :
    nodesWrite c f (p :: t) = let* e := nodeWrite c f p in let* es := nodesWrite c f t in Ok (e ++ es).
  Proof. reflexivity. Qed.
  Lemma nodesWrite_app c f (p t : list (node T)) :
    nodesWrite c f (p ++ t) = let* e := nodesWrite c f p in let* es := nodesWrite c f t in Ok (e ++ es).
  Proof.
    induction p as [|x p IH]; cbn [app].
    - rewrite nodesWrite_nil. cbn [bind]. destruct (nodesWrite c f t); reflexivity.
    - rewrite !nodesWrite_cons, IH. destruct (nodeWrite c f x) as [e|]; [|reflexivity]. cbn [bind].
      destruct (nodesWrite c f p) as [e'|]; [|reflexivity]. cbn [bind]. destruct (nodesWrite c f t) as [e''|]; [|reflexivity].
      cbn [bind]. now rewrite app_assoc.
  Qed.
  Lemma nodeWrite_group c f (h : header T) ps :
    nodeWrite c f (Node h (BGroup ps)) =
    let* e := headerWrite c "Group" h [] in
    let* es := nodesWrite c (Some false) ps in
    match e with XElem tag at_ x cs => Ok [XElem tag at_ x (cs ++ es)] end.
  Proof. reflexivity. Qed.
  Lemma nodeWrite_plain c f (h : header T) b : plainBody b ->
    nodeWrite c f (Node h b) = let* e := headerWrite c (nodeTag b) h (bodyChildren b) in Ok [e].
  Proof. destruct b; intro P; try contradiction; reflexivity. Qed.
  Lemma nodeWrite_kept c (h : header T) w pl :
    nodeWrite c (Some false) (Node h (BReference w pl)) = let* e := headerWrite c "Reference" h [] in Ok [e].
  Proof. reflexivity. Qed.

  Definition readsTo c' ld (n : node T) (e : xelem) : Prop :=
    x_tag e = nodeTag (nbody n) /\ forall strict, readItem c' ld strict e = Ok (INode (keptNode n)).

  Lemma node_back c c' ld (n : node T) : autodesk_on c' = true -> storable ld n ->
    forall es, nodeWrite c (Some false) n = Ok es -> exists e, es = [e] /\ readsTo c' ld n e.
  Proof.
    intro A. induction n as [h b HG _] using node_deep_ind. intros S es W. cbn [storable] in S. destruct S as [Hh Hb].
    pose proof Hh as (Ha & _ & _).
    assert (D : plainBody b \/ (exists w pl, b = BReference w pl) \/ exists ps, b = BGroup ps) by (destruct b; cbn; eauto).
    destruct D as [P|[(w & pl & ->)|(ps & ->)]].
    - rewrite (nodeWrite_plain c _ h b P) in W. destruct (headerWrite c (nodeTag b) h (bodyChildren b)) as [e|] eqn:E; [|discriminate].
      cbn [bind] in W. apply Ok_eq in W. subst es. exists e. split; [reflexivity|].
      assert (Et : x_tag e = nodeTag b).
      { destruct (header_back c' ld A true c h b _ _ e E Hh) as (hs & -> & _). reflexivity. }
      split; [exact Et|]. intro strict.
      destruct (header_back c' ld A strict c h b _ _ e E Hh) as (hs & -> & R).
      rewrite (readItem_node c' ld strict b (h_attrs h) _ Ha), for_each_app, R. cbn [bind]. rewrite body_back by exact P. cbn [bind].
      rewrite keptNode_eq. destruct b; try contradiction; reflexivity.
    - rewrite nodeWrite_kept in W. destruct (headerWrite c "Reference" h []) as [e|] eqn:E; [|discriminate].
      cbn [bind] in W. apply Ok_eq in W. subst es. exists e. split; [reflexivity|].
      assert (Et : x_tag e = "Reference"%string).
      { destruct (header_back c' ld A true c h (BReference w pl) _ _ e E Hh) as (hs & -> & _). reflexivity. }
      split; [exact Et|]. intro strict.
      destruct (header_back c' ld A strict c h (BReference w pl) _ _ e E Hh) as (hs & -> & R).
      rewrite app_nil_r.
      change "Reference"%string with (nodeTag (T := T) (BReference w pl)).
      rewrite (readItem_node c' ld strict (BReference w pl) (h_attrs h) _ Ha), R. cbn [bind emptyBody readInitialize].
      destruct Hb as (path & Rp & Lp).
      replace (resolvePath (keptHeader h)) with (resolvePath h) by reflexivity. rewrite Rp. cbn [bind]. rewrite Lp. reflexivity.
    - rewrite nodeWrite_group in W. destruct (headerWrite c "Group" h []) as [e|] eqn:E; [|discriminate]. cbn [bind] in W.
      destruct (nodesWrite c (Some false) ps) as [xs|] eqn:N; [|discriminate]. cbn [bind] in W. destruct e as [tag at_ x cs].
      apply Ok_eq in W. subst es. eexists. split; [reflexivity|].
      assert (Et : tag = "Group"%string).
      { destruct (header_back c' ld A true c h (BGroup ps) _ _ _ E Hh) as (hs & E' & _). congruence. }
      split; [exact Et|]. intro strict.
      destruct (header_back c' ld A strict c h (BGroup ps) _ _ _ E Hh) as (hs & E' & R). rewrite app_nil_r in E'.
      injection E' as -> -> -> ->.
      change "Group"%string with (nodeTag (T := T) (BGroup ps)).
      rewrite (readItem_node c' ld strict (BGroup ps) (h_attrs h) _ Ha), for_each_app, R. cbn [bind emptyBody].
      apply storable_all in Hb. specialize (HG ps eq_refl).
      assert (F : forall l, for_each xs (step c' ld strict) (Node (keptHeader h) (BGroup (map (@keptNode T _ _) l))) =
                            Ok (Node (keptHeader h) (BGroup (map (@keptNode T _ _) (l ++ ps))))).
      { clear - HG Hb N. revert xs N. induction ps as [|p ps IH]; intros xs N l.
        - rewrite nodesWrite_nil in N. apply Ok_eq in N. subst xs. cbn. now rewrite app_nil_r.
        - rewrite nodesWrite_cons in N. destruct (nodeWrite c (Some false) p) as [e1|] eqn:Wp; [|discriminate]. cbn [bind] in N.
          destruct (nodesWrite c (Some false) ps) as [e2|] eqn:Wps; [|discriminate]. cbn [bind] in N. apply Ok_eq in N. subst xs.
          destruct (Forall_inv HG (Forall_inv Hb) e1 Wp) as (e & -> & Tg & Rd).
          cbn [app for_each].
          assert (S1 : step c' ld strict e (Node (keptHeader h) (BGroup (map (@keptNode T _ _) l))) =
                       Ok (Node (keptHeader h) (BGroup (map (@keptNode T _ _) (l ++ [p]))))).
          { unfold step, nodeChild. rewrite Tg, Rd.
            replace (String.eqb (elementType (nodeTag (nbody p))) "Description") with false by (destruct p as [? []]; reflexivity).
            replace (String.eqb (elementType (nodeTag (nbody p))) "DynamicParameter") with false by (destruct p as [? []]; reflexivity).
            cbn [readChild bind]. now rewrite map_app. }
          rewrite S1. cbn [bind]. rewrite (IH (Forall_inv_tail Hb) (Forall_inv_tail HG) e2 eq_refl (l ++ [p])).
          now rewrite <- app_assoc. }
      specialize (F []). cbn [map app] in F. rewrite F. reflexivity.
  Qed.

  (* ---------------------------------------------------------------- *)
  (** * Lists *)

  Lemma nodes_back c c' ld strict ps : autodesk_on c' = true -> duiker_on c' = true -> Forall (storable ld) ps ->
    forall xs, nodesWrite c (Some false) ps = Ok xs -> forall attrs vals elems procs,
    for_each xs (fun e l => listChild c' ld strict l e) (PList attrs vals elems procs) =
    Ok (PList attrs vals elems (procs ++ map keptNode ps)).
  Proof.
    intros A D S. induction S as [|p ps Sp _ IH]; intros xs N attrs vals elems procs.
    - rewrite nodesWrite_nil in N. apply Ok_eq in N. subst xs. cbn. now rewrite app_nil_r.
    - rewrite nodesWrite_cons in N. destruct (nodeWrite c (Some false) p) as [e1|] eqn:Wp; [|discriminate]. cbn [bind] in N.
      destruct (nodesWrite c (Some false) ps) as [e2|] eqn:Wps; [|discriminate]. cbn [bind] in N. apply Ok_eq in N. subst xs.
      destruct (node_back c c' ld p A Sp e1 Wp) as (e & -> & Tg & Rd). cbn [app for_each]. rewrite listChild_eq, Rd. cbn [bind listItems].
      assert (G : forall ty, gated c' ty = false) by (intro ty; unfold gated; now rewrite A, D, !andb_false_r).
      rewrite G. cbn [andb bind]. rewrite (IH e2 eq_refl). rewrite <- app_assoc. reflexivity.
  Qed.

  Theorem list_back c c' ld strict (l : plist T) root : autodesk_on c' = true -> duiker_on c' = true ->
    storableList ld l -> listWrite c false l = Ok root -> listRead c' ld strict emptyList root = Ok (keptList l).
  Proof.
    intros A D S W. destruct l as [attrs vals elems procs]. destruct S as (Nd & -> & He & Hp). cbn [listWrite] in W.
    destruct (nodesWrite c (Some false) procs) as [ns|] eqn:N; [|discriminate]. cbn [bind] in W. apply Ok_eq in W. subst root.
    unfold listRead. cbn [x_children x_attrib map app emptyList setListAttrs].
    assert (Ea : fold_left (fun (d : list (string * string)) '(k, v) => dset d k v) attrs [] = attrs).
    { transitivity (fold_left (fun (d : list (string * string)) kv => dset d (fst kv) (snd kv)) attrs []).
      - clear. generalize (@nil (string * string)). induction attrs as [|[k v] t IH]; intro d; [reflexivity|]. apply IH.
      - apply (dset_all attrs [] [] (map fst attrs)); [reflexivity|exact Nd]. }
    unfold emptyList. cbn [setListAttrs]. rewrite Ea, for_each_app.
    assert (Fe : for_each (map plelemWrite elems) (fun e l => listChild c' ld strict l e) (PList attrs [] [] []) =
                 Ok (PList (T := T) attrs [] elems [])).
    { rewrite <- (app_nil_l elems) at 2. clear - He OK. generalize (@nil plelem). induction He as [|x elems Hx _ IH]; intro l0.
      - cbn. now rewrite app_nil_r.
      - cbn [map for_each]. rewrite listChild_eq, plelem_back by exact Hx. cbn [bind listItems]. rewrite IH, <- app_assoc. reflexivity. }
    rewrite Fe. cbn [bind]. rewrite (nodes_back c c' ld strict procs A D Hp ns N). reflexivity.
  Qed.
End Write.
