(** Nodes built by calling their setters. *)
From Coq Require Import List String ZArith Lia Bool.
From Verif Require Import PBase PFacts SpecBuilt.
Import ListNotations.
Local Open Scope string_scope.
Local Open Scope list_scope.

Lemma lastOf_snoc {A B} (says : A -> option B) calls c :
  lastOf says (calls ++ [c]) = match says c with Some b => Some b | None => lastOf says calls end.
Proof. unfold lastOf. now rewrite fold_left_app. Qed.

Section Built.
  Context {T : Type} {N : Num T}.

  Lemma cdl_built dIn dOut id name style (calls : list (cdlCall T)) :
    exists h, fold_left makeCdlCall calls (newASCCDL dIn dOut id name style) =
      Node h (BCDL {| c_slope := lastOf slopeSaid calls; c_offset := lastOf offsetSaid calls;
                      c_power := lastOf powerSaid calls; c_sat := lastOf saturationSaid calls |}) /\
      plainHeader h [("inBitDepth", dIn); ("outBitDepth", dOut); ("id", id); ("name", name); ("style", style)].
  Proof.
    eexists. split; [|]. 2: shelve. induction calls as [|c calls IH] using rev_ind; [reflexivity|].
    rewrite fold_left_app, IH. cbn [fold_left]. rewrite !lastOf_snoc. destruct c; reflexivity.
    Unshelve. repeat split. 
  Qed.
  Lemma correction_built dIn dOut id name style (calls : list (cdlCall T)) :
    exists h, fold_left makeCdlCall calls (newColorCorrection dIn dOut id name style) =
      Node h (BColorCorrection {| c_slope := lastOf slopeSaid calls; c_offset := lastOf offsetSaid calls;
                                  c_power := lastOf powerSaid calls; c_sat := lastOf saturationSaid calls |}) /\
      plainHeader h [("id", id)].
  Proof.
    eexists. split; [|]. 2: shelve. induction calls as [|c calls IH] using rev_ind; [reflexivity|].
    rewrite fold_left_app, IH. cbn [fold_left]. rewrite !lastOf_snoc. destruct c; reflexivity.
    Unshelve. repeat split.
  Qed.

  Lemma truthy_on v : on v = if truthy v then Some v else None.
  Proof. destruct v as [s|[]|]; try reflexivity. destruct s; reflexivity. Qed.
  Lemma dset_keys {V} (d : list (string * V)) k v : NoDup (map fst d) -> NoDup (map fst (dset d k v)).
  Proof.
    intro H. assert (I : forall x, In x (map fst (dset d k v)) -> x = k \/ In x (map fst d)).
    { clear H. induction d as [|[a w] d IH]; cbn; [intros x [<-|[]]; now left|]. destruct (String.eqb_spec k a) as [->|E]; cbn; intros x [<-|Hx]; auto.
      destruct (IH x Hx); auto. }
    induction d as [|[a w] d IH]; cbn; [repeat constructor; intros []|]. cbn in H. inversion H as [|? ? N1 N2]; subst.
    destruct (String.eqb_spec k a) as [->|E]; cbn; [now constructor|]. constructor; [|apply IH; [exact N2|]].
    - intro Hx. specialize (I a). cbn in I. destruct (String.eqb_spec k a); [congruence|]. cbn in I.
      assert (J : forall x, In x (map fst (dset d k v)) -> x = k \/ In x (map fst d)).
      { clear. induction d as [|[a w] d IH]; cbn; [intros x [<-|[]]; now left|]. destruct (String.eqb_spec k a) as [->|E]; cbn; intros x [<-|Hx]; auto.
        destruct (IH x Hx); auto. }
      destruct (J a Hx); congruence.
    - clear. induction d as [|[a w] d IH]; cbn; [intros x [<-|[]]; now left|]. destruct (String.eqb_spec k a) as [->|E]; cbn; intros x [<-|Hx]; auto.
      destruct (IH x Hx); auto.
  Qed.
  Lemma ddel_keys {V} (d : list (string * V)) k : NoDup (map fst d) -> NoDup (map fst (ddel d k)).
  Proof.
    assert (J : forall x, In x (map fst (ddel d k)) -> In x (map fst d)).
    { induction d as [|[a w] d IH]; cbn; [easy|]. destruct (String.eqb_spec k a) as [->|E]; cbn; auto. intros x [<-|Hx]; auto. }
    revert J. induction d as [|[a w] d IH]; cbn; [constructor|]. intros J H. inversion H as [|? ? N1 N2]; subst.
    destruct (String.eqb_spec k a) as [->|E]; [exact N2|]. cbn in *. constructor; [|apply IH; [|exact N2]].
    - intro Hx. apply N1. clear - Hx. induction d as [|[b w'] d IH]; cbn in *; [easy|]. destruct (String.eqb_spec k b); cbn in *; [now right|]. destruct Hx; auto.
    - clear. induction d as [|[b w'] d IH]; cbn; [easy|]. destruct (String.eqb_spec k b); cbn; auto. intros x [<-|Hx]; auto.
  Qed.
  Lemma dget_ddel_other {V} (d : list (string * V)) k k' : k' <> k -> dget (ddel d k) k' = dget d k'.
  Proof.
    intro H. induction d as [|[a w] d IH]; cbn [ddel]; [reflexivity|]. destruct (String.eqb_spec k a) as [->|E]; cbn [dget].
    - destruct (String.eqb_spec k' a); [contradiction|reflexivity].
    - destruct (String.eqb k' a); [reflexivity|exact IH].
  Qed.
  Lemma dget_absent {V} (d : list (string * V)) k : ~ In k (map fst d) -> dget d k = None.
  Proof.
    induction d as [|[a w] d IH]; cbn [dget map fst In]; [reflexivity|]. intro H. destruct (String.eqb_spec k a) as [->|E]; [exfalso; apply H; now left|].
    apply IH. intro I. apply H. now right.
  Qed.
  Lemma dget_ddel_same {V} (d : list (string * V)) k : NoDup (map fst d) -> dget (ddel d k) k = None.
  Proof.
    induction d as [|[a w] d IH]; cbn [ddel map fst]; [reflexivity|]. intro H. inversion H as [|? ? N1 N2]; subst.
    destruct (String.eqb_spec k a) as [->|E]; [now apply dget_absent|]. cbn [dget]. destruct (String.eqb_spec k a); [contradiction|now apply IH].
  Qed.

  Definition orGiven {A} (o : option A) (d : option A) : option A := match o with Some x => Some x | None => d end.
  Lemma range_built dIn dOut id name style dflt (calls : list (rangeCall T)) :
    exists h, fold_left makeRangeCall calls (newRange dIn dOut id name style dflt) = Node h BRange /\
      dget (h_attrs h) "inBitDepth" = Some dIn /\ dget (h_attrs h) "outBitDepth" = Some dOut /\
      dget (h_attrs h) "id" = Some id /\ dget (h_attrs h) "name" = Some name /\
      dget (h_attrs h) "style" = match lastOf styleSaid calls with Some v => Some v | None => if aval_eqb style (AStr "") then None else Some style end /\
      dget (h_attrs h) "defaultRange" = on (match lastOf defaultSaid calls with Some v => v | None => dflt end) /\
      dget (h_vals h) "minInValue" = lastOf minInSaid calls /\ dget (h_vals h) "maxInValue" = lastOf maxInSaid calls /\
      dget (h_vals h) "minOutValue" = lastOf minOutSaid calls /\ dget (h_vals h) "maxOutValue" = lastOf maxOutSaid calls.
  Proof.
    enough (G : exists h, NoDup (map fst (h_attrs h)) /\ fold_left makeRangeCall calls (newRange dIn dOut id name style dflt) = Node h BRange /\
      dget (h_attrs h) "inBitDepth" = Some dIn /\ dget (h_attrs h) "outBitDepth" = Some dOut /\
      dget (h_attrs h) "id" = Some id /\ dget (h_attrs h) "name" = Some name /\
      dget (h_attrs h) "style" = match lastOf styleSaid calls with Some v => Some v | None => if aval_eqb style (AStr "") then None else Some style end /\
      dget (h_attrs h) "defaultRange" = on (match lastOf defaultSaid calls with Some v => v | None => dflt end) /\
      dget (h_vals h) "minInValue" = lastOf minInSaid calls /\ dget (h_vals h) "maxInValue" = lastOf maxInSaid calls /\
      dget (h_vals h) "minOutValue" = lastOf minOutSaid calls /\ dget (h_vals h) "maxOutValue" = lastOf maxOutSaid calls).
    { destruct G as (h & _ & G). now exists h. }
    induction calls as [|c calls (h & D & E & A1 & A2 & A3 & A4 & A5 & A6 & A7 & A8 & A9 & A10)] using rev_ind.
    - eexists. split; [|split; [reflexivity|]]; unfold optAttr; cbn [lastOf fold_left]; rewrite ?truthy_on;
        destruct (aval_eqb style (AStr "")), (truthy dflt); cbn; repeat split; repeat (constructor; [cbn; intuition discriminate|]); constructor.
    - rewrite fold_left_app, E. cbn [fold_left]. rewrite !lastOf_snoc.
      destruct c; cbn [makeRangeCall setMinInValue setMaxInValue setMinOutValue setMaxOutValue setValue setStyle setAttribute minInSaid maxInSaid minOutSaid maxOutSaid styleSaid defaultSaid].
      1-5: eexists; split; [|split; [reflexivity|]]; cbn [h_attrs h_vals hSetVal hSetAttr]; try exact D; try (apply dset_keys, D);
        rewrite ?dget_dset_same, ?dget_dset_other by discriminate; tauto.
      unfold setDefaultRange, setAttribute. rewrite truthy_on. destruct (truthy v).
      + eexists; split; [|split; [reflexivity|]]; cbn [h_attrs h_vals hSetVal hSetAttr]; try (apply dset_keys, D);
        rewrite ?dget_dset_same, ?dget_dset_other by discriminate; tauto.
      + eexists; split; [|split; [reflexivity|]]; cbn [h_attrs h_vals]; try (apply ddel_keys, D);
        rewrite ?dget_ddel_other, ?dget_ddel_same by (exact D || discriminate); tauto.
  Qed.

  Lemma gamma_built dIn dOut id name style (calls : list (T * T * option string)) :
    exists h, fold_left (fun n c => let '(gamma, offset, channel) := c in setGamma n gamma offset channel) calls (newGamma dIn dOut id name style) =
      Node h (BGamma (map (fun c => let '(gamma, offset, channel) := c in {| g_gamma := gamma; g_offset := offset; g_chan := channel |}) calls)) /\
      plainHeader h [("inBitDepth", dIn); ("outBitDepth", dOut); ("id", id); ("name", name); ("style", style)].
  Proof.
    eexists. split; [|]. 2: shelve. induction calls as [|[[g o] ch] calls IH] using rev_ind; [reflexivity|].
    rewrite fold_left_app, IH. cbn [fold_left]. rewrite map_app. reflexivity.
    Unshelve. repeat split.
  Qed.
  Lemma log_built dIn dOut id name style (calls : list (T * T * T * T * T * option string)) :
    exists h, fold_left (fun n c => let '(gamma, white, black, high, shadow, channel) := c in setLogParams n gamma white black high shadow channel) calls
                (newLog dIn dOut id name style) =
      Node h (BLog (map (fun c => let '(gamma, white, black, high, shadow, channel) := c in
                {| l_gamma := gamma; l_white := white; l_black := black; l_high := high; l_shadow := shadow; l_chan := channel |}) calls)) /\
      plainHeader h [("inBitDepth", dIn); ("outBitDepth", dOut); ("id", id); ("name", name); ("style", style)].
  Proof.
    eexists. split; [|]. 2: shelve. induction calls as [|[[[[[g w] b] hi] sh] ch] calls IH] using rev_ind; [reflexivity|].
    rewrite fold_left_app, IH. cbn [fold_left]. rewrite map_app. reflexivity.
    Unshelve. repeat split.
  Qed.
  Lemma contrast_built dIn dOut id name style (calls : list (T * T * T)) :
    exists h, fold_left (fun n c => let '(exposure, contrast, pivot) := c in setExposureContrastPivot n exposure contrast pivot) calls
                (newExposureContrast dIn dOut id name style) =
      Node h (BExposureContrast match lastOf Some calls with
                                | Some (exposure, contrast, pivot) => {| e_exposure := exposure; e_contrast := contrast; e_pivot := pivot |}
                                | None => {| e_exposure := n0; e_contrast := n1; e_pivot := n1 |}
                                end) /\
      plainHeader h [("inBitDepth", dIn); ("outBitDepth", dOut); ("id", id); ("name", name); ("style", style)].
  Proof.
    eexists. split; [|]. 2: shelve. induction calls as [|[[e c] p] calls IH] using rev_ind; [reflexivity|].
    rewrite fold_left_app, IH, lastOf_snoc. reflexivity.
    Unshelve. repeat split.
  Qed.

  (** ** LUTs *)
  Lemma lastArray_app (xs ys : list (element T)) :
    lastArray (xs ++ ys) = match lastArray ys with Some a => Some a | None => lastArray xs end.
  Proof. induction xs as [|x xs IH]; cbn [app]; [now destruct (lastArray ys)|]. destruct x; cbn [lastArray]; rewrite IH; now destruct (lastArray ys). Qed.
  Lemma indexMaps_app (xs ys : list (element T)) : indexMaps (xs ++ ys) = indexMaps xs ++ indexMaps ys.
  Proof. induction xs as [|x xs IH]; cbn [app]; [reflexivity|]. destruct x; cbn [indexMaps app]; now rewrite IH. Qed.
  Definition mapOf (v : list T * list T) : imap T := mkIndexMap (fst v) (snd v).

  (** What the elements added so far hold. *)
  Definition holds (h : header T) (dimsOf : list T -> list nat) (calls : list (lutCall T)) : Prop :=
    indexMaps (h_elems h) = map mapOf (List.concat (map mapsSaid calls)) /\
    match lastOf tableSaid calls with
    | Some vals => exists a, lastArray (h_elems h) = Some a /\ a_dims a = dimsOf vals /\ a_vals a = vals
    | None => lastArray (h_elems h) = None
    end.
  Lemma holds_got h b dimsOf calls : holds h dimsOf calls ->
    getLUTDimensions (Node h b) = match lastOf tableSaid calls with Some vals => Ok (dimsOf vals) | None => Err AttributeError end /\
    getLUTValues (Node h b) = match lastOf tableSaid calls with Some vals => Ok vals | None => Err AttributeError end /\
    forall channel, getIndexMapValues (Node h b) channel = pyget (List.concat (map mapsSaid calls)) channel /\
      exists e, getIndexMapDimensions (Node h b) channel = Err e.
  Proof.
    intros [M A]. unfold getLUTDimensions, getLUTValues, getIndexMapValues, getIndexMapDimensions. cbn [nheader]. rewrite M.
    split; [|split].
    - destruct (lastOf tableSaid calls) as [vals|]; [destruct A as (a & -> & D & V)|rewrite A; reflexivity]. now rewrite D.
    - destruct (lastOf tableSaid calls) as [vals|]; [destruct A as (a & -> & D & V)|rewrite A; reflexivity]. now rewrite V.
    - intro channel. set (l := List.concat (map mapsSaid calls)). unfold pyget. rewrite map_length. 
      set (j := if (channel <? 0)%Z then _ else _). destruct (j <? 0)%Z; cbn [bind]; [split; [reflexivity|now eexists]|].
      rewrite nth_error_map. destruct (nth_error l (Z.to_nat j)) as [[i o]|]; cbn; (split; [reflexivity|now eexists]).
  Qed.
  Lemma holds_map h r dimsOf calls : holds h dimsOf calls -> holds (hAddElem h (EIndexMap (mapOf r))) dimsOf (calls ++ [CallMap r]).
  Proof.
    intros [M A]. unfold holds. cbn [hAddElem h_elems]. rewrite indexMaps_app, lastArray_app, M, lastOf_snoc, map_app, concat_app, !map_app. cbn [tableSaid].
    split; [reflexivity|]. exact A.
  Qed.
  Lemma holds_maps h r g b dimsOf calls : holds h dimsOf calls ->
    holds (hAddElem (hAddElem (hAddElem h (EIndexMap (mapOf r))) (EIndexMap (mapOf g))) (EIndexMap (mapOf b))) dimsOf (calls ++ [CallMaps r g b]).
  Proof.
    intros [M A]. unfold holds. cbn [hAddElem h_elems]. rewrite <- !app_assoc. cbn [app]. rewrite indexMaps_app, lastArray_app, M, lastOf_snoc, map_app, concat_app, !map_app. cbn [tableSaid].
    split; [reflexivity|]. exact A.
  Qed.
  Lemma holds_table h a vals (dimsOf : list T -> list nat) calls : a_dims a = dimsOf vals -> a_vals a = vals -> holds h dimsOf calls ->
    holds (hAddElem h (EArray a)) dimsOf (calls ++ [CallTable vals]).
  Proof.
    intros D V [M A]. unfold holds. cbn [hAddElem h_elems]. rewrite indexMaps_app, lastArray_app, M, lastOf_snoc, map_app, concat_app, !map_app. cbn [tableSaid lastArray].
    split; [cbn; now rewrite !app_nil_r|]. exists a. now rewrite V.
  Qed.

  Lemma lut1d_built dIn dOut id name interpolation raw halfDomain columns (calls : list (lutCall T)) : columns <> 0 ->
    exists n, fold_left (makeLut1DCall columns) calls (Ok (newLUT1D dIn dOut id name interpolation raw halfDomain)) = Ok n /\
      getLUTDimensions n = match lastOf tableSaid calls with Some vals => Ok [List.length vals / columns; columns] | None => Err AttributeError end /\
      getLUTValues n = match lastOf tableSaid calls with Some vals => Ok vals | None => Err AttributeError end /\
      forall channel, getIndexMapValues n channel = pyget (List.concat (map mapsSaid calls)) channel /\
        exists e, getIndexMapDimensions n channel = Err e.
  Proof.
    intro C.
    enough (G : exists h, fold_left (makeLut1DCall columns) calls (Ok (newLUT1D dIn dOut id name interpolation raw halfDomain)) = Ok (Node h BLUT1D) /\
              holds h (fun vals => [List.length vals / columns; columns]) calls).
    { destruct G as (h & E & H). exists (Node h BLUT1D). split; [exact E|]. exact (holds_got h BLUT1D _ calls H). }
    induction calls as [|c calls (h & E & H)] using rev_ind.
    - eexists. split; [reflexivity|]. unfold optAttr. repeat destruct (aval_eqb _ _); split; reflexivity.
    - rewrite fold_left_app, E. cbn [fold_left makeLut1DCall bind]. destruct c as [r|r g b|vals]; cbn [setIndexMaps addElement].
      + eexists. split; [reflexivity|]. now apply holds_map.
      + eexists. split; [reflexivity|]. now apply holds_maps.
      + unfold setArray1D, pydiv. destruct columns as [|k]; [contradiction|]. cbn [bind addElement]. eexists. split; [reflexivity|]. now apply holds_table.
  Qed.
  Lemma lut3d_built dIn dOut id name interpolation dims (calls : list (lutCall T)) :
    let n := fold_left (makeLut3DCall dims) calls (newLUT3D dIn dOut id name interpolation) in
      getLUTDimensions n = match lastOf tableSaid calls with Some vals => Ok (dims ++ [3]) | None => Err AttributeError end /\
      getLUTValues n = match lastOf tableSaid calls with Some vals => Ok vals | None => Err AttributeError end /\
      forall channel, getIndexMapValues n channel = pyget (List.concat (map mapsSaid calls)) channel /\
        exists e, getIndexMapDimensions n channel = Err e.
  Proof.
    cbv zeta.
    enough (G : exists h, fold_left (makeLut3DCall dims) calls (newLUT3D dIn dOut id name interpolation) = Node h BLUT3D /\ holds h (fun _ => dims ++ [3]) calls).
    { destruct G as (h & E & H). rewrite E. exact (holds_got h BLUT3D _ calls H). }
    induction calls as [|c calls (h & E & H)] using rev_ind.
    - eexists. split; [reflexivity|]. unfold optAttr. repeat destruct (aval_eqb _ _); split; reflexivity.
    - rewrite fold_left_app, E. cbn [fold_left makeLut3DCall]. destruct c as [r|r g b|vals]; cbn [setIndexMaps setArray3D addElement].
      + eexists. split; [reflexivity|]. now apply holds_map.
      + eexists. split; [reflexivity|]. now apply holds_maps.
      + eexists. split; [reflexivity|]. now apply holds_table.
  Qed.

  (** ** One size list for several LUTs *)
  Lemma stage_first3 ims (a a' : array T) dIn i px d0 d1 d2 x y : a_dims a = d0 :: d1 :: d2 :: x -> a_dims a' = d0 :: d1 :: d2 :: y -> (i < 3)%nat ->
    indexStage ims a dIn i i px = indexStage ims a' dIn i i px.
  Proof.
    intros D D' I. unfold indexStage, dim. rewrite D, D'. destruct ims as [|m rest]; [reflexivity|].
    destruct i as [|[|[|i]]]; try lia; reflexivity.
  Qed.
  Lemma pixel_first3 (a a' : array T) ims dIn interpolation st px d0 d1 d2 x y : a_dims a = d0 :: d1 :: d2 :: x -> a_dims a' = d0 :: d1 :: d2 :: y -> a_vals a = a_vals a' ->
    lut3dPixel a ims dIn interpolation st px = lut3dPixel a' ims dIn interpolation st px.
  Proof.
    intros D D' V. unfold lut3dPixel.
    rewrite (for_each_ext _ _ (fun i px => indexStage ims a' dIn i i px)).
    2:{ intros i s Hi. apply in_seq in Hi. apply (stage_first3 ims a a' dIn i s d0 d1 d2 x y D D'). lia. }
    apply bind_ext. intros q _.
    assert (L : forall i j k, lookup3D a i j k = lookup3D a' i j k) by (intros; unfold lookup3D; now rewrite D, D', V).
    assert (X : forall p k, (k < 3)%nat -> axis a p k = axis a' p k).
    { intros p k K. unfold axis, dim. rewrite D, D'. destruct k as [|[|[|k]]]; try lia; reflexivity. }
    assert (C : forall i j k, corners a i j k = corners a' i j k) by (intros; unfold corners; now rewrite !L).
    assert (Tri : lookup3DTrilinear a q = lookup3DTrilinear a' q).
    { unfold lookup3DTrilinear. rewrite !X by lia. do 3 (apply bind_ext; intros [? ?] _). now rewrite C. }
    assert (Tet : lookup3DTetrahedral a q = lookup3DTetrahedral a' q).
    { unfold lookup3DTetrahedral. rewrite !X by lia. do 3 (apply bind_ext; intros [? ?] _). now rewrite C. }
    now rewrite Tri, Tet.
  Qed.
  Lemma loop_ext f g st (values : list T) : (forall v px, f v px = g v px) -> pixelLoop f st values = pixelLoop g st values.
  Proof.
    intro H. unfold pixelLoop. apply bind_ext. intros n _. f_equal. apply for_each_ext. intros p [v o] _. now rewrite H.
  Qed.
  Lemma shared_size calls d0 d1 d2 i h vals enc : nth_error calls i = Some (Node h BLUT3D, vals, enc) ->
    exists n, nth_error (fst (setArrays3DShared calls [d0; d1; d2])) i = Some n /\
      getLUTDimensions n = Ok ([d0; d1; d2] ++ repeat 3 (List.length calls)) /\ getLUTValues n = Ok vals /\
      forall c values st, nodeProcess c n values st = nodeProcess c (setArray3D (Node h BLUT3D) [d0; d1; d2] vals enc) values st.
  Proof.
    intro H. unfold setArrays3DShared. cbn [fst]. rewrite nth_error_map, H. cbn [option_map addElement].
    eexists. split; [reflexivity|]. unfold getLUTDimensions, getLUTValues. cbn [nheader hAddElem h_elems]. rewrite lastArray_app. cbn [lastArray]. split; [reflexivity|]. split; [reflexivity|].
    intros c values st. cbn [nodeProcess setArray3D addElement]. unfold lut3dProcess. cbn [hAddElem h_elems h_attrs]. rewrite !lastArray_app. cbn [lastArray].
    apply bind_ext. intros dIn _. apply bind_ext. intros _ _. rewrite !indexMaps_app. cbn [indexMaps].
    apply loop_ext. intros v px. eapply pixel_first3; reflexivity.
  Qed.
End Built.
