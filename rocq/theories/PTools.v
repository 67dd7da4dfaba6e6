(** convertCLFtoLUT and convertOCIOtoCLF. *)
From Coq Require Import List Arith Lia ZArith String Ascii Bool Permutation.
From Verif Require Import PBase PFacts PRegistry PNumText PFilesRead PIndent PConvert PImport SpecConvert.
Import ListNotations.
Local Open Scope string_scope.
Local Open Scope list_scope.

Section Export.
  Context {T : Type} {NM : Num T} {X : NumText T}.
  Variables (str : T -> string) (io : fileLib string) (compat : Z).

  Lemma shaperOption_hd s s' : hd_error s = hd_error s' -> shaperOption (T := T) s = shaperOption s'.
  Proof. destruct s as [|[[? ?] ?] ?], s' as [|[[? ?] ?] ?]; cbn [hd_error]; try discriminate; [reflexivity|]. intros [= -> -> ->]. reflexivity. Qed.
  Theorem export_same limit formats (o o' : exportOptions T) fs : sameExport o o' ->
    exportMain io compat limit formats o fs = exportMain io compat limit formats o' fs.
  Proof.
    intros (E1 & E2 & E3 & E4 & E5 & E6 & E7 & E8 & E9). unfold exportMain. rewrite E1, E2.
    enough (E : exportArgs o = exportArgs o') by now rewrite E.
    unfold exportArgs. rewrite (shaperOption_hd _ _ E8), (shaperOption_hd _ _ E9), E4, E6, E7.
    assert (S : (if eo_gen1d o then "1D" else if eo_gen3d o then "3D" else if eo_gen1d3d1d o then "1D_3D_1D" else "1D") =
                (if eo_gen1d o' then "1D" else if eo_gen3d o' then "3D" else if eo_gen1d3d1d o' then "1D_3D_1D" else "1D")).
    { unfold lutKindOf in E3. destruct (eo_gen1d o), (eo_gen3d o), (eo_gen1d3d1d o), (eo_gen1d o'), (eo_gen3d o'), (eo_gen1d3d1d o'); reflexivity || discriminate. }
    rewrite S. assert (R : match eo_res1d3d1d o with [] => (32 * 32, 33, 2) | r :: _ => r end = match eo_res1d3d1d o' with [] => (32 * 32, 33, 2) | r :: _ => r end).
    { destruct (eo_res1d3d1d o), (eo_res1d3d1d o'); cbn [hd_error] in E5; congruence. }
    rewrite R. reflexivity.
  Qed.

  Lemma shaper_ok s : shaperReadable (T := T) s -> exists v, shaperOption (T := T) s = Ok v.
  Proof. destruct s as [|[[k lo] hi] t]; cbn; [eauto|]. intros [[x ->] [y ->]]. cbn. eauto. Qed.
  Lemma export_args (o : exportOptions T) : shaperReadable (T := T) (eo_shaperIn o) -> shaperReadable (T := T) (eo_shaperOut o) ->
    exists a, exportArgs o = Ok a /\ wa_n1d a = eo_res1d o /\ wa_n3d a = size3D o /\ wa_inputMin a = eo_min o /\ wa_inputMax a = eo_max o /\
      wa_style a = match lutKindOf o with Only1D => "1D" | Only3D => "3D" | Both1D3D => "1D_3D_1D" end.
  Proof.
    intros H1 H2. destruct (shaper_ok _ H1) as [v1 E1], (shaper_ok _ H2) as [v2 E2]. unfold exportArgs. rewrite E1, E2. cbn [bind].
    unfold size3D, lutKindOf. destruct (eo_res1d3d1d o) as [|[[? ?] ?] ?]; eexists; (split; [reflexivity|]); cbn; repeat split;
      destruct (eo_gen1d o); try reflexivity; destruct (eo_gen3d o); try reflexivity; destruct (eo_gen1d3d1d o); reflexivity.
  Qed.

  Theorem export_nothing limit formats (o : exportOptions T) fs :
    (eo_clf o = None \/ eo_lut o = None \/ (exists clf e, eo_clf o = Some clf /\ openList (T := T) io limit compat fs false clf = Err e)) ->
    snd (exportMain io compat limit formats o fs) = fs.
  Proof.
    intro H. unfold exportMain. destruct (exportArgs o) as [a|]; [|reflexivity].
    destruct (eo_clf o) as [clf|]; [|reflexivity]. destruct (eo_lut o) as [lut|]; [|reflexivity].
    destruct H as [H|[H|(c & e & H & E)]]; try discriminate. injection H as <-. unfold convertCLFtoLUT. now rewrite E.
  Qed.

  Lemma export_opened limit formats (o : exportOptions T) a clf lut l fs : exportArgs o = Ok a -> eo_clf o = Some clf -> eo_lut o = Some lut ->
    openList io limit compat fs false clf = Ok l ->
    forall fs', writeWith formats compat l lut a fs = (Ok LNone, fs') -> exportMain io compat limit formats o fs = (Ok tt, fs').
  Proof. intros E C L O fs' W. unfold exportMain, convertCLFtoLUT. now rewrite E, C, L, O, W. Qed.
End Export.

Section Export2.
  Context {T : Type} {NM : Num T} {X : NumText T} {OK : TextOk T}.
  Variables (str : T -> string) (io : fileLib string) (compat : Z).

  Theorem export_spi1d kept limit formats (o : exportOptions T) clf lut (l : plist T) s fs :
    Permutation formats (allFormats str io compat) -> shaperReadable (T := T) (eo_shaperIn o) -> shaperReadable (T := T) (eo_shaperOut o) ->
    eo_clf o = Some clf -> eo_lut o = Some lut -> lutKindOf o = Only1D -> extensionOf lut = "spi1d" ->
    openList io limit compat fs false clf = Ok l ->
    sample1D compat l (eo_res1d o) (eo_min o) (eo_max o) = Ok s -> Forall (printsAs str kept) s ->
    let lo := viaFixed 6 (eo_min o) in let hi := viaFixed 6 (eo_max o) in
    exists t, let fs' := putFile fs lut t in
      exportMain io compat limit formats o fs = (Ok tt, fs') /\
      forall interpolation maps half rp,
        readWith formats lut {| ra_inverse := false; ra_interpolation := interpolation; ra_useIndexMaps := maps; ra_useHalfDomain := half |} rp fs' =
        (Ok (wrapNodes rp ((if negb (neqb lo n0) || negb (neqb hi n1) then [rangeNode "range" lo hi] else []) ++
                           [lut1dNode "lut1d" interpolation (eo_res1d o) 3 (map kept s)])), fs').
  Proof.
    intros P H1 H2 C L K E O S F lo hi. destruct (export_args o H1 H2) as (a & Ea & A1 & A2 & A3 & A4 & A5). rewrite K in A5.
    assert (S' : sample1D compat l (wa_n1d a) (wa_inputMin a) (wa_inputMax a) = Ok s) by now rewrite A1, A3, A4.
    assert (D : forall ra rp, ra_inverse ra = false -> exists t, let fs' := putFile fs lut t in
      writeWith formats compat l lut a fs = (Ok LNone, fs') /\
      readWith formats lut ra rp fs' = (Ok (wrapNodes rp ((if negb (neqb lo n0) || negb (neqb hi n1) then [rangeNode "range" lo hi] else []) ++
                           [lut1dNode "lut1d" (ra_interpolation ra) (eo_res1d o) 3 (map kept s)])), fs')).
    { intros ra rp I. rewrite <- A1. unfold lo, hi. rewrite <- A3, <- A4. now apply (spi1d_trip str io compat kept formats compat l lut a ra rp fs s). }
    destruct (D {| ra_inverse := false; ra_interpolation := ""; ra_useIndexMaps := false; ra_useHalfDomain := false |} false eq_refl) as (t & W & _).
    exists t. intro fs'. split; [now apply (export_opened io compat limit formats o a clf lut l)|]. intros interp m h rp.
    destruct (D {| ra_inverse := false; ra_interpolation := interp; ra_useIndexMaps := m; ra_useHalfDomain := h |} rp eq_refl) as (t' & W' & R').
    assert (t' = t).
    { rewrite W' in W. injection W as W. assert (Q : putFile fs lut t' lut = putFile fs lut t lut) by now rewrite W.
      unfold putFile in Q. rewrite String.eqb_refl in Q. congruence. }
    subst t'. exact R'.
  Qed.

  Theorem export_spi3d kept one limit formats (o : exportOptions T) clf lut (l : plist T) s fs : let n := size3D o in
    parseFloat "1.0" = Ok one -> neqb one n1 = true ->
    Permutation formats (allFormats str io compat) -> shaperReadable (T := T) (eo_shaperIn o) -> shaperReadable (T := T) (eo_shaperOut o) ->
    eo_clf o = Some clf -> eo_lut o = Some lut -> lutKindOf o = Only3D -> extensionOf lut = "spi3d" ->
    openList io limit compat fs false clf = Ok l ->
    sample3D compat l n n n (eo_min o) (eo_max o) = Ok s ->
    (forall r g b, r < n -> g < n -> b < n -> Forall (printsAs str kept) (cellOf s r g b)) ->
    exists t, let fs' := putFile fs lut t in
      exportMain io compat limit formats o fs = (Ok tt, fs') /\
      forall ra rp, exists vals,
        readWith formats lut ra rp fs' =
        (Ok (wrapNodes rp [lut3dNode "lut3d" (if String.eqb (ra_interpolation ra) "linear" then "trilinear" else ra_interpolation ra) n n n vals]), fs') /\
        tableOf vals n n n (fun r g b => map kept (cellOf s r g b)).
  Proof.
    intros n P1 E1 P H1 H2 C L K E O S F. destruct (export_args o H1 H2) as (a & Ea & A1 & A2 & A3 & A4 & A5). rewrite K in A5. fold n in A2.
    assert (S' : sample3D compat l (wa_n3d a) (wa_n3d a) (wa_n3d a) (wa_inputMin a) (wa_inputMax a) = Ok s) by now rewrite A2, A3, A4.
    assert (D : forall ra rp, exists t vals, let fs' := putFile fs lut t in
      writeWith formats compat l lut a fs = (Ok LNone, fs') /\
      readWith formats lut ra rp fs' = (Ok (wrapNodes rp [lut3dNode "lut3d" (if String.eqb (ra_interpolation ra) "linear" then "trilinear" else ra_interpolation ra) n n n vals]), fs') /\
      tableOf vals n n n (fun r g b => map kept (cellOf s r g b))).
    { intros ra rp. rewrite <- A2. apply (spi3d_trip str io compat kept one formats compat l lut a ra rp fs s P1 E1 P E A5 S'). now rewrite A2. }
    destruct (D {| ra_inverse := false; ra_interpolation := ""; ra_useIndexMaps := false; ra_useHalfDomain := false |} false) as (t & _ & W & _).
    exists t. intro fs'. split; [now apply (export_opened io compat limit formats o a clf lut l)|]. intros ra rp.
    destruct (D ra rp) as (t' & vals & W' & R' & Tv).
    assert (t' = t).
    { rewrite W' in W. injection W as W. assert (Q : putFile fs lut t' lut = putFile fs lut t lut) by now rewrite W.
      unfold putFile in Q. rewrite String.eqb_refl in Q. congruence. }
    subst t'. exists vals. split; assumption.
  Qed.
End Export2.

(** ** Annotations *)
Section Names.
  Context {T : Type} {NM : Num T}.

  Definition sameWork (n n' : node T) : Prop :=
    getInBitDepth n' = getInBitDepth n /\ getOutBitDepth n' = getOutBitDepth n /\ notBypassed n' = notBypassed n /\
    forall c px st, nodeProcess c n' px st = nodeProcess c n px st.

  Lemma lastArray_desc (es : list (element T)) d : lastArray (es ++ [EDesc d]) = lastArray es.
  Proof. induction es as [|[]]; cbn [app lastArray]; try rewrite IHes; reflexivity. Qed.
  Lemma indexMaps_desc (es : list (element T)) d : indexMaps (es ++ [EDesc d]) = indexMaps es.
  Proof. induction es as [|[]]; cbn [app indexMaps]; try rewrite IHes; reflexivity. Qed.

  Lemma rename_works d nm (n n' : node T) : renamed d nm n n' -> sameWork n n'.
  Proof.
    destruct n as [h b], n' as [h' b']. intros (B & V & _ & E & _ & A). cbn [nbody nheader] in *. subst b'.
    assert (F : forall k, k <> "name" -> flagSet h' k = flagSet h k) by (intros k Hk; unfold flagSet; now rewrite A).
    repeat split; try (unfold notBypassed, getInBitDepth, getOutBitDepth, getAttribute; cbn [nheader]; rewrite A by discriminate; reflexivity).
    intros c px st. destruct b; cbn [nodeProcess]; try reflexivity.
    - unfold rangeProcess, rangeLimit, dgetE. rewrite !A, V by discriminate. reflexivity.
    - unfold matrixProcess, dgetE. rewrite !A, E, lastArray_desc by discriminate. reflexivity.
    - unfold lut1dProcess, dgetE. rewrite !A, E, lastArray_desc, indexMaps_desc, F by discriminate. reflexivity.
    - unfold lut3dProcess, dgetE. rewrite !A, E, lastArray_desc, indexMaps_desc by discriminate. reflexivity.
    - unfold cdlProcess, dgetE. rewrite !A by discriminate. reflexivity.
    - unfold cdlProcess, dgetE. rewrite !A by discriminate. reflexivity.
    - unfold gammaProcess, dgetE. rewrite !A by discriminate. reflexivity.
    - unfold logProcess, dgetE. rewrite !A by discriminate. reflexivity.
    - unfold ecProcess, dgetE. rewrite !A by discriminate. reflexivity.
  Qed.

  Lemma chain_works hb c ps ps' : Forall2 sameWork ps ps' -> forall prev prev' st s,
    match prev, prev' with Some p, Some p' => sameWork p p' | None, None => True | _, _ => False end ->
    chain hb (nodeProcess c) prev' ps' st s = chain (T := T) hb (nodeProcess c) prev ps st s.
  Proof.
    induction 1 as [|n n' ps ps' H F IH]; intros prev prev' st s Hp; [reflexivity|]. cbn [chain]. pose proof H as (Hi & Ho & Hb & Hr). rewrite Hb.
    assert (Eb : bypassStep prev' (hd_error ps') s = bypassStep prev (hd_error ps) s).
    { unfold bypassStep. destruct prev, prev'; try contradiction; [|reflexivity]. destruct Hp as (_ & Hpo & _). rewrite Hpo.
      destruct F as [|q q' ? ? (Hq & _)]; cbn [hd_error]; [reflexivity|]. now rewrite Hq. }
    rewrite Eb, Hr. match goal with |- bind ?x _ = bind ?y _ => destruct y as [s'|]; [|reflexivity] end. cbn [bind]. apply IH. exact H.
  Qed.

  Lemma described_mk d nm (pns : list (node T)) : described d nm pns (annotate d nm pns).
  Proof.
    unfold annotate. split; [rewrite map_length, combine_length, seq_length; lia|]. intros k n n' E E'.
    rewrite nth_error_map in E'. assert (Ec : nth_error (combine (seq 0 (List.length pns)) pns) k = Some (k, n)).
    { clear E'. assert (Hk : k < List.length pns) by (apply nth_error_Some; congruence).
      apply nth_error_nth with (d := n) in E. rewrite (nth_error_nth' _ (0, n)) by (rewrite combine_length, seq_length; lia).
      rewrite combine_nth by apply seq_length. rewrite seq_nth by lia. now rewrite E. }
    rewrite Ec in E'. cbn in E'. injection E' as <-. destruct n as [h b].
    unfold renamed, getAttribute. cbn [setAttribute addElement nheader nbody hSetAttr hAddElem h_attrs h_elems h_vals h_dyn].
    repeat split.
    - now rewrite dget_dset_same.
    - intros a Ha. now rewrite dget_dset_other.
  Qed.
  Lemma described_works d nm ns ns' : described (T := T) d nm ns ns' -> Forall2 sameWork ns ns'.
  Proof.
    revert nm ns'. induction ns as [|n ns IH]; intros nm [|n' ns'] [L H]; try discriminate; constructor.
    - eapply rename_works. apply (H 0); reflexivity.
    - apply (IH (fun k => nm (S k))). split; [now injection L|]. intros k m m' E E'. exact (H (S k) m m' E E').
  Qed.

  Lemma spaces_inv {A B} (f : A -> res B) (xs : list A) ys : mapM f xs = Ok ys -> Forall2 (fun x y => f x = Ok y) xs ys.
  Proof.
    revert ys. induction xs as [|x xs IH]; intros ys E; cbn in E; [apply Ok_inj in E; subst; constructor|].
    destruct (f x) as [y|] eqn:Ey; [|discriminate]. cbn in E. apply bind_ok in E. destruct E as [l [El E]]. apply Ok_inj in E. subst ys. constructor; auto.
  Qed.

  Theorem spaces_converted convert (cf : config T) configPath sources dests l :
    convertSpaces convert cf configPath sources dests = Ok (Some l) ->
    exists from to from' to',
      Forall2 (fun s ns => exists t, cf_toReference cf s = Ok t /\ convert t = Ok ns) sources from /\
      Forall2 (fun d ns => exists t, cf_fromReference cf d = Ok t /\ convert t = Ok ns) dests to /\
      Forall2 (fun '(s, ns) ns' => described ("Convert " ++ s ++ " to reference") (fun k => (s ++ " to reference - node " ++ natText k)%string) ns ns') (combine sources from) from' /\
      Forall2 (fun '(d, ns) ns' => described ("Convert reference to " ++ d) (fun k => ("reference to " ++ d ++ " - node " ++ natText k)%string) ns ns') (combine dests to) to' /\
      procs_of l = List.concat (from' ++ to') /\ procs_of l <> [] /\
      forall c px st, listProcess c l px st = listProcess c (bareList (List.concat (from ++ to))) px st.
  Proof.
    assert (D : forall (get : string -> res (otree T)) (desc : string -> string) (nm : string -> nat -> string) xs ys,
       mapM (fun s => let* t := get s in let* pns := convert t in Ok (annotate (desc s) (nm s) pns)) xs = Ok ys ->
       exists from, Forall2 (fun s ns => exists t, get s = Ok t /\ convert t = Ok ns) xs from /\
         Forall2 (fun '(s, ns) ns' => described (desc s) (nm s) ns ns') (combine xs from) ys /\
         Forall2 sameWork (List.concat from) (List.concat ys)).
    { intros get desc nm xs ys E. apply spaces_inv in E. induction E as [|x y xs ys E F IH]; [exists []; repeat constructor|].
      destruct IH as (from & F1 & F2 & F3). apply bind_ok in E. destruct E as [t [Et E]]. apply bind_ok in E. destruct E as [ns [En E]]. apply Ok_inj in E. subst y.
      exists (ns :: from). repeat split.
      - constructor; [now exists t|exact F1].
      - constructor; [apply described_mk|exact F2].
      - cbn [List.concat]. apply Forall2_app; [|exact F3]. eapply described_works, described_mk. }
    intro E. unfold convertSpaces in E. apply bind_ok in E. destruct E as [from' [Ef E]]. apply bind_ok in E. destruct E as [to' [Et E]].
    apply (D (cf_toReference cf) (fun s => "Convert " ++ s ++ " to reference")%string (fun s k => (s ++ " to reference - node " ++ natText k)%string)) in Ef.
    apply (D (cf_fromReference cf) (fun d => "Convert reference to " ++ d)%string (fun d k => ("reference to " ++ d ++ " - node " ++ natText k)%string)) in Et.
    destruct Ef as (from & F1 & F2 & F3), Et as (to & T1 & T2 & T3). exists from, to, from', to'.
    assert (Ep : procs_of l = List.concat (from' ++ to') /\ procs_of l <> []).
    { rewrite concat_app. destruct (List.concat from' ++ List.concat to') as [|q qs]; [discriminate|]. apply Ok_inj in E. injection E as <-. split; [reflexivity|discriminate]. }
    destruct Ep as [Ep Ne]. repeat (split; [assumption|]). intros c px st. unfold listProcess. rewrite Ep. cbn [procs_of bareList].
    apply (chain_works (autodesk_on c) c (List.concat (from ++ to)) (List.concat (from' ++ to'))); [|exact I]. rewrite !concat_app. now apply Forall2_app.
  Qed.
End Names.

(** ** convertOCIOtoCLF writes what it converted *)
Section Ocio.
  Context {T : Type} {NM : Num T} {X : NumText T} {OK : TextOk T}.
  Variables (str : T -> string) (io : fileLib string) (compat : Z).
  Variable load : string -> res (option (plist T)).

  Lemma dset_keys {V} (d : list (string * V)) k v : In k (map fst d) -> map fst (dset d k v) = map fst d.
  Proof.
    induction d as [|[k' v'] d IH]; intro H; [contradiction|]. cbn [dset]. destruct (String.eqb k k') eqn:E; cbn [map fst].
    - apply String.eqb_eq in E. now subst.
    - f_equal. apply IH. destruct H as [H|H]; [cbn in H; subst; rewrite String.eqb_refl in E; discriminate|exact H].
  Qed.
  Lemma dset_forall {V} (P : string * V -> Prop) (d : list (string * V)) k v : Forall P d -> P (k, v) -> Forall P (dset d k v).
  Proof.
    intros F Hv. induction F as [|[k' v'] d H F IH]; cbn [dset]; [now repeat constructor|]. destruct (String.eqb k k'); constructor; assumption.
  Qed.

  (** What the converters make: nodes with a name that can be stored. *)
  Definition named (n : node T) : Prop :=
    storable load n /\ plainBody (nbody n) /\ In "name" (ownAttributes (nbody n)).
  Lemma annotated_storable d nm n n' : plainValue (AStr nm) -> named n -> n' = setAttribute (addElement n (EDesc (Some d))) "name" (AStr nm) -> storable load n'.
  Proof.
    intros Hn (S & B & O) ->. assert (S' : storable load (addElement n (EDesc (Some d)))) by (apply storable_add; [exact B|exact S|exact I]).
    destruct n as [h b]. cbn [addElement setAttribute] in *. cbn [nbody] in *. cbn in S'. destruct S' as [((N & (more & A) & P) & V & F) S'].
    cbn. split; [|destruct b; try exact I; contradiction].
    split; [|split; [exact V|]].
    - cbn [hSetAttr h_attrs]. assert (Hk : In "name" (map fst (h_attrs (hAddElem h (EDesc (Some d)))))) by (rewrite A; apply in_or_app; now left).
      unfold attributesOk. rewrite dset_keys by exact Hk. split; [exact N|]. split; [now exists more|]. apply dset_forall; assumption.
    - cbn [hSetAttr h_elems]. eapply Forall_impl; [|exact F]. intro e. unfold elementOk. destruct e; try exact (fun H => H).
      destruct b; try exact (fun H => H). unfold flagSet. cbn [hSetAttr h_attrs hAddElem]. now rewrite dget_dset_other.
  Qed.
  Lemma annotate_storable d nm pns : (forall k, plainValue (AStr (nm k))) -> Forall named pns -> Forall (storable load) (annotate d nm pns).
  Proof.
    intros Hn F. unfold annotate. apply Forall_forall. intros n' H. apply in_map_iff in H as ([k n] & <- & H). apply in_combine_r in H.
    eapply annotated_storable; [apply Hn|exact (proj1 (Forall_forall _ _) F n H)|reflexivity].
  Qed.

  Definition readerNode (n : node T) : Prop := match nbody n with BRange | BMatrix | BLUT1D | BLUT3D | BLog _ => True | _ => False end.
  Lemma readerNode_named n : readerNode n -> storable load n -> named n.
  Proof. intros H S. split; [exact S|]. destruct n as [h b]. unfold readerNode in H. cbn [nbody] in *. destruct b; try contradiction; cbn; tauto. Qed.

  Lemma body_array1d n k (vals : list T) enc n' : setArray1D n k vals enc = Ok n' -> nbody n' = nbody n.
  Proof. intro E. unfold setArray1D in E. apply bind_ok in E. destruct E as [rows [_ E]]. apply Ok_inj in E. subst n'. destruct n. reflexivity. Qed.
  Lemma body_maps n r gb : nbody (setIndexMaps (T := T) n r gb) = nbody n.
  Proof. unfold setIndexMaps. destruct gb as [[? ?]|]; destruct n; reflexivity. Qed.
  Ltac body := unfold readerNode; (erewrite body_array1d by eassumption); try rewrite body_maps; exact I.
  Lemma spi1d_nodes t inverse interp maps half ns : readSPI1D (T := T) t inverse interp maps half = Ok ns -> Forall readerNode ns.
  Proof.
    intros E. unfold readSPI1D in E. apply bind_ok in E. destruct E as [d [_ E]]. destruct inverse; [destruct maps; [|destruct half]|].
    - unfold generateLUT1DInverseIndexMap in E. do 5 (apply bind_ok in E; destruct E as [? [? E]]). apply Ok_inj in E. subst ns. constructor; [body|].
      destruct (_ || _); repeat constructor.
    - unfold generateLUT1DInverseHalfDomain in E. do 2 (apply bind_ok in E; destruct E as [? [? E]]). apply Ok_inj in E. subst ns. constructor; [body|constructor].
    - unfold generateLUT1DInverseResampled in E. do 6 (apply bind_ok in E; destruct E as [? [? E]]). apply Ok_inj in E. subst ns.
      constructor; [exact I|]. constructor; [body|]. repeat constructor.
    - apply bind_ok in E. destruct E as [lut [? E]]. apply Ok_inj in E. subst ns. apply Forall_app. split.
      + destruct (_ || _); repeat constructor.
      + constructor; [body|constructor].
  Qed.
  Lemma spi3d_nodes t interp ns : readSPI3D (T := T) t interp = Ok ns -> Forall readerNode ns.
  Proof.
    intros E. unfold readSPI3D in E. apply bind_ok in E. destruct E as [? [_ E]]. apply bind_ok in E. destruct E as [? [_ E]].
    apply bind_ok in E. destruct E as [[res samples] [_ E]]. apply Ok_inj in E. subst ns. repeat constructor.
  Qed.
  Lemma csp_nodes t ns : readCSP (T := T) t = Ok ns -> Forall readerNode ns.
  Proof.
    intro E. unfold readCSP in E. do 2 (apply bind_ok in E; destruct E as [? [_ E]]). destruct (String.eqb _ "CSPLUTV100"); [|apply Ok_inj in E; subst; constructor].
    do 2 (apply bind_ok in E; destruct E as [? [_ E]]). match type of E with (if ?b then _ else _) = _ => destruct b end; [|apply Ok_inj in E; subst; constructor].
    do 9 (apply bind_ok in E; destruct E as [? [_ E]]). apply bind_ok in E; destruct E as [lut [El E]]. apply bind_ok in E; destruct E as [prelut [Ep E]].
    apply Ok_inj in E. subst ns. apply Forall_app. split.
    - unfold generateCLFPrelut in Ep. do 6 (apply bind_ok in Ep; destruct Ep as [? [_ Ep]]). destruct (_ <? _)%nat.
      + do 2 (apply bind_ok in Ep; destruct Ep as [? [? Ep]]). apply Ok_inj in Ep. subst prelut. constructor; [exact I|]. constructor; [body|constructor].
      + apply Ok_inj in Ep. subst prelut. repeat constructor.
    - constructor; [|constructor]. destruct (String.eqb _ "3D").
      + do 3 (apply bind_ok in El; destruct El as [? [_ El]]). apply Ok_inj in El. subst lut. exact I.
      + apply bind_ok in El; destruct El as [? [_ El]]. unfold readerNode. erewrite body_array1d by exact El. exact I.
  Qed.
  Lemma imported_nodes formats path a rp (fs fs' : disk string) ns : Permutation formats (allFormats str io compat) ->
    readWith formats path a rp fs = (Ok (wrapNodes rp ns), fs') -> Forall readerNode ns.
  Proof.
    intros P E. rewrite (all_read str io compat _ _ _ _ _ P) in E. destruct (readsExt _) as [name|]; [|destruct rp; discriminate].
    assert (W : forall l, wrapNodes rp l = wrapNodes rp ns -> l = ns) by (intros l; unfold wrapNodes; destruct rp; now intros [= ->]).
    assert (W' : wrapNodes rp ns <> LNone) by (unfold wrapNodes; destruct rp; discriminate).
    unfold readerOf in E. destruct (String.eqb name "SPI"); [|destruct (String.eqb name "CSP"); [|destruct (String.eqb name "CLF"); discriminate]].
    - unfold readSPI in E. destruct (String.eqb _ "spi1d"); [|destruct (String.eqb _ "spi3d")]; unfold reading in E; [| |exfalso; apply W'; congruence].
      + destruct (fs path); [|discriminate]. destruct (readSPI1D _ _ _ _ _) as [[|n l]|] eqn:R; [exfalso; apply W'; congruence| |discriminate].
        injection E as E _. apply W in E. subst ns. exact (spi1d_nodes _ _ _ _ _ _ R).
      + destruct (fs path); [|discriminate]. destruct (readSPI3D _ _) as [[|n l]|] eqn:R; [exfalso; apply W'; congruence| |discriminate].
        injection E as E _. apply W in E. subst ns. exact (spi3d_nodes _ _ _ R).
    - unfold readCSPFile, reading in E. destruct (fs path); [|discriminate]. destruct (readCSP _) as [[|n l]|] eqn:R; [exfalso; apply W'; congruence| |discriminate].
      injection E as E _. apply W in E. subst ns. exact (csp_nodes _ _ R).
  Qed.

  Lemma matrix_named (m off : list T) dir n : convertMatrix m off dir = Ok (Some n) -> named n.
  Proof.
    unfold convertMatrix. destruct (isForward dir); [|discriminate]. intro E. apply bind_ok in E. destruct E as [small [_ E]].
    apply bind_ok in E. destruct E as [[[dims|] m'] [_ E]]; [|discriminate]. apply Ok_inj in E.
    assert (En : n = setMatrix (newMatrix (AStr "16f") (AStr "16f") (AStr "matrix1") (AStr "matrix1")) dims m' "string") by congruence. subst n. clear E.
    apply readerNode_named; [exact I|]. unfold setMatrix. apply storable_add; [exact I| |reflexivity].
    apply header_plain; [|reflexivity|exact I]. split; [cbn; repeat (constructor; [cbn; intuition discriminate|]); constructor|].
    split; [exists []; reflexivity|]. repeat (constructor; [cbn; split; discriminate|]). constructor.
  Qed.
  Lemma log_named base dir (n : node T) : convertLog base dir = Some n -> named n.
  Proof.
    assert (S : forall st, plainValue (AStr st) -> named (newLog (AStr "16f") (AStr "16f") (AStr "log") (AStr "log") (AStr st))).
    { intros st Hs. apply readerNode_named; [exact I|]. unfold newLog, hSetAttr. cbn [newHeader h_attrs dset String.eqb Ascii.eqb Bool.eqb h_vals h_dyn h_elems].
      apply header_plain; [|reflexivity|exact I]. split; [cbn; repeat (constructor; [cbn; intuition discriminate|]); constructor|].
      split; [exists []; reflexivity|]. repeat (constructor; [cbn; try exact Hs; try (split; discriminate)|]). constructor. }
    unfold convertLog. destruct (_ =? 10)%Z; [|destruct (_ =? 2)%Z; [|discriminate]]; intros [= <-]; apply S; destruct (isForward dir); split; discriminate.
  Qed.

  Variables (formats : list (format T (disk string))) (fs : disk string) (search : string) (maps half : bool).
  Hypothesis P : Permutation formats (allFormats str io compat).
  Let convert t := convertTransforms (withFiles (fileNodes formats fs search maps half) t).
  Fixpoint ocio_named (t : otree T) : namesInterpolation t -> forall ns, convert t = Ok ns -> Forall named ns.
  Proof.
    intros H ns E. destruct t as [children|src interp dir|m off dir|base dir|]; unfold convert in E; cbn [withFiles convertTransforms] in E.
    - cbn [namesInterpolation] in H. revert ns E H. induction children as [|t r IH]; intros ns E H.
      + cbn in E. apply Ok_inj in E. subst. constructor.
      + destruct H as [Ht Hr]. cbn [map] in E. apply bind_ok in E. destruct E as [a [Ea E]]. apply bind_ok in E. destruct E as [b [Eb E]]. apply Ok_inj in E. subst ns.
        apply Forall_app. split; [exact (ocio_named t Ht a Ea)|exact (IH b Eb Hr)].
    - clear ocio_named. unfold fileNodes in E. cbn in H. destruct H as (H1 & H2 & H3).
      destruct (readWith formats (pathJoin search src) _ true fs) as [[[|l|l]|] fs'] eqn:R; cbn in E; try discriminate. injection E as <-.
      match type of R with readWith _ _ ?a _ _ = _ => assert (F1 := imported_storable load str io compat formats (pathJoin search src) a true fs fs' l P (conj H2 H3) H1 R) end. assert (F2 := imported_nodes _ _ _ true _ _ l P R).
      apply Forall_forall. intros n Hn. apply readerNode_named; [exact (proj1 (Forall_forall _ _) F2 n Hn)|exact (proj1 (Forall_forall _ _) F1 n Hn)].
    - clear ocio_named. apply bind_ok in E. destruct E as [[n|] [En E]]; apply Ok_inj in E; subst ns; [|constructor]. constructor; [|constructor].
      exact (matrix_named _ _ _ _ En).
    - clear ocio_named. destruct (convertLog base dir) as [n|] eqn:En; apply Ok_inj in E; subst ns; [|constructor]. constructor; [|constructor]. exact (log_named _ _ _ En).
    - apply Ok_inj in E. subst ns. constructor.
  Qed.
End Ocio.

Lemma long_plain s t : (5 < String.length t)%nat -> plainValue (AStr (s ++ t)%string).
Proof.
  intro H. assert (L : String.length (s ++ t) = String.length s + String.length t) by (induction s; cbn; [reflexivity|now rewrite IHs]).
  split; intro E; rewrite E in L; cbn in L; lia.
Qed.

Section Ocio2.
  Context {T : Type} {NM : Num T} {X : NumText T} {OK : TextOk T}.
  Variables (str : T -> string) (io : fileLib string) (compat : Z).

  Theorem ocio_written formats (cf : config T) configPath sources dests clf maps half (fs : disk string) l root :
    let convert t := convertTransforms (withFiles (fileNodes formats fs (pathJoin (headPath configPath) (cf_searchPath cf)) maps half) t) in
    Permutation formats (allFormats str io compat) ->
    (forall s t, In s sources -> cf_toReference cf s = Ok t -> namesInterpolation t) ->
    (forall d t, In d dests -> cf_fromReference cf d = Ok t -> namesInterpolation t) ->
    convertSpaces convert cf configPath sources dests = Ok (Some l) -> listWrite compat false l = Ok root -> keepsDocument io root ->
    exists t, let fs' := putFile fs clf t in
      convertOCIO io compat formats cf configPath sources dests clf maps half fs = (Ok tt, fs') /\
      forall c limit strict, autodesk_on c = true -> duiker_on c = true -> openList io (S limit) c fs' strict clf = Ok (keptList l).
  Proof.
    intros convert P Hs Hd E W K. destruct (saveTo_written io compat l clf fs root W K) as (t & steps & Wf & Sv). exists t. intro fs'. split.
    - unfold convertOCIO. cbv zeta. fold convert. now rewrite E, Sv.
    - intros c limit strict A1 A2. apply (save_load io compat c false _ root t steps fs clf limit strict A1 A2); try assumption.
      set (load := loadFrom io limit c (putFile fs clf t)).
      assert (M : forall (get : string -> res (otree T)) (desc : string -> string) (nm : string -> nat -> string) xs ys,
        (forall x k, plainValue (AStr (nm x k))) -> (forall x t, In x xs -> get x = Ok t -> namesInterpolation t) ->
        mapM (fun s => let* t := get s in let* pns := convert t in Ok (annotate (desc s) (nm s) pns)) xs = Ok ys -> Forall (storable load) (List.concat ys)).
      { intros get desc nm xs ys Hn Hx Em. apply spaces_inv in Em. induction Em as [|x y xs ys Ey F IH]; [constructor|]. cbn [List.concat]. apply Forall_app. split.
        - apply bind_ok in Ey. destruct Ey as [o [Eo Ey]]. apply bind_ok in Ey. destruct Ey as [ns [En Ey]]. apply Ok_inj in Ey. subst y.
          apply annotate_storable; [apply Hn|]. apply (ocio_named str io compat load formats fs (pathJoin (headPath configPath) (cf_searchPath cf)) maps half P o); [|exact En]. apply (Hx x); [now left|exact Eo].
        - apply IH. intros z tz Hz. apply Hx. now right. }
      unfold convertSpaces in E. apply bind_ok in E. destruct E as [from [Ef E]]. apply bind_ok in E. destruct E as [to [Et E]].
      apply (M (cf_toReference cf) (fun s => "Convert " ++ s ++ " to reference")%string (fun s k => (s ++ " to reference - node " ++ natText k)%string)) in Ef;
        [|intros x k; apply long_plain; cbn; lia|exact Hs].
      apply (M (cf_fromReference cf) (fun d => "Convert reference to " ++ d)%string (fun d k => ("reference to " ++ d ++ " - node " ++ natText k)%string)) in Et;
        [|intros x k; cbn; split; discriminate|exact Hd].
      pose proof (Forall_app (storable load) (List.concat from) (List.concat to)) as FA. assert (F : Forall (storable load) (List.concat from ++ List.concat to)) by now apply FA.
      destruct (List.concat from ++ List.concat to) as [|n ns]; [discriminate|]. apply Ok_inj in E. injection E as <-.
      split; [|split; [reflexivity|split; [|exact F]]].
      + cbn. repeat (constructor; [cbn; intuition discriminate|]). constructor.
      + constructor; [|constructor]. cbn. tauto.
  Qed.

  Theorem ocio_nothing formats (cf : config T) configPath sources dests clf maps half (fs : disk string) :
    let convert t := convertTransforms (withFiles (fileNodes formats fs (pathJoin (headPath configPath) (cf_searchPath cf)) maps half) t) in
    (forall l, convertSpaces convert cf configPath sources dests = Ok (Some l) -> exists e, listWrite (T := T) compat false l = Err e) ->
    snd (convertOCIO io compat formats cf configPath sources dests clf maps half fs) = fs.
  Proof.
    intros convert H. unfold convertOCIO. cbv zeta. fold convert. destruct (convertSpaces convert cf configPath sources dests) as [[l|]|]; try reflexivity.
    destruct (H l eq_refl) as [e E]. now rewrite (saveTo_failed io compat l clf fs e E).
  Qed.
End Ocio2.
