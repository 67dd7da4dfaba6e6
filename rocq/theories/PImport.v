(** Nodes made from LUT files can be written and read back; convertLUTtoCLF. *)
From Coq Require Import List Arith Lia ZArith String Ascii Bool Permutation.
From Verif Require Import PBase PFacts PRegistry PNumText PFilesRead PIndent PConvert SpecConvert.
Import ListNotations.
Local Open Scope string_scope.
Local Open Scope list_scope.

Section Import.
  Context {T : Type} {NM : Num T} {X : NumText T}.
  Variable load : string -> res (option (plist T)).

  Definition plainBody (b : body T) : Prop := match b with BReference _ _ | BGroup _ => False | _ => True end.
  Lemma elementOk_attrs h h' b (e : element T) : h_attrs h = h_attrs h' -> elementOk h b e -> elementOk h' b e.
  Proof. intro E. unfold elementOk, flagSet. now rewrite E. Qed.
  Lemma storable_add n (e : element T) : plainBody (nbody n) -> storable load n -> elementOk (nheader n) (nbody n) e -> storable load (addElement n e).
  Proof.
    destruct n as [h b]. cbn [nbody nheader addElement]. intros P S E. cbn in S. destruct S as [(A & V & F) S]. cbn. split; [|destruct b; try exact S; contradiction].
    split; [exact A|]. split; [exact V|]. cbn [hAddElem h_elems]. apply Forall_app. split.
    - eapply Forall_impl; [|exact F]. intros x. now apply elementOk_attrs.
    - constructor; [|constructor]. eapply elementOk_attrs; [|exact E]. reflexivity.
  Qed.

  Lemma header_plain attrs vals b :
    attributesOk b attrs -> valuesOk b vals -> plainBody b -> storable load (Node {| h_attrs := attrs; h_vals := vals; h_dyn := []; h_elems := [] |} b).
  Proof. intros A V P. cbn. split; [|destruct b; try exact I; contradiction]. split; [exact A|]. split; [exact V|constructor]. Qed.

  Ltac distinct := repeat (constructor; [cbn [In map fst]; intuition discriminate|]); constructor.
  Lemma limit_storable id name (a b c d : T) : plainValue (AStr id) -> plainValue (AStr name) -> storable load (limitRange id name a b c d).
  Proof.
    intros Hi Hn. unfold limitRange, newRange. cbn [truthy optAttr aval_eqb String.eqb Ascii.eqb Bool.eqb setMinInValue setMaxInValue setMinOutValue setMaxOutValue setValue hSetVal newHeader h_attrs h_vals h_dyn h_elems].
    apply header_plain; [|split|exact I].
    - split; [cbn; distinct|]. split; [exists []; reflexivity|]. repeat (constructor; [cbn; try exact Hi; try exact Hn; try (split; discriminate)|]). constructor.
    - cbn. distinct.
    - cbn. repeat (constructor; [cbn; tauto|]). constructor.
  Qed.
  Lemma lut1d_storable id interp : plainValue (AStr id) -> plainValue (AStr interp) -> interp <> "" ->
    storable load (newLUT1D (T := T) (AStr "16f") (AStr "16f") (AStr id) (AStr id) (AStr interp) (AStr "") (AStr "")).
  Proof.
    intros Hi Hp Hne. unfold newLUT1D, optAttr. cbn [aval_eqb]. rewrite (proj2 (String.eqb_neq _ _) Hne). cbn [String.eqb].
    apply header_plain; [|reflexivity|exact I].
    split; [cbn; distinct|]. split; [exists []; reflexivity|]. repeat (constructor; [cbn; try exact Hi; try exact Hp; try (split; discriminate)|]). constructor.
  Qed.
  Lemma half_storable : storable load (newLUT1D (T := T) (AStr "16f") (AStr "16f") (AStr "inverse_1d_lut") (AStr "inverse_1d_lut") (AStr "linear") (ABool true) (ABool true)).
  Proof.
    apply header_plain; [|reflexivity|exact I].
    split; [cbn; distinct|]. split; [exists ["rawHalfs"; "halfDomain"]; reflexivity|]. repeat (constructor; [cbn; try exact I; try (split; discriminate)|]). constructor.
  Qed.
  Lemma lut3d_storable id interp : plainValue (AStr id) -> plainValue (AStr interp) -> interp <> "" ->
    storable load (newLUT3D (T := T) (AStr "16f") (AStr "16f") (AStr id) (AStr id) (AStr interp)).
  Proof.
    intros Hi Hp Hne. unfold newLUT3D, optAttr. cbn [aval_eqb]. rewrite (proj2 (String.eqb_neq _ _) Hne).
    apply header_plain; [|reflexivity|exact I].
    split; [cbn; distinct|]. split; [exists []; reflexivity|]. repeat (constructor; [cbn; try exact Hi; try exact Hp; try (split; discriminate)|]). constructor.
  Qed.
  Lemma array1d_storable n k (vals : list T) enc n' : nbody n = BLUT1D -> storable load n -> setArray1D n k vals enc = Ok n' -> storable load n'.
  Proof.
    intros B S E. unfold setArray1D in E. apply bind_ok in E. destruct E as [rows [_ E]]. apply Ok_inj in E. subst n'.
    apply storable_add; [now rewrite B|exact S|]. rewrite B. reflexivity.
  Qed.
  Lemma array3d_storable n dims (vals : list T) enc : nbody n = BLUT3D -> storable load n -> storable load (setArray3D n dims vals enc).
  Proof. intros B S. apply storable_add; [now rewrite B|exact S|]. now rewrite B. Qed.
  Lemma maps_storable n (r : list T * list T) gb : nbody n = BLUT1D -> storable load n -> storable load (setIndexMaps n r gb) /\ nbody (setIndexMaps n r gb) = BLUT1D.
  Proof.
    assert (A : forall n ins outs, let m := mkIndexMap (T := T) ins outs in
      nbody n = BLUT1D -> storable load n -> storable load (addElement n (EIndexMap m)) /\ nbody (addElement n (EIndexMap m)) = BLUT1D).
    { intros m ins outs v B S. split; [apply storable_add; [now rewrite B|exact S|rewrite B; split; [now left|discriminate]]|]. destruct m. exact B. }
    intros B S. unfold setIndexMaps. destruct gb as [[g b]|]; [|now apply A].
    destruct (A n (fst r) (snd r) B S) as [S1 B1]. destruct (A _ (fst g) (snd g) B1 S1) as [S2 B2]. exact (A _ _ _ B2 S2).
  Qed.

  Ltac plain := cbn; split; discriminate.
  Lemma spi1d_storable t inverse interp maps half ns : plainValue (AStr interp) -> interp <> "" ->
    readSPI1D (T := T) t inverse interp maps half = Ok ns -> Forall (storable load) ns.
  Proof.
    intros Hp Hne E. unfold readSPI1D in E. apply bind_ok in E. destruct E as [d [_ E]]. destruct inverse; [destruct maps; [|destruct half]|].
    - unfold generateLUT1DInverseIndexMap in E. do 5 (apply bind_ok in E; destruct E as [? [? E]]). apply Ok_inj in E. subst ns. constructor.
      + eapply array1d_storable; [| |eassumption]; apply maps_storable; try reflexivity; apply lut1d_storable; try plain; discriminate.
      + destruct (_ || _); [|constructor]. constructor; [|constructor]. apply limit_storable; plain.
    - unfold generateLUT1DInverseHalfDomain in E. do 2 (apply bind_ok in E; destruct E as [? [? E]]). apply Ok_inj in E. subst ns. constructor; [|constructor].
      eapply array1d_storable; [| |eassumption]; [reflexivity|apply half_storable].
    - unfold generateLUT1DInverseResampled in E. do 6 (apply bind_ok in E; destruct E as [? [? E]]). apply Ok_inj in E. subst ns.
      constructor; [apply limit_storable; plain|]. constructor; [|constructor; [apply limit_storable; plain|constructor]].
      eapply array1d_storable; [| |eassumption]; [reflexivity|apply lut1d_storable; try plain; discriminate].
    - apply bind_ok in E. destruct E as [lut [? E]]. apply Ok_inj in E. subst ns. apply Forall_app. split.
      + destruct (_ || _); [|constructor]. constructor; [|constructor]. apply limit_storable; plain.
      + constructor; [|constructor]. eapply array1d_storable; [| |eassumption]; [|apply lut1d_storable; try plain; assumption].
        unfold newLUT1D. reflexivity.
  Qed.
  Lemma spi3d_storable t interp ns : plainValue (AStr interp) -> interp <> "" -> readSPI3D (T := T) t interp = Ok ns -> Forall (storable load) ns.
  Proof.
    intros Hp Hne E. unfold readSPI3D in E. apply bind_ok in E. destruct E as [? [_ E]]. apply bind_ok in E. destruct E as [? [_ E]].
    apply bind_ok in E. destruct E as [[res samples] [_ E]]. apply Ok_inj in E. subst ns. constructor; [|constructor].
    apply array3d_storable; [reflexivity|]. destruct (String.eqb interp "linear"); apply lut3d_storable; try plain; try assumption; discriminate.
  Qed.
  Lemma prelut_storable (r g b : list T * list T) ns : generateCLFPrelut r g b = Ok ns -> Forall (storable load) ns.
  Proof.
    unfold generateCLFPrelut. intro E. do 6 (apply bind_ok in E; destruct E as [? [_ E]]). destruct (_ <? _)%nat.
    - do 2 (apply bind_ok in E; destruct E as [? [? E]]). apply Ok_inj in E. subst ns. constructor; [apply limit_storable; plain|]. constructor; [|constructor].
      eapply array1d_storable; [| |eassumption]; [reflexivity|apply lut1d_storable; try plain; discriminate].
    - apply Ok_inj in E. subst ns. constructor; [apply limit_storable; plain|constructor].
  Qed.
  Lemma csp_storable t ns : readCSP (T := T) t = Ok ns -> Forall (storable load) ns.
  Proof.
    intro E. unfold readCSP in E. do 2 (apply bind_ok in E; destruct E as [? [_ E]]). destruct (String.eqb _ "CSPLUTV100"); [|apply Ok_inj in E; subst; constructor].
    do 2 (apply bind_ok in E; destruct E as [? [_ E]]). match type of E with (if ?b then _ else _) = _ => destruct b end; [|apply Ok_inj in E; subst; constructor].
    do 9 (apply bind_ok in E; destruct E as [? [_ E]]). apply bind_ok in E; destruct E as [lut [El E]]. apply bind_ok in E; destruct E as [prelut [Ep E]].
    apply Ok_inj in E. subst ns. apply Forall_app. split; [exact (prelut_storable _ _ _ _ Ep)|]. constructor; [|constructor].
    destruct (String.eqb _ "3D").
    - do 3 (apply bind_ok in El; destruct El as [? [_ El]]). apply Ok_inj in El. subst lut. apply array3d_storable; [reflexivity|]. apply lut3d_storable; try plain; discriminate.
    - apply bind_ok in El; destruct El as [? [_ El]]. eapply array1d_storable; [| |exact El]; [reflexivity|apply lut1d_storable; try plain; discriminate].
  Qed.

  Variables (str : T -> string) (io : fileLib string) (compat : Z).
  Theorem imported_storable formats path a rp (fs fs' : disk string) ns : Permutation formats (allFormats str io compat) ->
    plainValue (AStr (ra_interpolation a)) -> ra_interpolation a <> "" ->
    readWith formats path a rp fs = (Ok (wrapNodes rp ns), fs') -> Forall (storable load) ns.
  Proof.
    intros P Hp Hne E. rewrite (all_read str io compat _ _ _ _ _ P) in E. destruct (readsExt _) as [name|]; [|destruct rp; discriminate].
    assert (W : forall l, wrapNodes rp l = wrapNodes rp ns -> l = ns) by (intros l; unfold wrapNodes; destruct rp; now intros [= ->]).
    assert (W' : wrapNodes rp ns <> LNone) by (unfold wrapNodes; destruct rp; discriminate).
    unfold readerOf in E. destruct (String.eqb name "SPI"); [|destruct (String.eqb name "CSP"); [|destruct (String.eqb name "CLF"); discriminate]].
    - unfold readSPI in E. destruct (String.eqb _ "spi1d"); [|destruct (String.eqb _ "spi3d")]; unfold reading in E; [| |exfalso; apply W'; congruence].
      + destruct (fs path); [|discriminate]. destruct (readSPI1D _ _ _ _ _) as [[|n l]|] eqn:R; [exfalso; apply W'; congruence| |discriminate].
        injection E as E _. apply W in E. subst ns. exact (spi1d_storable _ _ _ _ _ _ Hp Hne R).
      + destruct (fs path); [|discriminate]. destruct (readSPI3D _ _) as [[|n l]|] eqn:R; [exfalso; apply W'; congruence| |discriminate].
        injection E as E _. apply W in E. subst ns. exact (spi3d_storable _ _ _ Hp Hne R).
    - unfold readCSPFile, reading in E. destruct (fs path); [|discriminate]. destruct (readCSP _) as [[|n l]|] eqn:R; [exfalso; apply W'; congruence| |discriminate].
      injection E as E _. apply W in E. subst ns. exact (csp_storable _ _ R).
  Qed.
End Import.

(** ** convertLUTtoCLF *)
Section Tool.
  Context {T : Type} {NM : Num T} {X : NumText T} {OK : TextOk T}.
  Variables (str : T -> string) (io : fileLib string) (compat : Z).

  Definition importArgs (inverse useIndexMaps useHalfDomain : bool) : readArgs :=
    {| ra_inverse := inverse; ra_interpolation := "linear"; ra_useIndexMaps := useIndexMaps; ra_useHalfDomain := useHalfDomain |}.

  Lemma saveTo_written l path (fs : disk string) root : listWrite compat false l = Ok root -> keepsDocument io root ->
    exists t steps, writeFile (T := T) io compat false false l = (Ok true, steps ++ [t]) /\ saveTo io compat l path fs = (Ok true, putFile fs path t).
  Proof.
    intros W (t & root' & Hp & Ha & _). exists t, (nothing io :: prefixes io t).
    assert (E : writeFile io compat false false l = (Ok true, (nothing io :: prefixes io t) ++ [t])) by (unfold writeFile; rewrite W, Hp, Ha; reflexivity).
    split; [exact E|]. unfold saveTo. rewrite E, rev_app_distr. reflexivity.
  Qed.
  Lemma saveTo_failed l path (fs : disk string) e : listWrite (T := T) compat false l = Err e -> saveTo io compat l path fs = (Err e, fs).
  Proof. intro W. unfold saveTo, writeFile. now rewrite W. Qed.

  Lemma list_storable load ns : Forall (storable load) ns ->
    storableList load (PList (T := T) [("id", "Converted lut"); ("compCLFversion", "1.0"); ("name", "Converted lut")] [] [] ns).
  Proof.
    intro F. split; [|split; [reflexivity|split; [constructor|exact F]]].
    cbn. repeat (constructor; [cbn; intuition discriminate|]). constructor.
  Qed.

  Theorem import_written formats lut clf inverse maps half (fs fs1 : disk string) l root :
    Permutation formats (allFormats str io compat) ->
    readWith formats lut (importArgs inverse maps half) false fs = (Ok (LList l), fs1) ->
    listWrite compat false l = Ok root -> keepsDocument io root ->
    exists t, let fs' := putFile fs clf t in
      importMain io compat formats (Some lut) (Some clf) inverse maps half fs = (Ok tt, fs') /\
      forall c limit strict, autodesk_on c = true -> duiker_on c = true -> openList io (S limit) c fs' strict clf = Ok (keptList l).
  Proof.
    intros P R W K. pose proof (readers_keep_disk str io compat formats lut (importArgs inverse maps half) false fs P) as D.
    assert (Ew : exists n ns, l = PList [("id", "Converted lut"); ("compCLFversion", "1.0"); ("name", "Converted lut")] [] [] (n :: ns)).
    { pose proof R as R'. rewrite (all_read str io compat _ _ _ _ _ P) in R'. destruct (readsExt _); [|discriminate].
      destruct (readerOf _ _ _ _) as [[[|n ns]|] w]; try discriminate. injection R' as <- _. now exists n, ns. }
    destruct Ew as (n & ns & ->). rewrite R in D. cbn in D. subst fs1.
    destruct (saveTo_written _ clf fs root W K) as (t & steps & Wf & Sv). exists t. intro fs'. split.
    - unfold importMain. fold (importArgs inverse maps half). rewrite R, Sv. reflexivity.
    - intros c limit strict A1 A2. apply (save_load io compat c false _ root t steps fs clf limit strict A1 A2); try assumption.
      apply list_storable. apply (imported_storable _ str io compat formats lut (importArgs inverse maps half) false fs fs); try assumption; [|discriminate].
      cbn. split; discriminate.
  Qed.

  Theorem import_nothing formats (lut clf : option string) inverse maps half (fs : disk string) :
    Permutation formats (allFormats str io compat) ->
    (forall lutPath clfPath l, lut = Some lutPath -> clf = Some clfPath ->
       fst (readWith formats lutPath (importArgs inverse maps half) false fs) = Ok (LList l) -> exists e, listWrite compat false l = Err e) ->
    snd (importMain io compat formats lut clf inverse maps half fs) = fs.
  Proof.
    intros P H. unfold importMain. destruct lut as [lut|]; [|reflexivity]. destruct clf as [clf|]; [|reflexivity]. fold (importArgs inverse maps half).
    pose proof (readers_keep_disk str io compat formats lut (importArgs inverse maps half) false fs P) as D.
    destruct (readWith formats lut (importArgs inverse maps half) false fs) as [[[|ns|[a v e [|p ps]]]|e] fs1] eqn:R; cbn in D; subst fs1; try reflexivity.
    destruct (H lut clf (PList a v e (p :: ps)) eq_refl eq_refl) as [x Ex]; [rewrite R; reflexivity|]. now rewrite (saveTo_failed _ _ _ x Ex).
  Qed.
End Tool.

(** ** Lists from .spi1d files can always be written *)
Section Writes.
  Context {T : Type} {NM : Num T} {X : NumText T}.
  Variable c : Z.
  Definition writes (n : node T) : Prop := exists es, nodeWrite c (Some false) n = Ok es.

  Lemma rowText_ok raw dims vals (row : list T) : exists s, rowText c (mkArray dims vals raw false "string") row = Ok s.
  Proof.
    unfold rowText. cbn [a_int mkArray a_enc a_raw bind]. cbn [String.eqb Ascii.eqb Bool.eqb negb]. destruct raw; unfold rowOf.
    - destruct (mapM_all_ok uint16Word row) as [ws ->]; [intros; eexists; reflexivity|]. eexists. reflexivity.
    - destruct (mapM_all_ok decimalWord row) as [ws ->]; [intros; eexists; reflexivity|]. eexists. reflexivity.
  Qed.
  Lemma array_writes raw rows k (vals : list T) : k <> 0 -> exists e, arrayWrite c (mkArray [rows; k] vals raw false "string") = Ok e.
  Proof.
    intro Hk. unfold arrayWrite. cbn [a_dims mkArray arrayColumns List.length Nat.eqb orb Nat.sub getn nth_error bind a_vals a_enc].
    unfold pydiv. destruct k as [|k]; [contradiction|]. cbn [Nat.eqb bind].
    destruct (mapM_all_ok (fun i => rowText c (mkArray [rows; S k] vals raw false "string") (slice vals (i * S k) ((i + 1) * S k))) (seq 0 (List.length vals / S k))) as [rs E].
    { intros i _. apply rowText_ok. }
    rewrite E. eexists. reflexivity.
  Qed.
  Lemma limit_writes id name (a b e d : T) : writes (limitRange id name a b e d).
  Proof. eexists. reflexivity. Qed.
  Lemma lut1d_writes h k (vals : list T) n' : h_elems h = [] -> outIsInteger (Node h BLUT1D) = false -> setArray1D (Node h BLUT1D) k vals "string" = Ok n' -> writes n'.
  Proof.
    intros Hh Hi E. unfold setArray1D in E. apply bind_ok in E. destruct E as [rows [Ed E]]. apply Ok_inj in E. subst n'. rewrite Hi.
    assert (Hk : k <> 0) by (intros ->; discriminate). destruct (array_writes (flagSet (nheader (Node h BLUT1D)) "rawHalfs") rows k vals Hk) as [e Ee].
    unfold writes. cbn [addElement nodeWrite]. unfold headerWrite. cbn [hAddElem h_elems]. rewrite Hh. cbn [app mapM elementWrite]. rewrite Ee. cbn [bind]. eexists. reflexivity.
  Qed.

  Theorem spi1d_writes t inverse interp half ns : readSPI1D (T := T) t inverse interp false half = Ok ns -> Forall writes ns.
  Proof.
    intro E. unfold readSPI1D in E. apply bind_ok in E. destruct E as [d [_ E]]. destruct inverse; [destruct half|].
    - unfold generateLUT1DInverseHalfDomain in E. do 2 (apply bind_ok in E; destruct E as [? [? E]]). apply Ok_inj in E. subst ns. constructor; [|constructor].
      eapply lut1d_writes; [| |eassumption]; reflexivity.
    - unfold generateLUT1DInverseResampled in E. do 6 (apply bind_ok in E; destruct E as [? [? E]]). apply Ok_inj in E. subst ns.
      constructor; [apply limit_writes|]. constructor; [|constructor; [apply limit_writes|constructor]].
      eapply lut1d_writes; [| |eassumption]; reflexivity.
    - apply bind_ok in E. destruct E as [lut [El E]]. apply Ok_inj in E. subst ns. apply Forall_app. split.
      + destruct (_ || _); constructor; [apply limit_writes|constructor].
      + constructor; [|constructor]. unfold newLUT1D in El. eapply lut1d_writes; [| |exact El]; unfold optAttr; cbn [aval_eqb]; destruct (String.eqb interp ""); reflexivity.
  Qed.
  Lemma nodes_write ns : Forall writes ns -> exists es, nodesWrite c (Some false) ns = Ok es.
  Proof.
    induction 1 as [|n ns [e E] F [es IH]]; [now exists []|]. exists (e ++ es). cbn [nodesWrite]. rewrite E. cbn [bind].
    change ((let* es0 := nodesWrite c (Some false) ns in Ok (e ++ es0)) = Ok (e ++ es)). now rewrite IH.
  Qed.
  Theorem spi1d_list_writes t inverse interp half ns attrs vals elems : readSPI1D (T := T) t inverse interp false half = Ok ns ->
    exists root, listWrite c false (PList attrs vals elems ns) = Ok root.
  Proof.
    intro E. apply spi1d_writes in E. destruct (nodes_write ns E) as [es Es]. unfold listWrite. rewrite Es. eexists. reflexivity.
  Qed.
End Writes.

Section Spi1D.
  Context {T : Type} {NM : Num T} {X : NumText T} {OK : TextOk T}.
  Variables (str : T -> string) (io : fileLib string) (compat : Z).
  Theorem import_spi1d formats lut clf inverse half (fs : disk string) text ns :
    Permutation formats (allFormats str io compat) -> extensionOf lut = "spi1d" -> fs lut = Some text ->
    readSPI1D text inverse "linear" false half = Ok ns ->
    (forall root, listWrite compat false (convertedList ns) = Ok root -> keepsDocument io root) ->
    exists t, let fs' := putFile fs clf t in
      importMain io compat formats (Some lut) (Some clf) inverse false half fs = (Ok tt, fs') /\
      forall c limit strict, autodesk_on c = true -> duiker_on c = true ->
        openList io (S limit) c fs' strict clf =
        Ok (keptList (convertedList ns)).
  Proof.
    intros P E Ft R K. set (l := PList [("id", "Converted lut"); ("compCLFversion", "1.0"); ("name", "Converted lut")] [] [] ns).
    destruct (spi1d_list_writes compat text inverse "linear" half ns [("id", "Converted lut"); ("compCLFversion", "1.0"); ("name", "Converted lut")] [] [] R) as [root W].
    apply (import_written str io compat formats lut clf inverse false half fs fs l root P); [|exact W|apply K; exact W].
    rewrite (all_read str io compat _ _ _ _ _ P), E. cbn [readsExt dget String.eqb Ascii.eqb Bool.eqb]. unfold readerOf. cbn [String.eqb Ascii.eqb Bool.eqb].
    unfold readSPI. rewrite E. cbn [String.eqb Ascii.eqb Bool.eqb]. unfold reading. rewrite Ft. cbn [importArgs ra_inverse ra_interpolation ra_useIndexMaps ra_useHalfDomain].
    rewrite R. destruct ns as [|n ns]; [|reflexivity].
    exfalso. unfold readSPI1D in R. apply bind_ok in R. destruct R as [d [_ R]]. destruct inverse; [destruct half|].
    - unfold generateLUT1DInverseHalfDomain in R. do 2 (apply bind_ok in R; destruct R as [? [? R]]). discriminate.
    - unfold generateLUT1DInverseResampled in R. do 6 (apply bind_ok in R; destruct R as [? [? R]]). discriminate.
    - apply bind_ok in R. destruct R as [? [_ R]]. apply Ok_inj in R. destruct (_ || _); discriminate.
  Qed.
End Spi1D.
