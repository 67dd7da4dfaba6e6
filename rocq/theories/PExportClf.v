(** convertCLFtoLUT to a 1D-3D-1D .clf file. *)
From Coq Require Import List Arith Lia ZArith String Ascii Bool Permutation.
From Verif Require Import PBase PFacts PRegistry PNumText PFilesRead PIndent PConvert PImport PTools SpecConvert.
Import ListNotations.
Local Open Scope string_scope.
Local Open Scope list_scope.

Section Storable.
  Context {T : Type} {NM : Num T} {X : NumText T}.
  Variable load : string -> res (option (plist T)).
  Ltac plain := cbn; split; discriminate.

  Lemma inverse_storable n (s : list T) lo hi ns : exportInverse true true n s lo hi = Ok ns -> Forall (storable load) ns.
  Proof.
    unfold exportInverse, generateLUT1DInverseIndexMap. intro E. do 5 (apply bind_ok in E; destruct E as [? [? E]]). apply Ok_inj in E. subst ns. constructor.
    - eapply array1d_storable; [| |eassumption]; apply (maps_storable load); try reflexivity; apply lut1d_storable; try plain; discriminate.
    - destruct (_ || _); [|constructor]. constructor; [|constructor]. apply limit_storable; plain.
  Qed.
  Lemma clf_storable s1 n lo hi l3 r0 r1 r2 s2 (l : plist T) : exportCLF true true s1 n lo hi l3 r0 r1 r2 s2 = Ok l -> storableList load l.
  Proof.
    unfold exportCLF. intro E. apply bind_ok in E. destruct E as [first [E1 E]]. apply bind_ok in E. destruct E as [v [_ E]]. apply bind_ok in E. destruct E as [last [E2 E]].
    apply Ok_inj in E. subst l. apply list_storable. apply Forall_app. split; [|apply Forall_app; split].
    - destruct (nonempty s1); [exact (inverse_storable _ _ _ _ _ E1)|]. apply Ok_inj in E1. subst first. constructor.
    - constructor; [|constructor]. apply array3d_storable; [reflexivity|]. apply lut3d_storable; try plain; discriminate.
    - destruct (nonempty s2); [|apply Ok_inj in E2; subst last; constructor]. apply bind_ok in E2. destruct E2 as [k [E2 E3]]. apply Ok_inj in E3. subst last.
      constructor; [|constructor]. eapply array1d_storable; [| |exact E2]; [reflexivity|apply lut1d_storable; try plain; discriminate].
  Qed.
End Storable.

Section Export.
  Context {T : Type} {NM : Num T} {X : NumText T} {OK : TextOk T}.
  Variables (str : T -> string) (io : fileLib string) (compat : Z).

  Lemma asked_option s kind (lo hi : T) : shaperAsked s kind lo hi ->
    exists lo' hi', shaperOption s = Ok (kind, lo', hi') /\ createShaper kind lo' hi' = createShaper kind lo hi.
  Proof.
    destruct s as [|[[k a] b] t]; cbn [shaperAsked shaperOption].
    - intros ->. exists n0, n1. split; reflexivity.
    - intros (-> & -> & ->). exists lo, hi. split; reflexivity.
  Qed.

  Theorem export_clf limit formats (o : exportOptions T) clf lut (l l' : plist T) n r m kIn loIn hiIn kOut loOut hiOut s root fs :
    Permutation formats (allFormats str io compat) ->
    eo_clf o = Some clf -> eo_lut o = Some lut -> lutKindOf o = Both1D3D -> extensionOf lut = "clf" ->
    openList io limit compat fs false clf = Ok l ->
    sizesAsked o = (n, r, m) -> shaperAsked (eo_shaperIn o) kIn loIn hiIn -> shaperAsked (eo_shaperOut o) kOut loOut hiOut ->
    sample1D3D1D compat l n r r r m kIn loIn hiIn kOut loOut hiOut = Ok s ->
    exportCLF true true (s_in s) n (s_inMin s) (s_inMax s) (s_3d s) r r r (s_out s) = Ok l' ->
    listWrite compat false l' = Ok root -> keepsDocument io root ->
    exists t, let fs' := putFile fs lut t in
      exportMain io compat limit formats o fs = (Ok tt, fs') /\
      forall c limit strict, autodesk_on c = true -> duiker_on c = true -> openList io (S limit) c fs' strict lut = Ok (keptList l').
  Proof.
    intros P C Lu K E O Sz A1 A2 S X1 W D.
    destruct (asked_option _ _ _ _ A1) as (a1 & b1 & E1 & F1), (asked_option _ _ _ _ A2) as (a2 & b2 & E2 & F2).
    assert (S' : sample1D3D1D compat l n r r r m kIn a1 b1 kOut a2 b2 = Ok s) by (unfold sample1D3D1D in *; rewrite F1, F2; exact S).
    destruct (saveTo_written io compat l' lut fs root W D) as (t & steps & Wf & Sv). exists t. intro fs'. split.
    - unfold exportMain, exportArgs. rewrite E1, E2. cbn [bind]. change (32 * 32) with 1024. fold (sizesAsked o). rewrite Sz. cbn [bind].
      match goal with |- context [if eo_gen1d o then ?x else ?y] => replace (if eo_gen1d o then x else y) with "1D_3D_1D" end.
      2:{ unfold lutKindOf in K. destruct (eo_gen1d o), (eo_gen3d o), (eo_gen1d3d1d o); reflexivity || discriminate. }
      rewrite C, Lu. unfold convertCLFtoLUT. rewrite O, (all_write str io compat _ _ _ _ _ _ P), E. cbn [wa_style].
      change (writeStyle "1D_3D_1D") with CapWrite1D3D1D. cbn [writesExt dget String.eqb Ascii.eqb Bool.eqb]. unfold sampleFor. cbn [wa_1d3d1d wa_shaperIn wa_shaperOut].
      rewrite S'. cbn [bind]. unfold writerOf. cbn [String.eqb Ascii.eqb Bool.eqb]. unfold writeCLF. rewrite X1, Sv. reflexivity.
    - intros c limit' strict B1 B2. apply (save_load io compat c false _ root t steps fs lut limit' strict B1 B2); try assumption.
      exact (clf_storable _ _ _ _ _ _ _ _ _ _ _ X1).
  Qed.

  Theorem export_ends limit formats (o : exportOptions T) fs : shaperReadable (T := T) (eo_shaperIn o) -> shaperReadable (T := T) (eo_shaperOut o) ->
    (eo_clf o = None \/ eo_lut o = None -> exportMain io compat limit formats o fs = (Ok tt, fs)) /\
    (forall clf lut e, eo_clf o = Some clf -> eo_lut o = Some lut -> openList (T := T) io limit compat fs false clf = Err e ->
       exportMain io compat limit formats o fs = (Err e, fs)).
  Proof.
    intros H1 H2. destruct (export_args o H1 H2) as (a & Ea & _). unfold exportMain. rewrite Ea. split.
    - intros [-> | ->]; [reflexivity|]. now destruct (eo_clf o).
    - intros clf lut e -> -> E. unfold convertCLFtoLUT. now rewrite E.
  Qed.
  Theorem import_ends formats (lut clf : option string) inverse maps half (fs : disk string) :
    Permutation formats (allFormats str io compat) ->
    (lut = None \/ clf = None -> importMain io compat formats lut clf inverse maps half fs = (Ok tt, fs)) /\
    (forall lutPath clfPath, lut = Some lutPath -> clf = Some clfPath ->
       (forall e, fst (readWith formats lutPath (importArgs inverse maps half) false fs) = Err e ->
          importMain io compat formats lut clf inverse maps half fs = (Err e, fs)) /\
       (fst (readWith formats lutPath (importArgs inverse maps half) false fs) = Ok LNone ->
          importMain io compat formats lut clf inverse maps half fs = (Ok tt, fs)) /\
       (forall l e, fst (readWith formats lutPath (importArgs inverse maps half) false fs) = Ok (LList l) -> listWrite compat false l = Err e ->
          importMain io compat formats lut clf inverse maps half fs = (Err e, fs))).
  Proof.
    intro P. unfold importMain. split; [intros [-> | ->]; [reflexivity|]; now destruct lut|]. intros lutPath clfPath -> ->. fold (importArgs inverse maps half).
    pose proof (readers_keep_disk str io compat formats lutPath (importArgs inverse maps half) false fs P) as D.
    destruct (readWith formats lutPath (importArgs inverse maps half) false fs) as [r fs1] eqn:R; cbn in D; subst fs1. cbn [fst].
    split; [|split].
    - intros e ->. reflexivity.
    - intros ->. reflexivity.
    - intros [a v e' ps] e -> W. destruct ps as [|p ps]; [|now rewrite (saveTo_failed io compat _ _ _ e W)].
      exfalso. unfold listWrite in W. cbn [nodesWrite bind] in W. destruct compat; discriminate.
  Qed.
End Export.

(** * File transforms of an OCIO config *)
Section FileTransforms.
  Context {T : Type} {N : Num T} {X : NumText T}.
  Theorem file_transform str io compat formats (fs : disk string) search maps half src interpolation direction :
    Permutation formats (allFormats (T := T) str io compat) ->
    let path := pathJoin search src in
    let nodes := convertTransforms (withFiles (fileNodes formats fs search maps half) (TFile src interpolation direction)) in
    (~ In (extensionOf path) ["spi1d"; "spi3d"; "csp"] -> nodes = Err TypeError) /\
    (In (extensionOf path) ["spi1d"; "spi3d"; "csp"] -> fs path = None -> nodes = Err IOError) /\
    (forall text ns, fs path = Some text -> ns <> [] ->
       (extensionOf path = "spi1d" -> direction = "forward" -> readSPI1D text false interpolation maps half = Ok ns -> nodes = Ok ns) /\
       (extensionOf path = "spi1d" -> direction = "inverse" -> readSPI1D text true interpolation maps half = Ok ns -> nodes = Ok ns) /\
       (extensionOf path = "spi3d" -> readSPI3D text interpolation = Ok ns -> nodes = Ok ns) /\
       (extensionOf path = "csp" -> readCSP text = Ok ns -> nodes = Ok ns)).
  Proof.
    intros P path nodes. unfold nodes. cbn [withFiles convertTransforms]. unfold fileNodes. fold path. rewrite (all_read str io compat formats _ _ _ _ P). split; [|split].
    - intro H. assert (E : readsExt (extensionOf path) = None); [|rewrite E; reflexivity]. unfold readsExt. cbn [dget].
      destruct (String.eqb_spec (extensionOf path) "spi1d") as [E|_]; [exfalso; apply H; rewrite E; cbn; tauto|].
      destruct (String.eqb_spec (extensionOf path) "spi3d") as [E|_]; [exfalso; apply H; rewrite E; cbn; tauto|].
      destruct (String.eqb_spec (extensionOf path) "csp") as [E|_]; [exfalso; apply H; rewrite E; cbn; tauto|]. reflexivity.
    - intros H F. destruct H as [E|[E|[E|[]]]]; rewrite <- E; cbn [readsExt dget String.eqb Ascii.eqb Bool.eqb]; unfold readerOf; cbn [String.eqb Ascii.eqb Bool.eqb];
        [unfold readSPI; rewrite <- E; cbn [String.eqb Ascii.eqb Bool.eqb]|unfold readSPI; rewrite <- E; cbn [String.eqb Ascii.eqb Bool.eqb]|unfold readCSPFile]; unfold reading; rewrite F; reflexivity.
    - intros text ns F Hn. repeat split; intros E; [intros ->|intros ->| |]; intros R; rewrite E; cbn [readsExt dget String.eqb Ascii.eqb Bool.eqb]; unfold readerOf; cbn [String.eqb Ascii.eqb Bool.eqb];
        try (unfold readSPI; rewrite E; cbn [String.eqb Ascii.eqb Bool.eqb]); try unfold readCSPFile; unfold reading; rewrite F; cbn [ra_inverse ra_interpolation ra_useIndexMaps ra_useHalfDomain isForward String.eqb Ascii.eqb Bool.eqb negb];
        rewrite R; (destruct ns; [congruence|reflexivity]).
  Qed.
End FileTransforms.
