(** Shapers of .csp files (C70, C71), what reading LUT files ignores (C72), and the
    converters convertCLFtoLUT (C73, C74), convertLUTtoCLF (C75) and convertOCIOtoCLF (C78). *)
From Coq Require Import List String ZArith Lia Reals Lra Permutation.
From Flocq Require Import BinarySingleNaN.
From Verif Require Import NumF NumFText SpecConvert PNumText PTextIeee PPrelut PCsp4 PLutIeee PConvert PImport PTools PExportClf PConvertIeee PLineEnds.
Import ListNotations.
Local Open Scope string_scope.
Local Open Scope list_scope.

(** * C70: preluts of .csp files *)

(** Shapers with three points or more become a Range to [0, 1] and a LUT1D twice as
    long; its entries are on the polylines through the shapers' points. *)
Theorem C70_expanded :
  forall n lo hi (r g b : list R * list R),
    3 <= n -> isShaper n lo hi r -> isShaper n lo hi g -> isShaper n lo hi b ->
    exists vals, generateCLFPrelut r g b =
        Ok [rangeNode "prelut_range" lo hi; lut1dNode "prelut_lut1d" "linear" (2 * n) 3 vals] /\
      List.length vals = 2 * n * 3 /\
      forall i, i < 2 * n ->
        onPolyline (fst r) (snd r) (gridPoint (2 * n) lo hi i) (nth (i * 3) vals 0%R) /\
        onPolyline (fst g) (snd g) (gridPoint (2 * n) lo hi i) (nth (i * 3 + 1) vals 0%R) /\
        onPolyline (fst b) (snd b) (gridPoint (2 * n) lo hi i) (nth (i * 3 + 2) vals 0%R).
Proof. exact prelut_expanded. Qed.
Print Assumptions C70_expanded.

(** Shapers that start at different inputs cannot be read. *)
Theorem C70_starts_differ :
  forall (r g b : list R * list R) n lor log lob hir hig hib,
    3 <= n -> isShaper n lor hir r -> isShaper n log hig g -> isShaper n lob hib b ->
    ~ (lor = log /\ log = lob) -> generateCLFPrelut r g b = Err ZeroDivisionError.
Proof. exact prelut_starts. Qed.
Print Assumptions C70_starts_differ.

(** The outputs of shapers with two points play no role. *)
Theorem C70_two_points :
  forall {T} {N : Num T} (ri ro gi go bi bo ro' go' bo' : list T),
    List.length ri <= 2 -> List.length gi <= 2 -> List.length bi <= 2 ->
    generateCLFPrelut (ri, ro) (gi, go) (bi, bo) = generateCLFPrelut (ri, ro') (gi, go') (bi, bo').
Proof. exact @prelut_short. Qed.
Print Assumptions C70_two_points.

Definition shaperFrom0 : list R * list R := ([0; 1; 4], [0; 1/2; 1])%R.
Definition shaperFrom1 : list R * list R := ([1; 2; 4], [0; 1/2; 1])%R.
Example C70_case : isShaper 3 0 4 shaperFrom0 /\
  (exists vals, generateCLFPrelut shaperFrom0 shaperFrom0 shaperFrom0 =
     Ok [rangeNode "prelut_range" 0%R 4%R; lut1dNode "prelut_lut1d" "linear" 6 3 vals]) /\
  generateCLFPrelut shaperFrom0 shaperFrom1 shaperFrom0 = Err ZeroDivisionError.
Proof.
  assert (R0 : isShaper 3 0 4 shaperFrom0).
  { repeat split; try reflexivity. intros i Hi. cbn in Hi. destruct i as [|[|i]]; cbn; try lra. lia. }
  assert (R1 : isShaper 3 1 4 shaperFrom1).
  { repeat split; try reflexivity. intros i Hi. cbn in Hi. destruct i as [|[|i]]; cbn; try lra. lia. }
  split; [exact R0|]. split.
  - destruct (C70_expanded 3 0 4 _ _ _ (le_n 3) R0 R0 R0) as (vals & E & _). exists vals. exact E.
  - apply (C70_starts_differ _ _ _ 3 0 1 0 4 4 4 (le_n 3) R0 R1 R0). lra.
Qed.

(** * C71: .csp files with a shaper *)

(** Reading a written 1D-3D LUT expands the shaper as printed, and gives the 3D table as
    printed. *)
Theorem C71_round_trip :
  forall (L : libm), let N := ieeeNum L in
  forall samples n (lo hi : fl) data m f,
    2 <= n -> (Z.of_nat n <= 2 ^ 53)%Z -> n * 3 <= List.length samples -> latticeOf data m m m f ->
    exists t vals, writeCSP1D3D (Some samples) n lo hi data m m m = Ok t /\
      tableOf vals m m m (fun r g b => map (viaFixed 6) (f r g b)) /\
      readCSP t = (let shaper c := (map (viaFixed 6) (shaperInputs n lo hi), map (viaFixed 6) (shaperOutputs n samples c)) in
                   let* prelut := generateCLFPrelut (shaper 0) (shaper 1) (shaper 2) in
                   Ok (prelut ++ [lut3dNode "lut3d" "trilinear" m m m vals])).
Proof. exact csp_shaper_ieee. Qed.
Print Assumptions C71_round_trip.

(** Without an input shaper the LUT cannot be written. *)
Theorem C71_no_shaper :
  forall (L : libm), let N := ieeeNum L in
  forall n (lo hi : fl) data r0 r1 r2,
    2 <= n -> (Z.of_nat n <= 2 ^ 53)%Z -> writeCSP1D3D None n lo hi data r0 r1 r2 = Err TypeError.
Proof. exact csp_no_shaper_ieee. Qed.
Print Assumptions C71_no_shaper.

(** The table after the 3D LUT, which has been sampled to go before that table, is not in
    the file: LUTs that differ in it only are written alike. *)
Theorem C71_output_shaper_dropped :
  forall {T} {N : Num T} {X : NumText T} path n r0 r1 r2 nOut nOut' (s s' : samples1D3D1D T) (fs : disk string),
    s_in s = s_in s' -> s_inMin s = s_inMin s' -> s_inMax s = s_inMax s' -> s_3d s = s_3d s' ->
    writeCSP path (Data1D3D1D s n r0 r1 r2 nOut) fs = writeCSP path (Data1D3D1D s' n r0 r1 r2 nOut') fs.
Proof. exact @output_shaper_dropped. Qed.
Print Assumptions C71_output_shaper_dropped.

(** A rising shaper whose inputs print alike is written to a file that cannot be read. *)
Theorem C71_close_inputs_refuted :
  forall (L : libm), let N := ieeeNum L in
  exists samples n (lo hi : fl) t, nltb lo hi = true /\
    writeCSP1D3D (Some samples) n lo hi (latticeFrom 2 2 2 (fun r g b => map (fun k => nofZ (Z.of_nat k)) [r; g; b])) 2 2 2 = Ok t /\
    readCSP (T := fl) t = Err ZeroDivisionError.
Proof. exact close_inputs. Qed.
Print Assumptions C71_close_inputs_refuted.

Example C71_case (L : libm) : let N := ieeeNum L in
  let shaper c := (map (viaFixed 6) (shaperInputs 3 n0 n1), map (viaFixed 6) (shaperOutputs 3 (map nofZ [0; 0; 0; 1; 2; 3; 4; 5; 6]%Z) c)) : list fl * list fl in
  exists t vals prelut,
    writeCSP1D3D (Some (map nofZ [0; 0; 0; 1; 2; 3; 4; 5; 6]%Z : list fl)) 3 n0 n1
      (latticeFrom 2 2 2 (fun r g b => map (fun k => nofZ (Z.of_nat k)) [r; g; b])) 2 2 2 = Ok t /\
    generateCLFPrelut (shaper 0) (shaper 1) (shaper 2) = Ok prelut /\
    readCSP t = Ok (prelut ++ [lut3dNode "lut3d" "trilinear" 2 2 2 vals]).
Proof.
  intros N shaper.
  destruct (C71_round_trip L (map nofZ [0; 0; 0; 1; 2; 3; 4; 5; 6]%Z) 3 n0 n1
              (latticeFrom 2 2 2 (fun r g b => map (fun k => nofZ (Z.of_nat k)) [r; g; b])) 2
              (fun r g b => map (fun k => nofZ (Z.of_nat k)) [r; g; b])) as (t & vals & W & _ & R).
  - lia.
  - vm_compute. discriminate.
  - cbn. lia.
  - apply latticeFrom_of. reflexivity.
  - assert (E : match generateCLFPrelut (shaper 0) (shaper 1) (shaper 2) with Ok _ => true | _ => false end = true) by (vm_compute; reflexivity).
    destruct (generateCLFPrelut (shaper 0) (shaper 1) (shaper 2)) as [prelut|] eqn:Ep; [|discriminate].
    exists t, vals, prelut. split; [exact W|]. split; [reflexivity|]. etransitivity; [exact R|].
    change ((let* prelut0 := generateCLFPrelut (shaper 0) (shaper 1) (shaper 2) in Ok (prelut0 ++ [lut3dNode "lut3d" "trilinear" 2 2 2 vals])) =
            Ok (prelut ++ [lut3dNode "lut3d" "trilinear" 2 2 2 vals])).
    rewrite Ep. reflexivity.
Qed.

(** * C72: asking for the inverse *)

(** Reading a .csp or .spi3d file for the inverse gives what reading it forward gives. *)
Theorem C72_inverse_ignored :
  forall {T} {N : Num T} {X : NumText T} str io compat formats path a a' returnNodes (fs : disk string),
    Permutation formats (allFormats str io compat) ->
    extensionOf path = "csp" \/ (extensionOf path = "spi3d" /\ ra_interpolation a = ra_interpolation a') ->
    readWith formats path a returnNodes fs = readWith formats path a' returnNodes fs.
Proof. exact @inverse_ignored. Qed.
Print Assumptions C72_inverse_ignored.

(** Reading a LUT file changes no file. *)
Theorem C72_read_only :
  forall {T} {N : Num T} {X : NumText T} str io compat formats path a returnNodes (fs : disk string),
    Permutation formats (allFormats str io compat) -> snd (readWith formats path a returnNodes fs) = fs.
Proof. exact @readers_keep_disk. Qed.
Print Assumptions C72_read_only.

(** * C74: LUT files written through the registry *)

(** A list sampled into a .spi1d file is read back as the interval, if it is not [0, 1],
    and the samples as printed; no other file changes. *)
Theorem C74_spi1d :
  forall (L : libm), let N := ieeeNum L in
  forall str io compat kept formats c (l : plist fl) path a ra returnNodes fs s,
    Permutation formats (allFormats str io compat) -> extensionOf path = "spi1d" -> wa_style a = "1D" -> ra_inverse ra = false ->
    sample1D c l (wa_n1d a) (wa_inputMin a) (wa_inputMax a) = Ok s -> Forall (printsAs str kept) s ->
    let lo := viaFixed 6 (wa_inputMin a) in let hi := viaFixed 6 (wa_inputMax a) in
    exists t, let fs' := putFile fs path t in
      writeWith formats c l path a fs = (Ok LNone, fs') /\
      readWith formats path ra returnNodes fs' =
        (Ok (wrapNodes returnNodes ((if negb (neqb lo n0) || negb (neqb hi n1) then [rangeNode "range" lo hi] else []) ++
                                    [lut1dNode "lut1d" (ra_interpolation ra) (wa_n1d a) 3 (map kept s)])), fs').
Proof. exact (fun L => @spi1d_trip fl (ieeeNum L) ieeeText (ieeeOk L)). Qed.
Print Assumptions C74_spi1d.

Theorem C74_spi3d :
  forall (L : libm), let N := ieeeNum L in
  forall str io compat kept formats c (l : plist fl) path a ra returnNodes fs s, let n := wa_n3d a in
    Permutation formats (allFormats str io compat) -> extensionOf path = "spi3d" -> wa_style a = "3D" ->
    sample3D c l n n n (wa_inputMin a) (wa_inputMax a) = Ok s ->
    (forall r g b, r < n -> g < n -> b < n -> Forall (printsAs str kept) (cellOf s r g b)) ->
    exists t vals, let fs' := putFile fs path t in
      writeWith formats c l path a fs = (Ok LNone, fs') /\
      readWith formats path ra returnNodes fs' =
        (Ok (wrapNodes returnNodes [lut3dNode "lut3d" (if String.eqb (ra_interpolation ra) "linear" then "trilinear" else ra_interpolation ra) n n n vals]), fs') /\
      tableOf vals n n n (fun r g b => map kept (cellOf s r g b)).
Proof. exact spi3d_trip_ieee. Qed.
Print Assumptions C74_spi3d.

Theorem C74_csp_1d :
  forall (L : libm), let N := ieeeNum L in
  forall str io compat formats c (l : plist fl) path a ra returnNodes fs s,
    Permutation formats (allFormats str io compat) -> extensionOf path = "csp" -> wa_style a = "1D" ->
    sample1D c l (wa_n1d a) (wa_inputMin a) (wa_inputMax a) = Ok s ->
    exists t, let fs' := putFile fs path t in
      writeWith formats c l path a fs = (Ok LNone, fs') /\
      readWith formats path ra returnNodes fs' =
        (Ok (wrapNodes returnNodes [rangeNode "prelut_range" (viaFixed 6 (wa_inputMin a)) (viaFixed 6 (wa_inputMax a));
                                    lut1dNode "lut1d" "linear" (wa_n1d a) 3 (map (viaFixed 6) s)]), fs').
Proof. exact (fun L => @csp1d_trip fl (ieeeNum L) ieeeText (ieeeOk L)). Qed.
Print Assumptions C74_csp_1d.

Theorem C74_csp_3d :
  forall (L : libm), let N := ieeeNum L in
  forall str io compat formats c (l : plist fl) path a ra returnNodes fs s, let n := wa_n3d a in
    Permutation formats (allFormats str io compat) -> extensionOf path = "csp" -> wa_style a = "3D" ->
    sample3D c l n n n (wa_inputMin a) (wa_inputMax a) = Ok s ->
    exists t vals, let fs' := putFile fs path t in
      writeWith formats c l path a fs = (Ok LNone, fs') /\
      readWith formats path ra returnNodes fs' =
        (Ok (wrapNodes returnNodes [rangeNode "prelut_range" (viaFixed 6 (wa_inputMin a)) (viaFixed 6 (wa_inputMax a));
                                    lut3dNode "lut3d" "trilinear" n n n vals]), fs') /\
      tableOf vals n n n (fun r g b => map (viaFixed 6) (cellOf s r g b)).
Proof. exact (fun L => @csp3d_trip fl (ieeeNum L) ieeeText (ieeeOk L)). Qed.
Print Assumptions C74_csp_3d.

(** A list of one Range, sampled on [-1, 2] in three steps; the files read the same
    for the inverse. *)
Definition sampledRange (L : libm) : plist fl := let N := ieeeNum L in PList [] [] [] [limitRange "" "" n0 n1 n0 n1].
Definition writeOptions (L : libm) (style : string) : writeArgs fl := let N := ieeeNum L in
  {| wa_style := style; wa_n1d := 3; wa_n3d := 2; wa_1d3d1d := (3, 2, 2); wa_inputMin := nofZ (-1); wa_inputMax := nofZ 2;
     wa_shaperIn := (None, n0, n1); wa_shaperOut := (None, n0, n1) |}.
Definition readOptions (inverse : bool) : readArgs :=
  {| ra_inverse := inverse; ra_interpolation := "linear"; ra_useIndexMaps := false; ra_useHalfDomain := true |}.
Example C74_case (L : libm) (io : fileLib string) : let N := ieeeNum L in
  let formats := rev (allFormats formatStr io 15) in
  (exists s t fs', sample1D 15 (sampledRange L) 3 (nofZ (-1)) (nofZ 2) = Ok s /\ fs' "x.spi1d" = Some t /\ fs' "other" = None /\
     writeWith formats 15 (sampledRange L) "x.spi1d" (writeOptions L "1D") (fun _ => None) = (Ok LNone, fs') /\
     readWith formats "x.spi1d" (readOptions false) true fs' =
       (Ok (LNodes [rangeNode "range" (viaFixed 6 (nofZ (-1))) (viaFixed 6 (nofZ 2)); lut1dNode "lut1d" "linear" 3 3 (map viaStr s)]), fs')) /\
  (exists vals fs',
     writeWith formats 15 (sampledRange L) "x.csp" (writeOptions L "3D") (fun _ => None) = (Ok LNone, fs') /\
     readWith formats "x.csp" (readOptions true) true fs' =
       (Ok (LNodes [rangeNode "prelut_range" (viaFixed 6 (nofZ (-1))) (viaFixed 6 (nofZ 2)); lut3dNode "lut3d" "trilinear" 2 2 2 vals]), fs')).
Proof.
  intros N formats. assert (P : Permutation formats (allFormats formatStr io 15)) by (symmetry; apply Permutation_rev). split.
  - destruct (ok_of (sample1D 15 (sampledRange L) 3 (nofZ (-1)) (nofZ 2))) as [s Es]; [vm_compute; reflexivity|].
    destruct (C74_spi1d L formatStr io 15 viaStr formats 15 (sampledRange L) "x.spi1d" (writeOptions L "1D") (readOptions false) true (fun _ => None) s)
      as (t & W & R); try reflexivity; try assumption.
    + apply Forall_forall. intros x _. apply (lut_numbers L).
    + exists s, t, (putFile (fun _ => None) "x.spi1d" t). split; [exact Es|]. split; [reflexivity|]. split; [reflexivity|]. split; [exact W|].
      etransitivity; [exact R|].
      match goal with |- context [if ?b then _ else _] => replace b with true by (vm_compute; reflexivity) end. reflexivity.
  - destruct (ok_of (sample3D 15 (sampledRange L) 2 2 2 (nofZ (-1)) (nofZ 2))) as [s Es]; [vm_compute; reflexivity|].
    destruct (C74_csp_3d L formatStr io 15 formats 15 (sampledRange L) "x.csp" (writeOptions L "3D") (readOptions true) true (fun _ => None) s)
      as (t & vals & W & R & _); try reflexivity; try assumption.
    exists vals, (putFile (fun _ => None) "x.csp" t). split; assumption.
Qed.
Example C72_case (L : libm) (io : fileLib string) : let N := ieeeNum L in
  exists fs n ns, forall inverse,
    readWith (allFormats formatStr io 15) "x.csp" (readOptions inverse) true fs = (Ok (LNodes (n :: ns)), fs).
Proof.
  intro N. destruct (C74_case L io) as (_ & vals & fs' & _ & R).
  eexists fs', _, _. intro inverse. etransitivity; [|exact R].
  etransitivity; [apply (C72_inverse_ignored formatStr io 15 _ "x.csp" _ (readOptions true)); [reflexivity|now left]|].
  rewrite (all_read formatStr io 15 (allFormats formatStr io 15)) by reflexivity.
  rewrite (all_read formatStr io 15 (rev (allFormats formatStr io 15))) by (symmetry; apply Permutation_rev). reflexivity.
Qed.

(** * C73: convertCLFtoLUT *)

(** --lutResolution3d, --format and all but the first of repeated options have no effect;
    of the three kinds of LUT the first one asked for counts, and 1D is the default. *)
Theorem C73_options_that_count :
  forall {T} {N : Num T} {X : NumText T} io compat limit formats (o o' : exportOptions T) fs,
    sameExport o o' -> exportMain io compat limit formats o fs = exportMain io compat limit formats o' fs.
Proof. exact @export_same. Qed.
Print Assumptions C73_options_that_count.

(** Without both paths, or when the CLF cannot be opened, no file changes. *)
Theorem C73_nothing_written :
  forall {T} {N : Num T} {X : NumText T} io compat limit formats (o : exportOptions T) fs,
    (eo_clf o = None \/ eo_lut o = None \/ (exists clf e, eo_clf o = Some clf /\ openList (T := T) io limit compat fs false clf = Err e)) ->
    snd (exportMain io compat limit formats o fs) = fs.
Proof. exact @export_nothing. Qed.
Print Assumptions C73_nothing_written.

(** A .spi1d LUT: as many entries as asked for, sampled on the interval asked for. *)
Theorem C73_spi1d :
  forall (L : libm), let N := ieeeNum L in
  forall str io compat kept limit formats (o : exportOptions fl) clf lut (l : plist fl) s fs,
    Permutation formats (allFormats str io compat) -> shaperReadable (T := fl) (eo_shaperIn o) -> shaperReadable (T := fl) (eo_shaperOut o) ->
    eo_clf o = Some clf -> eo_lut o = Some lut -> lutKindOf o = Only1D -> extensionOf lut = "spi1d" ->
    openList io limit compat fs false clf = Ok l ->
    sample1D compat l (eo_res1d o) (eo_min o) (eo_max o) = Ok s -> Forall (printsAs str kept) s ->
    let lo := viaFixed 6 (eo_min o) in let hi := viaFixed 6 (eo_max o) in
    exists t, let fs' := putFile fs lut t in
      exportMain io compat limit formats o fs = (Ok tt, fs') /\
      forall interpolation maps half returnNodes,
        readWith formats lut {| ra_inverse := false; ra_interpolation := interpolation; ra_useIndexMaps := maps; ra_useHalfDomain := half |} returnNodes fs' =
        (Ok (wrapNodes returnNodes ((if negb (neqb lo n0) || negb (neqb hi n1) then [rangeNode "range" lo hi] else []) ++
                                    [lut1dNode "lut1d" interpolation (eo_res1d o) 3 (map kept s)])), fs').
Proof. exact (fun L => @export_spi1d fl (ieeeNum L) ieeeText (ieeeOk L)). Qed.
Print Assumptions C73_spi1d.

(** A .spi3d LUT: its size is not the one asked for with --lutResolution3d. *)
Theorem C73_spi3d :
  forall (L : libm), let N := ieeeNum L in
  forall str io compat kept limit formats (o : exportOptions fl) clf lut (l : plist fl) s fs, let n := size3D o in
    Permutation formats (allFormats str io compat) -> shaperReadable (T := fl) (eo_shaperIn o) -> shaperReadable (T := fl) (eo_shaperOut o) ->
    eo_clf o = Some clf -> eo_lut o = Some lut -> lutKindOf o = Only3D -> extensionOf lut = "spi3d" ->
    openList io limit compat fs false clf = Ok l ->
    sample3D compat l n n n (eo_min o) (eo_max o) = Ok s ->
    (forall r g b, r < n -> g < n -> b < n -> Forall (printsAs str kept) (cellOf s r g b)) ->
    exists t, let fs' := putFile fs lut t in
      exportMain io compat limit formats o fs = (Ok tt, fs') /\
      forall ra returnNodes, exists vals,
        readWith formats lut ra returnNodes fs' =
        (Ok (wrapNodes returnNodes [lut3dNode "lut3d" (if String.eqb (ra_interpolation ra) "linear" then "trilinear" else ra_interpolation ra) n n n vals]), fs') /\
        tableOf vals n n n (fun r g b => map kept (cellOf s r g b)).
Proof. exact export_spi3d_ieee. Qed.
Print Assumptions C73_spi3d.

(** A 1D-3D-1D .clf LUT: sampled with the first sizes and shapers asked for; the file
    opens as the exported list with its numbers as text keeps them (C60 and C61 say what
    the samples are and what that list computes). *)
Theorem C73_clf :
  forall (L : libm), let N := ieeeNum L in
  forall str io compat limit formats (o : exportOptions fl) clf lut (l l' : plist fl) n r m kIn loIn hiIn kOut loOut hiOut s root fs,
    Permutation formats (allFormats str io compat) ->
    eo_clf o = Some clf -> eo_lut o = Some lut -> lutKindOf o = Both1D3D -> extensionOf lut = "clf" ->
    openList io limit compat fs false clf = Ok l ->
    sizesAsked o = (n, r, m) -> shaperAsked (eo_shaperIn o) kIn loIn hiIn -> shaperAsked (eo_shaperOut o) kOut loOut hiOut ->
    sample1D3D1D compat l n r r r m kIn loIn hiIn kOut loOut hiOut = Ok s ->
    exportCLF true true (s_in s) n (s_inMin s) (s_inMax s) (s_3d s) r r r (s_out s) = Ok l' ->
    listWrite compat false l' = Ok root -> keepsDocument io root ->
    exists t, let fs' := putFile fs lut t in
      exportMain io compat limit formats o fs = (Ok tt, fs') /\
      forall c limit strict, autodesk_on c = true -> duiker_on c = true -> openList io (S limit) c fs' strict lut = Ok (keptList l').
Proof. exact (fun L => @export_clf fl (ieeeNum L) ieeeText (ieeeOk L)). Qed.
Print Assumptions C73_clf.

(** How the tool ends without writing: quietly if a path is missing, and with the reader's
    exception if the CLF cannot be opened. *)
Theorem C73_how_it_ends :
  forall {T} {N : Num T} {X : NumText T} io compat limit formats (o : exportOptions T) fs,
    shaperReadable (T := T) (eo_shaperIn o) -> shaperReadable (T := T) (eo_shaperOut o) ->
    (eo_clf o = None \/ eo_lut o = None -> exportMain io compat limit formats o fs = (Ok tt, fs)) /\
    (forall clf lut e, eo_clf o = Some clf -> eo_lut o = Some lut -> openList (T := T) io limit compat fs false clf = Err e ->
       exportMain io compat limit formats o fs = (Err e, fs)).
Proof. exact @export_ends. Qed.
Print Assumptions C73_how_it_ends.

(** Asking for a 3D LUT of size 5, and for a 1D-3D-1D LUT of sizes 4, 2, 4 that is then
    not made, gives a 3D LUT of size 2. *)
Definition exampleOptions (L : libm) (kind3d : bool) (lut : string) : exportOptions fl := let N := ieeeNum L in
  {| eo_clf := Some "look.clf"; eo_lut := Some lut; eo_format := Some "csp"; eo_res1d := 3; eo_res3d := 5; eo_res1d3d1d := [(4, 2, 4); (9, 9, 9)];
     eo_min := n0; eo_max := n1; eo_gen1d := false; eo_gen3d := kind3d; eo_gen1d3d1d := kind3d; eo_shaperIn := []; eo_shaperOut := [] |}.
Definition exampleDisk : disk string := fun p => if String.eqb p "look.clf" then Some "document" else None.
Definition emptyDocument : xelem := XElem "ProcessList" [("id", "look")] None [].
Example C73_case (L : libm) : let N := ieeeNum L in let io := oneDocument emptyDocument in
  (exists s fs', sample1D 15 (PList [("id", "look")] [] [] []) 3 n0 n1 = Ok s /\
     exportMain io 15 1 (allFormats formatStr io 15) (exampleOptions L false "x.spi1d") exampleDisk = (Ok tt, fs') /\
     readWith (allFormats formatStr io 15) "x.spi1d" (readOptions false) true fs' = (Ok (LNodes [lut1dNode "lut1d" "linear" 3 3 (map viaStr s)]), fs')) /\
  (exists fs' vals, exportMain io 15 1 (allFormats formatStr io 15) (exampleOptions L true "x.spi3d") exampleDisk = (Ok tt, fs') /\
     readWith (allFormats formatStr io 15) "x.spi3d" (readOptions false) true fs' = (Ok (LNodes [lut3dNode "lut3d" "trilinear" 2 2 2 vals]), fs')).
Proof.
  intros N io. split.
  - destruct (ok_of (sample1D 15 (PList [("id", "look")] [] [] []) 3 (n0 : fl) n1)) as [s Es]; [vm_compute; reflexivity|].
    destruct (C73_spi1d L formatStr io 15 viaStr 1 (allFormats formatStr io 15) (exampleOptions L false "x.spi1d") "look.clf" "x.spi1d"
                (PList [("id", "look")] [] [] []) s exampleDisk) as (t & W & R); try reflexivity; try exact I; try exact Es.
    + apply Forall_forall. intros x _. apply (lut_numbers L).
    + exists s, (putFile exampleDisk "x.spi1d" t). split; [exact Es|]. split; [exact W|]. etransitivity; [exact (R "linear" false true true)|].
      match goal with |- context [if ?b then _ else _] => replace b with false by (vm_compute; reflexivity) end. reflexivity.
  - destruct (ok_of (sample3D 15 (PList [("id", "look")] [] [] []) 2 2 2 (n0 : fl) n1)) as [s Es]; [vm_compute; reflexivity|].
    destruct (C73_spi3d L formatStr io 15 viaStr 1 (allFormats formatStr io 15) (exampleOptions L true "x.spi3d") "look.clf" "x.spi3d"
                (PList [("id", "look")] [] [] []) s exampleDisk) as (t & W & R); try reflexivity; try exact I; try exact Es.
    + intros. apply Forall_forall. intros x _. apply (lut_numbers L).
    + destruct (R (readOptions false) true) as (vals & Rv & _). exists (putFile exampleDisk "x.spi3d" t), vals. split; [exact W|exact Rv].
Qed.

(** A 1D-3D-1D export of the empty list with a linear input shaper: three entries, then
    a cube of side 2. *)
Definition cubeOptions (L : libm) : exportOptions fl := let N := ieeeNum L in
  {| eo_clf := Some "look.clf"; eo_lut := Some "x.clf"; eo_format := None; eo_res1d := 3; eo_res3d := 5; eo_res1d3d1d := [(3, 2, 4); (9, 9, 9)];
     eo_min := n0; eo_max := n1; eo_gen1d := false; eo_gen3d := false; eo_gen1d3d1d := true;
     eo_shaperIn := [("linear", "0", "2"); ("log2", "0", "1")]; eo_shaperOut := [] |}.
Definition twoDocuments (root root' : xelem) : fileLib string :=
  {| pretty := fun _ => Ok "exported"; parseXml := fun t => if String.eqb t "document" then Some root else if String.eqb t "exported" then Some root' else None;
     gzip := fun t => ("gz" ++ t)%string; gunzip := fun t => match t with String "g" (String "z" t) => Some t | _ => None end;
     accepts := fun _ => true; nothing := ""; prefixes := fun _ => [] |}.
Example C73_clf_case (L : libm) : let N := ieeeNum L in
  exists lo hi s l' root fs', let io := twoDocuments emptyDocument root in
    parseFloat "0" = Ok lo /\ parseFloat "2" = Ok hi /\
    sample1D3D1D 15 (PList [("id", "look")] [] [] []) 3 2 2 2 4 (Some "linear") lo hi None n0 n1 = Ok s /\
    exportCLF true true (s_in s) 3 (s_inMin s) (s_inMax s) (s_3d s) 2 2 2 (s_out s) = Ok l' /\ listWrite 15 false l' = Ok root /\
    exportMain io 15 1 (allFormats formatStr io 15) (cubeOptions L) exampleDisk = (Ok tt, fs') /\
    openList io 1 15 fs' true "x.clf" = Ok (keptList l').
Proof.
  intro N.
  assert (Eb : match parseFloat (T := fl) "0", parseFloat (T := fl) "2" with
               | Ok lo, Ok hi =>
                   match sample1D3D1D 15 (PList [("id", "look")] [] [] []) 3 2 2 2 4 (Some "linear") lo hi None n0 n1 with
                   | Ok s => match exportCLF true true (s_in s) 3 (s_inMin s) (s_inMax s) (s_3d s) 2 2 2 (s_out s) with
                             | Ok l' => match listWrite 15 false l' with Ok _ => true | _ => false end | _ => false end | _ => false end
               | _, _ => false end = true) by (vm_compute; reflexivity).
  destruct (parseFloat (T := fl) "0") as [lo|] eqn:E0; [|discriminate]. destruct (parseFloat (T := fl) "2") as [hi|] eqn:E2; [|discriminate].
  destruct (sample1D3D1D 15 (PList [("id", "look")] [] [] []) 3 2 2 2 4 (Some "linear") lo hi None n0 n1) as [s|] eqn:Es; [|discriminate].
  destruct (exportCLF true true (s_in s) 3 (s_inMin s) (s_inMax s) (s_3d s) 2 2 2 (s_out s)) as [l'|] eqn:El; [|discriminate].
  destruct (listWrite 15 false l') as [root|] eqn:W; [|discriminate]. pose (io := twoDocuments emptyDocument root).
  destruct (C73_clf L formatStr io 15 1 (allFormats formatStr io 15) (cubeOptions L) "look.clf" "x.clf" (PList [("id", "look")] [] [] []) l' 3 2 4
              (Some "linear") lo hi None n0 n1 s root exampleDisk) as (t & Ex & Op); try reflexivity; try assumption.
  - split; [reflexivity|]. split; assumption.
  - exists "exported", root. repeat split. apply sameTree_refl.
  - exists lo, hi, s, l', root, (putFile exampleDisk "x.clf" t). split; [reflexivity|]. split; [reflexivity|]. split; [exact Es|]. split; [exact El|]. split; [exact W|]. split; [exact Ex|]. apply Op; reflexivity.
Qed.

(** * C75: convertLUTtoCLF *)

(** If the LUT file is read as a list, and the list's document can be written, the CLF
    written opens as that list with the numbers as text keeps them; no other
    file changes. *)
Theorem C75_converted :
  forall (L : libm), let N := ieeeNum L in
  forall str io compat formats lut clf inverse useIndexMaps useHalfDomain (fs fs1 : disk string) (l : plist fl) root,
    Permutation formats (allFormats str io compat) ->
    readWith formats lut {| ra_inverse := inverse; ra_interpolation := "linear"; ra_useIndexMaps := useIndexMaps; ra_useHalfDomain := useHalfDomain |}
      false fs = (Ok (LList l), fs1) ->
    listWrite compat false l = Ok root -> keepsDocument io root ->
    exists t, let fs' := putFile fs clf t in
      importMain io compat formats (Some lut) (Some clf) inverse useIndexMaps useHalfDomain fs = (Ok tt, fs') /\
      forall c limit strict, autodesk_on c = true -> duiker_on c = true -> openList io (S limit) c fs' strict clf = Ok (keptList l).
Proof. exact (fun L => @import_written fl (ieeeNum L) ieeeText (ieeeOk L)). Qed.
Print Assumptions C75_converted.

(** An .spi1d file that can be read can be converted. *)
Theorem C75_spi1d :
  forall (L : libm), let N := ieeeNum L in
  forall str io compat formats lut clf inverse useHalfDomain (fs : disk string) text (ns : list (node fl)),
    Permutation formats (allFormats str io compat) -> extensionOf lut = "spi1d" -> fs lut = Some text ->
    readSPI1D text inverse "linear" false useHalfDomain = Ok ns ->
    (forall root, listWrite compat false (convertedList ns) = Ok root -> keepsDocument io root) ->
    exists t, let fs' := putFile fs clf t in
      importMain io compat formats (Some lut) (Some clf) inverse false useHalfDomain fs = (Ok tt, fs') /\
      forall c limit strict, autodesk_on c = true -> duiker_on c = true ->
        openList io (S limit) c fs' strict clf = Ok (keptList (convertedList ns)).
Proof. exact (fun L => @import_spi1d fl (ieeeNum L) ieeeText (ieeeOk L)). Qed.
Print Assumptions C75_spi1d.

(** Otherwise no file changes. *)
Theorem C75_nothing_written :
  forall {T} {N : Num T} {X : NumText T} str io compat formats (lut clf : option string) inverse useIndexMaps useHalfDomain (fs : disk string),
    Permutation formats (allFormats str io compat) ->
    (forall lutPath clfPath (l : plist T), lut = Some lutPath -> clf = Some clfPath ->
       fst (readWith formats lutPath {| ra_inverse := inverse; ra_interpolation := "linear"; ra_useIndexMaps := useIndexMaps; ra_useHalfDomain := useHalfDomain |}
              false fs) = Ok (LList l) -> exists e, listWrite compat false l = Err e) ->
    snd (importMain io compat formats lut clf inverse useIndexMaps useHalfDomain fs) = fs.
Proof. exact @import_nothing. Qed.
Print Assumptions C75_nothing_written.

(** How the tool ends without writing. *)
Theorem C75_how_it_ends :
  forall {T} {N : Num T} {X : NumText T} str io compat formats (lut clf : option string) inverse useIndexMaps useHalfDomain (fs : disk string),
    Permutation formats (allFormats (T := T) str io compat) ->
    let read lutPath := fst (readWith formats lutPath
          {| ra_inverse := inverse; ra_interpolation := "linear"; ra_useIndexMaps := useIndexMaps; ra_useHalfDomain := useHalfDomain |} false fs) in
    let main := importMain io compat formats lut clf inverse useIndexMaps useHalfDomain fs in
    (lut = None \/ clf = None -> main = (Ok tt, fs)) /\
    (forall lutPath clfPath, lut = Some lutPath -> clf = Some clfPath ->
       (forall e, read lutPath = Err e -> main = (Err e, fs)) /\
       (read lutPath = Ok LNone -> main = (Ok tt, fs)) /\
       (forall (l : plist T) e, read lutPath = Ok (LList l) -> listWrite compat false l = Err e -> main = (Err e, fs))).
Proof. exact @import_ends. Qed.
Print Assumptions C75_how_it_ends.

(** A table of two entries, and what an unsupported file does. *)
Definition smallTable : string := lines ["Version 1"; "From 0.0 2.0"; "Length 2"; "Components 1"; "{"; " 0.5"; " 1.0"; "}"].
Example C75_case (L : libm) : let N := ieeeNum L in
  exists ns root t fs', let io := oneDocument root in
    readSPI1D (T := fl) smallTable false "linear" false true = Ok ns /\ List.length ns = 2 /\ listWrite 15 false (convertedList ns) = Ok root /\
    importMain io 15 (allFormats formatStr io 15) (Some "x.spi1d") (Some "x.clf") false false true
      (fun p => if String.eqb p "x.spi1d" then Some smallTable else None) = (Ok tt, fs') /\
    fs' "x.clf" = Some t /\ openList io 1 15 fs' true "x.clf" = Ok (keptList (convertedList ns)) /\
    snd (importMain io 15 (allFormats formatStr io 15) (Some "x.cube") (Some "x.clf") false false true fs') = fs'.
Proof.
  intro N. destruct (ok_of (readSPI1D (T := fl) smallTable false "linear" false true)) as [ns En]; [vm_compute; reflexivity|].
  assert (Ln : match readSPI1D (T := fl) smallTable false "linear" false true with Ok ns => List.length ns | _ => 0 end = 2) by (vm_compute; reflexivity).
  rewrite En in Ln. assert (W : exists root, listWrite 15 false (convertedList ns) = Ok root) by (eapply spi1d_list_writes; exact En).
  destruct W as [root W].
  set (fs := fun p => if String.eqb p "x.spi1d" then Some smallTable else None). pose (io := oneDocument root).
  destruct (C75_spi1d L formatStr io 15 (allFormats formatStr io 15) "x.spi1d" "x.clf" false true fs smallTable ns) as (t & Im & Op); try reflexivity; try exact En.
  { intros root' W'. assert (Er : Ok root' = Ok root) by (exact (eq_trans (eq_sym W') W)). apply Ok_inj in Er. subst root'. exists "document", root. repeat split. apply sameTree_refl. }
  exists ns, root, t, (putFile fs "x.clf" t). repeat split; try assumption.
  - apply Op; reflexivity.
Qed.

(** * C78: convertOCIOtoCLF *)

(** The list holds the nodes of the sources, then those of the destinations, in order,
    named and described; names and descriptions do not change what it computes. *)
Theorem C78_nodes :
  forall {T} {N : Num T} convert (cf : config T) configPath sources dests l,
    convertSpaces convert cf configPath sources dests = Ok (Some l) ->
    exists from to from' to',
      Forall2 (fun s ns => exists t, cf_toReference cf s = Ok t /\ convert t = Ok ns) sources from /\
      Forall2 (fun d ns => exists t, cf_fromReference cf d = Ok t /\ convert t = Ok ns) dests to /\
      Forall2 (fun '(s, ns) ns' => described ("Convert " ++ s ++ " to reference") (fun k => (s ++ " to reference - node " ++ natText k)%string) ns ns')
              (combine sources from) from' /\
      Forall2 (fun '(d, ns) ns' => described ("Convert reference to " ++ d) (fun k => ("reference to " ++ d ++ " - node " ++ natText k)%string) ns ns')
              (combine dests to) to' /\
      procs_of l = List.concat (from' ++ to') /\ procs_of l <> [] /\
      forall c px st, listProcess c l px st = listProcess c (bareList (List.concat (from ++ to))) px st.
Proof. exact @spaces_converted. Qed.
Print Assumptions C78_nodes.

(** A file transform becomes what its LUT file holds, read in its direction; a file of another
    kind, or a missing one, is an exception. *)
Theorem C78_files :
  forall {T} {N : Num T} {X : NumText T} str io compat formats (fs : disk string) search useIndexMaps useHalfDomain src interpolation direction,
    Permutation formats (allFormats (T := T) str io compat) ->
    let path := pathJoin search src in
    let nodes := convertTransforms (withFiles (fileNodes formats fs search useIndexMaps useHalfDomain) (TFile src interpolation direction)) in
    (~ In (extensionOf path) ["spi1d"; "spi3d"; "csp"] -> nodes = Err TypeError) /\
    (In (extensionOf path) ["spi1d"; "spi3d"; "csp"] -> fs path = None -> nodes = Err IOError) /\
    (forall text ns, fs path = Some text -> ns <> [] ->
       (extensionOf path = "spi1d" -> direction = "forward" -> readSPI1D text false interpolation useIndexMaps useHalfDomain = Ok ns -> nodes = Ok ns) /\
       (extensionOf path = "spi1d" -> direction = "inverse" -> readSPI1D text true interpolation useIndexMaps useHalfDomain = Ok ns -> nodes = Ok ns) /\
       (extensionOf path = "spi3d" -> readSPI3D text interpolation = Ok ns -> nodes = Ok ns) /\
       (extensionOf path = "csp" -> readCSP text = Ok ns -> nodes = Ok ns)).
Proof. exact @file_transform. Qed.
Print Assumptions C78_files.

(** A transform becomes what the transforms in its groups become, one after the other: files,
    matrices and logarithms, each with its own direction (C66 and C67 say what a matrix and a
    logarithm become). *)
Theorem C78_transforms :
  forall {T} {N : Num T} read (t : otree T),
    convertTransforms (withFiles read t) = (let* ps := mapM (leafNodes read) (leaves t) in Ok (List.concat ps)).
Proof. exact @tree_converted. Qed.
Print Assumptions C78_transforms.

(** The config's files are looked for in its search path, which starts at the directory of
    the config unless it is absolute. *)
Theorem C78_search_path :
  forall name search, fileName name ->
    (forall dir, directory dir -> relative search -> pathJoin (headPath (dir ++ "/" ++ name)) search = (dir ++ "/" ++ search)%string) /\
    (relative search -> pathJoin (headPath ("/" ++ name)) search = ("/" ++ search)%string) /\
    (relative search -> pathJoin (headPath name) search = search) /\
    (forall config t, search = String "/" t -> pathJoin (headPath config) search = search).
Proof. exact config_paths. Qed.
Print Assumptions C78_search_path.
Example C78_search_path_case : fileName "config.ocio" /\ directory "/show" /\ relative "luts" /\
  leaves (TGroup [TLog 10 "inverse"; TGroup [TMatrix [] [] "forward"; TOther]] : otree Z) = [TLog 10 "inverse"; TMatrix [] [] "forward"; TOther].
Proof.
  split; [|split; [|split; [discriminate|reflexivity]]].
  - repeat (constructor; [discriminate|]). constructor.
  - exists "/sho", "w"%char. split; [reflexivity|discriminate].
Qed.

(** What is converted is written, and opens as the list with the numbers as text keeps
    them; no other file changes. *)
Theorem C78_written :
  forall (L : libm), let N := ieeeNum L in
  forall str io compat formats (cf : config fl) configPath sources dests clf useIndexMaps useHalfDomain (fs : disk string) l root,
    let convert t := convertTransforms (withFiles (fileNodes formats fs (pathJoin (headPath configPath) (cf_searchPath cf)) useIndexMaps useHalfDomain) t) in
    Permutation formats (allFormats str io compat) ->
    (forall s t, In s sources -> cf_toReference cf s = Ok t -> namesInterpolation t) ->
    (forall d t, In d dests -> cf_fromReference cf d = Ok t -> namesInterpolation t) ->
    convertSpaces convert cf configPath sources dests = Ok (Some l) -> listWrite compat false l = Ok root -> keepsDocument io root ->
    exists t, let fs' := putFile fs clf t in
      convertOCIO io compat formats cf configPath sources dests clf useIndexMaps useHalfDomain fs = (Ok tt, fs') /\
      forall c limit strict, autodesk_on c = true -> duiker_on c = true -> openList io (S limit) c fs' strict clf = Ok (keptList l).
Proof. exact (fun L => @ocio_written fl (ieeeNum L) ieeeText (ieeeOk L)). Qed.
Print Assumptions C78_written.

(** Without nodes, and after a failure before writing, no file changes. *)
Theorem C78_nothing_written :
  forall {T} {N : Num T} {X : NumText T} io compat formats (cf : config T) configPath sources dests clf useIndexMaps useHalfDomain (fs : disk string),
    let convert t := convertTransforms (withFiles (fileNodes formats fs (pathJoin (headPath configPath) (cf_searchPath cf)) useIndexMaps useHalfDomain) t) in
    (forall l, convertSpaces convert cf configPath sources dests = Ok (Some l) -> exists e, listWrite compat false l = Err e) ->
    snd (convertOCIO io compat formats cf configPath sources dests clf useIndexMaps useHalfDomain fs) = fs.
Proof. exact @ocio_nothing. Qed.
Print Assumptions C78_nothing_written.

(** From one colour space with a logarithm and a LUT file to another with a matrix. *)
Definition exampleConfig (L : libm) : config fl := let N := ieeeNum L in
  {| cf_searchPath := "luts";
     cf_toReference := fun s => Ok (TGroup [TLog 10 "inverse"; TFile "x.spi1d" "linear" "forward"; TOther]);
     cf_fromReference := fun d => Ok (TMatrix (map nofZ [1; 0; 0; 0; 2; 0; 0; 0; 3]%Z) [] "forward") |}.
Definition exampleSpaces (L : libm) (io : fileLib string) (fs : disk string) : res (option (plist fl)) := let N := ieeeNum L in
  convertSpaces (fun t => convertTransforms (withFiles (fileNodes (allFormats formatStr io 15) fs (pathJoin (headPath "/show/config.ocio") "luts") false true) t))
    (exampleConfig L) "/show/config.ocio" ["camera"] ["display"].
Example C78_case (L : libm) : let N := ieeeNum L in
  let fs := fun p => if String.eqb p "/show/luts/x.spi1d" then Some smallTable else None in
  exists l root t fs', let io := oneDocument root in
    List.length (procs_of l) = 4 /\
    map (fun n => getAttribute n "name") (procs_of l) =
      map AStr ["camera to reference - node 0"; "camera to reference - node 1"; "camera to reference - node 2"; "reference to display - node 0"] /\
    convertOCIO io 15 (allFormats formatStr io 15) (exampleConfig L) "/show/config.ocio" ["camera"] ["display"] "x.clf" false true fs = (Ok tt, fs') /\
    fs' "x.clf" = Some t /\ openList io 1 15 fs' true "x.clf" = Ok (keptList l).
Proof.
  intros N fs.
  assert (F : forall io, exampleSpaces L io fs = exampleSpaces L (oneDocument emptyDocument) fs) by reflexivity.
  set (r := exampleSpaces L (oneDocument emptyDocument) fs) in F.
  assert (C : match r with
              | Ok (Some l) => (Nat.eqb (List.length (procs_of l)) 4 &&
                  forallb (fun '(a, b) => aval_eqb a b) (combine (map (fun n => getAttribute n "name") (procs_of l))
                     (map AStr ["camera to reference - node 0"; "camera to reference - node 1"; "camera to reference - node 2"; "reference to display - node 0"])) &&
                  match listWrite 15 false l with Ok _ => true | _ => false end)%bool
              | _ => false end = true) by (vm_compute; reflexivity).
  destruct r as [[l|]|]; try discriminate. apply andb_prop in C as [C C3]. apply andb_prop in C as [C1 C2]. apply Nat.eqb_eq in C1.
  destruct (ok_of _ C3) as [root W]. pose (io := oneDocument root).
  destruct (C78_written L formatStr io 15 (allFormats formatStr io 15) (exampleConfig L) "/show/config.ocio" ["camera"] ["display"] "x.clf" false true fs l root)
    as (t & Cv & Op); try reflexivity; try exact W.
  - intros s t _ [= <-]. cbn. repeat split; discriminate.
  - intros d t _ [= <-]. exact I.
  - exact (F io).
  - exists "document", root. repeat split. apply sameTree_refl.
  - exists l, root, t, (putFile fs "x.clf" t). split; [exact C1|]. split.
    + clear - C1 C2. destruct (procs_of l) as [|n1 [|n2 [|n3 [|n4 [|]]]]]; try discriminate C1. cbn [map combine forallb] in C2 |- *.
      repeat (apply andb_prop in C2 as [? C2]). repeat match goal with H : aval_eqb _ _ = true |- _ => apply aval_eqb_eq in H end. congruence.
    + split; [exact Cv|]. split; [reflexivity|]. apply Op; reflexivity.
Qed.
