(** Registry-level round trips and what the readers ignore. *)
From Coq Require Import List Arith Lia ZArith String Ascii Bool Permutation.
From Verif Require Import PBase PFacts PRegistry PNumText PLutText PInverse2 PGrid PLattice PSampling PSpi PSpi3 PCsp2 PCsp3 PCsp4 SpecTools SpecPrelut SpecFiles MConvert.
Import ListNotations.
Local Open Scope string_scope.
Local Open Scope list_scope.

Section Reg.
  Context {T : Type} {NM : Num T} {X : NumText T}.
  Variables (str : T -> string) (io : fileLib string) (compat : Z).

  Definition readerOf (name : string) : reader T (disk string) :=
    if String.eqb name "SPI" then readSPI else if String.eqb name "CSP" then readCSPFile
    else if String.eqb name "CLF" then readCLF else readCTL.
  Definition writerOf (name : string) : writer T (disk string) :=
    if String.eqb name "SPI" then writeSPI str else if String.eqb name "CSP" then writeCSP
    else if String.eqb name "CLF" then writeCLF io compat else writeCTL str.
  Lemma all_shipped : allFormats str io compat = shipped readerOf writerOf.
  Proof. reflexivity. Qed.

  Lemma all_read formats path a rp fs : Permutation formats (allFormats str io compat) ->
    readWith formats path a rp fs =
    match readsExt (extensionOf path) with
    | None => (Ok LNone, fs)
    | Some name => match readerOf name path a fs with
                   | (Err e, w') => (Err e, w')
                   | (Ok [], w') => (Ok LNone, w')
                   | (Ok ns, w') => (Ok (wrapNodes rp ns), w')
                   end
    end.
  Proof. rewrite all_shipped. intro P. exact (registry_read readerOf writerOf formats path a rp fs P). Qed.
  Lemma all_write formats c l path a fs : Permutation formats (allFormats str io compat) ->
    writeWith formats c l path a fs =
    match writesExt (writeStyle (wa_style a)) (extensionOf path) with
    | None => (Ok LNone, fs)
    | Some name =>
        match sampleFor c l (writeStyle (wa_style a)) a with
        | Err e => (Err e, fs)
        | Ok d => match writerOf name path d fs with
                  | (Err e, w') => (Err e, w')
                  | (Ok _, w') => (Ok LNone, w')
                  end
        end
    end.
  Proof. rewrite all_shipped. intro P. exact (registry_write readerOf writerOf formats c l path a fs P). Qed.

  (** ** What is ignored *)
  Theorem inverse_ignored formats path a a' rp (fs : disk string) : Permutation formats (allFormats str io compat) ->
    extensionOf path = "csp" \/ (extensionOf path = "spi3d" /\ ra_interpolation a = ra_interpolation a') ->
    readWith formats path a rp fs = readWith formats path a' rp fs.
  Proof.
    intros P [E|[E I]]; rewrite !(all_read _ _ _ _ _ P), E; cbn [readsExt dget String.eqb Ascii.eqb Bool.eqb]; unfold readerOf; cbn [String.eqb Ascii.eqb Bool.eqb].
    - reflexivity.
    - unfold readSPI. rewrite E. cbn [String.eqb Ascii.eqb Bool.eqb]. unfold reading. now rewrite I.
  Qed.

  Theorem readers_keep_disk formats path a rp (fs : disk string) : Permutation formats (allFormats str io compat) ->
    snd (readWith formats path a rp fs) = fs.
  Proof.
    intro P. rewrite (all_read _ _ _ _ _ P). destruct (readsExt (extensionOf path)) as [name|]; [|reflexivity].
    assert (K : snd (readerOf name path a fs) = fs).
    { unfold readerOf. destruct (String.eqb name "SPI"); [|destruct (String.eqb name "CSP"); [reflexivity|destruct (String.eqb name "CLF"); reflexivity]].
      unfold readSPI. destruct (String.eqb _ _); [reflexivity|]. destruct (String.eqb _ _); reflexivity. }
    destruct (readerOf name path a fs) as [[[|n ns]|e] w]; cbn in *; congruence.
  Qed.

  Theorem output_shaper_dropped path n r0 r1 r2 nOut nOut' (s s' : samples1D3D1D T) (fs : disk string) :
    s_in s = s_in s' -> s_inMin s = s_inMin s' -> s_inMax s = s_inMax s' -> s_3d s = s_3d s' ->
    writeCSP path (Data1D3D1D s n r0 r1 r2 nOut) fs = writeCSP path (Data1D3D1D s' n r0 r1 r2 nOut') fs.
  Proof. intros E1 E2 E3 E4. unfold writeCSP, writing. now rewrite E1, E2, E3, E4. Qed.

  (** ** Sampled tables *)
  Lemma sample1D_length c l n (lo hi : T) s : sample1D c l n lo hi = Ok s -> List.length s = n * 3.
  Proof.
    unfold sample1D. rewrite fillSamples_iff; [intros [E _]; exact E|].
    intros i v H. apply bind_ok in H. destruct H as [x [_ H]]. apply runList_length in H. exact H.
  Qed.
  Lemma sample3D_lattice c l n (lo hi : T) s : sample3D c l n n n lo hi = Ok s -> latticeOf s n n n (cellOf s).
  Proof.
    unfold sample3D. match goal with |- context [fillLattice n n n ?f] => set (F := f) end. rewrite (lattice_loop F), (nested_iff n n n F).
    intros [[L Sh] H] r g b Hr Hg Hb. destruct (Sh r Hr) as [L1 Sh1]. pose proof (Sh1 g Hg) as L2. split.
    - unfold latticeGet, cellOf, getn. rewrite (nth_error_nth' s []) by lia. cbn [bind]. rewrite (nth_error_nth' _ []) by lia. cbn [bind].
      now rewrite (nth_error_nth' _ []) by lia.
    - specialize (H r g b Hr Hg Hb). unfold F in H. do 3 (apply bind_ok in H; destruct H as [? [_ H]]).
      apply runList_length in H. exact H.
  Qed.
  Lemma firstOfRows_all n (s : list T) : List.length s = n * 3 -> firstOfRows n 3 3 s = s.
  Proof. apply slices_concat. Qed.
End Reg.

(** ** Writing through the registry and reading back *)
Section Trip.
  Context {T : Type} {NM : Num T} {X : NumText T} {OK : TextOk T}.
  Variables (str : T -> string) (io : fileLib string) (compat : Z).

  Lemma written path d (wr : lutData T -> res string) t (fs : disk string) : wr d = Ok t -> writing wr path d fs = (Ok true, putFile fs path t).
  Proof. intro E. unfold writing. now rewrite E. Qed.
  Lemma putFile_same {B} (fs : disk B) path b : putFile fs path b path = Some b.
  Proof. unfold putFile. now rewrite String.eqb_refl. Qed.
  Lemma putFile_other {B} (fs : disk B) path b p : p <> path -> putFile fs path b p = fs p.
  Proof. intro H. unfold putFile. now rewrite (proj2 (String.eqb_neq p path) H). Qed.

  Theorem spi1d_trip kept formats c (l : plist T) path a ra rp fs s :
    Permutation formats (allFormats str io compat) -> extensionOf path = "spi1d" -> wa_style a = "1D" -> ra_inverse ra = false ->
    sample1D c l (wa_n1d a) (wa_inputMin a) (wa_inputMax a) = Ok s -> Forall (printsAs str kept) s ->
    let lo := viaFixed 6 (wa_inputMin a) in let hi := viaFixed 6 (wa_inputMax a) in
    exists t, let fs' := putFile fs path t in
      writeWith formats c l path a fs = (Ok LNone, fs') /\
      readWith formats path ra rp fs' =
        (Ok (wrapNodes rp ((if negb (neqb lo n0) || negb (neqb hi n1) then [rangeNode "range" lo hi] else []) ++
                           [lut1dNode "lut1d" (ra_interpolation ra) (wa_n1d a) 3 (map kept s)])), fs').
  Proof.
    intros P E S I Es F lo hi. pose proof (sample1D_length _ _ _ _ _ _ Es) as Ls.
    destruct (spi1d_round_trip (OK := OK) str kept (wa_inputMin a) (wa_inputMax a) s (wa_n1d a) 3 3 (ra_interpolation ra) (ra_useIndexMaps ra) (ra_useHalfDomain ra)) as (t & W & R).
    - discriminate.
    - lia.
    - cbn [Nat.min]. now rewrite firstOfRows_all.
    - exists t. intro fs'. split.
      + rewrite (all_write str io compat _ _ _ _ _ _ P), E, S. change (writeStyle "1D") with CapWrite1D. cbn [writesExt dget String.eqb Ascii.eqb Bool.eqb].
        unfold sampleFor. rewrite Es. cbn [bind]. unfold writerOf. cbn [String.eqb Ascii.eqb Bool.eqb]. unfold writeSPI. now rewrite (written _ _ _ t).
      + rewrite (all_read str io compat _ _ _ _ _ P), E. cbn [readsExt dget String.eqb Ascii.eqb Bool.eqb]. unfold readerOf. cbn [String.eqb Ascii.eqb Bool.eqb].
        unfold readSPI. rewrite E. cbn [String.eqb Ascii.eqb Bool.eqb]. unfold reading, fs'. rewrite putFile_same, I, R. cbn [Nat.min]. rewrite firstOfRows_all by assumption.
        fold lo hi. destruct (negb (neqb lo n0) || negb (neqb hi n1)); reflexivity.
  Qed.

  Theorem csp1d_trip formats c (l : plist T) path a ra rp fs s :
    Permutation formats (allFormats str io compat) -> extensionOf path = "csp" -> wa_style a = "1D" ->
    sample1D c l (wa_n1d a) (wa_inputMin a) (wa_inputMax a) = Ok s ->
    exists t, let fs' := putFile fs path t in
      writeWith formats c l path a fs = (Ok LNone, fs') /\
      readWith formats path ra rp fs' =
        (Ok (wrapNodes rp [rangeNode "prelut_range" (viaFixed 6 (wa_inputMin a)) (viaFixed 6 (wa_inputMax a));
                           lut1dNode "lut1d" "linear" (wa_n1d a) 3 (map (viaFixed 6) s)]), fs').
  Proof.
    intros P E S Es. pose proof (sample1D_length _ _ _ _ _ _ Es) as Ls.
    destruct (csp1d_three (OK := OK) (wa_inputMin a) (wa_inputMax a) s (wa_n1d a) 3 3) as (t & W & R).
    - reflexivity.
    - lia.
    - exists t. intro fs'. split.
      + rewrite (all_write str io compat _ _ _ _ _ _ P), E, S. change (writeStyle "1D") with CapWrite1D. cbn [writesExt dget String.eqb Ascii.eqb Bool.eqb].
        unfold sampleFor. rewrite Es. cbn [bind]. unfold writerOf. cbn [String.eqb Ascii.eqb Bool.eqb]. unfold writeCSP. now rewrite (written _ _ _ t).
      + rewrite (all_read str io compat _ _ _ _ _ P), E. cbn [readsExt dget String.eqb Ascii.eqb Bool.eqb]. unfold readerOf. cbn [String.eqb Ascii.eqb Bool.eqb].
        unfold readCSPFile, reading, fs'. rewrite putFile_same, R. rewrite firstOfRows_all by assumption. reflexivity.
  Qed.

  Theorem csp3d_trip formats c (l : plist T) path a ra rp fs s : let n := wa_n3d a in
    Permutation formats (allFormats str io compat) -> extensionOf path = "csp" -> wa_style a = "3D" ->
    sample3D c l n n n (wa_inputMin a) (wa_inputMax a) = Ok s ->
    exists t vals, let fs' := putFile fs path t in
      writeWith formats c l path a fs = (Ok LNone, fs') /\
      readWith formats path ra rp fs' =
        (Ok (wrapNodes rp [rangeNode "prelut_range" (viaFixed 6 (wa_inputMin a)) (viaFixed 6 (wa_inputMax a));
                           lut3dNode "lut3d" "trilinear" n n n vals]), fs') /\
      tableOf vals n n n (fun r g b => map (viaFixed 6) (cellOf s r g b)).
  Proof.
    intros n P E S Es. pose proof (sample3D_lattice _ _ _ _ _ _ Es) as Ls.
    destruct (csp3d_round_trip (OK := OK) (wa_inputMin a) (wa_inputMax a) s n (cellOf s) Ls) as (t & vals & W & R & Tv).
    exists t, vals. intro fs'. split; [|split; [|exact Tv]].
    - rewrite (all_write str io compat _ _ _ _ _ _ P), E, S. change (writeStyle "3D") with CapWrite3D. cbn [writesExt dget String.eqb Ascii.eqb Bool.eqb].
      unfold sampleFor. fold n. rewrite Es. cbn [bind]. unfold writerOf. cbn [String.eqb Ascii.eqb Bool.eqb]. unfold writeCSP. now rewrite (written _ _ _ t).
    - rewrite (all_read str io compat _ _ _ _ _ P), E. cbn [readsExt dget String.eqb Ascii.eqb Bool.eqb]. unfold readerOf. cbn [String.eqb Ascii.eqb Bool.eqb].
      unfold readCSPFile, reading, fs'. now rewrite putFile_same, R.
  Qed.

  Theorem spi3d_trip kept one formats c (l : plist T) path a ra rp fs s : let n := wa_n3d a in
    parseFloat "1.0" = Ok one -> neqb one n1 = true ->
    Permutation formats (allFormats str io compat) -> extensionOf path = "spi3d" -> wa_style a = "3D" ->
    sample3D c l n n n (wa_inputMin a) (wa_inputMax a) = Ok s ->
    (forall r g b, r < n -> g < n -> b < n -> Forall (printsAs str kept) (cellOf s r g b)) ->
    exists t vals, let fs' := putFile fs path t in
      writeWith formats c l path a fs = (Ok LNone, fs') /\
      readWith formats path ra rp fs' =
        (Ok (wrapNodes rp [lut3dNode "lut3d" (if String.eqb (ra_interpolation ra) "linear" then "trilinear" else ra_interpolation ra) n n n vals]), fs') /\
      tableOf vals n n n (fun r g b => map kept (cellOf s r g b)).
  Proof.
    intros n P1 E1 P E S Es F. pose proof (sample3D_lattice _ _ _ _ _ _ Es) as Ls.
    destruct (spi3d_round_trip str kept (wa_inputMin a) (wa_inputMax a) s n n n (cellOf s) (ra_interpolation ra) one P1 E1 Ls F) as (t & vals & W & R & Tv).
    exists t, vals. intro fs'. split; [|split; [|exact Tv]].
    - rewrite (all_write str io compat _ _ _ _ _ _ P), E, S. change (writeStyle "3D") with CapWrite3D. cbn [writesExt dget String.eqb Ascii.eqb Bool.eqb].
      unfold sampleFor. fold n. rewrite Es. cbn [bind]. unfold writerOf. cbn [String.eqb Ascii.eqb Bool.eqb]. unfold writeSPI. now rewrite (written _ _ _ t).
    - rewrite (all_read str io compat _ _ _ _ _ P), E. cbn [readsExt dget String.eqb Ascii.eqb Bool.eqb]. unfold readerOf. cbn [String.eqb Ascii.eqb Bool.eqb].
      unfold readSPI. rewrite E. cbn [String.eqb Ascii.eqb Bool.eqb]. unfold reading, fs'. now rewrite putFile_same, R.
  Qed.
End Trip.
