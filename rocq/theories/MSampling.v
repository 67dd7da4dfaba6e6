(** Model of python/aces/lutFormats/Sampling.py (inverse 1D LUTs, sampling of a
    process list, shapers) and of the list built by LutCLF.writeCLF1D3D1D.

    Numbers given to these functions are Python floats, so divisions raise
    ZeroDivisionError; [pow] never overflows here (OverflowError is not modelled). *)
From Verif Require Export MBuild.

Section Sampling.
  Context {T : Type} {N : Num T}.
  Local Open Scope string_scope.
  Local Open Scope list_scope.
  Local Open Scope num_scope.

  (** What [processList.process(values)] returns: stride 0, the output buffer. *)
  Definition runList (c : Z) (l : plist T) (values : list T) : res (list T) :=
    let* o := listProcess c l values 0 in Ok (po_out o).

  (** A Range node with its four limits set (the pattern of lines 112-116, 169-173,
      301-305, 379-383 and others). *)
  Definition limitRange (id name : string) (minIn maxIn minOut maxOut : T) : node T :=
    setMaxOutValue (setMinOutValue (setMaxInValue (setMinInValue
      (newRange (AStr "16f") (AStr "16f") (AStr id) (AStr name) (AStr "") ANone) minIn) maxIn) minOut) maxOut.

  (** Lines 138-141 and 215-218: the value the loop variable [lutIndex] is left with. *)
  Fixpoint searchTable (samples : list T) (channels channel : nat) (v : T) (last : nat) (todo : list nat) : res nat :=
    match todo with
    | [] => Ok last
    | lutIndex :: rest =>
        let* s := getn samples (lutIndex * channels + channel)%nat in
        if v <? s then Ok lutIndex else searchTable samples channels channel v lutIndex rest
    end.
  Definition searchLut (samples : list T) (channels channel inputResolution : nat) (v : T) : res nat :=
    match inputResolution with
    | O => Err UnboundLocalError
    | _ => searchTable samples channels channel v 0 (seq 0 inputResolution)
    end.

  (** Lines 136-156 = 214-233: the inverse of one channel's table at [v]. *)
  Definition inverseAt (samples : list T) (channels channel inputResolution : nat) (v : T) : res T :=
    let* lutIndex := searchLut samples channels channel inputResolution v in
    let lutIndexLow := (lutIndex - 1)%nat in
    let lutIndexHigh := Nat.min (inputResolution - 1) lutIndex in
    let* lutInterp :=
      if Nat.eqb lutIndexLow lutIndexHigh then Ok n0
      else
        let* low := getn samples (lutIndexLow * channels + channel)%nat in
        let* high := getn samples (lutIndexHigh * channels + channel)%nat in
        pyfdiv (v - low) (high - low) in
    pyfdiv (lutInterp + nofZ (Z.of_nat lutIndexLow)) (nofZ (Z.of_nat inputResolution - 1)).

  (** Lines 77-177. *)
  Definition generateLUT1DInverseResampled (inputResolution channels : nat) (samples : list T) (minInput maxInput : T)
    : res (list (node T)) :=
    let outputResolution := (inputResolution * 2)%nat in
    let* s0 := getn samples 0 in
    let* minOutput := for_each (seq 0 channels) (fun c m => let* s := getn samples c in Ok (pymin m s)) s0 in
    let* s1 := pyget samples (- Z.of_nat channels) in
    let* maxOutput := for_each (seq 0 channels) (fun c m =>
        let* s := pyget samples (- Z.of_nat channels + Z.of_nat c) in Ok (pymax m s)) s1 in
    let* inverseSamples := for_each (seq 0 outputResolution) (fun inverseLutIndex acc =>
        let* inputValue := samplePos inverseLutIndex outputResolution in
        let rangedValue := inputValue * (maxOutput - minOutput) + minOutput in
        let* inverseSample := mapM (fun channel => inverseAt samples channels channel inputResolution rangedValue)
                                   (seq 0 channels) in
        Ok (pySliceSet acc (inverseLutIndex * channels) ((inverseLutIndex + 1) * channels) inverseSample))
      (repeat n0 (outputResolution * channels)) in
    let* lut := setArray1D (newLUT1D (AStr "16f") (AStr "16f") (AStr "inverse_1d_lut") (AStr "inverse_1d_lut")
                              (AStr "linear") (AStr "") (AStr "")) channels inverseSamples "string" in
    Ok [limitRange "inverse_1d_range_1" "inverse_1d_range_1" minOutput maxOutput n0 n1; lut;
        limitRange "inverse_1d_range_2" "inverse_1d_range_2" n0 n1 minInput maxInput].

  (** Lines 181-250; [minInput] and [maxInput] are not used. *)
  Definition generateLUT1DInverseHalfDomain (inputResolution channels : nat) (samples : list T) (minInput maxInput : T)
             (rawHalfs : bool) : res (list (node T)) :=
    let* inverseSamples := for_each (seq 0 (256 * 256)) (fun inverseLutIndex acc =>
        let inputValue := nhalf (Z.of_nat inverseLutIndex) in
        let* inverseSample := mapM (fun channel =>
            if nisnan inputValue then Ok inputValue
            else if nisinf inputValue then Ok inputValue
            else inverseAt samples channels channel inputResolution inputValue) (seq 0 channels) in
        Ok (pySliceSet acc (inverseLutIndex * channels) ((inverseLutIndex + 1) * channels) inverseSample))
      (repeat n0 (256 * 256 * channels)) in
    let* lut := setArray1D (newLUT1D (AStr "16f") (AStr "16f") (AStr "inverse_1d_lut") (AStr "inverse_1d_lut")
                              (AStr "linear") (if rawHalfs then ABool true else AStr "") (ABool true)) channels inverseSamples "string" in
    Ok [lut].

  (** Lines 253-309. *)
  Definition generateLUT1DInverseIndexMap (inputResolution channels : nat) (samples : list T) (minInput maxInput : T)
    : res (list (node T)) :=
    let* indexMaps := mapM (fun c =>
        let* indexMapInput := mapM (fun i => getn samples (i * channels + c)%nat) (seq 0 inputResolution) in
        Ok (indexMapInput, map (fun i => nofZ (Z.of_nat i)) (seq 0 inputResolution))) (seq 0 channels) in
    let* inverseSamples := for_each (seq 0 inputResolution) (fun i acc =>
        let* v := samplePos i inputResolution in
        for_each (seq 0 channels) (fun c acc => setn acc (i * channels + c)%nat v) acc)
      (repeat n0 (inputResolution * channels)) in
    let lut := newLUT1D (AStr "16f") (AStr "16f") (AStr "inverse_1d_lut") (AStr "inverse_1d_lut") (AStr "linear") (AStr "") (AStr "") in
    let* r := getn indexMaps 0 in
    let* gb := if Nat.eqb channels 3
               then let* g := getn indexMaps 1 in let* b := getn indexMaps 2 in Ok (Some (g, b))
               else Ok None in
    let* lut := setArray1D (setIndexMaps lut r gb) channels inverseSamples "string" in
    Ok (lut :: if negb (minInput =? n0) || negb (maxInput =? n1)
               then [limitRange "inverse_1d_range_1" "inverse_1d_range_1" n0 n1 minInput maxInput] else []).

  (** Lines 321-322. *)
  Definition samplePoint (i n : nat) (inputMin inputMax : T) : res T :=
    let* f := samplePos i n in Ok (f * (inputMax - inputMin) + inputMin).

  (** Lines 318-325 = 456-465 = 513-519. *)
  Definition fillSamples (n : nat) (sample : nat -> res (list T)) : res (list T) :=
    for_each (seq 0 n) (fun i acc =>
      let* v := sample i in
      Ok (pySliceSet acc (i * 3) ((i + 1) * 3) v)) (repeat n0 (n * 3)).

  (** Lines 311-327. *)
  Definition sample1D (c : Z) (l : plist T) (n : nat) (inputMin inputMax : T) : res (list T) :=
    fillSamples n (fun i => let* v := samplePoint i n inputMin inputMax in runList c l [v; v; v]).

  (** Nested lists of colours: [samples[r][g][b]]. Line 337 builds the nesting with
      the resolutions in the order 2, 1, 0. *)
  Definition lattice : Type := list (list (list (list T))).
  Definition emptyLattice (r0 r1 r2 : nat) : lattice := repeat (repeat (repeat [n0; n0; n0] r0) r1) r2.
  Definition latticeGet (s : lattice) (r g b : nat) : res (list T) :=
    let* plane := getn s r in let* row := getn plane g in getn row b.
  Definition latticeSet (s : lattice) (r g b : nat) (v : list T) : res lattice :=
    let* plane := getn s r in
    let* row := getn plane g in
    let* row' := setn row b v in
    let* plane' := setn plane g row' in
    setn s r plane'.

  (** Lines 337-357 = 475-505. *)
  Definition fillLattice (r0 r1 r2 : nat) (sample : nat -> nat -> nat -> res (list T)) : res lattice :=
    for_each (seq 0 r0) (fun r acc =>
      for_each (seq 0 r1) (fun g acc =>
        for_each (seq 0 r2) (fun b acc =>
          let* v := sample r g b in latticeSet acc r g b v) acc) acc) (emptyLattice r0 r1 r2).

  (** Lines 330-359. *)
  Definition sample3D (c : Z) (l : plist T) (r0 r1 r2 : nat) (inputMin inputMax : T) : res lattice :=
    fillLattice r0 r1 r2 (fun r g b =>
      let* vr := samplePoint r r0 inputMin inputMax in
      let* vg := samplePoint g r1 inputMin inputMax in
      let* vb := samplePoint b r2 inputMin inputMax in
      runList c l [vr; vg; vb]).

  (** [ProcessList()] with nodes added. *)
  Definition bareList (ps : list (node T)) : plist T := PList [] [] [] ps.
  Definition defaultLog (style : string) : node T := newLog (AStr "16f") (AStr "16f") (AStr "") (AStr "") (AStr style).

  (** Lines 362-431. *)
  Definition createShaper (shaperType : option string) (shaperMin shaperMax : T)
    : res (plist T * plist T * T * T) :=
    let isType s := match shaperType with Some t => String.eqb t s | None => false end in
    if isType "log2" then
      let* inputMin := pypow (nofZ 2) shaperMin in
      let* inputMax := pypow (nofZ 2) shaperMax in
      Ok (bareList [defaultLog "log2"; limitRange "" "" shaperMin shaperMax n0 n1],
          bareList [limitRange "" "" n0 n1 shaperMin shaperMax; defaultLog "antiLog2"], inputMin, inputMax)
    else if isType "linear" then
      Ok (bareList [limitRange "" "" shaperMin shaperMax n0 n1],
          bareList [limitRange "" "" n0 n1 shaperMin shaperMax], shaperMin, shaperMax)
    else Ok (bareList [], bareList [], n0, n1).

  Record samples1D3D1D : Type := {
    s_in : option (list T); s_inMin : T; s_inMax : T; s_3d : lattice;
    s_out : option (list T); s_outMin : T; s_outMax : T
  }.
  (** [if shaperType != None]. *)
  Definition given (o : option string) : bool := match o with Some _ => true | None => false end.
  Definition onlyIf {A} (b : bool) (m : res A) : res (option A) :=
    if b then let* x := m in Ok (Some x) else Ok None.

  (** Lines 434-527. *)
  Definition sample1D3D1D (c : Z) (l : plist T) (n1d : nat) (r0 r1 r2 : nat) (n1dOut : nat)
             (inType : option string) (shaperInMin shaperInMax : T)
             (outType : option string) (shaperOutMin shaperOutMax : T) : res samples1D3D1D :=
    let* (shaperIn, shaperInInverse, inputMin, inputMax) := createShaper inType shaperInMin shaperInMax in
    let* (shaperOut, _, outputMin, outputMax) := createShaper outType shaperOutMin shaperOutMax in
    let* samples1dIn := onlyIf (given inType) (fillSamples n1d (fun i =>
        let* v := samplePoint i n1d inputMin inputMax in runList c shaperIn [v; v; v])) in
    let* samples3d := fillLattice r0 r1 r2 (fun r g b =>
        let* vr := samplePos r r0 in
        let* vg := samplePos g r1 in
        let* vb := samplePos b r2 in
        let* u := if given inType then runList c shaperInInverse [vr; vg; vb] else Ok [vr; vg; vb] in
        let* p := runList c l u in
        if given outType then runList c shaperOut p else Ok p) in
    let* samples1dOut := onlyIf (given outType) (fillSamples n1dOut (fun i =>
        let* v := samplePos i n1dOut in runList c shaperInInverse [v; v; v])) in
    Ok {| s_in := samples1dIn; s_inMin := inputMin; s_inMax := inputMax; s_3d := samples3d;
          s_out := samples1dOut; s_outMin := outputMin; s_outMax := outputMax |}.

  (* ------------------------------------------------------------------ *)
  (** * The list a .clf export writes *)

  (** [if samples:] - None and the empty list count as false. *)
  Definition nonempty (o : option (list T)) : option (list T) :=
    match o with Some [] => None | _ => o end.

  (** LutCLF.py 147-154. *)
  Definition flattenLattice (r0 r1 r2 : nat) (s : lattice) : res (list T) :=
    let* colours := mapM (fun r => mapM (fun g => mapM (fun b => mapM (fun k =>
        let* v := latticeGet s r g b in getn v k) (seq 0 3)) (seq 0 r2)) (seq 0 r1)) (seq 0 r0) in
    Ok (List.concat (List.concat (List.concat colours))).

  (** LutCLF.py 117-179: the process list that writeFile is called on. With the two
      keyword arguments at the values write1D3D1D leaves them at; the other two
      choices are the other generators. setCompCLFversion(1.0) stores a number,
      kept here as the text it is written as. *)
  Definition exportInverse (useIndexMaps useHalfDomain : bool) (n : nat) (samples : list T) (minInput maxInput : T)
    : res (list (node T)) :=
    if useIndexMaps then generateLUT1DInverseIndexMap n 3 samples minInput maxInput
    else if useHalfDomain then generateLUT1DInverseHalfDomain n 3 samples minInput maxInput true
    else generateLUT1DInverseResampled n 3 samples minInput maxInput.
  Definition exportCLF (useIndexMaps useHalfDomain : bool) (samples1dIn : option (list T)) (n1d : nat) (inputMin inputMax : T)
             (samples3d : lattice) (r0 r1 r2 : nat) (samples1dOut : option (list T)) : res (plist T) :=
    let* first := match nonempty samples1dIn with
                  | Some s => exportInverse useIndexMaps useHalfDomain n1d s inputMin inputMax
                  | None => Ok []
                  end in
    let* clfSamples := flattenLattice r0 r1 r2 samples3d in
    let lut3d := setArray3D (newLUT3D (AStr "16f") (AStr "16f") (AStr "lut3d") (AStr "lut3d") (AStr "trilinear"))
                            [r0; r1; r2] clfSamples "string" in
    let* last := match nonempty samples1dOut with
                 | Some s =>
                     let* n := setArray1D (newLUT1D (AStr "16f") (AStr "16f") (AStr "lut1d") (AStr "lut1d")
                                             (AStr "linear") (AStr "") (AStr "")) 3 s "string" in
                     Ok [n]
                 | None => Ok []
                 end in
    Ok (PList [("id", "Converted lut"); ("compCLFversion", "1.0"); ("name", "Converted lut")] [] []
              (first ++ [lut3d] ++ last)).
End Sampling.
Arguments lattice T : clear implicits.
Arguments samples1D3D1D T : clear implicits.
