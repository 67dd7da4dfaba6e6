(** Model of the LUT file formats: python/aces/lutFormats/LutSPI.py, LutCSP.py and
    LutCTL.py, on top of the Registry of MRegistry.v.

    A writer yields the text it writes or the exception it raises; what an exception
    leaves in the file is not modelled. Values printed with "%s" go through
    [str], which is [formatStr] for Python floats and numpy's own for
    numpy numbers. Counts and resolutions given to the writers are natural numbers;
    as in MXml.v a negative number read as one is an error. *)
From Verif Require Export MRegistry MXml MFiles.
Local Open Scope string_scope.
Local Open Scope list_scope.

Definition newline : string := text ["010"%char].
Definition tab : string := text ["009"%char].
Definition lines (ls : list string) : string := String.concat "" (map (fun l => (l ++ newline)%string) ls).

(** [s.splitlines()] of a Python 2 byte string: lines end at a line feed, a carriage
    return, or the two together. [cur] is the line being read, reversed. *)
Fixpoint splitLinesFrom (cur : list ascii) (l : list ascii) : list string :=
  match l with
  | [] => flush cur
  | a :: t =>
      if Ascii.eqb a "010" then text (rev cur) :: splitLinesFrom [] t
      else if Ascii.eqb a "013" then
        text (rev cur) :: match t with
                          | b :: t' => if Ascii.eqb b "010" then splitLinesFrom [] t' else splitLinesFrom [] t
                          | [] => []
                          end
      else splitLinesFrom (a :: cur) t
  end.
Definition splitLines (s : string) : list string := splitLinesFrom [] (chars s).
Definition rstrip (s : string) : string := text (rev (dropWhile isSpace (rev (chars s)))).

Section Lut.
  Context {T : Type} {N : Num T} {X : NumText T}.
  Variable str : T -> string.
  Local Open Scope num_scope.

  (** ["%f"], and ["%3.kf"]. *)
  Definition fmtF (x : T) : string := formatFixed 6 x.
  Definition fmt3 (k : nat) (x : T) : string := padLeft 3 (formatFixed k x).

  (* ------------------------------------------------------------------ *)
  (** * SPI *)

  (** LutSPI.py 304-321. *)
  Definition writeSPI1D (fromMin fromMax : T) (data : list T) (entries channels components : nat) : res string :=
    let components := Nat.min 3 (Nat.min components channels) in
    let* rows := mapM (fun i =>
        let* vs := mapM (fun j => getn data (i * channels + j)%nat) (seq 0 components) in
        Ok ("        " ++ String.concat "" (map (fun v => (" " ++ str v)%string) vs))%string) (seq 0 entries) in
    Ok (lines (["Version 1"; "From " ++ fmtF fromMin ++ " " ++ fmtF fromMax; "Length " ++ natText entries;
                "Components " ++ natText components; "{"]%string ++ rows ++ ["}"])).

  (** LutSPI.py 325-359; [data[r][g][b]] is a colour. *)
  Definition writeSPI3D (fromMin fromMax : T) (data : lattice T) (r0 r1 r2 : nat) : res string :=
    let* rows := mapM (fun r => mapM (fun g => mapM (fun b =>
        let* v := latticeGet data r g b in
        Ok (join " " (map natText [r; g; b]) ++ " " ++ join " " (map str v))%string) (seq 0 r2)) (seq 0 r1)) (seq 0 r0) in
    Ok (lines (["SPILUT 1.0"; "3 3"; join " " (map natText [r0; r1; r2])] ++ List.concat (List.concat rows))).

  (** What the loop of readSPI1D collects (LutSPI.py 161-165). *)
  Record spiData : Type := { sd_length : nat; sd_components : nat; sd_samples : list T; sd_min : T; sd_max : T }.
  (** LutSPI.py 167-188. *)
  Fixpoint spiLines (ls : list string) (d : spiData) : res spiData :=
    match ls with
    | [] => Ok d
    | line :: rest =>
        let tokens := split line in
        let* t0 := getn tokens 0 in
        if String.eqb t0 "Version" then
          let* t := getn tokens 1 in
          let* version := parseInt t in
          if Z.eqb version 1 then spiLines rest d else Ok d
        else if String.eqb t0 "From" then
          let* a := getn tokens 1 in
          let* lo := parseFloat a in
          let* b := getn tokens 2 in
          let* hi := parseFloat b in
          spiLines rest {| sd_length := sd_length d; sd_components := sd_components d; sd_samples := sd_samples d;
                           sd_min := lo; sd_max := hi |}
        else if String.eqb t0 "Length" then
          let* t := getn tokens 1 in
          let* n := parseDim t in
          spiLines rest {| sd_length := n; sd_components := sd_components d; sd_samples := sd_samples d;
                           sd_min := sd_min d; sd_max := sd_max d |}
        else if String.eqb t0 "Components" then
          let* t := getn tokens 1 in
          let* n := parseDim t in
          spiLines rest {| sd_length := sd_length d; sd_components := n; sd_samples := sd_samples d;
                           sd_min := sd_min d; sd_max := sd_max d |}
        else if String.eqb t0 "{" || String.eqb t0 "}" then spiLines rest d
        else
          let* vs := mapM parseFloat tokens in
          spiLines rest {| sd_length := sd_length d; sd_components := sd_components d; sd_samples := sd_samples d ++ vs;
                           sd_min := sd_min d; sd_max := sd_max d |}
    end.
  (** LutSPI.py 152-227. *)
  Definition readSPI1D (content : string) (inverse : bool) (interpolation : string) (useIndexMaps useHalfDomain : bool)
    : res (list (node T)) :=
    let* d := spiLines (splitLines content) {| sd_length := 0; sd_components := 0; sd_samples := []; sd_min := n0; sd_max := n1 |} in
    if inverse then
      if useIndexMaps then generateLUT1DInverseIndexMap (sd_length d) (sd_components d) (sd_samples d) (sd_min d) (sd_max d)
      else if useHalfDomain then generateLUT1DInverseHalfDomain (sd_length d) (sd_components d) (sd_samples d) (sd_min d) (sd_max d) true
      else generateLUT1DInverseResampled (sd_length d) (sd_components d) (sd_samples d) (sd_min d) (sd_max d)
    else
      let* lut := setArray1D (newLUT1D (AStr "16f") (AStr "16f") (AStr "lut1d") (AStr "lut1d") (AStr interpolation) (AStr "") (AStr ""))
                             (sd_components d) (sd_samples d) "string" in
      Ok ((if negb (sd_min d =? n0) || negb (sd_max d =? n1)
           then [limitRange "range" "range" (sd_min d) (sd_max d) n0 n1] else []) ++ [lut]).

  (** LutSPI.py 233-272. *)
  Definition readSPI3D (content : string) (interpolation : string) : res (list (node T)) :=
    let ls := splitLines content in
    let interpolation := if String.eqb interpolation "linear" then "trilinear" else interpolation in
    let* l0 := getn ls 0 in
    let* t0 := getn (split l0) 0 in
    let* (resolution, samples) :=
      if String.eqb t0 "SPILUT" then
        let* t1 := getn (split l0) 1 in
        let* version := parseFloat t1 in
        if version =? n1 then
          let* l1 := getn ls 1 in
          let* tokens := mapM parseInt (split l1) in
          let* a := getn tokens 0 in
          let* three := if Z.eqb a 3 then Ok true else let* b := getn tokens 1 in Ok (Z.eqb b 3) in
          if three then
            let* l2 := getn ls 2 in
            let* resolution := mapM parseDim (split l2) in
            let* rows := mapM (fun line => let* vs := mapM parseFloat (split line) in Ok (skipn 3 vs)) (skipn 3 ls) in
            Ok (resolution, List.concat rows)
          else Ok ([0; 0; 0]%nat, [])
        else Ok ([0; 0; 0]%nat, [])
      else Ok ([0; 0; 0]%nat, []) in
    Ok [setArray3D (newLUT3D (AStr "16f") (AStr "16f") (AStr "lut3d") (AStr "lut3d") (AStr interpolation)) resolution samples "string"].

  (* ------------------------------------------------------------------ *)
  (** * CSP *)

  (** LutCSP.py 426-442 = 483-499: the lines up to the resolution. *)
  Definition cspHeader (format : string) (fromMin fromMax : T) : list string :=
    let map2 := ["2"; (fmtF fromMin ++ " " ++ fmtF fromMax)%string; "0.0 1.0"] in
    ["CSPLUTV100"; format; ""; "BEGIN METADATA"; "END METADATA"; ""] ++ map2 ++ map2 ++ map2 ++ [""].

  (** LutCSP.py 400-461. *)
  Definition writeCSP1D (fromMin fromMax : T) (data : list T) (entries channels components : nat) : res string :=
    let components := Nat.min 3 (Nat.min components channels) in
    let* rows := mapM (fun i =>
        let* vs := if Nat.eqb components 1 then mapM (fun _ => getn data (i * channels)%nat) (seq 0 3)
                   else mapM (fun j => getn data (i * channels + j)%nat) (seq 0 components) in
        Ok (String.concat "" (map (fun v => (" " ++ fmt3 6 v)%string) vs))) (seq 0 entries) in
    Ok (lines (cspHeader "1D" fromMin fromMax ++ [natText entries] ++ rows ++ [""])).

  (** LutCSP.py 501-510 = 552-559: red varies fastest. *)
  Definition cspRows (data : lattice T) (r0 r1 r2 : nat) : res (list string) :=
    let* rows := mapM (fun b => mapM (fun g => mapM (fun r =>
        let* v := latticeGet data r g b in
        Ok (join " " (map (fmt3 6) v))) (seq 0 r2)) (seq 0 r1)) (seq 0 r0) in
    Ok (List.concat (List.concat rows)).
  (** LutCSP.py 465-512. *)
  Definition writeCSP3D (fromMin fromMax : T) (data : lattice T) (r0 r1 r2 : nat) : res string :=
    let* rows := cspRows data r0 r1 r2 in
    Ok (lines (cspHeader "3D" fromMin fromMax ++ [join " " (map natText [r0; r1; r2])] ++ rows)).

  (** LutCSP.py 519-561. The samples are None without an input shaper. *)
  Definition writeCSP1D3D (samples : option (list T)) (n : nat) (inputMin inputMax : T) (data : lattice T) (r0 r1 r2 : nat) : res string :=
    let* maps := mapM (fun c =>
        let* ins := mapM (fun s => let* f := pyfdiv (nofZ (Z.of_nat s)) (nofZ (Z.of_nat n - 1)) in
                                   Ok (fmtF (f * (inputMax - inputMin) + inputMin) ++ " ")%string) (seq 0 n) in
        let* outs := mapM (fun s => match samples with
                                    | None => Err TypeError
                                    | Some l => let* v := getn l (s * 3 + c)%nat in Ok (fmtF v ++ " ")%string
                                    end) (seq 0 n) in
        Ok [natText n; String.concat "" ins; String.concat "" outs]) (seq 0 3) in
    let* rows := cspRows data r0 r1 r2 in
    Ok (lines (["CSPLUTV100"; "3D"; ""; "BEGIN METADATA"; "END METADATA"; ""] ++ List.concat maps ++
               [""; join " " (map natText [r0; r1; r2])] ++ rows)).

  (** LutCSP.py 186-229: one channel of the expanded prelut at a position. *)
  Definition prelutAt (ins outs : list T) (inputResolution : nat) (v : T) : res T :=
    let* index := searchLut ins 1 0 inputResolution v in
    let low := (index - 1)%nat in
    let high := Nat.min (inputResolution - 1) index in
    let* xl := getn ins low in
    let* xh := getn ins high in
    let* interp := pyfdiv (v - xl) (xh - xl) in
    let* yh := getn outs high in
    let* yl := getn outs low in
    Ok (interp * (yh - yl) + yl).
  (** LutCSP.py 147-239; the three preluts as (inputs, outputs). *)
  Definition generateCLFPrelut (r g b : list T * list T) : res (list (node T)) :=
    let inputResolution := Nat.max (Nat.max (List.length (fst r)) (List.length (fst g))) (List.length (fst b)) in
    let outputResolution := if (2 <? inputResolution)%nat then (inputResolution * 2)%nat else inputResolution in
    let* r0 := getn (fst r) 0 in
    let* g0 := getn (fst g) 0 in
    let* b0 := getn (fst b) 0 in
    let minInput := pymin (pymin r0 g0) b0 in
    let* r9 := pyget (fst r) (-1) in
    let* g9 := pyget (fst g) (-1) in
    let* b9 := pyget (fst b) (-1) in
    let maxInput := pymax (pymax r9 g9) b9 in
    let range := limitRange "prelut_range" "prelut_range" minInput maxInput n0 n1 in
    if (2 <? inputResolution)%nat then
      let* samples := fillSamples outputResolution (fun i =>
          let* v := samplePoint i outputResolution minInput maxInput in
          mapM (fun p => prelutAt (fst p) (snd p) inputResolution v) [r; g; b]) in
      let* lut := setArray1D (newLUT1D (AStr "16f") (AStr "16f") (AStr "prelut_lut1d") (AStr "prelut_lut1d") (AStr "linear")
                                       (AStr "") (AStr "")) 3 samples "string" in
      Ok [range; lut]
    else Ok [range].

  (** LutCSP.py 264-267: the lines after BEGIN METADATA. *)
  Fixpoint afterBegin (ls : list string) : res (list string) :=
    match ls with
    | [] => Err IndexError
    | l :: t => if String.eqb (rstrip l) "BEGIN METADATA" then Ok t else afterBegin t
    end.
  (** LutCSP.py 269-280: the lines after END METADATA and one more. *)
  Fixpoint afterEnd (ls : list string) : list string :=
    match ls with
    | [] => []
    | l :: t => if String.eqb (rstrip l) "END METADATA" then skipn 1 t else afterEnd t
    end.
  (** LutCSP.py 282-284 = 318-320. *)
  Fixpoint skipBlank (ls : list string) : res (list string) :=
    match ls with
    | [] => Err IndexError
    | l :: t => if String.eqb (rstrip l) "" then skipBlank t else Ok ls
    end.
  (** LutCSP.py 293-306: one of the three index maps. *)
  Definition readPrelut (ls : list string) (k : nat) : res (list T * list T) :=
    let* l0 := getn ls k in
    let* _ := parseInt l0 in
    let* l1 := getn ls (k + 1)%nat in
    let* ins := mapM parseFloat (split l1) in
    let* l2 := getn ls (k + 2)%nat in
    let* outs := mapM parseFloat (split l2) in
    Ok (ins, outs).
  (** LutCSP.py 328-374: where each line's sample goes. *)
  Definition cspSamples (place : nat -> res nat) (ls : list string) (samples : list T) : res (list T) :=
    let* (_, s) := for_each ls (fun line '(cspIndex, samples) =>
        let* clfIndex := place cspIndex in
        let* vs := mapM parseFloat (split line) in
        Ok (S cspIndex, if Nat.eqb (List.length vs) 3 then pySliceSet samples (clfIndex * 3) (clfIndex * 3 + 3) vs else samples))
      (0%nat, samples) in
    Ok s.
  Definition cspPlace (r0 r1 : nat) (cspIndex : nat) : res nat :=
    if Nat.eqb r0 0 || Nat.eqb r1 0 then Err ZeroDivisionError
    else
      let indexR := (cspIndex mod r0)%nat in
      let indexG := ((cspIndex / r0) mod r1)%nat in
      let indexB := (cspIndex / (r0 * r1))%nat in
      Ok ((indexR * r0 + indexG) * r1 + indexB)%nat.
  (** LutCSP.py 246-396. The arguments inverse and interpolation are not used. *)
  Definition readCSP (content : string) : res (list (node T)) :=
    let ls := splitLines content in
    let* l0 := getn ls 0 in
    let* t0 := getn (split l0) 0 in
    if String.eqb t0 "CSPLUTV100" then
      let* l1 := getn ls 1 in
      let* format := getn (split l1) 0 in
      if String.eqb format "1D" || String.eqb format "3D" then
        let* ls := afterBegin (skipn 2 ls) in
        let* ls := skipBlank (afterEnd ls) in
        let* r := readPrelut ls 0 in
        let* g := readPrelut ls 3 in
        let* b := readPrelut ls 6 in
        let* ls := skipBlank (skipn 10 ls) in
        let* resLine := getn ls 0 in
        let* resolution := mapM parseDim (split resLine) in
        let* r0 := getn resolution 0 in
        let* lut :=
          if String.eqb format "3D" then
            let* r1 := getn resolution 1 in
            let* r2 := getn resolution 2 in
            let* samples := cspSamples (cspPlace r0 r1) (skipn 1 ls) (repeat n0 (r0 * r1 * r2 * 3)) in
            Ok (setArray3D (newLUT3D (AStr "16f") (AStr "16f") (AStr "lut3d") (AStr "lut3d") (AStr "trilinear")) resolution samples "string")
          else
            let* samples := cspSamples (fun i => Ok i) (skipn 1 ls) (repeat n0 (r0 * 3)) in
            setArray1D (newLUT1D (AStr "16f") (AStr "16f") (AStr "lut1d") (AStr "lut1d") (AStr "linear") (AStr "") (AStr "")) 3 samples "string" in
        let* prelut := generateCLFPrelut r g b in
        Ok (prelut ++ [lut])
      else Ok []
    else Ok [].

  (* ------------------------------------------------------------------ *)
  (** * CTL *)

  (** LutCTL.py 182-217 = 269-304: the program after the tables; [apply] are the lines
      that look the colour up. *)
  Definition ctlMain (apply : list string) : list string :=
    ["void main"; "("; "  input varying float rIn,"; "  input varying float gIn,"; "  input varying float bIn,";
     "  input varying float aIn,"; "  output varying float rOut,"; "  output varying float gOut,"; "  output varying float bOut,";
     "  output varying float aOut"; ")"; "{"; "  float r = rIn;"; "  float g = gIn;"; "  float b = bIn;"; ""; "  // Apply LUT"] ++
    apply ++ [""; "  rOut = r;"; "  gOut = g;"; "  bOut = b;"; "  aOut = aIn;"; "}"].
  (** LutCTL.py 165-170 = 175-181: the rows of a table. Both loops read
      [data[i * channels]]. *)
  Definition ctlRows (data : list T) (entries channels : nat) : res (list string) :=
    mapM (fun i => let* v := getn data (i * channels)%nat in
                   Ok (str v ++ if Nat.eqb (S i) entries then "" else ",")%string) (seq 0 entries).
  (** LutCTL.py 132-218. *)
  Definition writeCTL1D (fromMin fromMax : T) (data : list T) (entries channels components : nat) : res string :=
    let components := Nat.min 3 (Nat.min components channels) in
    let* tables :=
      if Nat.eqb components 1 then
        let* rows := ctlRows data entries channels in Ok (["const float lut[] = {"] ++ rows ++ ["};"; ""])
      else
        let* ts := mapM (fun j => let* rows := ctlRows data entries channels in
                                  Ok ([("const float lut" ++ natText j ++ "[] = {")%string] ++ rows ++ ["};"; ""])) (seq 0 components) in
        Ok (List.concat ts) in
    Ok (lines ([("// " ++ natText entries ++ " x " ++ natText components ++ " 1D LUT generated by ""convertCLFtoLUT""")%string; "";
                ("const float min1d = " ++ fmt3 9 fromMin ++ ";")%string; ("const float max1d = " ++ fmt3 9 fromMax ++ ";")%string; ""] ++
               tables ++
               ctlMain (if Nat.eqb components 1 then
                          ["  r = lookup1D(lut, min1d, max1d, r);"; "  g = lookup1D(lut, min1d, max1d, g);"; "  b = lookup1D(lut, min1d, max1d, b);"]
                        else if Nat.eqb components 3 then
                          ["  r = lookup1D(lut0, min1d, max1d, r);"; "  g = lookup1D(lut1, min1d, max1d, g);"; "  b = lookup1D(lut2, min1d, max1d, b);"]
                        else []))).
  (** LutCTL.py 222-307. *)
  Definition ctlCube (data : lattice T) (r0 r1 r2 : nat) : res string :=
    let* planes := mapM (fun r =>
        let* rows := mapM (fun g =>
            let* cells := mapM (fun b =>
                let* v := latticeGet data r g b in
                Ok ("{" ++ join ", " (map (fmt3 6) v) ++ "}" ++
                    if Nat.eqb (S b) r2 then newline ++ " " else "," ++ newline ++ tab ++ tab ++ "  ")%string) (seq 0 r2) in
            Ok (tab ++ tab ++ "{ " ++ String.concat "" cells ++ "}" ++ if Nat.eqb (S g) r1 then newline else "," ++ newline)%string) (seq 0 r1) in
        Ok (tab ++ "{" ++ newline ++ String.concat "" rows ++ tab ++ "}" ++ if Nat.eqb (S r) r0 then newline else ", ")%string) (seq 0 r0) in
    Ok (String.concat "" planes).
  Definition writeCTL3D (fromMin fromMax : T) (data : lattice T) (r0 r1 r2 : nat) : res string :=
    let triple x := (fmt3 9 x ++ ", " ++ fmt3 9 x ++ ", " ++ fmt3 9 x)%string in
    let* cube := ctlCube data r0 r1 r2 in
    Ok (lines [("// " ++ natText r0 ++ " x " ++ natText r1 ++ " x " ++ natText r2 ++ " 3D LUT generated by ""convertCLFtoLUT""")%string; "";
               ("const float min3d[3] = {" ++ triple fromMin ++ "};")%string; ("const float max3d[3] = {" ++ triple fromMax ++ "};")%string; "";
               ("const float cube[" ++ natText r0 ++ "][" ++ natText r1 ++ "][" ++ natText r2 ++ "][3] = ")%string; "{"]
        ++ cube ++ lines ["};"; ""] ++
        lines (ctlMain ["  lookup3D_f(cube, min3d, max3d, r, g, b, r, g, b);"]))%string.

  (* ------------------------------------------------------------------ *)
  (** * The formats in the registry *)

  (** [open(lutPath)] and read. *)
  Definition reading (rd : string -> readArgs -> string -> res (list (node T))) : reader T (disk string) :=
    fun path a fs => (match fs path with None => Err IOError | Some content => rd path a content end, fs).
  (** [with open(path, 'w')]: True when all is written. *)
  Definition writing (wr : lutData T -> res string) : writer T (disk string) :=
    fun path d fs => match wr d with
                     | Ok t => (Ok true, fun p => if String.eqb p path then Some t else fs p)
                     | Err e => (Err e, fs)
                     end.
  (** LutSPI.py 98-149. The file is opened only by the reader its extension selects.
      spimtx gives False. *)
  Definition readSPI : reader T (disk string) :=
    fun path a fs =>
      let extension := extensionOf path in
      if String.eqb extension "spi1d" then
        reading (fun _ a t => readSPI1D t (ra_inverse a) (ra_interpolation a) (ra_useIndexMaps a) (ra_useHalfDomain a)) path a fs
      else if String.eqb extension "spi3d" then reading (fun _ a t => readSPI3D t (ra_interpolation a)) path a fs
      else (Ok [], fs).
  Definition writeSPI : writer T (disk string) :=
    writing (fun d => match d with
                      | Data1D s n lo hi => writeSPI1D lo hi s n 3 3
                      | Data3D s r0 r1 r2 lo hi => writeSPI3D lo hi s r0 r1 r2
                      | Data1D3D1D _ _ _ _ _ _ => Err TypeError
                      end).
  (** LutCSP.py 93-144. *)
  Definition readCSPFile : reader T (disk string) := reading (fun _ _ t => readCSP t).
  Definition writeCSP : writer T (disk string) :=
    writing (fun d => match d with
                      | Data1D s n lo hi => writeCSP1D lo hi s n 3 3
                      | Data3D s r0 r1 r2 lo hi => writeCSP3D lo hi s r0 r1 r2
                      | Data1D3D1D s n r0 r1 r2 _ => writeCSP1D3D (s_in s) n (s_inMin s) (s_inMax s) (s_3d s) r0 r1 r2
                      end).
  (** LutCTL.py 93-130: there is no readCTL. *)
  Definition readCTL : reader T (disk string) := fun _ _ fs => (Err AttributeError, fs).
  Definition writeCTL : writer T (disk string) :=
    writing (fun d => match d with
                      | Data1D s n lo hi => writeCTL1D lo hi s n 3 3
                      | Data3D s r0 r1 r2 lo hi => writeCTL3D lo hi s r0 r1 r2
                      | Data1D3D1D _ _ _ _ _ _ => Err TypeError
                      end).
End Lut.
