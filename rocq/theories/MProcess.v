(** Model of the colour-processing half of python/aces/clf: the [process]
    methods of Range, Matrix, LUT1D, LUT3D, ASCCDL, ColorCorrection, Gamma, Log,
    ExposureContrast, Reference, Group and ProcessList.

    Buffers are float32 numpy arrays (what ProcessList.process hands to its
    nodes); calling a node's [process] directly on a Python list is not modelled. *)
From Verif Require Export MIndexMap.

Section Process.
  Context {T : Type} {N : Num T}.
  Local Open Scope num_scope.

  (* ------------------------------------------------------------------ *)
  (** * Node data *)

  (** Elements of a ProcessList: Comment.py (Comment, Description,
      InputDescriptor, OutputDescriptor) and Info.py. *)
  Inductive plelem : Type :=
  | PEComment (kind : string) (text : option string)
  | PEInfo (children : list (string * option string)).

  (** Children kept in [ProcessNode._elements]: Description (Comment.py), Array and
      IndexMap, and in a Group any element of a ProcessList (ExtensionGroup.py
      97-115). [self._array] of a Matrix/LUT is always the Array added last and
      [self._indexMaps] is the IndexMaps in order (Matrix.py 68-90, LUT1D.py 79-137,
      LUT3D.py 73-128). *)
  Inductive element : Type :=
  | EDesc (text : option string)
  | EArray (a : array T)
  | EIndexMap (m : imap T)
  | EMisc (e : plelem).

  (** ProcessNode.py 137-151. *)
  Record header : Type := {
    h_attrs : list (string * aval);
    h_vals : list (string * T);       (* _valueElements *)
    h_dyn : list string;              (* _dynamicParams *)
    h_elems : list element            (* _elements *)
  }.

  (** ASCCDL.py 69-79: [_values]. *)
  Record cdl : Type := {
    c_slope : option (list T);
    c_offset : option (list T);
    c_power : option (list T);
    c_sat : option T
  }.

  (** ExtensionGamma.py 72-73: [gamma, offset, channel]. *)
  Record gparam : Type := { g_gamma : T; g_offset : T; g_chan : option string }.

  (** ExtensionLog.py 74-75. *)
  Record lparam : Type := {
    l_gamma : T; l_white : T; l_black : T; l_high : T; l_shadow : T; l_chan : option string
  }.

  (** ExtensionExposureContrast.py 69-73: [_params] always has one entry. *)
  Record eparam : Type := { e_exposure : T; e_contrast : T; e_pivot : T }.

  Inductive node : Type :=
  | Node (h : header) (b : body)
  with body : Type :=
  | BRange
  | BMatrix
  | BLUT1D
  | BLUT3D
  | BCDL (v : cdl)                                  (* ASC_CDL *)
  | BColorCorrection (v : cdl)
  | BGamma (ps : list gparam)
  | BLog (ps : list lparam)
  | BExposureContrast (p : eparam)
  | BReference (writeReferenced : bool) (pl : option plist)
  | BGroup (ps : list node)
  with plist : Type :=
  | PList (attrs : list (string * string)) (vals : list (string * T))
          (elems : list plelem) (procs : list node).

  Definition nheader (n : node) : header := match n with Node h _ => h end.
  Definition nbody (n : node) : body := match n with Node _ b => b end.
  Definition procs_of (l : plist) : list node := match l with PList _ _ _ ps => ps end.

  (** ProcessNode.py 271-276, 314-315, 319-320. *)
  Definition getAttribute (n : node) (k : string) : aval :=
    match dget (h_attrs (nheader n)) k with Some v => v | None => ANone end.
  Definition getInBitDepth (n : node) : aval := getAttribute n "inBitDepth".
  Definition getOutBitDepth (n : node) : aval := getAttribute n "outBitDepth".

  Fixpoint lastArray (es : list element) : option (array T) :=
    match es with
    | [] => None
    | EArray a :: t => match lastArray t with Some a' => Some a' | None => Some a end
    | _ :: t => lastArray t
    end.
  Fixpoint indexMaps (es : list element) : list (imap T) :=
    match es with
    | [] => []
    | EIndexMap m :: t => m :: indexMaps t
    | _ :: t => indexMaps t
    end.

  (** [not (getAttribute(k) in [None, False])], LUT1D.py 99, 148-149. *)
  Definition flagSet (h : header) (k : string) : bool :=
    match dget (h_attrs h) k with
    | None | Some ANone | Some (ABool false) => false
    | Some _ => true
    end.

  (** What a call of a node's [process(values, stride)] leaves behind. *)
  Record pout : Type := {
    po_in : list T;        (* contents of the caller's buffer afterwards *)
    po_out : list T;       (* contents of the returned buffer *)
    po_same : bool         (* the returned object is the caller's buffer *)
  }.

  (* ------------------------------------------------------------------ *)
  (** * Pixel loops *)

  (** [buf[i] = f(buf[i])] on a float32 array. *)
  Definition upd (buf : list T) (i : nat) (f : T -> res T) : res (list T) :=
    let* x := getn buf i in
    let* y := f x in
    setn buf i (nf32 y).

  (** [if stride == 0: stride = len(values)]. *)
  Definition effStride (stride : nat) (values : list T) : nat :=
    match stride with O => List.length values | _ => stride end.

  (** The loop shared by LUT1D.py 165-213, LUT3D.py 151-195, ASCCDL.py 168-233,
      ExtensionGamma.py 139-188, ExtensionLog.py 163-232 and
      ExtensionExposureContrast.py 133-171: [value] and [outValue] are views of
      [values], so what the body writes lands in the caller's buffer. [px] gets the
      whole buffer and the current pixel. *)
  Definition pixelLoop (px : list T -> list T -> res (list T)) (stride : nat) (values : list T)
    : res pout :=
    let* n := pydiv (List.length values) stride in
    let* (vals, outs) :=
      for_each (seq 0 n)
        (fun p '(vals, outs) =>
           let* o := px vals (slice vals (p * stride) ((p + 1) * stride)) in
           Ok (slice_set vals (p * stride) o, slice_set outs (p * stride) o))
        (values, repeat n0 (List.length values)) in
    Ok {| po_in := vals; po_out := outs; po_same := false |}.

  (** [for i in range(min(3, stride), stride): outValue[i] = value[i]]; both names
      are views of the same memory. *)
  Definition copyExtra (stride : nat) (px : list T) : res (list T) :=
    for_each (seq (Nat.min 3 stride) (stride - Nat.min 3 stride))
      (fun i px => let* v := getn px i in setn px i v) px.

  (* ------------------------------------------------------------------ *)
  (** * Range (Range.py 101-180) *)

  Definition rangeLimit (h : header) (k : string) (d : aval) : option T :=
    match dget (h_vals h) k with Some v => Some (v / bitDepthSize d) | None => None end.

  Definition orDefault (defaultRange : bool) (v : option T) (x : T) : option T :=
    match v with Some _ => v | None => if defaultRange then Some x else None end.

  (** Range.py 149-178: one element; every assignment rounds to float32. *)
  Definition rangeElem (dIn dOut : aval) (clampOn : bool)
             (minIn maxIn minOut maxOut : option T) (x : T) : res T :=
    let x1 := nf32 (bitDepthToNormalized x dIn) in
    let* x2 :=
      match minIn, maxIn, minOut, maxOut with
      | Some mi, Some ma, Some mo, Some mao =>
          let* scale := pyfdiv (mao - mo) (ma - mi) in
          let y := nf32 (x1 * scale + mo - mi * scale) in
          Ok (if clampOn then nf32 (pymin mao (pymax mo y)) else y)
      | Some mi, _, Some mo, _ =>
          let y := nf32 (x1 + mo - mi) in
          Ok (if clampOn then nf32 (pymax mo y) else y)
      | _, Some ma, _, Some mao =>
          let y := nf32 (x1 + mao - ma) in
          Ok (if clampOn then nf32 (pymin mao y) else y)
      | _, _, _, _ => Ok x1
      end in
    Ok (nf32 (normalizedToBitDepth x2 dOut)).

  Definition rangeProcess (h : header) (values : list T) : res pout :=
    let* dIn := dgetE (h_attrs h) "inBitDepth" in
    let* dOut := dgetE (h_attrs h) "outBitDepth" in
    let clampOn :=
      match dget (h_attrs h) "style" with Some v => aval_eqb v (AStr "clamp") | None => true end in
    let defaultRange :=
      match dget (h_attrs h) "defaultRange" with Some _ => true | None => false end in
    let minIn := orDefault defaultRange (rangeLimit h "minInValue" dIn) n0 in
    let maxIn := orDefault defaultRange (rangeLimit h "maxInValue" dIn) n1 in
    let minOut := orDefault defaultRange (rangeLimit h "minOutValue" dOut) n0 in
    let maxOut := orDefault defaultRange (rangeLimit h "maxOutValue" dOut) n1 in
    let* out :=
      for_each (seq 0 (List.length values))
        (fun i buf =>
           let* x := getn buf i in
           let* y := rangeElem dIn dOut clampOn minIn maxIn minOut maxOut x in
           setn buf i y) values in
    Ok {| po_in := out; po_out := out; po_same := true |}.

  (** The adapter of ProcessList.py 388 / ExtensionGroup.py 147:
      Range(in, out, "adapter", "adapter", style='noClamp'). *)
  Definition adapterHeader (dIn dOut : aval) : header :=
    {| h_attrs := [("inBitDepth", dIn); ("outBitDepth", dOut); ("id", AStr "adapter");
                   ("name", AStr "adapter"); ("style", AStr "noClamp")]%string;
       h_vals := []; h_dyn := []; h_elems := [] |}.

  (* ------------------------------------------------------------------ *)
  (** * Matrix (Matrix.py 92-139) *)

  Definition matrixRow (a : array T) (d0 d1 i : nat) (value : list T) : res T :=
    let offset := (i * d1)%nat in
    let* s :=
      for_each (seq 0 d0)
        (fun j acc =>
           let* m := getn (a_vals a) (j + offset) in
           let* v := getn value j in
           Ok (nf32 (acc + amul (a_dt a) m v))) n0 in
    if Nat.eqb d1 (d0 + 1) then
      let* m := getn (a_vals a) (offset + d1 - 1) in Ok (nf32 (s + m))
    else Ok s.

  Definition matrixPixel (a : array T) (stride : nat) (value : list T) : res (list T) :=
    let* d0 := dim a 0 in
    let* o1 :=
      for_each (seq 0 (Nat.min d0 stride))
        (fun i out =>
           let* d1 := dim a 1 in
           let* s := matrixRow a d0 d1 i value in
           setn out i s) (repeat n0 stride) in
    for_each (seq (Nat.min d0 stride) (stride - Nat.min d0 stride))
      (fun i out => let* v := getn value i in setn out i v) o1.

  (** The output is a fresh array; the input is only read. *)
  Definition matrixProcess (h : header) (values : list T) (stride : nat) : res pout :=
    let* _ := dgetE (h_attrs h) "inBitDepth" in
    let* _ := dgetE (h_attrs h) "outBitDepth" in
    match lastArray (h_elems h) with
    | None => Err AttributeError
    | Some a =>
        let st := effStride stride values in
        let* n := pydiv (List.length values) st in
        let* outs :=
          for_each (seq 0 n)
            (fun p outs =>
               let* o := matrixPixel a st (slice values (p * st) ((p + 1) * st)) in
               Ok (slice_set outs (p * st) o))
            (repeat n0 (List.length values)) in
        Ok {| po_in := values; po_out := outs; po_same := false |}
    end.

  (* ------------------------------------------------------------------ *)
  (** * LUT1D (LUT1D.py 139-213) *)

  (** LUT1D.py 173-185 / LUT3D.py 160-172: index map (per channel, or the single
      one) and division by [dimensions[k]-1], or bit-depth normalisation. *)
  Definition indexStage (ims : list (imap T)) (a : array T) (dIn : aval) (i k : nat)
             (px : list T) : res (list T) :=
    match ims with
    | [] => upd px i (fun x => Ok (bitDepthToNormalized x dIn))
    | m0 :: rest =>
        let* m := match rest with [] => Ok m0 | _ => getn ims i end in
        let* px := upd px i (imapProcess m) in
        let* d := dim a k in
        upd px i (fun x => Ok (x / nofZ (Z.of_nat d - 1)))
    end.

  Definition lut1dPixel (a : array T) (ims : list (imap T)) (dIn : aval) (cubic halfDomain : bool)
             (stride : nat) (px : list T) : res (list T) :=
    let* px :=
      for_each (seq 0 (Nat.min 3 stride))
        (fun i px =>
           let* px := indexStage ims a dIn i 0 px in
           if cubic then upd px i (fun x => lookup1DCubic a x i)
           else if halfDomain then upd px i (fun x => lookup1DHalfDomain a x i)
           else upd px i (fun x => lookup1DLinear a x i)) px in
    copyExtra stride px.

  Definition lut1dProcess (h : header) (values : list T) (stride : nat) : res pout :=
    let* dIn := dgetE (h_attrs h) "inBitDepth" in
    let* _ := dgetE (h_attrs h) "outBitDepth" in
    let cubic :=
      match dget (h_attrs h) "interpolation" with Some v => aval_eqb v (AStr "cubic") | None => false end in
    match lastArray (h_elems h) with
    | None => Err AttributeError
    | Some a =>
        let st := effStride stride values in
        pixelLoop (fun _ => lut1dPixel a (indexMaps (h_elems h)) dIn cubic (flagSet h "halfDomain") st)
          st values
    end.

  (* ------------------------------------------------------------------ *)
  (** * LUT3D (LUT3D.py 130-195) *)

  (** [outValue[0:3] = colour] on a numpy view of at least three elements: a list
      of another length than 3 is broadcast if it has one element, refused otherwise. *)
  Definition set3 (px colour : list T) : res (list T) :=
    match colour with
    | [x; y; z] => Ok (slice_set px 0 [nf32 x; nf32 y; nf32 z])
    | [x] => Ok (slice_set px 0 [nf32 x; nf32 x; nf32 x])
    | _ => Err ValueError
    end.

  Definition lut3dPixel (a : array T) (ims : list (imap T)) (dIn interpolation : aval)
             (stride : nat) (px : list T) : res (list T) :=
    let* px :=
      for_each (seq 0 (Nat.min 3 (List.length px)))
        (fun i px => indexStage ims a dIn i i px) px in
    let* px :=
      if aval_eqb interpolation (AStr "trilinear") then
        let* c := lookup3DTrilinear a px in set3 px c
      else if aval_eqb interpolation (AStr "tetrahedral") then
        let* c := lookup3DTetrahedral a px in set3 px c
      else Ok px in
    copyExtra stride px.

  Definition lut3dProcess (h : header) (values : list T) (stride : nat) : res pout :=
    let* dIn := dgetE (h_attrs h) "inBitDepth" in
    let* _ := dgetE (h_attrs h) "outBitDepth" in
    let interpolation :=
      match dget (h_attrs h) "interpolation" with Some v => v | None => AStr "" end in
    match lastArray (h_elems h) with
    | None => Err AttributeError
    | Some a =>
        let st := effStride stride values in
        pixelLoop (fun _ => lut3dPixel a (indexMaps (h_elems h)) dIn interpolation st) st values
    end.

  (* ------------------------------------------------------------------ *)
  (** * ASC_CDL and ColorCorrection (ASCCDL.py 123-234) *)

  Inductive cdlStyle : Type := CdlFwd | CdlFwdNoClamp | CdlRev | CdlRevNoClamp | CdlOther.

  (** ASCCDL.py 175, 185, 199, 212. *)
  Definition cdlStyleOf (v : aval) : cdlStyle :=
    if aval_eqb v (AStr "Fwd") || aval_eqb v (AStr "v1.2_Fwd") then CdlFwd
    else if aval_eqb v (AStr "FwdNoClamp") || aval_eqb v (AStr "noClampFwd") then CdlFwdNoClamp
    else if aval_eqb v (AStr "Rev") || aval_eqb v (AStr "v1.2_Rev") then CdlRev
    else if aval_eqb v (AStr "RevNoClamp") || aval_eqb v (AStr "noClampRev") then CdlRevNoClamp
    else CdlOther.

  (** ASCCDL.py 180 etc.: Rec.709 luma of the first three channels. *)
  Definition cdlLuma (px : list T) : res T :=
    let* r := getn px 0 in
    let* g := getn px 1 in
    let* b := getn px 2 in
    Ok (nlit 2126 10000 * r + nlit 7152 10000 * g + nlit 722 10000 * b).

  (** [x / slope] where [x] derives from a clamped value: a Python float when the
      clamp returned one of its bounds, else a numpy scalar (which does not raise
      on division by zero). *)
  Definition cdlDiv (clamped x slope : T) : res T :=
    if (slope =? n0) && ((clamped =? n0) || (clamped =? n1)) then Err ZeroDivisionError
    else Ok (x / slope).

  Definition cdlPixel (style : cdlStyle) (dIn dOut : aval) (slope offset power : list T) (sat : T)
             (stride : nat) (px : list T) : res (list T) :=
    let norm i px := upd px i (fun x => Ok (bitDepthToNormalized x dIn)) in
    let denorm i px := upd px i (fun x => Ok (normalizedToBitDepth x dOut)) in
    let* px :=
      match style with
      | CdlFwd =>
          let* px := for_each (seq 0 3) (fun i px =>
            let* px := norm i px in
            upd px i (fun x =>
              let* s := getn slope i in
              let* o := getn offset i in
              let* p := getn power i in
              pypow (clamp (x * s + o)) p)) px in
          let* luma := cdlLuma px in
          for_each (seq 0 3) (fun i px =>
            let* px := upd px i (fun x => Ok (clamp (luma + sat * (x - luma)))) in
            denorm i px) px
      | CdlFwdNoClamp =>
          let* px := for_each (seq 0 3) (fun i px =>
            let* px := norm i px in
            upd px i (fun x =>
              let* s := getn slope i in
              let* o := getn offset i in
              let tmp := x * s + o in
              if tmp <? n0 then Ok tmp
              else let* p := getn power i in Ok (npow tmp p))) px in
          let* luma := cdlLuma px in
          for_each (seq 0 3) (fun i px =>
            let* px := upd px i (fun x => Ok (luma + sat * (x - luma))) in
            denorm i px) px
      | CdlRev =>
          let* px := for_each (seq 0 3) (fun i px =>
            let* px := norm i px in
            upd px i (fun x => Ok (clamp x))) px in
          let* luma := cdlLuma px in
          for_each (seq 0 3) (fun i px =>
            let* px := upd px i (fun x =>
              let* isat := pyfdiv n1 sat in
              let outSat := luma + isat * (x - luma) in
              let* p := getn power i in
              let* ip := pyfdiv n1 p in
              let* w := pypow (clamp outSat) ip in
              let* o := getn offset i in
              let* s := getn slope i in
              cdlDiv (clamp outSat) (w - o) s) in
            let* px := upd px i (fun x => Ok (clamp x)) in
            denorm i px) px
      | CdlRevNoClamp =>
          let* px := for_each (seq 0 3) (fun i px => norm i px) px in
          let* luma := cdlLuma px in
          for_each (seq 0 3) (fun i px =>
            let* px := upd px i (fun x =>
              let* isat := pyfdiv n1 sat in
              let outSat := luma + isat * (x - luma) in
              if outSat <? n0 then
                let* o := getn offset i in
                let* s := getn slope i in
                cdlDiv (clamp outSat) (clamp outSat - o) s
              else
                let* p := getn power i in
                let* ip := pyfdiv n1 p in
                let* w := pypow (clamp outSat) ip in
                let* o := getn offset i in
                let* s := getn slope i in
                cdlDiv (clamp outSat) (w - o) s) in
            denorm i px) px
      | CdlOther => Ok px
      end in
    copyExtra stride px.

  Definition cdlAutodeskStyle (v : aval) : bool :=
    aval_eqb v (AStr "v1.2_Fwd") || aval_eqb v (AStr "noClampFwd") ||
    aval_eqb v (AStr "v1.2_Rev") || aval_eqb v (AStr "noClampRev").

  Definition optD {A} (o : option A) (d : A) : A := match o with Some x => x | None => d end.

  Definition cdlProcess (compat : Z) (h : header) (v : cdl) (values : list T) (stride : nat) : res pout :=
    let st := effStride stride values in
    if Nat.ltb st 3 then Ok {| po_in := values; po_out := values; po_same := true |}
    else
      let* dIn := dgetE (h_attrs h) "inBitDepth" in
      let* dOut := dgetE (h_attrs h) "outBitDepth" in
      let style := match dget (h_attrs h) "style" with Some s => s | None => AStr "" end in
      if negb (autodesk_on compat) && cdlAutodeskStyle style then Err UnsupportedExtensionError
      else
        let slope := optD (c_slope v) [n1; n1; n1] in
        let offset := optD (c_offset v) [n0; n0; n0] in
        let power := optD (c_power v) [n1; n1; n1] in
        let sat := optD (c_sat v) n1 in
        pixelLoop (fun _ => cdlPixel (cdlStyleOf style) dIn dOut slope offset power sat st) st values.

  (* ------------------------------------------------------------------ *)
  (** * Gamma (ExtensionGamma.py 105-189) *)

  (** The channel dictionary {'R':0, 'G':1, 'B':2}. *)
  Definition channelIndex (c : string) : res nat :=
    if String.eqb c "R" then Ok 0
    else if String.eqb c "G" then Ok 1
    else if String.eqb c "B" then Ok 2
    else Err KeyError.

  (** ExtensionGamma.py 115-127. *)
  Definition gammaParams (ps : list gparam) : res (list T * list T) :=
    for_each ps (fun p '(gamma, offset) =>
      match g_chan p with
      | None => Ok ([g_gamma p; g_gamma p; g_gamma p], [g_offset p; g_offset p; g_offset p])
      | Some c =>
          let* k := channelIndex c in
          let* gamma := setn gamma k (g_gamma p) in
          let* offset := setn offset k (g_offset p) in
          Ok (gamma, offset)
      end) ([n1; n1; n1], [n0; n0; n0]).

  (** ExtensionGamma.py 145-179, the expression assigned between the two bit-depth
      conversions, for one channel. *)
  Definition gammaBasicFwd (g x : T) : res T := pypow (pymax n0 x) g.
  Definition gammaBasicRev (g x : T) : res T :=
    let* ig := pyfdiv n1 g in pypow (pymax n0 x) ig.
  Definition gammaMonFwd (g o x : T) : res T :=
    let* pivot := pyfdiv o (g - n1) in
    if x <=? pivot then
      let* q := pyfdiv (g - n1) o in
      let* b := pyfdiv (g * o) ((g - n1) * (o + n1)) in
      let* w := pypow b g in
      Ok (q * w * x)
    else pypow (pymax n0 ((x + o) / (o + n1))) g.
  Definition gammaMonRev (g o x : T) : res T :=
    let* b := pyfdiv (g * o) ((g - n1) * (o + n1)) in
    let* _ := pypow b g in
    let* t := pyfdiv o (g - n1) in
    if x <=? t then
      let* q := pyfdiv (g - n1) o in
      let* w1 := pypow q (g - n1) in
      let* b2 := pyfdiv (n1 + o) g in
      let* w2 := pypow b2 g in
      Ok (w1 * w2 * x)
    else
      let* ig := pyfdiv n1 g in
      let* w := pypow (pymax n0 x) ig in
      Ok (w * (n1 + o) - o).

  (** [None] for a style that is not one of the four: colours are left alone. *)
  Definition gammaFun (style : aval) : option (T -> T -> T -> res T) :=
    if aval_eqb style (AStr "basicFwd") then Some (fun g _ x => gammaBasicFwd g x)
    else if aval_eqb style (AStr "basicRev") then Some (fun g _ x => gammaBasicRev g x)
    else if aval_eqb style (AStr "moncurveFwd") then Some gammaMonFwd
    else if aval_eqb style (AStr "moncurveRev") then Some gammaMonRev
    else None.

  Definition gammaPixel (f : option (T -> T -> T -> res T)) (dIn dOut : aval) (gamma offset : list T)
             (stride : nat) (px : list T) : res (list T) :=
    let* px :=
      match f with
      | None => Ok px
      | Some f =>
          for_each (seq 0 3) (fun i px =>
            let* px := upd px i (fun x => Ok (bitDepthToNormalized x dIn)) in
            let* px := upd px i (fun x =>
              let* g := getn gamma i in
              let* o := getn offset i in
              f g o x) in
            upd px i (fun x => Ok (normalizedToBitDepth x dOut))) px
      end in
    copyExtra stride px.

  Definition gammaProcess (h : header) (ps : list gparam) (values : list T) (stride : nat) : res pout :=
    let* dIn := dgetE (h_attrs h) "inBitDepth" in
    let* dOut := dgetE (h_attrs h) "outBitDepth" in
    let style := match dget (h_attrs h) "style" with Some s => s | None => AStr "" end in
    let* (gamma, offset) := gammaParams ps in
    let st := effStride stride values in
    pixelLoop (fun _ => gammaPixel (gammaFun style) dIn dOut gamma offset st) st values.

  (* ------------------------------------------------------------------ *)
  (** * Log (ExtensionLog.py 115-233) *)

  Record lchan : Type := { lc_gamma : T; lc_white : T; lc_black : T; lc_high : T; lc_shadow : T }.

  Definition lchanOf (p : lparam) : lchan :=
    {| lc_gamma := l_gamma p; lc_white := l_white p; lc_black := l_black p;
       lc_high := l_high p; lc_shadow := l_shadow p |}.
  Definition lchanDefault : lchan :=
    {| lc_gamma := nlit 6 10; lc_white := nofZ 685; lc_black := nofZ 95; lc_high := n1; lc_shadow := n0 |}.

  (** ExtensionLog.py 125-146. *)
  Definition logParams (ps : list lparam) : res (list lchan) :=
    for_each ps (fun p cs =>
      match l_chan p with
      | None => Ok [lchanOf p; lchanOf p; lchanOf p]
      | Some c => let* k := channelIndex c in setn cs k (lchanOf p)
      end) [lchanDefault; lchanDefault; lchanDefault].

  (** ExtensionLog.py 156: FLOAT_MIN = 1.1754943508222875 * pow(10,-38)
      (the literal is 94039548065783 / 80000000000000). *)
  Definition FLOAT_MIN : T := nlit 94039548065783 80000000000000 * npow (nofZ 10) (nofZ (-38)).

  Definition logLog10 (x : T) : T := nlog10 (pymax x FLOAT_MIN).
  Definition logLog2 (x : T) : T := nlog10 (pymax x FLOAT_MIN) / nlog10 (nofZ 2).
  Definition logAnti10 (x : T) : T := npow (nofZ 10) x.
  Definition logAnti2 (x : T) : T := npow (nofZ 2) x.
  (** ExtensionLog.py 203-204 / 215-216. *)
  Definition logBlackGain (c : lchan) : res (T * T) :=
    let* e := pyfdiv ((lc_black c - lc_white c) * nlit 2 1000) (lc_gamma c) in
    let* linearRefBlack := pypow (nofZ 10) (pymin (nlit (-1) 100000) e) in
    let* gain := pyfdiv (lc_high c - lc_shadow c) (n1 - linearRefBlack) in
    Ok (linearRefBlack, gain).
  (** ExtensionLog.py 208-209. *)
  Definition logToLin (c : lchan) (linearRefBlack gain x : T) : T :=
    let relativeExposure := npow (nofZ 10) ((nofZ 1023 * x - lc_white c) * nlit 2 1000 / lc_gamma c) in
    (relativeExposure - linearRefBlack) * gain + lc_shadow c.
  (** ExtensionLog.py 220-221. *)
  Definition linToLog (c : lchan) (linearRefBlack gain x : T) : T :=
    let relativeExposure := linearRefBlack + (x - lc_shadow c) / gain in
    (lc_white c + nlog10 (pymax FLOAT_MIN relativeExposure) * lc_gamma c / nlit 2 1000) / nofZ 1023.

  Inductive logStyle : Type := LLog10 | LLog2 | LAnti10 | LAnti2 | LLogToLin | LLinToLog | LOther.
  Definition logStyleOf (s : aval) : logStyle :=
    if aval_eqb s (AStr "log10") then LLog10
    else if aval_eqb s (AStr "log2") then LLog2
    else if aval_eqb s (AStr "antiLog10") then LAnti10
    else if aval_eqb s (AStr "antiLog2") then LAnti2
    else if aval_eqb s (AStr "logToLin") then LLogToLin
    else if aval_eqb s (AStr "linToLog") then LLinToLog
    else LOther.

  Definition logChannel (f : T -> T) (dIn dOut : aval) (i : nat) (px : list T) : res (list T) :=
    let* px := upd px i (fun x => Ok (bitDepthToNormalized x dIn)) in
    let* px := upd px i (fun x => Ok (f x)) in
    upd px i (fun x => Ok (normalizedToBitDepth x dOut)).

  Definition logPixel (style : logStyle) (dIn dOut : aval) (cs : list lchan)
             (stride : nat) (px : list T) : res (list T) :=
    let plain f := for_each (seq 0 3) (fun i px => logChannel f dIn dOut i px) px in
    let cineon f :=
      for_each (seq 0 3) (fun i px =>
        let* c := getn cs i in
        let* (black, gain) := logBlackGain c in
        logChannel (f c black gain) dIn dOut i px) px in
    let* px :=
      match style with
      | LLog10 => plain logLog10
      | LLog2 => plain logLog2
      | LAnti10 => plain logAnti10
      | LAnti2 => plain logAnti2
      | LLogToLin => cineon logToLin
      | LLinToLog => cineon linToLog
      | LOther => Ok px
      end in
    copyExtra stride px.

  Definition logProcess (h : header) (ps : list lparam) (values : list T) (stride : nat) : res pout :=
    let* dIn := dgetE (h_attrs h) "inBitDepth" in
    let* dOut := dgetE (h_attrs h) "outBitDepth" in
    let style := match dget (h_attrs h) "style" with Some s => s | None => AStr "" end in
    let* cs := logParams ps in
    let st := effStride stride values in
    pixelLoop (fun _ => logPixel (logStyleOf style) dIn dOut cs st) st values.

  (* ------------------------------------------------------------------ *)
  (** * ExposureContrast (ExtensionExposureContrast.py 103-172) *)

  (** ExtensionExposureContrast.py 143. *)
  Definition ecLinear (p : eparam) (x : T) : res T :=
    let e := npow (nofZ 2) (e_exposure p) in
    let* w := pypow (pymax n0 (e * x / e_pivot p)) (e_contrast p) in
    Ok (e_pivot p * w).

  Inductive ecStyle : Type := ECLinear | ECVideo | ECLog | ECOther.
  Definition ecStyleOf (s : aval) : ecStyle :=
    if aval_eqb s (AStr "linear") then ECLinear
    else if aval_eqb s (AStr "video") then ECVideo
    else if aval_eqb s (AStr "log") then ECLog
    else ECOther.

  (** 147-151: style video calls pow with one argument (TypeError, unless an
      operand evaluated before it raises first); 155-159: style
      log uses the name [math], which this module does not import (NameError). Both
      happen after [outValue[0]] was normalised. 165-166: the extra channels are
      copied from [values[i]], the start of the whole buffer. *)
  Definition ecPixel (style : ecStyle) (dIn dOut : aval) (p : eparam) (stride : nat)
             (vals px : list T) : res (list T) :=
    let norm i px := upd px i (fun x => Ok (bitDepthToNormalized x dIn)) in
    let* px' :=
      match style with
      | ECLinear =>
          for_each (seq 0 3) (fun i px =>
            let* px := norm i px in
            let* px := upd px i (ecLinear p) in
            upd px i (fun x => Ok (normalizedToBitDepth x dOut))) px
      | ECVideo =>
          let* _ := norm 0%nat px in
          let* _ := pypow (e_pivot p) (n1 / nlit 183 100) in
          let* _ := pyfdiv (npow (nofZ 2) (e_exposure p)) (e_pivot p) in
          Err TypeError
      | ECLog => let* _ := norm 0%nat px in Err NameError
      | ECOther => Ok px
      end in
    for_each (seq (Nat.min 3 stride) (stride - Nat.min 3 stride))
      (fun i px => let* v := getn vals i in setn px i v) px'.

  Definition ecProcess (h : header) (p : eparam) (values : list T) (stride : nat) : res pout :=
    let* dIn := dgetE (h_attrs h) "inBitDepth" in
    let* dOut := dgetE (h_attrs h) "outBitDepth" in
    let style := match dget (h_attrs h) "style" with Some s => s | None => AStr "" end in
    let st := effStride stride values in
    pixelLoop (ecPixel (ecStyleOf style) dIn dOut p st) st values.

  (* ------------------------------------------------------------------ *)
  (** * Chains of nodes (ProcessList.py 352-396, ExtensionGroup.py 118-155) *)

  (** [getAttribute('bypass') == None]. *)
  Definition notBypassed (n : node) : bool :=
    match getAttribute n "bypass" with ANone => true | _ => false end.

  (** The running state: caller's buffer, current result, and whether the
      result still is the caller's buffer. *)
  Definition stepOut (s o : pout) : pout :=
    {| po_in := if po_same s then po_in o else po_in s;
       po_out := po_out o;
       po_same := po_same s && po_same o |}.

  (** Bypass branch: ProcessList.py 378-389 = ExtensionGroup.py 137-148; [prev] is
      None for i = 0 and [next] is None for the last node. *)
  Definition bypassStep (prev next : option node) (s : pout) : res pout :=
    match prev, next with
    | Some p, Some q =>
        let dIn := getOutBitDepth p in
        let dOut := getInBitDepth q in
        if negb (aval_eqb dIn dOut) then
          let* o := rangeProcess (adapterHeader dIn dOut) (po_out s) in Ok (stepOut s o)
        else Ok s
    | _, _ => Ok s
    end.

  Section Chain.
    Variable honourBypass : bool.
    Variable run : node -> list T -> nat -> res pout.
    Fixpoint chain (prev : option node) (ps : list node) (stride : nat) (s : pout) : res pout :=
      match ps with
      | [] => Ok s
      | n :: rest =>
          let* s' :=
            if notBypassed n || negb honourBypass then
              let* o := run n (po_out s) stride in Ok (stepOut s o)
            else bypassStep prev (hd_error rest) s in
          chain (Some n) rest stride s'
      end.
  End Chain.

  (** One node's [process] (ProcessList.py 344-397 for nested lists, ExtensionGroup.py
      117-156, ExtensionReference.py 134-144). A ProcessList first copies its input
      to a fresh float32 array. *)
  Fixpoint nodeProcess (compat : Z) (n : node) (values : list T) (stride : nat) {struct n} : res pout :=
    match n with
    | Node h b =>
        match b with
        | BRange => rangeProcess h values
        | BMatrix => matrixProcess h values stride
        | BLUT1D => lut1dProcess h values stride
        | BLUT3D => lut3dProcess h values stride
        | BCDL v => cdlProcess compat h v values stride
        | BColorCorrection v => cdlProcess compat h v values stride
        | BGamma ps => gammaProcess h ps values stride
        | BLog ps => logProcess h ps values stride
        | BExposureContrast p => ecProcess h p values stride
        | BReference _ (Some (PList _ _ _ ps)) =>
            let* s := chain (autodesk_on compat) (nodeProcess compat) None ps stride
                        {| po_in := values; po_out := map nf32 values; po_same := false |} in
            Ok s
        | BReference _ None => Ok {| po_in := values; po_out := values; po_same := true |}
        | BGroup ps =>
            chain true (nodeProcess compat) None ps stride
              {| po_in := values; po_out := values; po_same := true |}
        end
    end.

  (** ProcessList.py 344-397: ProcessList.process. The result records the caller's
      sequence afterwards as well as the returned array. *)
  Definition listProcess (compat : Z) (l : plist) (values : list T) (stride : nat) : res pout :=
    chain (autodesk_on compat) (nodeProcess compat) None (procs_of l) stride
      {| po_in := values; po_out := map nf32 values; po_same := false |}.
End Process.
Arguments element T : clear implicits.
Arguments header T : clear implicits.
Arguments cdl T : clear implicits.
Arguments gparam T : clear implicits.
Arguments lparam T : clear implicits.
Arguments eparam T : clear implicits.
Arguments lchan T : clear implicits.
Arguments node T : clear implicits.
Arguments body T : clear implicits.
Arguments plist T : clear implicits.
Arguments pout T : clear implicits.
