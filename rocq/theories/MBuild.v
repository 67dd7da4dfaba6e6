(** Model of the constructors and setters of the process nodes, and of the
    LUT-building helpers simpleSampledLUT, simpleSampledLUTHalfDomain and
    simple3DLUT. *)
From Verif Require Export MProcess.

Section Build.
  Context {T : Type} {N : Num T}.
  Local Open Scope num_scope.

  (** ProcessNode.py 137-151. No subclass passes [bypass] on. *)
  Definition newHeader (inBitDepth outBitDepth id name : aval) : header T :=
    {| h_attrs := [("inBitDepth", inBitDepth); ("outBitDepth", outBitDepth); ("id", id); ("name", name)]%string;
       h_vals := []; h_dyn := []; h_elems := [] |}.

  (** ProcessNode.py 269-270, 279-280, 287-288, 296-297. *)
  Definition hSetAttr (h : header T) (k : string) (v : aval) : header T :=
    {| h_attrs := dset (h_attrs h) k v; h_vals := h_vals h; h_dyn := h_dyn h; h_elems := h_elems h |}.
  Definition hAddElem (h : header T) (e : element T) : header T :=
    {| h_attrs := h_attrs h; h_vals := h_vals h; h_dyn := h_dyn h; h_elems := h_elems h ++ [e] |}.
  Definition hSetVal (h : header T) (k : string) (v : T) : header T :=
    {| h_attrs := h_attrs h; h_vals := dset (h_vals h) k v; h_dyn := h_dyn h; h_elems := h_elems h |}.
  Definition hAddDyn (h : header T) (p : string) : header T :=
    {| h_attrs := h_attrs h; h_vals := h_vals h; h_dyn := h_dyn h ++ [p]; h_elems := h_elems h |}.

  Definition setAttribute (n : node T) (k : string) (v : aval) : node T :=
    match n with Node h b => Node (hSetAttr h k v) b end.

  (** [if value != '': self._attributes[key] = value]. *)
  Definition optAttr (h : header T) (k : string) (v : aval) : header T :=
    if aval_eqb v (AStr "") then h else hSetAttr h k v.
  (** Python truth value of an attribute value. *)
  Definition truthy (v : aval) : bool :=
    match v with AStr s => negb (String.eqb s "") | ABool b => b | ANone => false end.

  (** Range.py 60-86. *)
  Definition newRange (dIn dOut id name style defaultRange : aval) : node T :=
    let h := optAttr (newHeader dIn dOut id name) "style" style in
    Node (if truthy defaultRange then hSetAttr h "defaultRange" defaultRange else h) BRange.
  Definition setValue (n : node T) (k : string) (v : T) : node T :=
    match n with Node h b => Node (hSetVal h k v) b end.
  Definition setMinInValue n v := setValue n "minInValue" v.
  Definition setMaxInValue n v := setValue n "maxInValue" v.
  Definition setMinOutValue n v := setValue n "minOutValue" v.
  Definition setMaxOutValue n v := setValue n "maxOutValue" v.
  Definition setStyle n v := setAttribute n "style" v.
  Definition setDefaultRange (n : node T) (v : aval) : node T :=
    if truthy v then setAttribute n "defaultRange" v
    else match n with
         | Node h b =>
             Node {| h_attrs := ddel (h_attrs h) "defaultRange"; h_vals := h_vals h;
                     h_dyn := h_dyn h; h_elems := h_elems h |} b
         end.

  (** Matrix.py 63-76. *)
  Definition newMatrix (dIn dOut id name : aval) : node T := Node (newHeader dIn dOut id name) BMatrix.
  Definition mkArray (dims : list nat) (vals : list T) (raw int : bool) (enc : string) : array T :=
    {| a_dims := dims; a_vals := vals; a_dt := DtList; a_raw := raw; a_int := int; a_enc := enc |}.
  Definition outIsInteger (n : node T) : bool := bitDepthIsInteger (getOutBitDepth n).
  Definition addElement (n : node T) (e : element T) : node T :=
    match n with Node h b => Node (hAddElem h e) b end.
  Definition setMatrix (n : node T) (dims : list nat) (vals : list T) (enc : string) : node T :=
    addElement n (EArray (mkArray dims vals false (outIsInteger n) enc)).

  (** LUT1D.py 63-107. *)
  Definition newLUT1D (dIn dOut id name interpolation rawHalfs halfDomain : aval) : node T :=
    Node (optAttr (optAttr (optAttr (newHeader dIn dOut id name) "interpolation" interpolation)
                     "rawHalfs" rawHalfs) "halfDomain" halfDomain) BLUT1D.
  Definition setArray1D (n : node T) (dimension : nat) (vals : list T) (enc : string) : res (node T) :=
    let* rows := pydiv (List.length vals) dimension in
    Ok (addElement n (EArray (mkArray [rows; dimension] vals (flagSet (nheader n) "rawHalfs") (outIsInteger n) enc))).
  (** LUT1D.py 79-93 = LUT3D.py 73-87: one map, or three. *)
  Definition mkIndexMap (ins outs : list T) : imap T := {| im_dim := Some (List.length ins); im_in := ins; im_out := outs |}.
  Definition setIndexMaps (n : node T) (r : list T * list T) (gb : option ((list T * list T) * (list T * list T)))
    : node T :=
    let add n v := addElement n (EIndexMap (mkIndexMap (fst v) (snd v))) in
    match gb with
    | None => add n r
    | Some (g, b) => add (add (add n r) g) b
    end.

  (** LUT3D.py 62-100. (setArray also appends 3 to the list object the caller
      passed; that side effect on the caller is not modelled.) *)
  Definition newLUT3D (dIn dOut id name interpolation : aval) : node T :=
    Node (optAttr (newHeader dIn dOut id name) "interpolation" interpolation) BLUT3D.
  Definition setArray3D (n : node T) (dims : list nat) (vals : list T) (enc : string) : node T :=
    addElement n (EArray (mkArray (dims ++ [3]) vals false (outIsInteger n) enc)).

  (** ASCCDL.py 64-79, 256-266. *)
  Definition cdlEmpty : cdl T := {| c_slope := None; c_offset := None; c_power := None; c_sat := None |}.
  Definition newASCCDL (dIn dOut id name style : aval) : node T :=
    Node (hSetAttr (newHeader dIn dOut id name) "style" style) (BCDL cdlEmpty).
  Definition newColorCorrection (dIn dOut id name style : aval) : node T :=
    let h := hSetAttr (newHeader dIn dOut id name) "style" style in
    Node {| h_attrs := ddel (ddel (ddel (ddel (h_attrs h) "inBitDepth") "outBitDepth") "style") "name";
            h_vals := h_vals h; h_dyn := h_dyn h; h_elems := h_elems h |} (BColorCorrection cdlEmpty).
  Definition cdlMap (f : cdl T -> cdl T) (n : node T) : node T :=
    match n with
    | Node h (BCDL v) => Node h (BCDL (f v))
    | Node h (BColorCorrection v) => Node h (BColorCorrection (f v))
    | _ => n
    end.
  Definition setSlope (n : node T) (r g b : T) : node T :=
    cdlMap (fun v => {| c_slope := Some [r; g; b]; c_offset := c_offset v; c_power := c_power v; c_sat := c_sat v |}) n.
  Definition setOffset (n : node T) (r g b : T) : node T :=
    cdlMap (fun v => {| c_slope := c_slope v; c_offset := Some [r; g; b]; c_power := c_power v; c_sat := c_sat v |}) n.
  Definition setPower (n : node T) (r g b : T) : node T :=
    cdlMap (fun v => {| c_slope := c_slope v; c_offset := c_offset v; c_power := Some [r; g; b]; c_sat := c_sat v |}) n.
  Definition setSaturation (n : node T) (s : T) : node T :=
    cdlMap (fun v => {| c_slope := c_slope v; c_offset := c_offset v; c_power := c_power v; c_sat := Some s |}) n.

  (** ExtensionGamma.py 64-73, ExtensionLog.py 66-75, ExtensionExposureContrast.py 64-73. *)
  Definition newGamma (dIn dOut id name style : aval) : node T :=
    Node (hSetAttr (newHeader dIn dOut id name) "style" style) (BGamma []).
  Definition setGamma (n : node T) (gamma offset : T) (channel : option string) : node T :=
    match n with
    | Node h (BGamma ps) => Node h (BGamma (ps ++ [{| g_gamma := gamma; g_offset := offset; g_chan := channel |}]))
    | _ => n
    end.
  Definition newLog (dIn dOut id name style : aval) : node T :=
    Node (hSetAttr (newHeader dIn dOut id name) "style" style) (BLog []).
  Definition setLogParams (n : node T) (gamma refWhite refBlack highlight shadow : T) (channel : option string)
    : node T :=
    match n with
    | Node h (BLog ps) =>
        Node h (BLog (ps ++ [{| l_gamma := gamma; l_white := refWhite; l_black := refBlack;
                                l_high := highlight; l_shadow := shadow; l_chan := channel |}]))
    | _ => n
    end.
  Definition newExposureContrast (dIn dOut id name style : aval) : node T :=
    Node (hSetAttr (newHeader dIn dOut id name) "style" style)
         (BExposureContrast {| e_exposure := n0; e_contrast := n1; e_pivot := n1 |}).
  Definition setExposureContrastPivot (n : node T) (exposure contrast pivot : T) : node T :=
    match n with
    | Node h (BExposureContrast _) =>
        Node h (BExposureContrast {| e_exposure := exposure; e_contrast := contrast; e_pivot := pivot |})
    | _ => n
    end.

  (* ------------------------------------------------------------------ *)
  (** * LUTs sampled from a function *)

  (** [float(i)/(resolution-1)]. *)
  Definition samplePos (i resolution : nat) : res T :=
    pyfdiv (nofZ (Z.of_nat i)) (nofZ (Z.of_nat resolution - 1)).

  (** LUT1D.py 233-240. *)
  Definition sampledTable (channels resolution : nat) (f : T -> T) : res (list T) :=
    for_each (seq 0 resolution) (fun i vals =>
      let* sample := samplePos i resolution in
      for_each (seq 0 channels) (fun c vals => setn vals (i * channels + c) (f sample)) vals)
      (repeat n0 (resolution * channels)).
  (** LUT1D.py 220-243. *)
  Definition simpleSampledLUT (id transformId : aval) (channels resolution : nat) (f : T -> T)
             (dIn dOut : aval) : res (node T) :=
    let* vals := sampledTable channels resolution f in
    setArray1D (newLUT1D dIn dOut id transformId (AStr "linear") (AStr "") (AStr "")) channels vals "string".

  (** LUT1D.py 263-280; [codes] is 65536. *)
  Definition halfTable (channels : nat) (codes : nat) (f : T -> T) : res (list T) :=
    for_each (seq 0 codes) (fun i vals =>
      let fvalue := f (nhalf (Z.of_nat i)) in
      for_each (seq 0 channels) (fun c vals => setn vals (i * channels + c) fvalue) vals)
      (repeat n0 (codes * channels)).
  (** LUT1D.py 248-282. The resolution is written 256 * 256: a plain numeral of
      that size cannot be used with unary numbers. *)
  Definition simpleSampledLUTHalfDomain (id transformId : aval) (channels : nat) (f : T -> T) (rawHalfs dIn dOut : aval)
    : res (node T) :=
    let* vals := halfTable channels (256 * 256) f in
    setArray1D (newLUT1D dIn dOut id transformId (AStr "linear") rawHalfs (ABool true)) channels vals "string".

  (** [l[a:b] = vs] on a Python list, [a <= b]. *)
  Definition pySliceSet (l : list T) (a b : nat) (vs : list T) : list T := firstn a l ++ vs ++ skipn b l.

  (** LUT3D.py 214-232. *)
  Definition table3D (r0 r1 r2 : nat) (f : T -> T -> T -> list T) : res (list T) :=
    for_each (seq 0 r0) (fun x vals =>
      let* samplex := samplePos x r0 in
      for_each (seq 0 r1) (fun y vals =>
        let* sampley := samplePos y r1 in
        for_each (seq 0 r2) (fun z vals =>
          let* samplez := samplePos z r2 in
          let i := (((x * r0 + y) * r1 + z) * 3)%nat in
          Ok (pySliceSet vals i (i + 3) (f samplex sampley samplez))) vals) vals)
      (repeat n0 (r0 * r1 * r2 * 3)).
  (** LUT3D.py 202-238. *)
  Definition simple3DLUT (id transformId : aval) (r0 r1 r2 : nat) (f : T -> T -> T -> list T)
             (dIn dOut : aval) : res (node T) :=
    let* vals := table3D r0 r1 r2 f in
    Ok (setArray3D (newLUT3D dIn dOut id transformId (AStr "trilinear")) [r0; r1; r2] vals "string").
End Build.
