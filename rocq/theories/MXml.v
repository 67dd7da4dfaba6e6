(** Model of the reading and writing half of python/aces/clf: Array, IndexMap,
    Comment, Info, the process nodes and ProcessList, between the objects and the
    element tree of xml.etree.ElementTree. The XML text layer (tostring,
    toprettyxml, parse) is not modelled here; MFiles.v has the files.

    Dictionaries are walked in the order of the model's association lists;
    Python 2 walks them in an arbitrary order. *)
From Verif Require Export MBuild MNumText.
Local Open Scope string_scope.
Local Open Scope list_scope.

(** An Element: tag, attrib, text, children. *)
Inductive xelem : Type :=
| XElem (tag : string) (attrib : list (string * string)) (etext : option string) (children : list xelem).

Definition x_tag (e : xelem) : string := match e with XElem t _ _ _ => t end.
Definition x_attrib (e : xelem) : list (string * string) := match e with XElem _ a _ _ => a end.
Definition x_text (e : xelem) : option string := match e with XElem _ _ x _ => x end.
Definition x_children (e : xelem) : list xelem := match e with XElem _ _ _ c => c end.

(** [s.replace(c, '')]. *)
Definition removeChar (c : ascii) (l : list ascii) : list ascii := filter (fun a => negb (Ascii.eqb a c)) l.
(** [tag[tag.find('}')+1:]]. *)
Fixpoint afterBrace (l : list ascii) : option (list ascii) :=
  match l with
  | [] => None
  | a :: t => if Ascii.eqb a "}" then Some t else afterBrace t
  end.
(** ProcessNode.py 187-192 = ProcessList.py 179-184 = Info.py 87-92: getElementType. *)
Definition elementType (tag : string) : string :=
  let l := match afterBrace (chars tag) with Some t => t | None => chars tag end in
  text (removeChar "_" (removeChar "-" l)).

Definition inList (s : string) (l : list string) : bool := existsb (String.eqb s) l.

Section Xml.
  Context {T : Type} {NM : Num T} {X : NumText T}.

  (* ------------------------------------------------------------------ *)
  (** * Array *)

  Definition knownEncodings : list string :=
    ["integer16bit"; "integer32bit"; "integer64bit"; "hex16bit"; "hex32bit"; "hex64bit"].

  (** Array.py 121-127: setFloatEncoding; the array is changed even when the call
      raises. *)
  Definition setFloatEncoding (compat : Z) (a : array T) (enc : string) : array T * res unit :=
    let put e := {| a_dims := a_dims a; a_vals := a_vals a; a_dt := a_dt a; a_raw := a_raw a;
                    a_int := a_int a; a_enc := e |} in
    if duiker_on compat then (put enc, Ok tt) else (put "string", Err UnsupportedExtensionError).

  (** Common.py 92-133: one value as the text of an encoding, without padding.
      struct.pack(">f") refuses a finite number beyond the float32 range. *)
  Definition uint16Word (x : T) : res string := Ok (zText (nhbits x)).
  Definition uint32Word (x : T) : res string := Ok (zText (Z.of_N (tbits32 x))).
  Definition uint64Word (x : T) : res string := Ok (zText (Z.of_N (tbits64 x))).
  Definition hex16Word (x : T) : res string := Ok (text (hexDigits 4 (Z.to_N (nhbits x)))).
  Definition hex32Word (x : T) : res string :=
    if tover32 x then Err OverflowError else Ok (text (hexDigits 8 (tbits32 x))).
  Definition hex64Word (x : T) : res string := Ok (text (hexDigits 16 (tbits64 x))).
  Definition decimalWord (x : T) : res string := Ok (formatFixed 9 x).

  (** [" ".join(map(lambda x: "%ws" % word(x), sample))]. *)
  Definition rowOf (w : nat) (word : T -> res string) (sample : list T) : res string :=
    let* ws := mapM word sample in Ok (join " " (map (padLeft w) ws)).

  (** Array.py 151-203: the text of one row. The integer text of 154-155 is
      overwritten below, but [int(x)] can raise. ["%6.9f"] pads to 6 before "%15s"
      pads to 15; one padding to 15 is the same. *)
  Definition rowText (compat : Z) (a : array T) (sample : list T) : res string :=
    let* _ := if a_int a then mapM pyint sample else Ok [] in
    if negb (String.eqb (a_enc a) "string") then
      if duiker_on compat then
        if a_raw a || String.eqb (a_enc a) "integer16bit" then rowOf 15 uint16Word sample
        else if String.eqb (a_enc a) "integer32bit" then rowOf 15 uint32Word sample
        else if String.eqb (a_enc a) "integer64bit" then rowOf 15 uint64Word sample
        else if String.eqb (a_enc a) "hex16bit" then rowOf 15 hex16Word sample
        else if String.eqb (a_enc a) "hex32bit" then rowOf 15 hex32Word sample
        else if String.eqb (a_enc a) "hex64bit" then rowOf 16 hex64Word sample
        else rowOf 15 decimalWord sample
      else Err UnsupportedExtensionError
    else if a_raw a then rowOf 15 uint16Word sample
    else rowOf 15 decimalWord sample.

  (** Array.py 140-146. *)
  Definition arrayColumns (dims : list nat) : res nat :=
    let n := List.length dims in
    if Nat.eqb n 2 || Nat.eqb n 4 then getn dims (n - 1) else getn dims 1.

  (** Array.py 133-209: write. The attribute floatEncoding is set inside the row
      loop (166-168). *)
  Definition arrayWrite (compat : Z) (a : array T) : res xelem :=
    let* columns := arrayColumns (a_dims a) in
    let* n := pydiv (List.length (a_vals a)) columns in
    let* rows := mapM (fun i => rowText compat a (slice (a_vals a) (i * columns) ((i + 1) * columns))) (seq 0 n) in
    let enc := match n with
               | O => []
               | _ => if inList (a_enc a) knownEncodings then [("floatEncoding", a_enc a)] else []
               end in
    let body := fold_left (fun acc r => (acc ++ r ++ text ["010"%char])%string) rows (text ["010"%char]) in
    Ok (XElem "Array" (("dim", join " " (map natText (a_dims a))) :: enc)
              (Some (body ++ text ["009"%char; "009"%char])%string) []).

  (** [int(x)] of a dimension; a negative dimension is outside the model. *)
  Definition parseDim (s : string) : res nat :=
    let* z := parseInt s in if (z <? 0)%Z then Err ValueError else Ok (Z.to_nat z).
  (** [np.uint16(text)] and so on; a number that does not fit is outside the
      model (an error). *)
  Definition parseUInt (bits : N) (s : string) : res N :=
    let* z := parseInt s in
    if (0 <=? z)%Z && (z <? Z.of_N (2 ^ bits))%Z then Ok (Z.to_N z) else Err ValueError.

  (** Array.py 219-241: how a word is read, and into what kind of array. *)
  Definition readsAs (raw : bool) (enc : string) : dtype * (string -> res T) :=
    if raw || String.eqb enc "integer16bit" then
      (DtF16, fun s => let* n := parseUInt 16 s in Ok (nhalf (Z.of_N n)))
    else if String.eqb enc "integer32bit" then (DtF32, fun s => let* n := parseUInt 32 s in Ok (tof32 n))
    else if String.eqb enc "integer64bit" then (DtF64, fun s => let* n := parseUInt 64 s in Ok (tof64 n))
    else if String.eqb enc "hex16bit" then (DtF16, fun s => let* n := parseHex 4 s in Ok (nhalf (Z.of_N n)))
    else if String.eqb enc "hex32bit" then (DtF32, fun s => let* n := parseHex 8 s in Ok (tof32 n))
    else if String.eqb enc "hex64bit" then (DtF64, fun s => let* n := parseHex 16 s in Ok (tof64 n))
    else (DtF32, parseFloat).

  (** Storing into a numpy array of a dtype. *)
  Definition storeAs (dt : dtype) (x : T) : T :=
    match dt with DtF16 => nf16 x | DtF32 => nf32 x | DtF64 | DtList => x end.

  (** Array.py 211-248: read, on an array [a] made by Array(rawHalfs=…). *)
  Definition arrayRead (a : array T) (e : xelem) : res (array T) :=
    let* dims := match dget (x_attrib e) "dim" with
                 | Some v => mapM parseDim (split v)
                 | None => Ok (a_dims a)
                 end in
    let enc := match dget (x_attrib e) "floatEncoding" with Some v => v | None => a_enc a end in
    let '(dt, cast) := readsAs (a_raw a) enc in
    match x_text e with
    | None => Err AttributeError
    | Some t =>
        let* vals := mapM (fun s => let* v := cast s in Ok (storeAs dt v)) (split t) in
        Ok {| a_dims := dims; a_vals := vals; a_dt := dt; a_raw := a_raw a; a_int := a_int a; a_enc := enc |}
    end.
  (** Array(rawHalfs=raw). *)
  Definition emptyArray (raw : bool) : array T := mkArray [] [] raw false "string".

  (* ------------------------------------------------------------------ *)
  (** * IndexMap *)

  (** [map(lambda a, b: …, l1, l2)]: the shorter list is filled up with None. *)
  Fixpoint padZip {A B} (l1 : list A) (l2 : list B) : list (option A * option B) :=
    match l1, l2 with
    | [], [] => []
    | a :: t1, [] => (Some a, None) :: padZip t1 []
    | [], b :: t2 => (None, Some b) :: (fix go l := match l with [] => [] | b :: t => (None, Some b) :: go t end) t2
    | a :: t1, b :: t2 => (Some a, Some b) :: padZip t1 t2
    end.
  (** IndexMap.py 155-162: write. *)
  Definition imapPair (p : option T * option T) : res string :=
    match p with
    | (Some a, Some b) => let* n := pyint b in Ok (formatStr a ++ "@" ++ zText n)%string
    | _ => Err TypeError
    end.
  Definition imapWrite (m : imap T) : res xelem :=
    let* ws := mapM imapPair (padZip (im_in m) (im_out m)) in
    Ok (XElem "IndexMap" [("dim", match im_dim m with Some n => natText n | None => "[]"%string end)] (Some (join " " ws)) []).
  (** IndexMap.py 165-173: read. Without a dim attribute the dimension stays [[]]. *)
  Definition imapRead (e : xelem) : res (imap T) :=
    let* d := match dget (x_attrib e) "dim" with Some v => let* n := parseDim v in Ok (Some n) | None => Ok None end in
    match x_text e with
    | None => Err AttributeError
    | Some t =>
        let half k p := let* w := getn (splitAt "@" p) k in parseFloat w in
        let* ins := mapM (half 0%nat) (split t) in
        let* outs := mapM (half 1%nat) (split t) in
        Ok {| im_dim := d; im_in := ins; im_out := outs |}
    end.

  (* ------------------------------------------------------------------ *)
  (** * Comments and Info *)

  Definition leaf (tag : string) (x : option string) : xelem := XElem tag [] x [].

  (** Comment.py 75-79 and Info.py 80-84: write. *)
  Definition plelemWrite (e : plelem) : xelem :=
    match e with
    | PEComment kind x => leaf kind x
    | PEInfo cs => XElem "Info" [] None (map (fun '(k, x) => leaf k x) cs)
    end.
  (** Info.py 94-107: read. *)
  Definition infoRead (children : list xelem) : list (string * option string) :=
    flat_map (fun ch => let ty := elementType (x_tag ch) in
                        if inList ty ["AppRelease"; "Copyright"; "Release"] then [(ty, x_text ch)] else []) children.

  (* ------------------------------------------------------------------ *)
  (** * Writing nodes *)

  (** ["%s" % value]. *)
  Definition avalText (v : aval) : string :=
    match v with AStr s => s | ABool true => "True" | ABool false => "False" | ANone => "None" end.

  Definition elementWrite (compat : Z) (e : element T) : res xelem :=
    match e with
    | EDesc x => Ok (leaf "Description" x)
    | EArray a => arrayWrite compat a
    | EIndexMap m => imapWrite m
    | EMisc p => Ok (plelemWrite p)
    end.

  (** ASCCDL.py 85-100. *)
  Definition floatsText (vs : list T) : string := join " " (map formatStr vs).
  Definition cdlChildren (v : cdl T) : list xelem :=
    let part tag (o : option (list T)) := match o with Some vs => [leaf tag (Some (floatsText vs))] | None => [] end in
    [ XElem "SOPNode" [] None (part "Slope" (c_slope v) ++ part "Offset" (c_offset v) ++ part "Power" (c_power v));
      XElem "SatNode" [] None (match c_sat v with Some s => [leaf "Saturation" (Some (formatStr s))] | None => [] end) ].

  (** ExtensionGamma.py 80-86. *)
  Definition gammaChild (p : gparam T) : xelem :=
    XElem "GammaParams"
      (("gamma", formatStr (g_gamma p)) ::
       (if negb (neqb (g_offset p) n0) then [("offset", formatStr (g_offset p))] else []) ++
       match g_chan p with Some ch => [("channel", ch)] | None => [] end) None [].
  (** ExtensionLog.py 82-90. *)
  Definition logChild (p : lparam T) : xelem :=
    XElem "LogParams"
      ([("gamma", formatStr (l_gamma p)); ("refWhite", formatStr (l_white p)); ("refBlack", formatStr (l_black p));
        ("highlight", formatStr (l_high p)); ("shadow", formatStr (l_shadow p))] ++
       match l_chan p with Some ch => [("channel", ch)] | None => [] end) None [].
  (** ExtensionExposureContrast.py 79-84. *)
  Definition ecChild (p : eparam T) : xelem :=
    XElem "ECParams" [("exposure", formatStr (e_exposure p)); ("contrast", formatStr (e_contrast p));
                      ("pivot", formatStr (e_pivot p))] None [].

  (** The nodeType each constructor passes to ProcessNode.__init__. *)
  Definition nodeTag (b : body T) : string :=
    match b with
    | BRange => "Range"
    | BMatrix => "Matrix"
    | BLUT1D => "LUT1D"
    | BLUT3D => "LUT3D"
    | BCDL _ => "ASC_CDL"
    | BColorCorrection _ => "ColorCorrection"
    | BGamma _ => "Gamma"
    | BLog _ => "Log"
    | BExposureContrast _ => "ExposureContrast"
    | BReference _ _ => "Reference"
    | BGroup _ => "Group"
    end.

  (** ProcessNode.py 154-176: attributes, value elements, dynamic parameters and
      elements; [more] are the children the subclass adds. *)
  Definition headerWrite (compat : Z) (tag : string) (h : header T) (more : list xelem) : res xelem :=
    let* es := mapM (elementWrite compat) (h_elems h) in
    Ok (XElem tag (map (fun '(k, v) => (k, avalText v)) (h_attrs h)) None
          (map (fun '(k, v) => leaf k (Some (formatStr v))) (h_vals h) ++
           map (fun p => XElem "DynamicParameter" [("param", p)] None []) (h_dyn h) ++
           es ++ more)).

  (** The children a node type adds after its header, other than nested nodes. *)
  Definition bodyChildren (b : body T) : list xelem :=
    match b with
    | BCDL v | BColorCorrection v => cdlChildren v
    | BGamma ps => map gammaChild ps
    | BLog ps => map logChild ps
    | BExposureContrast p => [ecChild p]
    | _ => []
    end.

  (** A node's [write]: the elements it appends to the tree. A Reference appends
      the referenced nodes if told so (ExtensionReference.py 105-114); [flag] is
      what setWriteReferencedNodes was just called with, if it was. A Group
      writes its nodes after its header (ExtensionGroup.py 84-95). *)
  Fixpoint nodeWrite (compat : Z) (flag : option bool) (n : node T) {struct n} : res (list xelem) :=
    match n with
    | Node h b =>
        match b with
        | BReference w pl =>
            if match flag with Some f => f | None => w end then
              match pl with
              | None => Err AttributeError
              | Some (PList _ _ _ ps) =>
                  (fix go (ps : list (node T)) : res (list xelem) :=
                     match ps with
                     | [] => Ok []
                     | p :: t => let* e := nodeWrite compat None p in let* es := go t in Ok (e ++ es)
                     end) ps
              end
            else let* e := headerWrite compat (nodeTag b) h [] in Ok [e]
        | BGroup ps =>
            let* e := headerWrite compat (nodeTag b) h [] in
            let* es := (fix go (ps : list (node T)) : res (list xelem) :=
                          match ps with
                          | [] => Ok []
                          | p :: t => let* e := nodeWrite compat (Some false) p in let* es := go t in Ok (e ++ es)
                          end) ps in
            match e with XElem tag at_ x cs => Ok [XElem tag at_ x (cs ++ es)] end
        | _ => let* e := headerWrite compat (nodeTag b) h (bodyChildren b) in Ok [e]
        end
    end.
  Definition nodesWrite (compat : Z) (flag : option bool) : list (node T) -> res (list xelem) :=
    fix go (ps : list (node T)) : res (list xelem) :=
      match ps with
      | [] => Ok []
      | p :: t => let* e := nodeWrite compat flag p in let* es := go t in Ok (e ++ es)
      end.

  (** ProcessList.py 119-148: write. *)
  Definition listWrite (compat : Z) (selfContained : bool) (l : plist T) : res xelem :=
    match l with
    | PList attrs vals elems procs =>
        let* ns := nodesWrite compat (Some selfContained) procs in
        Ok (XElem "ProcessList" attrs None
              (map (fun '(k, v) => leaf k (Some (formatStr v))) vals ++ map plelemWrite elems ++ ns))
    end.

  (* ------------------------------------------------------------------ *)
  (** * Reading nodes *)

  (** ProcessNode.py 199-200. *)
  Definition attrValue (s : string) : aval :=
    if String.eqb s "True" then ABool true else if String.eqb s "False" then ABool false else AStr s.

  (** The class registered for a tag (ProcessListChildMeta registers every class by
      its Python name) with the object its constructor makes without arguments. *)
  Definition d16f : aval := AStr "16f".
  Definition newNodeOf (ty : string) : option (node T) :=
    if String.eqb ty "Range" then Some (newRange d16f d16f (AStr "") (AStr "") (AStr "") ANone)
    else if String.eqb ty "Matrix" then Some (newMatrix d16f d16f (AStr "") (AStr ""))
    else if String.eqb ty "LUT1D" then Some (newLUT1D d16f d16f (AStr "") (AStr "") (AStr "linear") (AStr "") (AStr ""))
    else if String.eqb ty "LUT3D" then Some (newLUT3D d16f d16f (AStr "") (AStr "") (AStr "trilinear"))
    else if String.eqb ty "ASCCDL" then Some (newASCCDL d16f d16f (AStr "") (AStr "") (AStr "Fwd"))
    else if String.eqb ty "ColorCorrection" then Some (newColorCorrection d16f d16f (AStr "") (AStr "") (AStr "Fwd"))
    else if String.eqb ty "Gamma" then Some (newGamma d16f d16f (AStr "") (AStr "") (AStr "basicFwd"))
    else if String.eqb ty "Log" then Some (newLog d16f d16f (AStr "") (AStr "") (AStr "log10"))
    else if String.eqb ty "ExposureContrast" then Some (newExposureContrast d16f d16f (AStr "") (AStr "") (AStr "linear"))
    else if String.eqb ty "Reference" then Some (Node (newHeader d16f d16f (AStr "") (AStr "")) (BReference false None))
    else if String.eqb ty "Group" then Some (Node (newHeader d16f d16f (AStr "") (AStr "")) (BGroup []))
    else None.

  (** [float(element.text)]: None is a TypeError. *)
  Definition floatText (x : option string) : res T :=
    match x with None => Err TypeError | Some s => parseFloat s end.
  (** [map(float, element.text.split())]: None has no split. *)
  Definition floatsOf (x : option string) : res (list T) :=
    match x with None => Err AttributeError | Some s => mapM parseFloat (split s) end.

  (** Reading an optional number from attributes. *)
  Definition attrFloat (at_ : list (string * string)) (k : string) (dflt : T) : res T :=
    match dget at_ k with Some s => parseFloat s | None => Ok dflt end.

  (** ASCCDL.py 104-121. *)
  Definition sopRead (children : list xelem) (v : cdl T) : res (cdl T) :=
    for_each children (fun ch v =>
      let ty := elementType (x_tag ch) in
      if String.eqb ty "Slope" then
        let* vs := floatsOf (x_text ch) in
        Ok {| c_slope := Some vs; c_offset := c_offset v; c_power := c_power v; c_sat := c_sat v |}
      else if String.eqb ty "Offset" then
        let* vs := floatsOf (x_text ch) in
        Ok {| c_slope := c_slope v; c_offset := Some vs; c_power := c_power v; c_sat := c_sat v |}
      else if String.eqb ty "Power" then
        let* vs := floatsOf (x_text ch) in
        Ok {| c_slope := c_slope v; c_offset := c_offset v; c_power := Some vs; c_sat := c_sat v |}
      else Ok v) v.
  Definition satRead (children : list xelem) (v : cdl T) : res (cdl T) :=
    for_each children (fun ch v =>
      if String.eqb (elementType (x_tag ch)) "Saturation" then
        let* s := floatText (x_text ch) in
        Ok {| c_slope := c_slope v; c_offset := c_offset v; c_power := c_power v; c_sat := Some s |}
      else Ok v) v.
  Definition cdlRead (e : xelem) (v : cdl T) : res (cdl T) :=
    let ty := lower (elementType (x_tag e)) in
    if String.eqb ty "sopnode" then sopRead (x_children e) v
    else if String.eqb ty "satnode" then satRead (x_children e) v
    else Ok v.

  (** ExtensionGamma.py 91-103. *)
  Definition gammaRead (at_ : list (string * string)) : res (gparam T) :=
    let* g := attrFloat at_ "gamma" n0 in
    let* o := attrFloat at_ "offset" n0 in
    Ok {| g_gamma := g; g_offset := o; g_chan := dget at_ "channel" |}.
  (** ExtensionLog.py 95-113. *)
  Definition logRead (at_ : list (string * string)) : res (lparam T) :=
    let* g := attrFloat at_ "gamma" (nlit 6 10) in
    let* w := attrFloat at_ "refWhite" (nofZ 685) in
    let* b := attrFloat at_ "refBlack" (nofZ 95) in
    let* hi := attrFloat at_ "highlight" n1 in
    let* sh := attrFloat at_ "shadow" n0 in
    Ok {| l_gamma := g; l_white := w; l_black := b; l_high := hi; l_shadow := sh; l_chan := dget at_ "channel" |}.
  (** ExtensionExposureContrast.py 89-101. *)
  Definition ecRead (at_ : list (string * string)) : res (eparam T) :=
    let* e := attrFloat at_ "exposure" n0 in
    let* co := attrFloat at_ "contrast" n1 in
    let* p := attrFloat at_ "pivot" n1 in
    Ok {| e_exposure := e; e_contrast := co; e_pivot := p |}.

  (** LUT1D.py 120-137, LUT3D.py 112-128, Matrix.py 78-90: an Array child; the
      integer flag is set after reading. *)
  Definition arrayChild (n : node T) (raw : bool) (e : xelem) : res (node T) :=
    let* a := arrayRead (emptyArray raw) e in
    Ok (addElement n (EArray {| a_dims := a_dims a; a_vals := a_vals a; a_dt := a_dt a; a_raw := a_raw a;
                                a_int := outIsInteger n; a_enc := a_enc a |})).
  Definition imapChild (n : node T) (e : xelem) : res (node T) :=
    let* m := imapRead e in Ok (addElement n (EIndexMap m)).

  (** What a child element of a document turns into. *)
  Inductive item : Type :=
  | INode (n : node T)
  | IElem (e : plelem)
  | IUnknown.

  Definition rangeLimits : list string := ["minInValue"; "maxInValue"; "minOutValue"; "maxOutValue"].

  (** The readChild methods (Range.py 88-99, Matrix.py, LUT1D.py, LUT3D.py, ASCCDL.py,
      ExtensionGamma.py, ExtensionLog.py, ExtensionExposureContrast.py,
      ExtensionGroup.py 97-115, ProcessNode.py 178-181 for Reference). [sub] is the
      child read as an item of its own, which only a Group asks for. *)
  Definition readChild (n : node T) (e : xelem) (sub : res item) : res (node T) :=
    let ty := elementType (x_tag e) in
    match n with
    | Node h b =>
        match b with
        | BRange =>
            if inList ty rangeLimits then let* v := floatText (x_text e) in Ok (Node (hSetVal h ty v) b) else Ok n
        | BMatrix => if String.eqb ty "Array" then arrayChild n false e else Ok n
        | BLUT1D =>
            if String.eqb ty "Array" then arrayChild n (flagSet h "rawHalfs") e
            else if String.eqb ty "IndexMap" then imapChild n e else Ok n
        | BLUT3D =>
            if String.eqb ty "Array" then arrayChild n false e
            else if String.eqb ty "IndexMap" then imapChild n e else Ok n
        | BCDL v => let* v' := cdlRead e v in Ok (Node h (BCDL v'))
        | BColorCorrection v => let* v' := cdlRead e v in Ok (Node h (BColorCorrection v'))
        | BGamma ps =>
            if String.eqb ty "GammaParams" then let* p := gammaRead (x_attrib e) in Ok (Node h (BGamma (ps ++ [p])))
            else Ok n
        | BLog ps =>
            if String.eqb ty "LogParams" then let* p := logRead (x_attrib e) in Ok (Node h (BLog (ps ++ [p])))
            else Ok n
        | BExposureContrast _ =>
            if String.eqb ty "ECParams" then let* p := ecRead (x_attrib e) in Ok (Node h (BExposureContrast p))
            else Ok n
        | BReference _ _ => Ok n
        | BGroup ps =>
            let* i := sub in
            match i with
            | INode p => Ok (Node h (BGroup (ps ++ [p])))
            | IElem x => Ok (addElement n (EMisc x))
            | IUnknown => Ok n
            end
        end
    end.

  (** ProcessNode.py 206-235: one child. *)
  Definition nodeChild (compat : Z) (strict : bool) (n : node T) (e : xelem) (sub : res item) : res (node T) :=
    let ty := elementType (x_tag e) in
    if String.eqb ty "Description" then Ok (addElement n (EDesc (x_text e)))
    else if String.eqb ty "DynamicParameter" then
      if autodesk_on compat then
        Ok (match dget (x_attrib e) "param" with
            | Some v => match n with Node h b => Node (hAddDyn h v) b end
            | None => n
            end)
      else if strict then Err UnsupportedExtensionError else Ok n
    else readChild n e sub.

  (** [os.path.join(basePath, path)] (posixpath). *)
  Definition startsSlash (s : string) : bool := match s with String a _ => Ascii.eqb a "/" | _ => false end.
  Definition endsSlash (s : string) : bool :=
    match rev (chars s) with a :: _ => Ascii.eqb a "/" | [] => true end.
  Definition pathJoin (base path : string) : string :=
    if startsSlash path then path else if endsSlash base then (base ++ path)%string else (base ++ "/" ++ path)%string.

  (** ExtensionReference.py 63-74, 91-97, 116-131: resolve the path and load what is there.
      [load] is os.path.exists plus ProcessList(path): None for a missing file. A
      path read as a boolean has no string methods. *)
  Definition pathAttr (h : header T) (k : string) : aval :=
    match dget (h_attrs h) k with Some v => v | None => AStr "" end.
  Definition resolvePath (h : header T) : res string :=
    match pathAttr h "path" with
    | AStr p =>
        if startsSlash p then Ok p
        else match pathAttr h "basePath" with AStr b => Ok (pathJoin b p) | _ => Err AttributeError end
    | _ => Err AttributeError
    end.
  Definition readInitialize (load : string -> res (option (plist T))) (n : node T) : res (node T) :=
    match n with
    | Node h (BReference w _) =>
        let* p := resolvePath h in
        let* pl := load p in
        Ok (Node h (BReference w pl))
    | _ => Ok n
    end.

  (** ProcessNode.py 194-238: read, on the object [n] the class constructor made;
      [sub] reads a child as an item. *)
  Definition setAttrs (n : node T) (at_ : list (string * string)) : node T :=
    fold_left (fun n '(k, v) => setAttribute n k (attrValue v)) at_ n.

  Definition commentKinds : list string := ["Comment"; "Description"; "InputDescriptor"; "OutputDescriptor"].

  (** One child element of a ProcessList or Group: the registered class is
      instantiated and reads it (ProcessList.py 195-205, ExtensionGroup.py 97-104). The
      class ProcessNode itself needs an argument. *)
  Fixpoint readItem (compat : Z) (load : string -> res (option (plist T))) (strict : bool) (e : xelem) {struct e}
    : res item :=
    match e with
    | XElem tag at_ x children =>
        let ty := elementType tag in
        if inList ty commentKinds then Ok (IElem (PEComment ty x))
        else if String.eqb ty "Info" then Ok (IElem (PEInfo (infoRead children)))
        else if String.eqb ty "ProcessNode" then Err TypeError
        else match newNodeOf ty with
             | None => Ok IUnknown
             | Some n =>
                 let* n := (fix go (cs : list xelem) (n : node T) : res (node T) :=
                              match cs with
                              | [] => Ok n
                              | ch :: t =>
                                  let* n := nodeChild compat strict n ch (readItem compat load false ch) in go t n
                              end) children (setAttrs n at_) in
                 let* n := readInitialize load n in
                 Ok (INode n)
             end
    end.

  (** ProcessList.py 212-216. *)
  Definition gated (compat : Z) (ty : string) : bool :=
    (inList ty ["ExposureContrast"; "Gamma"; "Log"; "Reference"] && negb (autodesk_on compat))
    || (String.eqb ty "Group" && negb (duiker_on compat)).

  (** ProcessList.py 196-233: one child of the root. *)
  Definition listChild (compat : Z) (load : string -> res (option (plist T))) (strict : bool) (l : plist T) (e : xelem)
    : res (plist T) :=
    match l with
    | PList attrs vals elems procs =>
        let* i := readItem compat load strict e in
        match i with
        | INode n =>
            if gated compat (elementType (x_tag e)) && strict then Err UnsupportedExtensionError
            else Ok (PList attrs vals elems (procs ++ [n]))
        | IElem x => Ok (PList attrs vals (elems ++ [x]) procs)
        | IUnknown => if strict then Err UnknownProcessNodeError else Ok l
        end
    end.

  Definition setListAttrs (l : plist T) (at_ : list (string * string)) : plist T :=
    match l with
    | PList attrs vals elems procs => PList (fold_left (fun d '(k, v) => dset d k v) at_ attrs) vals elems procs
    end.

  (** ProcessList.py 187-234: read, into the list [l]. *)
  Definition listRead (compat : Z) (load : string -> res (option (plist T))) (strict : bool) (l : plist T) (root : xelem)
    : res (plist T) :=
    for_each (x_children root) (fun e l => listChild compat load strict l e) (setListAttrs l (x_attrib root)).

  Definition emptyList : plist T := PList [] [] [] [].
End Xml.
Arguments item T : clear implicits.
