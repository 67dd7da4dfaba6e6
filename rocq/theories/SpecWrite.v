(** Vocabulary for writing a process list and reading it back. *)
From Coq Require Import Reals.
From Flocq Require Import Core BinarySingleNaN.
From Verif Require Export SpecXml.
Local Open Scope string_scope.
Local Open Scope list_scope.

(** [y] is the double nearest to [x] printed with twelve significant digits. *)
Definition throughDigits (x y : fl) : Prop :=
  match x with
  | B754_finite s _ _ _ =>
      exists v k : Z, (10 ^ 11 <= v < 10 ^ 12)%Z /\
        let d := (IZR v * powerRZ 10 k)%R in
        (Rabs (d - Rabs (B2R x)) <= powerRZ 10 k / 2)%R /\
        let r := round radix2 (FLT_exp (-1074) 53) ZnearestE (if s then - d else d)%R in
        if Rlt_bool (Rabs r) (bpow radix2 1024) then is_finite y = true /\ B2R y = r /\ Bsign y = s
        else y = B754_infinity s
  | _ => y = x
  end.

Section Kept.
  Context {T : Type} {NM : Num T} {X : NumText T}.

  (** A number after str() and float(); after "%d" and float(). *)
  Definition viaStr (x : T) : T := tround (tsig12 x).
  Definition viaInt (x : T) : T := tround (NumDec (ntrunc x <? 0)%Z (Z.abs_N (ntrunc x)) 0).

  (** A table value after writing and reading; the kind of numpy array it is read
      into. *)
  Definition viaArray (raw : bool) (enc : string) (x : T) : T :=
    if raw || inList enc ["integer16bit"; "hex16bit"] then nf16 x
    else if inList enc ["integer32bit"; "hex32bit"] then nf32 x
    else if inList enc ["integer64bit"; "hex64bit"] then x
    else nf32 (tround (tfixed 9 x)).
  Definition arrayKind (raw : bool) (enc : string) : dtype :=
    if raw || inList enc ["integer16bit"; "hex16bit"] then DtF16
    else if inList enc ["integer64bit"; "hex64bit"] then DtF64 else DtF32.

  Definition keptRows (a : array T) : list T :=
    match rowLength (a_dims a) with Some k => completeRows k (a_vals a) | None => [] end.
  (** An array without a complete row loses its encoding. *)
  Definition keptEncoding (a : array T) : string :=
    match keptRows a with
    | [] => "string"
    | _ => if inList (a_enc a) knownEncodings then a_enc a else "string"
    end.
  Definition keptArr (integers : bool) (a : array T) : array T :=
    {| a_dims := a_dims a;
       a_vals := map (viaArray (a_raw a) (a_enc a)) (keptRows a);
       a_dt := arrayKind (a_raw a) (keptEncoding a);
       a_raw := a_raw a; a_int := integers; a_enc := keptEncoding a |}.
  Definition keptIMap (m : imap T) : imap T :=
    {| im_dim := im_dim m; im_in := map viaStr (im_in m); im_out := map viaInt (im_out m) |}.

  Definition keptElement (integers : bool) (e : element T) : element T :=
    match e with
    | EArray a => EArray (keptArr integers a)
    | EIndexMap m => EIndexMap (keptIMap m)
    | _ => e
    end.
  Definition keptHeader (h : header T) : header T :=
    {| h_attrs := h_attrs h;
       h_vals := map (fun kv => (fst kv, viaStr (snd kv))) (h_vals h);
       h_dyn := h_dyn h;
       h_elems := map (keptElement (bitDepthIsInteger (match dget (h_attrs h) "outBitDepth" with Some v => v | None => ANone end)))
                      (h_elems h) |}.
  Definition keptCdl (v : cdl T) : cdl T :=
    {| c_slope := option_map (map viaStr) (c_slope v); c_offset := option_map (map viaStr) (c_offset v);
       c_power := option_map (map viaStr) (c_power v); c_sat := option_map viaStr (c_sat v) |}.
  (** An offset equal to zero is not written. *)
  Definition keptGamma (p : gparam T) : gparam T :=
    {| g_gamma := viaStr (g_gamma p);
       g_offset := if neqb (g_offset p) n0 then n0 else viaStr (g_offset p);
       g_chan := g_chan p |}.
  Definition keptLog (p : lparam T) : lparam T :=
    {| l_gamma := viaStr (l_gamma p); l_white := viaStr (l_white p); l_black := viaStr (l_black p);
       l_high := viaStr (l_high p); l_shadow := viaStr (l_shadow p); l_chan := l_chan p |}.
  Definition keptEC (p : eparam T) : eparam T :=
    {| e_exposure := viaStr (e_exposure p); e_contrast := viaStr (e_contrast p); e_pivot := viaStr (e_pivot p) |}.

  (** The node, and the list, with the numbers as their text keeps them. *)
  Fixpoint keptNode (n : node T) : node T :=
    match n with
    | Node h b =>
        Node (keptHeader h)
          match b with
          | BRange => BRange
          | BMatrix => BMatrix
          | BLUT1D => BLUT1D
          | BLUT3D => BLUT3D
          | BCDL v => BCDL (keptCdl v)
          | BColorCorrection v => BColorCorrection (keptCdl v)
          | BGamma ps => BGamma (map keptGamma ps)
          | BLog ps => BLog (map keptLog ps)
          | BExposureContrast p => BExposureContrast (keptEC p)
          | BReference _ pl => BReference false pl
          | BGroup ps => BGroup (map keptNode ps)
          end
    end.
  Definition keptList (l : plist T) : plist T :=
    match l with PList attrs vals elems procs => PList attrs vals elems (map keptNode procs) end.

  (** ** What a document can hold *)

  (** An attribute value that its text determines: a boolean, or a string other than
      True and False. *)
  Definition plainValue (v : aval) : Prop :=
    match v with
    | AStr s => s <> "True" /\ s <> "False"
    | ABool _ => True
    | ANone => False
    end.
  (** The attributes the constructor of a node type always sets. *)
  Definition ownAttributes (b : body T) : list string :=
    match b with
    | BRange | BMatrix | BReference _ _ | BGroup _ => ["inBitDepth"; "outBitDepth"; "id"; "name"]
    | BLUT1D | BLUT3D => ["inBitDepth"; "outBitDepth"; "id"; "name"; "interpolation"]
    | BCDL _ | BGamma _ | BLog _ | BExposureContrast _ => ["inBitDepth"; "outBitDepth"; "id"; "name"; "style"]
    | BColorCorrection _ => ["id"]
    end.
  (** No attribute twice (it is a dictionary), the constructor's first. *)
  Definition attributesOk (b : body T) (attrs : list (string * aval)) : Prop :=
    NoDup (map fst attrs) /\ (exists more, map fst attrs = ownAttributes b ++ more) /\
    Forall (fun kv => plainValue (snd kv)) attrs.
  (** Only a Range has value elements, the four limits. *)
  Definition valuesOk (b : body T) (vals : list (string * T)) : Prop :=
    match b with
    | BRange => NoDup (map fst vals) /\ Forall (fun kv => In (fst kv) rangeLimits) vals
    | _ => vals = []
    end.
  Definition infoKinds : list string := ["AppRelease"; "Copyright"; "Release"].
  Definition elementOk (h : header T) (b : body T) (e : element T) : Prop :=
    match e with
    | EDesc _ => True
    | EArray a =>
        match b with
        | BMatrix | BLUT3D => a_raw a = false
        | BLUT1D => a_raw a = flagSet h "rawHalfs"
        | _ => False
        end
    | EIndexMap m => (b = BLUT1D \/ b = BLUT3D) /\ im_dim m <> None
    | EMisc x =>
        (exists ps, b = BGroup ps) /\
        match x with
        | PEComment k _ => In k ["Comment"; "InputDescriptor"; "OutputDescriptor"]
        | PEInfo cs => Forall (fun kv => In (fst kv) infoKinds) cs
        end
    end.

  (** [load] finds the list a Reference refers to where the Reference points. *)
  Definition headerOk (h : header T) (b : body T) : Prop :=
    attributesOk b (h_attrs h) /\ valuesOk b (h_vals h) /\ Forall (elementOk h b) (h_elems h).
  Fixpoint storable (load : string -> res (option (plist T))) (n : node T) : Prop :=
    match n with
    | Node h b =>
        headerOk h b /\
        match b with
        | BReference _ pl => exists path, resolvePath h = Ok path /\ load path = Ok pl
        | BGroup ps =>
            (fix all (ps : list (node T)) : Prop :=
               match ps with [] => True | p :: t => storable load p /\ all t end) ps
        | _ => True
        end
    end.
  Definition storableList (load : string -> res (option (plist T))) (l : plist T) : Prop :=
    match l with
    | PList attrs vals elems procs =>
        NoDup (map fst attrs) /\ vals = [] /\
        Forall (fun x => match x with
                         | PEComment k _ => In k commentKinds
                         | PEInfo cs => Forall (fun kv => In (fst kv) infoKinds) cs
                         end) elems /\
        Forall (storable load) procs
    end.

  (** ** Lists whose numbers their text keeps exactly *)

  Definition exactElement (e : element T) : Prop :=
    match e with
    | EArray a => map (viaArray (a_raw a) (a_enc a)) (keptRows a) = a_vals a
    | EIndexMap m => keptIMap m = m
    | _ => True
    end.
  (** Products with the entries of a Matrix or of a half-domain LUT1D depend on the
      kind of array that holds them: it must be the kind reading makes. *)
  Definition readKinds (h : header T) (b : body T) : Prop :=
    (b = BMatrix \/ (b = BLUT1D /\ flagSet h "halfDomain" = true)) ->
    Forall (fun e => match e with EArray a => a_dt a = arrayKind (a_raw a) (keptEncoding a) | _ => True end) (h_elems h).
  Fixpoint exactNode (n : node T) : Prop :=
    match n with
    | Node h b =>
        Forall (fun kv => viaStr (snd kv) = snd kv) (h_vals h) /\ Forall exactElement (h_elems h) /\ readKinds h b /\
        match b with
        | BCDL v | BColorCorrection v => keptCdl v = v
        | BGamma ps => map keptGamma ps = ps
        | BLog ps => map keptLog ps = ps
        | BExposureContrast p => keptEC p = p
        | BGroup ps =>
            (fix all (ps : list (node T)) : Prop := match ps with [] => True | p :: t => exactNode p /\ all t end) ps
        | _ => True
        end
    end.

  (** The tables and index maps of a node, Groups included but not what References
      refer to, satisfy [P]. *)
  Fixpoint elementsInside (P : element T -> Prop) (n : node T) : Prop :=
    match n with
    | Node h b =>
        Forall P (h_elems h) /\
        match b with
        | BGroup ps =>
            (fix all (ps : list (node T)) : Prop :=
               match ps with [] => True | p :: t => elementsInside P p /\ all t end) ps
        | _ => True
        end
    end.

  (** ** References *)

  Definition isReference (n : node T) : Prop := exists h w pl, n = Node h (BReference w pl).
  (** The list with each resolved Reference replaced by the nodes it refers to. *)
  Definition inlined (n : node T) : list (node T) :=
    match n with Node _ (BReference _ (Some l)) => procs_of l | _ => [n] end.
  Definition inlineList (l : plist T) : plist T :=
    match l with PList attrs vals elems procs => PList attrs vals elems (flat_map inlined procs) end.
  (** Resolved, and not told to write what the inner References refer to (reading
      never tells them so). *)
  Definition inlinable (n : node T) : Prop :=
    forall h w pl, n = Node h (BReference w pl) ->
      exists l, pl = Some l /\ Forall (fun p => forall h' w' pl', p = Node h' (BReference w' pl') -> w' = false) (procs_of l).
End Kept.
