(** Model of python/aces/filterImageWithCLF.py: filtering an image row by row
    (filterRow_stride, filterRow_parallel, filterImageWithCLF) with a process list,
    the worker pool as a state machine, and the integer packing of samples done by
    readPixelArray and writePixelArray.

    OpenImageIO and the files themselves are not modelled: an image is its
    dimensions, its depth and its samples as numbers; writing is the buffer handed
    to write_image. *)
From Verif Require Export MBuild.
Local Open Scope string_scope.
Local Open Scope list_scope.

(** * Samples of integer images *)

(** Lines 163-172: shift and depth for a UINT16 image that carries
    oiio:BitsPerSample [b] (a negative shift raises ValueError, line 187). *)
Definition readShift (bitsPerSample : Z) : Z := 16 - bitsPerSample.
Definition readDepth (bitsPerSample : Z) : string :=
  if Z.eqb bitsPerSample 10 then "10i" else if Z.eqb bitsPerSample 12 then "12i" else "16i".
(** Lines 185-187. *)
Definition readSample (bitsPerSample v : Z) : res Z :=
  let s := readShift bitsPerSample in
  if (s =? 0)%Z then Ok v else if (s <? 0)%Z then Err ValueError else Ok (Z.shiftr v s).

(** Lines 246-250. *)
Definition writeShift (bitDepth : string) : Z :=
  if String.eqb bitDepth "10i" then 6 else if String.eqb bitDepth "12i" then 4 else 0.

(** Storing a Python integer in a numpy array of [bits]-bit unsigned integers: the
    integer must fit a C long, then it is reduced modulo 2^bits. *)
Definition storeUInt (bits v : Z) : res Z :=
  if ((- 2 ^ 63 <=? v) && (v <? 2 ^ 63))%Z then Ok (v mod 2 ^ bits)%Z else Err OverflowError.

(** Lines 117-124: the kind of image sample a CLF depth is written as. *)
Inductive sampleType : Type := U8 | U16 | Half | Float.
Definition sampleTypeOf (bitDepth : string) : res sampleType :=
  if String.eqb bitDepth "8i" then Ok U8
  else if String.eqb bitDepth "10i" || String.eqb bitDepth "12i" || String.eqb bitDepth "16i" then Ok U16
  else if String.eqb bitDepth "16f" then Ok Half
  else if String.eqb bitDepth "32f" then Ok Float
  else Err KeyError.

(** Lines 272-278. *)
Definition bitDepthValue (bitDepth : string) : res Z :=
  if String.eqb bitDepth "8i" then Ok 8%Z
  else if String.eqb bitDepth "10i" then Ok 10%Z
  else if String.eqb bitDepth "12i" then Ok 12%Z
  else if String.eqb bitDepth "16i" then Ok 16%Z
  else Err KeyError.

Section Filter.
  Context {T : Type} {N : Num T}.

  (** What is handed to write_image. *)
  Inductive packed : Type :=
  | PInts (bits : Z) (vs : list Z)
  | PHalfs (vs : list T)
  | PFloats (vs : list T).

  (** Lines 234-238 and 252-256. *)
  Definition packSample (bits : Z) (shift : Z) (x : T) : res Z :=
    let* v := pyint x in storeUInt bits (Z.shiftl v shift).
  (** Lines 224-263. *)
  Definition packPixels (bitDepth : string) (pixels : list T) : res packed :=
    let* t := sampleTypeOf bitDepth in
    match t with
    | U8 => let* vs := mapM (packSample 8 0) pixels in Ok (PInts 8 vs)
    | U16 => let* vs := mapM (packSample 16 (writeShift bitDepth)) pixels in Ok (PInts 16 vs)
    | Half => Ok (PHalfs (map nf16 pixels))
    | Float => Ok (PFloats pixels)
    end.
  (** Lines 280-301: the bits-per-sample tag written with the image. [tagged] says
      whether the source image carried one. *)
  Definition bitsTag (bitDepth : string) (tagged : bool) : res (option Z) :=
    if tagged then let* v := bitDepthValue bitDepth in Ok (Some v)
    else
      let* t := sampleTypeOf bitDepth in
      match t with
      | U8 | U16 => let* v := bitDepthValue bitDepth in Ok (Some v)
      | _ => Ok None
      end.
  (** writePixelArray 205-327 up to the call of write_image. *)
  Definition writePixelArray (bitDepth : string) (tagged : bool) (pixels : list T) : res (packed * option Z) :=
    let* p := packPixels bitDepth pixels in
    let* tag := bitsTag bitDepth tagged in
    Ok (p, tag).

  (** * One row *)

  Record image : Type :=
    { i_width : nat; i_height : nat; i_channels : nat; i_depth : string; i_pixels : list T }.
  (** The two adapters of lines 515-521 (None when the depths agree). *)
  Record setup : Type := { s_list : plist T; s_inRange : option (node T); s_outRange : option (node T) }.

  Definition runRange (c : Z) (r : option (node T)) (values : list T) (stride : nat) : res (list T) :=
    match r with
    | None => Ok values
    | Some n => let* o := nodeProcess c n values stride in Ok (po_out o)
    end.

  (** Lines 391-392 = 440-441: [row % math.ceil((height-1)/100.0)] divides by zero
      for heights 0 and 1; otherwise this only prints. *)
  Definition progress (height : nat) : res unit :=
    if (height <=? 1)%nat then Err ZeroDivisionError else Ok tt.

  (** filterRow_parallel 425-465, and the middle of filterRow_stride 391-411. *)
  Definition filterRow (c : Z) (s : setup) (height channels : nat) (row : list T) : res (list T) :=
    let* _ := progress height in
    let pvalue := map nf32 row in
    let* pvalue := runRange c (s_inRange s) pvalue channels in
    let* o := listProcess c (s_list s) pvalue channels in
    runRange c (s_outRange s) (po_out o) channels.

  (** [processedPixels[index + c] = pvalue[c]] (416-417, 570). The buffer is float32. *)
  Definition copyRow (index n : nat) (pvalue buf : list T) : res (list T) :=
    for_each (seq 0 n) (fun j buf => let* v := getn pvalue j in setn buf (index + j) (nf32 v)) buf.

  Definition rowOf (img : image) (row : nat) : list T :=
    let n := (i_width img * i_channels img)%nat in
    slice (i_pixels img) (row * n) (row * n + n).

  (** filterRow_stride 380-418. *)
  Definition filterRowInto (c : Z) (s : setup) (img : image) (row : nat) (buf : list T) : res (list T) :=
    let n := (i_width img * i_channels img)%nat in
    let* pvalue := filterRow c s (i_height img) (i_channels img) (rowOf img row) in
    copyRow (row * n) n pvalue buf.

  (** filterRow_parallel_splitargs 470-475: an exception becomes None. *)
  Definition workRow (c : Z) (s : setup) (img : image) (row : nat) : option (list T) :=
    match filterRow c s (i_height img) (i_channels img) (rowOf img row) with
    | Ok v => Some v
    | Err _ => None
    end.

  (** Lines 504-521. *)
  Definition outDepthOf (img : image) (outBitDepth : option string) : string :=
    match outBitDepth with
    | Some d => if existsb (String.eqb d) ["8i"; "10i"; "12i"; "16i"; "16f"; "32f"] then d else i_depth img
    | None => i_depth img
    end.
  Definition listInDepth (l : plist T) : aval :=
    match procs_of l with [] => ANone | p :: _ => getInBitDepth p end.
  Definition listOutDepth (l : plist T) : aval :=
    match rev (procs_of l) with [] => ANone | p :: _ => getOutBitDepth p end.
  Definition adapter (dIn dOut : aval) : option (node T) :=
    if aval_eqb dIn dOut then None
    else Some (newRange dIn dOut (AStr "") (AStr "") (AStr "") ANone).
  Definition setupFor (l : plist T) (img : image) (outBitDepth : option string) : setup :=
    {| s_list := l;
       s_inRange := adapter (AStr (i_depth img)) (listInDepth l);
       s_outRange := adapter (listOutDepth l) (AStr (outDepthOf img outBitDepth)) |}.

  (** Line 528. *)
  Definition blank (img : image) : list T := repeat n0 (i_width img * i_height img * i_channels img).

  (** What filterImageWithCLF hands to writePixelArray, or how it ends without. *)
  Inductive filtered : Type := FWrite (pixels : list T) | FReturn | FRaise (e : exn).

  (** * The single-threaded branch (585-597) *)
  Definition filterSingle (c : Z) (l : plist T) (img : image) (outBitDepth : option string) : filtered :=
    match filterRowInto c (setupFor l img outBitDepth) img 5 (blank img) with
    | Ok buf => FWrite buf
    | Err e => FRaise e
    end.

  (** * The worker pool (multiprocessing.Pool.map_async with chunksize 1)

      Tasks are handed out in order to idle workers; a worker takes any time; its
      result goes to the slot of its task. [get] returns the slots once all of them
      are filled, or raises after the time limit. Workers that die are not
      modelled. *)
  Record pool : Type :=
    { p_pending : list nat; p_running : list (nat * nat); p_slots : list (option (option (list T))) }.
  Definition startPool (n : nat) : pool :=
    {| p_pending := seq 0 n; p_running := []; p_slots := repeat None n |}.
  Inductive poolStep (workers : nat) (work : nat -> option (list T)) : pool -> pool -> Prop :=
  | PTake w t rest running slots :
      (w < workers)%nat -> ~ In w (map fst running) ->
      poolStep workers work
        {| p_pending := t :: rest; p_running := running; p_slots := slots |}
        {| p_pending := rest; p_running := (w, t) :: running; p_slots := slots |}
  | PFinish w t before after pending slots slots' :
      setn slots t (Some (work t)) = Ok slots' ->
      poolStep workers work
        {| p_pending := pending; p_running := before ++ (w, t) :: after; p_slots := slots |}
        {| p_pending := pending; p_running := before ++ after; p_slots := slots' |}.
  Inductive poolSteps (workers : nat) (work : nat -> option (list T)) : pool -> pool -> Prop :=
  | PDone s : poolSteps workers work s s
  | PMore s s' s'' : poolStep workers work s s' -> poolSteps workers work s' s'' -> poolSteps workers work s s''.
  (** [result.get(0xFFFF)]: all slots, or None for the exception. *)
  Inductive poolGet (workers : nat) (work : nat -> option (list T)) (n : nat) : option (list (option (list T))) -> Prop :=
  | GetAll s results :
      poolSteps workers work (startPool n) s -> p_slots s = map Some results ->
      poolGet workers work n (Some results)
  | GetTimeout s :
      poolSteps workers work (startPool n) s -> In None (p_slots s) -> poolGet workers work n None.

  (** Lines 568-570: copying the rows back; None is not subscriptable. *)
  Definition copyBack (img : image) (results : list (option (list T))) : res (list T) :=
    let n := (i_width img * i_channels img)%nat in
    for_each (seq 0 (i_height img)) (fun i buf =>
      let* r := getn results i in
      match r with
      | Some pvalue => copyRow (i * n) n pvalue buf
      | None => match n with O => Ok buf | _ => Err TypeError end
      end) (blank img).

  (** * The multithreaded branch (534-584): the outcomes of all its runs. *)
  Inductive filterMulti (c : Z) (l : plist T) (img : image) (outBitDepth : option string) (workers : nat) : filtered -> Prop :=
  | FMRows results :
      poolGet workers (workRow c (setupFor l img outBitDepth) img) (i_height img) (Some results) ->
      filterMulti c l img outBitDepth workers
        (match copyBack img results with Ok buf => FWrite buf | Err _ => FReturn end)
  | FMTimeout :
      poolGet workers (workRow c (setupFor l img outBitDepth) img) (i_height img) None ->
      filterMulti c l img outBitDepth workers FReturn.

  (** filterImageWithCLF 480-597. *)
  Definition filterImage (c : Z) (l : plist T) (img : image) (outBitDepth : option string) (multithreaded : nat)
             (out : filtered) : Prop :=
    if (1 <? multithreaded)%nat then filterMulti c l img outBitDepth multithreaded out
    else out = filterSingle c l img outBitDepth.
End Filter.
Arguments image : clear implicits.
Arguments setup : clear implicits.
Arguments filtered : clear implicits.
Arguments packed : clear implicits.
Arguments pool : clear implicits.
