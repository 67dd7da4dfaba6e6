(** Model of python/aces/lutFormats/Registry.py (read, write), LutFormat.py
    (capability queries and write) and the capability tables of LutSPI.py,
    LutCSP.py, LutCLF.py and LutCTL.py.

    [W] is whatever reading and writing files acts on. The readers and writers of
    the four formats are arbitrary functions of it. *)
From Verif Require Export MText MSampling.
Local Open Scope string_scope.
Local Open Scope list_scope.

(** Common.py: the IO_CAPABILITY constants. *)
Inductive capability : Type := CapRead | CapWrite1D | CapWrite3D | CapWrite1D3D1D.
Definition cap_eqb (a b : capability) : bool :=
  match a, b with
  | CapRead, CapRead | CapWrite1D, CapWrite1D | CapWrite3D, CapWrite3D | CapWrite1D3D1D, CapWrite1D3D1D => true
  | _, _ => false
  end.

Section Registry.
  Context {T : Type} {N : Num T} {W : Type}.

  (** What the write methods are given (LutFormat.py 171-221). *)
  Inductive lutData : Type :=
  | Data1D (samples : list T) (n : nat) (inputMin inputMax : T)
  | Data3D (samples : lattice T) (r0 r1 r2 : nat) (inputMin inputMax : T)
  | Data1D3D1D (samples : samples1D3D1D T) (n : nat) (r0 r1 r2 : nat) (nOut : nat).

  (** The arguments of read after the path (Registry.py 91-95). *)
  Record readArgs : Type :=
    { ra_inverse : bool; ra_interpolation : string; ra_useIndexMaps : bool; ra_useHalfDomain : bool }.

  (** One registered class: LutFormat.formats as (extension, capabilities), its
      read, and its write1D / write3D / write1D3D1D joined in one function. [read]
      returning False, None or [] (all false in [if lutProcessNodes]) is []. *)
  Record format : Type :=
    { f_formats : list (string * list capability);
      f_read : string -> readArgs -> W -> res (list (node T)) * W;
      f_write : string -> lutData -> W -> res bool * W }.

  (** LutFormat.py 108-110. *)
  Definition extensions (f : format) : list string := map (fun e => lower (fst e)) (f_formats f).
  (** LutFormat.py 113-119. *)
  Definition capabilities (f : format) (extension : string) : list capability :=
    List.concat (map snd (if String.eqb extension "" then f_formats f
                          else filter (fun e => String.eqb (lower (fst e)) (lower extension)) (f_formats f))).
  (** LutFormat.py 122-124 (and canRead 127-128). *)
  Definition isCapable (f : format) (cap : capability) (extension : string) : bool :=
    existsb (cap_eqb cap) (capabilities f extension).

  (** Registry.py 96 = 157. *)
  Definition extensionOf (lutPath : string) : string := lower (strip (tailStr (splitextExt lutPath))).

  (** [extension in cls.extensions() and cls.isCapable(...)] (110, 180). *)
  Definition serves (f : format) (cap : capability) (extension : string) : bool :=
    existsb (String.eqb extension) (extensions f) && isCapable f cap extension.

  (** What Registry.read returns: None, the nodes, or a list made of them (123-135). *)
  Inductive loaded : Type := LNone | LNodes (ns : list (node T)) | LList (l : plist T).
  Definition wrapNodes (returnProcessNodes : bool) (ns : list (node T)) : loaded :=
    if returnProcessNodes then LNodes ns
    else LList (PList [("id", "Converted lut"); ("compCLFversion", "1.0"); ("name", "Converted lut")] [] [] ns).

  (** Registry.py 90-143, with the registry's values in iteration order. *)
  Fixpoint readWith (formats : list format) (lutPath : string) (a : readArgs) (returnProcessNodes : bool) (w : W)
    : res loaded * W :=
    match formats with
    | [] => (Ok LNone, w)
    | f :: rest =>
        if serves f CapRead (extensionOf lutPath) then
          match f_read f lutPath a w with
          | (Err e, w') => (Err e, w')
          | (Ok [], w') => readWith rest lutPath a returnProcessNodes w'
          | (Ok ns, w') => (Ok (wrapNodes returnProcessNodes ns), w')
          end
        else readWith rest lutPath a returnProcessNodes w
    end.

  (** The arguments of write after the path (Registry.py 148-155). *)
  Record writeArgs : Type :=
    { wa_style : string; wa_n1d : nat; wa_n3d : nat; wa_1d3d1d : nat * nat * nat;
      wa_inputMin : T; wa_inputMax : T;
      wa_shaperIn : option string * T * T; wa_shaperOut : option string * T * T }.

  (** Registry.py 164-169. *)
  Definition writeStyle (lutDataFormat : string) : capability :=
    if String.eqb lutDataFormat "1D" then CapWrite1D
    else if String.eqb lutDataFormat "3D" then CapWrite3D
    else CapWrite1D3D1D.

  (** LutFormat.py 166-221: the samples handed to the format's own writer. *)
  Definition sampleFor (c : Z) (l : plist T) (style : capability) (a : writeArgs) : res lutData :=
    match style with
    | CapWrite1D =>
        let* s := sample1D c l (wa_n1d a) (wa_inputMin a) (wa_inputMax a) in
        Ok (Data1D s (wa_n1d a) (wa_inputMin a) (wa_inputMax a))
    | CapWrite3D =>
        let r := wa_n3d a in
        let* s := sample3D c l r r r (wa_inputMin a) (wa_inputMax a) in
        Ok (Data3D s r r r (wa_inputMin a) (wa_inputMax a))
    | _ =>
        let '(n, r, nOut) := wa_1d3d1d a in
        let '(tIn, inMin, inMax) := wa_shaperIn a in
        let '(tOut, outMin, outMax) := wa_shaperOut a in
        let* s := sample1D3D1D c l n r r r nOut tIn inMin inMax tOut outMin outMax in
        Ok (Data1D3D1D s n r r r nOut)
    end.
  (** LutFormat.py 154-223. *)
  Definition formatWrite (f : format) (c : Z) (l : plist T) (lutPath : string) (style : capability) (a : writeArgs) (w : W)
    : res bool * W :=
    match sampleFor c l style a with
    | Err e => (Err e, w)
    | Ok d => f_write f lutPath d w
    end.

  (** Registry.py 146-203. The result is always None. *)
  Fixpoint writeWith (formats : list format) (c : Z) (l : plist T) (lutPath : string) (a : writeArgs) (w : W)
    : res loaded * W :=
    match formats with
    | [] => (Ok LNone, w)
    | f :: rest =>
        let style := writeStyle (wa_style a) in
        if serves f style (extensionOf lutPath) then
          match formatWrite f c l lutPath style a w with
          | (Err e, w') => (Err e, w')
          | (Ok true, w') => (Ok LNone, w')
          | (Ok false, w') => writeWith rest c l lutPath a w'
          end
        else writeWith rest c l lutPath a w
    end.

  Definition reader : Type := string -> readArgs -> W -> res (list (node T)) * W.
  Definition writer : Type := string -> lutData -> W -> res bool * W.

  (** LutSPI.py 79-89, LutCSP.py 77-85, LutCLF.py 79-84, LutCTL.py 77-83. *)
  Definition formatSPI (rd : reader) (wr : writer) : format :=
    {| f_formats := [("spi1d", [CapRead; CapWrite1D]); ("spi3d", [CapRead; CapWrite3D]); ("spimtx", [])];
       f_read := rd; f_write := wr |}.
  Definition formatCSP (rd : reader) (wr : writer) : format :=
    {| f_formats := [("csp", [CapRead; CapWrite1D; CapWrite3D; CapWrite1D3D1D])]; f_read := rd; f_write := wr |}.
  Definition formatCLF (rd : reader) (wr : writer) : format :=
    {| f_formats := [("clf", [CapWrite1D3D1D])]; f_read := rd; f_write := wr |}.
  Definition formatCTL (rd : reader) (wr : writer) : format :=
    {| f_formats := [("ctl", [CapWrite1D; CapWrite3D])]; f_read := rd; f_write := wr |}.
End Registry.
Arguments lutData : clear implicits.
Arguments format : clear implicits.
Arguments loaded : clear implicits.
Arguments writeArgs : clear implicits.
Arguments reader : clear implicits.
Arguments writer : clear implicits.
