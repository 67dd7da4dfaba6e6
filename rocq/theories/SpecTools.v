(** Vocabulary for the statements about the LUT format registry and the image filter. *)
From Verif Require Export Spec MRegistry MFilter.
Local Open Scope string_scope.
Local Open Scope list_scope.

Section Tools.
  Context {T : Type} {N : Num T}.

  (** The four formats lutFormats registers, in the order they are imported, each
      with any reading and writing functions. *)
  Definition shipped {W} (rd : string -> reader T W) (wr : string -> writer T W) : list (format T W) :=
    [formatSPI (rd "SPI") (wr "SPI"); formatCSP (rd "CSP") (wr "CSP");
     formatCLF (rd "CLF") (wr "CLF"); formatCTL (rd "CTL") (wr "CTL")].

  (** Which format reads files with a given extension. *)
  Definition readsExt (ext : string) : option string :=
    dget [("spi1d", "SPI"); ("spi3d", "SPI"); ("csp", "CSP")] ext.

  (** Which format writes a given kind of LUT to files with a given extension. *)
  Definition writesExt (cap : capability) (ext : string) : option string :=
    match cap with
    | CapWrite1D => dget [("spi1d", "SPI"); ("csp", "CSP"); ("ctl", "CTL")] ext
    | CapWrite3D => dget [("spi3d", "SPI"); ("csp", "CSP"); ("ctl", "CTL")] ext
    | CapWrite1D3D1D => dget [("csp", "CSP"); ("clf", "CLF")] ext
    | CapRead => None
    end.

  (** A plain file name: some characters, none of them a slash, not only dots. *)
  Definition plainStem (s : string) : Prop :=
    Forall (fun a => a <> "/"%char) (chars s) /\ Exists (fun a => a <> "."%char) (chars s).
  (** A plain extension: no dots, slashes or white space. *)
  Definition plainExt (s : string) : Prop :=
    Forall (fun a => a <> "/"%char /\ a <> "."%char /\ isSpace a = false) (chars s).

  (** Values taken from depth [dIn] to depth [dOut] by a Range without limits,
      untouched when the depths are the same. *)
  Definition rescaled (c : Z) (dIn dOut : aval) (st : nat) (v : list T) : option (list T) :=
    if aval_eqb dIn dOut then Some v
    else colours (nodeProcess c (newRange dIn dOut (AStr "") (AStr "") (AStr "") ANone) v st).

  (** A row of pixels (or one pixel) of an image of depth [dImg] through the list
      and out at depth [dOut]. *)
  Definition filteredRow (c : Z) (l : plist T) (dImg dOut : string) (st : nat) (row : list T) : option (list T) :=
    match rescaled c (AStr dImg) (listInDepth l) st (map nf32 row) with
    | None => None
    | Some u =>
        match colours (listProcess c l u st) with
        | None => None
        | Some v => rescaled c (listOutDepth l) (AStr dOut) st v
        end
    end.

  (** The image's samples cut into its rows. *)
  Definition hasRows (img : image T) (rows : list (list T)) : Prop :=
    cutInto (i_width img * i_channels img) rows (i_pixels img) /\ List.length rows = i_height img.

  (** The multithreaded filter waits for all rows (its 18-hour limit does not
      expire). *)
  Inductive filterInTime (c : Z) (l : plist T) (img : image T) (outBitDepth : option string) (workers : nat) : filtered T -> Prop :=
  | InTime results :
      poolGet workers (workRow c (setupFor l img outBitDepth) img) (i_height img) (Some results) ->
      filterInTime c l img outBitDepth workers
        (match copyBack img results with Ok buf => FWrite buf | Err _ => FReturn end).
End Tools.
