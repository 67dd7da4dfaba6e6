(** Model of python/aces/filterImageWithCLF.py as a whole: reading the image with
    readPixelArray, filtering and writing it, and main.

    OpenImageIO delivers images as [stored] and is handed what writePixelArray passes
    to write_image; creating and opening the output image is taken to succeed.
    optparse and what is printed are not modelled. *)
From Verif Require Export MFilter MFiles.
Local Open Scope string_scope.
Local Open Scope list_scope.

Section FilterTool.
  Context {T : Type} {N : Num T} {X : NumText T}.

  (** An image as OpenImageIO presents it: base type, size, the oiio:BitsPerSample
      attribute if there is one, and the samples read_image gives. *)
  Inductive samples : Type :=
  | SUInt8 (vs : list Z) | SUInt16 (vs : list Z) | SHalf (vs : list T) | SFloat (vs : list T)
  | SOther.
  Record stored : Type := { o_width : nat; o_height : nat; o_channels : nat; o_bits : option Z; o_samples : samples }.

  (** filterImageWithCLF.py 135-203 with bitDepthOverride "auto", which is what its only
      caller uses: the image and whether it has the attribute. A missing image makes
      line 197 unpack seven values into six names. *)
  Definition readPixelArray (o : option stored) : res (image T * bool) :=
    match o with
    | None => Err ValueError
    | Some s =>
        let mk d vs := {| i_width := o_width s; i_height := o_height s; i_channels := o_channels s; i_depth := d; i_pixels := vs |} in
        let tagged := match o_bits s with Some _ => true | None => false end in
        match o_samples s with
        | SUInt8 vs => Ok (mk "8i" (map nofZ vs), tagged)
        | SUInt16 vs =>
            match o_bits s with
            | None => Ok (mk "16i" (map nofZ vs), tagged)
            | Some b => let* ks := mapM (readSample b) vs in Ok (mk (readDepth b) (map nofZ ks), tagged)
            end
        | SHalf vs => Ok (mk "16f" vs, tagged)
        | SFloat vs => Ok (mk "32f" vs, tagged)
        | SOther => Err KeyError
        end
    end.

  (** filterImageWithCLF.py 86-111: how halfs are passed to and from OpenImageIO, as the
      words in memory: 16 bit words from version 1.8 on, and before ([old]) 32 bit words of
      two halfs each, the first in the lower bits (a little-endian machine). numpy refuses
      to read a buffer that is not a whole number of words. In [readPixelArray] and in
      [packed] the halfs themselves stand for these words, as of version 1.8. *)
  Fixpoint pairWords (ws : list Z) : res (list Z) :=
    match ws with
    | [] => Ok []
    | [_] => Err ValueError
    | a :: b :: t => let* r := pairWords t in Ok ((a + 65536 * b)%Z :: r)
    end.
  Definition npHalfArrayToOIIOFloatPixels (old : bool) (npPixels : list T) : res (list Z) :=
    let words := map nhbits npPixels in if old then pairWords words else Ok words.
  Definition oiioFloatPixelsToNPHalfArray (old : bool) (words : list Z) : list T :=
    map nhalf (if old then List.concat (map (fun w => [w mod 65536; w / 65536]%Z) words) else words).
  (** filterImageWithCLF.py 72-81. *)
  Definition floatToHalfs (word : Z) : T * T := (nhalf (word mod 65536), nhalf (word / 65536)).
  Definition halfsToFloat (half1 half2 : T) : Z := (nhbits half1 + 65536 * nhbits half2)%Z.

  (** How a call ends: what is given to write_image with the bits-per-sample tag, nothing
      written, or an exception. *)
  Inductive toolEnd : Type := TWrites (p : packed T) (tag : option Z) | TNothing | TRaises (e : exn).

  (** filterImageWithCLF.py 480-611. *)
  Inductive filterCall (c : Z) (l : plist T) (input : option stored) (outBitDepth : option string) (multithreaded : nat) : toolEnd -> Prop :=
  | CallUnread e : readPixelArray input = Err e -> filterCall c l input outBitDepth multithreaded (TRaises e)
  | CallRun img tagged f :
      readPixelArray input = Ok (img, tagged) -> filterImage c l img outBitDepth multithreaded f ->
      filterCall c l input outBitDepth multithreaded
        match f with
        | FWrite px => match writePixelArray (outDepthOf img outBitDepth) tagged px with
                       | Ok (p, tag) => TWrites p tag
                       | Err e => TRaises e
                       end
        | FReturn => TNothing
        | FRaise e => TRaises e
        end.

  (** The options of filterImageWithCLF.py 642-649 that matter. *)
  Record filterOptions : Type := {
    fo_input : option string; fo_output : option string; fo_clf : option string;
    fo_outBitDepth : option string; fo_multithreaded : Z }.

  (** filterImageWithCLF.py 656-704 up to the call: [None] if there is none. An empty
      outputBitDepth is false in line 678. *)
  Definition filterArgs {B} (io : fileLib B) (limit : nat) (c cpus : Z) (fs : disk B) (o : filterOptions)
    : res (option (plist T * string * string * nat)) :=
    let bad := match fo_outBitDepth o with
               | Some d => negb (String.eqb d "") && negb (existsb (String.eqb d) ["8i"; "10i"; "12i"; "16i"; "16f"; "32f"])
               | None => false
               end in
    if bad then Ok None
    else
      let* l := match fo_clf o with
                | None => Ok None
                | Some path => let* l := openList io limit c fs false path in Ok (Some l)
                end in
      Ok match l, fo_output o, fo_input o with
         | Some l, Some output, Some input => Some (l, input, output, Z.to_nat (Z.min cpus (Z.max 1 (fo_multithreaded o))))
         | _, _, _ => None
         end.

  (** main: the image file written, if any, and how the call ends. *)
  Inductive filterMain {B} (io : fileLib B) (limit : nat) (c cpus : Z) (fs : disk B) (images : string -> option stored) (o : filterOptions)
    : option string * toolEnd -> Prop :=
  | MainRaises e : filterArgs io limit c cpus fs o = Err e -> filterMain io limit c cpus fs images o (None, TRaises e)
  | MainIdle : filterArgs io limit c cpus fs o = Ok None -> filterMain io limit c cpus fs images o (None, TNothing)
  | MainRun l input output workers e :
      filterArgs io limit c cpus fs o = Ok (Some (l, input, output, workers)) ->
      filterCall c l (images input) (fo_outBitDepth o) workers e ->
      filterMain io limit c cpus fs images o (match e with TWrites _ _ => Some output | _ => None end, e).
End FilterTool.
Arguments stored : clear implicits.
Arguments samples : clear implicits.
Arguments toolEnd : clear implicits.
