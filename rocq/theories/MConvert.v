(** Model of the command line converters convertCLFtoLUT.py, convertLUTtoCLF.py and
    convertOCIOtoCLF.py, and of LutCLF.py's place in the registry.

    All files are texts on one disk. Parsing of the command line by optparse, and what
    is printed, are not modelled; resolutions are natural numbers. *)
From Verif Require Export MLut MOcio.
Local Open Scope string_scope.
Local Open Scope list_scope.

(** [os.path.split(p)[0]]. *)
Definition headPath (p : string) : string :=
  let head := slice (chars p) 0 (Z.to_nat (rfind "/" p + 1)) in
  if forallb (fun c => Ascii.eqb c "/") head then text head
  else text (rev (dropWhile (fun c => Ascii.eqb c "/") (rev head))).

Section Convert.
  Context {T : Type} {N : Num T} {X : NumText T}.
  Variable str : T -> string.
  Variable io : fileLib string.
  Variable compat : Z.

  (** [pl.writeFile(path)]: the result, and the disk when it returns or raises. *)
  Definition saveTo (l : plist T) (path : string) (fs : disk string) : res bool * disk string :=
    let '(r, steps) := writeFile io compat false false l in
    (r, match rev steps with
        | [] => fs
        | b :: _ => fun p => if String.eqb p path then Some b else fs p
        end).

  (** LutCLF.py 91-184; the class does not define read (LutFormat.py 143-150 would raise
      NameError) nor write1D and write3D. *)
  Definition readCLF : reader T (disk string) := fun _ _ fs => (Err NameError, fs).
  Definition writeCLF : writer T (disk string) :=
    fun path d fs =>
      match d with
      | Data1D3D1D s n r0 r1 r2 _ =>
          match exportCLF true true (s_in s) n (s_inMin s) (s_inMax s) (s_3d s) r0 r1 r2 (s_out s) with
          | Err e => (Err e, fs)
          | Ok l => saveTo l path fs
          end
      | _ => (Ok false, fs)
      end.

  (** The registered formats in the order of import (lutFormats/__init__.py); Registry
      iterates over a dictionary, so the order in use is some permutation. *)
  Definition allFormats : list (format T (disk string)) :=
    [formatSPI readSPI (writeSPI str); formatCSP readCSPFile writeCSP; formatCLF readCLF writeCLF; formatCTL readCTL (writeCTL str)].

  (* ------------------------------------------------------------------ *)
  (** * convertCLFtoLUT.py *)

  (** The options of convertCLFtoLUT.py 143-161 as optparse delivers them. Options with
      action='append' are lists of all occurrences. *)
  Record exportOptions : Type := {
    eo_clf : option string; eo_lut : option string; eo_format : option string;
    eo_res1d : nat; eo_res3d : nat; eo_res1d3d1d : list (nat * nat * nat);
    eo_min : T; eo_max : T;
    eo_gen1d : bool; eo_gen3d : bool; eo_gen1d3d1d : bool;
    eo_shaperIn : list (string * string * string); eo_shaperOut : list (string * string * string) }.

  (** convertCLFtoLUT.py 177-191: the first occurrence counts. *)
  Definition shaperOption (o : list (string * string * string)) : res (option string * T * T) :=
    match o with
    | [] => Ok (None, n0, n1)
    | (kind, lo, hi) :: _ =>
        let* lo := parseFloat lo in
        let* hi := parseFloat hi in
        Ok (Some kind, lo, hi)
    end.
  (** convertCLFtoLUT.py 163-208, and the arguments of the call 235-245. The variable
      lutResolution3d is assigned at 193-199 in both branches. *)
  Definition exportArgs (o : exportOptions) : res (writeArgs T) :=
    let* sIn := shaperOption (eo_shaperIn o) in
    let* sOut := shaperOption (eo_shaperOut o) in
    let '(rIn, r3d, rOut) := match eo_res1d3d1d o with [] => (32 * 32, 33, 2) | r :: _ => r end in
    let style := if eo_gen1d o then "1D" else if eo_gen3d o then "3D" else if eo_gen1d3d1d o then "1D_3D_1D" else "1D" in
    Ok {| wa_style := style; wa_n1d := eo_res1d o; wa_n3d := r3d; wa_1d3d1d := (rIn, r3d, rOut);
          wa_inputMin := eo_min o; wa_inputMax := eo_max o; wa_shaperIn := sIn; wa_shaperOut := sOut |}.

  (** convertCLFtoLUT.py 67-95. *)
  Definition convertCLFtoLUT (limit : nat) (formats : list (format T (disk string))) (clfPath lutPath : string) (a : writeArgs T)
             (fs : disk string) : res unit * disk string :=
    match openList io limit compat fs false clfPath with
    | Err e => (Err e, fs)
    | Ok l => match writeWith formats compat l lutPath a fs with
              | (Ok _, fs') => (Ok tt, fs')
              | (Err e, fs') => (Err e, fs')
              end
    end.
  (** convertCLFtoLUT.py 163-245. *)
  Definition exportMain (limit : nat) (formats : list (format T (disk string))) (o : exportOptions) (fs : disk string)
    : res unit * disk string :=
    match exportArgs o with
    | Err e => (Err e, fs)
    | Ok a => match eo_clf o, eo_lut o with
              | Some clfPath, Some lutPath => convertCLFtoLUT limit formats clfPath lutPath a fs
              | _, _ => (Ok tt, fs)
              end
    end.

  (* ------------------------------------------------------------------ *)
  (** * convertLUTtoCLF.py *)

  (** convertLUTtoCLF.py 90-118; [if clf] is false for None and for an empty list. *)
  Definition importMain (formats : list (format T (disk string))) (lut clf : option string) (inverse useIndexMaps useHalfDomain : bool)
             (fs : disk string) : res unit * disk string :=
    match lut, clf with
    | Some lutPath, Some clfPath =>
        match readWith formats lutPath
                {| ra_inverse := inverse; ra_interpolation := "linear"; ra_useIndexMaps := useIndexMaps; ra_useHalfDomain := useHalfDomain |}
                false fs with
        | (Err e, fs') => (Err e, fs')
        | (Ok (LList (PList a v e (p :: ps))), fs') =>
            match saveTo (PList a v e (p :: ps)) clfPath fs' with
            | (Ok _, fs'') => (Ok tt, fs'')
            | (Err e, fs'') => (Err e, fs'')
            end
        | (Ok _, fs') => (Ok tt, fs')
        end
    | _, _ => (Ok tt, fs)
    end.

  (* ------------------------------------------------------------------ *)
  (** * convertOCIOtoCLF.py *)

  (** OCIO transforms as the OCIO library presents them. *)
  Inductive otree : Type :=
  | TGroup (children : list otree)
  | TFile (src interpolation direction : string)
  | TMatrix (matrix offset : list T) (direction : string)
  | TLog (base : Z) (direction : string)
  | TOther.

  (** convertOCIOtoCLF.py 144-159: what Registry.read says about a file transform. *)
  Definition fileNodes (formats : list (format T (disk string))) (fs : disk string) (searchPath : string) (useIndexMaps useHalfDomain : bool)
             (src interpolation direction : string) : res (option (list (node T))) :=
    match fst (readWith formats (pathJoin searchPath src)
                 {| ra_inverse := negb (isForward direction); ra_interpolation := interpolation;
                    ra_useIndexMaps := useIndexMaps; ra_useHalfDomain := useHalfDomain |} true fs) with
    | Err e => Err e
    | Ok (LNodes ns) => Ok (Some ns)
    | Ok _ => Ok None
    end.
  Fixpoint withFiles (read : string -> string -> string -> res (option (list (node T)))) (t : otree) : ocio T :=
    match t with
    | TGroup children => OGroup (map (withFiles read) children)
    | TFile src interpolation direction => OFile (read src interpolation direction)
    | TMatrix matrix offset direction => OMatrix matrix offset direction
    | TLog base direction => OLog base direction
    | TOther => OOther
    end.

  (** convertOCIOtoCLF.py 217-224 = 245-252. *)
  Definition annotate (description : string) (name : nat -> string) (pns : list (node T)) : list (node T) :=
    map (fun '(k, pn) => setAttribute (addElement pn (EDesc (Some description))) "name" (AStr (name k)))
        (combine (seq 0 (List.length pns)) pns).

  (** An OCIO config: the search path, and the transforms of a colour space to and from
      the reference space, which getColorSpace and getTransform may fail to give. *)
  Record config : Type := {
    cf_searchPath : string; cf_toReference : string -> res otree; cf_fromReference : string -> res otree }.

  (** convertOCIOtoCLF.py 196-274: the list to write, if it has nodes. *)
  Definition convertSpaces (convert : otree -> res (list (node T))) (cf : config) (configPath : string) (sources dests : list string)
    : res (option (plist T)) :=
    let* fromSources := mapM (fun s =>
        let* t := cf_toReference cf s in
        let* pns := convert t in
        Ok (annotate ("Convert " ++ s ++ " to reference") (fun k => (s ++ " to reference - node " ++ natText k)%string) pns)) sources in
    let* toDests := mapM (fun d =>
        let* t := cf_fromReference cf d in
        let* pns := convert t in
        Ok (annotate ("Convert reference to " ++ d) (fun k => ("reference to " ++ d ++ " - node " ++ natText k)%string) pns)) dests in
    match List.concat fromSources ++ List.concat toDests with
    | [] => Ok None
    | nodes =>
        Ok (Some (PList [("id", "Converted lut"); ("compCLFversion", "1.0"); ("name", "Converted lut")] []
                   [PEComment "Description" (Some (lines (["CLF converted from OCIO config."; "Config Path : " ++ configPath]%string ++
                      map (fun s => "Source color space : " ++ s)%string sources ++
                      map (fun d => "Destination color space name : " ++ d)%string dests)))] nodes))
    end.
  (** convertOCIOtoCLF.py 184-280. *)
  Definition convertOCIO (formats : list (format T (disk string))) (cf : config) (configPath : string) (sources dests : list string)
             (clfPath : string) (useIndexMaps useHalfDomain : bool) (fs : disk string) : res unit * disk string :=
    let searchPath := pathJoin (headPath configPath) (cf_searchPath cf) in
    let convert t := convertTransforms (withFiles (fileNodes formats fs searchPath useIndexMaps useHalfDomain) t) in
    match convertSpaces convert cf configPath sources dests with
    | Err e => (Err e, fs)
    | Ok None => (Ok tt, fs)
    | Ok (Some l) => match saveTo l clfPath fs with
                     | (Ok _, fs') => (Ok tt, fs')
                     | (Err e, fs') => (Err e, fs')
                     end
    end.
End Convert.
Arguments otree T : clear implicits.
Arguments config T : clear implicits.
Arguments exportOptions T : clear implicits.
