(** Model of the main functions of python/bin/clfinfo and convertOCIOtoCLF.py. optparse and
    what else they print are not modelled. *)
From Verif Require Export MConvert MInfo MFiles.
Local Open Scope string_scope.
Local Open Scope list_scope.

Section Mains.
  Context {T : Type} {N : Num T} {X : NumText T}.

  (** python/bin/clfinfo 70-103: the lines printed and the exception that ended it, if any. *)
  Definition clfinfo {B} (io : fileLib B) (limit : nat) (c : Z) (fs : disk B) (path : string) : list (line T) * option exn :=
    if String.eqb path "" then ([], None)
    else match openList io limit c fs false path with
         | Ok l => showList l
         | Err e => ([], Some e)
         end.

  (** The options of convertOCIOtoCLF.py 290-295. *)
  Record ocioOptions : Type := {
    oo_config : option string; oo_sources : list string; oo_dests : list string; oo_output : option string;
    oo_useIndexMaps : bool; oo_useHalfDomain : bool }.
  (** convertOCIOtoCLF.py 282-339. OCIO's CreateFromFile (line 191) is [load]. *)
  Definition ocioMain (io : fileLib string) (compat : Z) (formats : list (format T (disk string))) (load : string -> res (config T)) (o : ocioOptions) (fs : disk string)
    : res unit * disk string :=
    match oo_config o, oo_output o with
    | Some path, Some output =>
        match oo_sources o, oo_dests o with
        | [], [] => (Ok tt, fs)
        | _, _ => match load path with
                  | Err e => (Err e, fs)
                  | Ok cf => convertOCIO io compat formats cf path (oo_sources o) (oo_dests o) output (oo_useIndexMaps o) (oo_useHalfDomain o) fs
                  end
        end
    | _, _ => (Ok tt, fs)
    end.
End Mains.
