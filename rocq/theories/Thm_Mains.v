(** The command lines of clfinfo (C80) and convertOCIOtoCLF (C78). *)
From Coq Require Import List String ZArith.
From Verif Require PConvertIeee.
From Verif Require Import NumF MMains SpecXmlText SpecInfo PNumText PTextIeee PXmlTextDoc PMains Thm_Write Thm_Convert Thm_XmlText.
Import ListNotations.
Local Open Scope string_scope.
Local Open Scope list_scope.

(** * C80 *)

(** clfinfo shows the list in the file, raises what opening the file raises, and prints
    nothing without a path. *)
Theorem C80_tool :
  forall {T} {N : Num T} {X : NumText T} {B} (io : fileLib B) limit c fs,
    clfinfo (T := T) io limit c fs "" = ([], None) /\
    forall path, path <> "" ->
      (forall l : plist T, openList io limit c fs false path = Ok l -> clfinfo io limit c fs path = showList l) /\
      (forall e, openList (T := T) io limit c fs false path = Err e -> clfinfo (T := T) io limit c fs path = ([], Some e)).
Proof.
  exact (fun T N X B io limit c fs => conj (clfinfo_idle io limit c fs)
    (fun path P => conj (fun l => clfinfo_shows io limit c fs path l P) (fun e => clfinfo_raises io limit c fs path e P))).
Qed.
Print Assumptions C80_tool.

(** Of a file saved from a clean list (C89) it shows that list, with its numbers as their text
    keeps them. *)
Theorem C80_tool_on_saved :
  forall (L : libm), let N := ieeeNum L in
  forall zip unzip c c' gz (l : plist fl) fs path limit,
    path <> "" -> gzipWorks zip unzip -> cleanList false l -> is_ok (listWrite c false l) -> gz = false \/ duiker_on c = true ->
    autodesk_on c' = true -> duiker_on c' = true ->
    exists steps b, writeFile (textFiles zip unzip) c false gz l = (Ok true, steps ++ [b]) /\
      (storableList (loadFrom (textFiles zip unzip) limit c' (putFile fs path b)) l ->
       clfinfo (textFiles zip unzip) (S limit) c' (putFile fs path b) path = showList (keptList l)).
Proof. exact (fun L => @clfinfo_saved fl (ieeeNum L) ieeeText (ieeeOk L)). Qed.
Print Assumptions C80_tool_on_saved.

Example C80_tool_case (L : libm) : let N := ieeeNum L in
  let l : plist fl := PList [("id", "a")] [] [PEComment "Description" (Some "small")] [] in
  exists b, clfinfo (T := fl) (textFiles toyZip toyUnzip) 1 15 (putFile (fun _ => None) "a.clf" b) "a.clf" = showList l /\
    snd (showList l) = None /\ snd (clfinfo (T := fl) (textFiles toyZip toyUnzip) 1 15 (putFile (fun _ => None) "a.clf" b) "b.clf") <> None.
Proof.
  intros N l.
  assert (C : cleanList false l).
  { cbn [cleanList map fst]. split; [repeat constructor; intros []|]. split; [constructor; [split; [named|printed]|constructor]|]. split; [constructor|].
    split; [|constructor]. constructor; [split; [named|split; [discriminate|apply line_body; printed]]|constructor]. }
  destruct (C80_tool_on_saved L toyZip toyUnzip 15 15 false l (fun _ => None) "a.clf" 0) as (steps & b & _ & R); try reflexivity; try exact C; try (now left); try discriminate.
  - split; [reflexivity|]. intro t; reflexivity.
  - apply PConvertIeee.ok_of. vm_compute. reflexivity.
  - exists b. split; [|split; [reflexivity|discriminate]]. etransitivity; [apply R|reflexivity].
    cbn [storableList map fst]. split; [repeat constructor; intros []|]. split; [reflexivity|]. split; [|constructor]. constructor; [right; left; reflexivity|constructor].
Qed.

(** * C78 *)

(** Without a config, an output path, or any colour space nothing is done; a config that
    does not load is an exception and no file changes; otherwise the conversion of C78 runs. *)
Theorem C78_main :
  forall {T} {N : Num T} {X : NumText T} io compat formats load o (fs : disk string),
    (oo_config o = None \/ oo_output o = None \/ (oo_sources o = [] /\ oo_dests o = []) ->
     ocioMain (T := T) io compat formats load o fs = (Ok tt, fs)) /\
    forall path output, oo_config o = Some path -> oo_output o = Some output -> oo_sources o ++ oo_dests o <> [] ->
      (forall e, load path = Err e -> ocioMain io compat formats load o fs = (Err e, fs)) /\
      (forall cf, load path = Ok cf ->
        ocioMain io compat formats load o fs =
        convertOCIO io compat formats cf path (oo_sources o) (oo_dests o) output (oo_useIndexMaps o) (oo_useHalfDomain o) fs).
Proof.
  exact (fun T N X io compat formats load o fs => conj (ocio_idle io compat formats load o fs)
    (fun path output C O S => conj (fun e => ocio_unloaded io compat formats load o path output e fs C O S) (fun cf => ocio_runs io compat formats load o path output cf fs C O S))).
Qed.
Print Assumptions C78_main.

(** The conversion of [C78_case], and the same without its colour spaces. *)
Example C78_main_case (L : libm) : let N := ieeeNum L in
  let options sources dests := {| oo_config := Some "/show/config.ocio"; oo_sources := sources; oo_dests := dests; oo_output := Some "x.clf";
                                  oo_useIndexMaps := false; oo_useHalfDomain := true |} in
  forall io fs,
  ocioMain io 15 (allFormats formatStr io 15) (fun _ => Ok (exampleConfig L)) (options ["camera"] ["display"]) fs =
    convertOCIO io 15 (allFormats formatStr io 15) (exampleConfig L) "/show/config.ocio" ["camera"] ["display"] "x.clf" false true fs /\
  ocioMain io 15 (allFormats formatStr io 15) (fun _ => Ok (exampleConfig L)) (options [] []) fs = (Ok tt, fs).
Proof.
  intros N options io fs. split.
  - now apply (proj2 (C78_main io 15 (allFormats formatStr io 15) (fun _ => Ok (exampleConfig L)) (options ["camera"] ["display"]) fs) "/show/config.ocio" "x.clf" eq_refl eq_refl).
  - apply C78_main. right. right. split; reflexivity.
Qed.
