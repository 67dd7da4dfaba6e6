(** clfinfo and convertOCIOtoCLF from their command lines. *)
From Coq Require Import List String ZArith.
From Verif Require Import MMains SpecXmlText SpecInfo PNumText PTextIeee PXmlTextDoc.
Import ListNotations.
Local Open Scope string_scope.
Local Open Scope list_scope.

Section Mains.
  Context {T : Type} {N : Num T} {X : NumText T}.

  Lemma clfinfo_idle {B} (io : fileLib B) limit c fs : clfinfo (T := T) io limit c fs "" = ([], None).
  Proof. reflexivity. Qed.
  Lemma clfinfo_shows {B} (io : fileLib B) limit c fs path (l : plist T) : path <> "" -> openList io limit c fs false path = Ok l ->
    clfinfo io limit c fs path = showList l.
  Proof. intros P O. unfold clfinfo. apply String.eqb_neq in P. now rewrite P, O. Qed.
  Lemma clfinfo_raises {B} (io : fileLib B) limit c fs path e : path <> "" -> openList (T := T) io limit c fs false path = Err e ->
    clfinfo (T := T) io limit c fs path = ([], Some e).
  Proof. intros P O. unfold clfinfo. apply String.eqb_neq in P. now rewrite P, O. Qed.

  Lemma clfinfo_saved {O : TextOk T} zip unzip c c' gz (l : plist T) fs path limit : path <> "" -> gzipWorks zip unzip -> cleanList false l ->
    is_ok (listWrite c false l) -> gz = false \/ duiker_on c = true -> autodesk_on c' = true -> duiker_on c' = true ->
    exists steps b, writeFile (textFiles zip unzip) c false gz l = (Ok true, steps ++ [b]) /\
      (storableList (loadFrom (textFiles zip unzip) limit c' (putFile fs path b)) l ->
       clfinfo (textFiles zip unzip) (S limit) c' (putFile fs path b) path = showList (keptList l)).
  Proof.
    intros P Z C W D A1 A2. destruct (text_save_open zip unzip c c' gz l fs path limit false Z C W D A1 A2) as (steps & b & Wf & Op).
    exists steps, b. split; [exact Wf|]. intro S. exact (clfinfo_shows _ _ _ _ _ _ P (Op S)).
  Qed.

  Lemma ocio_idle io compat formats load o (fs : disk string) : oo_config o = None \/ oo_output o = None \/ (oo_sources o = [] /\ oo_dests o = []) ->
    ocioMain (T := T) io compat formats load o fs = (Ok tt, fs).
  Proof.
    unfold ocioMain. intros [->|[->|[-> ->]]]; [reflexivity|destruct (oo_config o); reflexivity|]. destruct (oo_config o), (oo_output o); reflexivity.
  Qed.
  Lemma ocio_unloaded io compat formats load o path output e (fs : disk string) : oo_config o = Some path -> oo_output o = Some output ->
    oo_sources o ++ oo_dests o <> [] -> load path = Err e ->
    ocioMain (T := T) io compat formats load o fs = (Err e, fs).
  Proof. unfold ocioMain. intros -> -> NE L. rewrite L. destruct (oo_sources o), (oo_dests o); try reflexivity; contradiction NE; reflexivity. Qed.
  Lemma ocio_runs io compat formats load o path output cf (fs : disk string) : oo_config o = Some path -> oo_output o = Some output ->
    oo_sources o ++ oo_dests o <> [] -> load path = Ok cf ->
    ocioMain (T := T) io compat formats load o fs =
    convertOCIO io compat formats cf path (oo_sources o) (oo_dests o) output (oo_useIndexMaps o) (oo_useHalfDomain o) fs.
  Proof. unfold ocioMain. intros -> -> NE L. rewrite L. destruct (oo_sources o), (oo_dests o); try reflexivity; contradiction. Qed.
End Mains.
