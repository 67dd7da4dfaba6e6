(** The text of CLF files (C89). *)
From Coq Require Import List String Ascii ZArith NArith.
From Flocq Require Import BinarySingleNaN.
From Verif Require PConvertIeee.
From Verif Require Import SpecXmlText PNumText PTextIeee PFilesRead PIndent PXmlText PXmlTree PXmlTextDoc PXmlTextCase MBuild Thm_Write Thm_Files.
Import ListNotations.
Local Open Scope string_scope.
Local Open Scope list_scope.

(** * C89 *)

(** The text made for a plain document is the document when parsed, up to indentation,
    except that a tab or line feed in an attribute has become a blank. *)
Theorem C89_text_back :
  forall root, plainDocument root ->
    exists t root', xmlPrettify root = Ok t /\ isAscii t = true /\ etreeParse t = Some root' /\ sameTree (blankAttributes root) root'.
Proof. exact text_back. Qed.
Print Assumptions C89_text_back.

(** The document of a clean list is plain, with no such attribute: saving succeeds
    whenever the list can be written, self-contained or not, and the text left in the file,
    packed or not, is the list's document. *)
Theorem C89_saved :
  forall {T} {N : Num T} {X : NumText T} zip unzip c selfContained gz (l : plist T) root,
    gzipWorks zip unzip -> cleanList selfContained l -> listWrite c selfContained l = Ok root -> gz = false \/ duiker_on c = true ->
    exists t root' steps, writeFile (textFiles zip unzip) c selfContained gz l = (Ok true, steps ++ [if gz then zip t else t]) /\
      etreeParse t = Some root' /\ sameTree root root'.
Proof. exact @text_saved. Qed.
Print Assumptions C89_saved.

(** Saving a clean list and opening the file gives the list with the numbers as their
    text keeps them. Of the libraries only gzip is left open. *)
Theorem C89_save_and_open :
  forall (L : libm), let N := ieeeNum L in
  forall zip unzip c c' gz (l : plist fl) fs path limit strict,
    gzipWorks zip unzip -> cleanList false l -> is_ok (listWrite c false l) -> gz = false \/ duiker_on c = true ->
    autodesk_on c' = true -> duiker_on c' = true ->
    exists steps b, writeFile (textFiles zip unzip) c false gz l = (Ok true, steps ++ [b]) /\
      (storableList (loadFrom (textFiles zip unzip) limit c' (putFile fs path b)) l ->
       openList (textFiles zip unzip) (S limit) c' (putFile fs path b) strict path = Ok (keptList l)).
Proof. exact (fun L => @text_save_open fl (ieeeNum L) ieeeText (ieeeOk L)). Qed.
Print Assumptions C89_save_and_open.

(** A control character or one outside ASCII, anywhere in the list's document: saving
    raises, and the target file is not touched. *)
Theorem C89_refused :
  forall {T} {N : Num T} {X : NumText T} zip unzip c selfContained gz (l : plist T) root a,
    listWrite c selfContained l = Ok root -> control a \/ outsideAscii a -> occurs a root ->
    exists w, writeFile (textFiles zip unzip) c selfContained gz l = (Err w, []).
Proof. exact @refused. Qed.
Print Assumptions C89_refused.

(** What [cleanList] asks is needed. An attribute with a line break comes back with a
    blank. *)
Theorem C89_attribute_refuted :
  forall (L : libm), let N := ieeeNum L in
  forall zip unzip fs path limit strict, gzipWorks zip unzip ->
    exists (l : plist fl) steps t, storableList (fun _ => Ok None) l /\
      writeFile (textFiles zip unzip) 15 false false l = (Ok true, steps ++ [t]) /\
      openList (textFiles zip unzip) (S limit) 15 (putFile fs path t) strict path = Ok (PList [("id", "a b")] [] [] []) /\
      keptList l = PList [("id", ("a" ++ lineFeed ++ "b")%string)] [] [] [].
Proof. exact attribute_refuted. Qed.
Print Assumptions C89_attribute_refuted.
(** A carriage return in a text comes back as a line feed. *)
Theorem C89_return_refuted :
  forall (L : libm), let N := ieeeNum L in
  forall zip unzip fs path limit strict, gzipWorks zip unzip ->
    exists (l : plist fl) steps t, storableList (fun _ => Ok None) l /\
      writeFile (textFiles zip unzip) 15 false false l = (Ok true, steps ++ [t]) /\
      openList (textFiles zip unzip) (S limit) 15 (putFile fs path t) strict path =
        Ok (PList [] [] [PEComment "Description" (Some ("a" ++ lineFeed ++ "b")%string)] []) /\
      keptList l = PList [] [] [PEComment "Description" (Some ("a" ++ text ["013"%char] ++ "b")%string)] [].
Proof. exact return_refuted. Qed.
Print Assumptions C89_return_refuted.
(** An empty text comes back as no text. *)
Theorem C89_empty_text_refuted :
  forall (L : libm), let N := ieeeNum L in
  forall zip unzip fs path limit strict, gzipWorks zip unzip ->
    exists (l : plist fl) steps t, storableList (fun _ => Ok None) l /\
      writeFile (textFiles zip unzip) 15 false false l = (Ok true, steps ++ [t]) /\
      openList (textFiles zip unzip) (S limit) 15 (putFile fs path t) strict path = Ok (PList [] [] [PEComment "Description" None] []) /\
      keptList l = PList [] [] [PEComment "Description" (Some "")] [].
Proof. exact empty_text_refuted. Qed.
Print Assumptions C89_empty_text_refuted.
(** A list with an empty IndexMap is saved without complaint, and the file does not open. *)
Theorem C89_empty_map_refuted :
  forall (L : libm), let N := ieeeNum L in
  forall zip unzip fs path limit strict, gzipWorks zip unzip ->
    exists (l : plist fl) steps t, storableList (fun _ => Ok None) l /\
      writeFile (textFiles zip unzip) 15 false false l = (Ok true, steps ++ [t]) /\
      openList (T := fl) (textFiles zip unzip) (S limit) 15 (putFile fs path t) strict path = Err AttributeError.
Proof. exact empty_map_refuted. Qed.
Print Assumptions C89_empty_map_refuted.

(** A packing that works: two bytes in front. *)
Definition toyZip (t : string) : string := String "031" (String "139" t).
Definition toyUnzip (t : string) : option string :=
  match t with String a (String b t) => if Ascii.eqb a "031" && Ascii.eqb b "139" then Some t else None | _ => None end%bool.
Definition quote : string := text [""""%char].
(** The text of a small list, with the characters XML escapes. *)
Example C89_text_case (L : libm) : let N := ieeeNum L in
  let l : plist fl := PList [("id", "R&D <1>"); ("name", ("a " ++ quote ++ "look" ++ quote)%string)] []
             [PEComment "Description" (Some ("if x < 1 & y > 2: " ++ quote ++ "ok" ++ quote)%string)]
             [Node (newHeader (AStr "10i") (AStr "16f") (AStr "n") (AStr "it's")) (BGroup [])] in
  gzipWorks toyZip toyUnzip /\ cleanList false l /\
  snd (writeFile (textFiles toyZip toyUnzip) 15 false true l) <> [] /\
  last (snd (writeFile (textFiles toyZip toyUnzip) 15 false false l)) "" =
    ("<?xml version=" ++ quote ++ "1.0" ++ quote ++ " ?>" ++ lineFeed ++
     "<ProcessList id=" ++ quote ++ "R&amp;D &lt;1&gt;" ++ quote ++ " name=" ++ quote ++ "a &quot;look&quot;" ++ quote ++ ">" ++ lineFeed ++
     tabs 1 ++ "<Description>if x &lt; 1 &amp; y &gt; 2: &quot;ok&quot;</Description>" ++ lineFeed ++
     tabs 1 ++ "<Group inBitDepth=" ++ quote ++ "10i" ++ quote ++ " outBitDepth=" ++ quote ++ "16f" ++ quote ++ " id=" ++ quote ++ "n" ++ quote ++
       " name=" ++ quote ++ "it's" ++ quote ++ "/>" ++ lineFeed ++
     "</ProcessList>" ++ lineFeed)%string /\
  openList (textFiles toyZip toyUnzip) 1 15 (putFile (fun _ => None) "a.clf" (last (snd (writeFile (textFiles toyZip toyUnzip) 15 false true l)) "")) true "a.clf" = Ok l.
Proof.
  intros N l.
  assert (Z : gzipWorks toyZip toyUnzip) by (split; [reflexivity|]; intro t; reflexivity).
  assert (C : cleanList false l).
  { unfold l. cbn [cleanList map fst]. split; [repeat (constructor; [cbn; intuition discriminate|]); constructor|].
    split; [repeat (constructor; [split; [named|printed]|]); constructor|]. split; [constructor|].
    split; [constructor; [|constructor]; split; [named|split; [discriminate|apply line_body; printed]]|].
    constructor; [|constructor]. split; [|exact Logic.I]. repeat split; try solve [constructor].
    - cbn. repeat (constructor; [cbn; intuition discriminate|]). constructor.
    - cbn. repeat (constructor; [split; [named|printed]|]). constructor. }
  assert (S : forall load, storableList load l).
  { intro load. unfold l. cbn [storableList map fst]. split; [repeat (constructor; [cbn; intuition discriminate|]); constructor|]. split; [reflexivity|].
    split; [constructor; [right; left; reflexivity|constructor]|]. constructor; [|constructor]. split; [|exact Logic.I]. split; [|split; [reflexivity|constructor]].
    split; [cbn; repeat (constructor; [cbn; intuition discriminate|]); constructor|]. split; [now exists []|]. repeat constructor; discriminate. }
  assert (W : is_ok (listWrite 15 false l)) by (apply PConvertIeee.ok_of; vm_compute; reflexivity).
  split; [exact Z|]. split; [exact C|].
  destruct (C89_save_and_open L toyZip toyUnzip 15 15 true l (fun _ => None) "a.clf" 0 true Z C W (or_intror eq_refl) eq_refl eq_refl) as (steps & b & Wf & R).
  split; [|split].
  - unfold N. rewrite Wf. cbn [snd]. destruct steps; discriminate.
  - vm_compute. reflexivity.
  - unfold N. rewrite Wf. cbn [snd]. rewrite last_last. exact (R (S _)).
Qed.

(** The list of [C45_case] is clean too; and one with a bell in its name is not saved. *)
Example C89_case (L : libm) : let N := ieeeNum L in
  let l := richList L (PList [("id", "inner")] [] [] []) in
  let bell : plist fl := PList [("name", text ["a"; "007"]%char)] [] [] [] in
  cleanList true l /\ is_ok (listWrite 15 false l) /\ is_ok (listWrite 15 true l) /\
  writeFile (textFiles toyZip toyUnzip) 15 false false bell = (Err ParseError, []).
Proof.
  intros N l bell. split; [|split; [apply PConvertIeee.ok_of; vm_compute; reflexivity|split; [apply PConvertIeee.ok_of; vm_compute; reflexivity|vm_compute; reflexivity]]].
  unfold l, richList. cbn [cleanList map fst]. split; [repeat (constructor; [cbn; intuition discriminate|]); constructor|].
  split; [repeat (constructor; [split; [named|printed]|]); constructor|]. split; [constructor|].
  split; [constructor; [split; [named|split; [discriminate|apply line_body; printed]]|constructor; [|constructor]]; repeat (constructor; [split; [named|split; [discriminate|apply line_body; printed]]|]); constructor|].
  assert (A : forall attrs : list (string * aval), forallb (fun kv => nameb (fst kv) && forallb printableb (chars (avalText (snd kv))))%bool attrs = true ->
            Forall (fun kv => xmlName (fst kv) /\ lineText (avalText (snd kv))) attrs).
  { intros attrs H. apply Forall_forall. intros kv Hk. rewrite forallb_forall in H. specialize (H kv Hk). apply andb_prop in H as [H1 H2]. split; [now apply name_check|now apply line_check]. }
  constructor; [|constructor; [|constructor; [|constructor; [|constructor]]]].
  - split; [|exact Logic.I]. split; [cbn; repeat (constructor; [cbn; intuition discriminate|]); constructor|]. split; [apply A; reflexivity|].
    split; [cbn -[nlit]; repeat (constructor; [named|]); constructor|]. split; [constructor|]. constructor; [split; [discriminate|apply line_body; printed]|constructor].
  - split; [|exact Logic.I]. split; [cbn; repeat (constructor; [cbn; intuition discriminate|]); constructor|]. split; [apply A; reflexivity|].
    split; [constructor|]. split; [constructor|]. constructor; [exact Logic.I|constructor].
  - split; [|intros _; exact Logic.I]. split; [cbn; repeat (constructor; [cbn; intuition discriminate|]); constructor|]. split; [apply A; reflexivity|]. repeat split; constructor.
  - split.
    + split; [cbn; repeat (constructor; [cbn; intuition discriminate|]); constructor|]. split; [apply A; reflexivity|]. split; [constructor|]. split; [constructor|].
      constructor; [split; [named|split; [discriminate|apply line_body; printed]]|constructor].
    + split; [|exact Logic.I]. split; [|split; [discriminate|split; discriminate]].
      split; [cbn; repeat (constructor; [cbn; intuition discriminate|]); constructor|]. split; [apply A; reflexivity|]. repeat split; constructor.
Qed.
