(** Concrete lists saved as text. *)
From Coq Require Import List String Ascii ZArith NArith Lia.
From Flocq Require Import BinarySingleNaN.
From Verif Require Import PBase SpecXmlText PNumText PTextIeee PFilesRead PIndent PXmlTree PXmlTextDoc MBuild NumF.
Import ListNotations.
Local Open Scope string_scope.
Local Open Scope list_scope.

Lemma written_text {T} {NM : Num T} {X : NumText T} zip unzip c f (l : plist T) root t : listWrite c f l = Ok root -> xmlPrettify root = Ok t -> isAscii t = true ->
  exists steps, writeFile (textFiles zip unzip) c f false l = (Ok true, steps ++ [t]).
Proof. intros W P A. unfold writeFile. rewrite W. cbn [pretty accepts textFiles]. rewrite P, A. eexists (_ :: _). reflexivity. Qed.
Lemma opened_text {T} {NM : Num T} {X : NumText T} zip unzip c u root fs path limit strict : gzipWorks zip unzip -> let t := ("<?xml" ++ u)%string in etreeParse t = Some root ->
  openList (T := T) (textFiles zip unzip) (S limit) c (putFile fs path t) strict path =
  listRead c (loadFrom (textFiles zip unzip) limit c (putFile fs path t)) strict emptyList root.
Proof.
  intros [_ Z] t P. apply (plain_reads (textFiles zip unzip) c _ path t root limit strict); [unfold putFile; now rewrite String.eqb_refl|apply Z|exact P].
Qed.

Section Cases.
  Variable L : libm.
  #[local] Hint Extern 0 (Num fl) => exact (ieeeNum L) : typeclass_instances.
  Variables (zip : string -> string) (unzip : string -> option string).
  Hypothesis Z : gzipWorks zip unzip.
  Let io := textFiles zip unzip.

  Ltac case_of := match goal with |- exists steps t, writeFile _ _ _ _ ?l = _ /\ _ =>
    let root := eval vm_compute in (listWrite (T := fl) 15 false l) in
    match root with Ok ?root =>
      let t := eval vm_compute in (xmlPrettify root) in
      match t with Ok ?t =>
        destruct (written_text zip unzip 15 false l root t eq_refl eq_refl eq_refl) as [steps W]; exists steps, t; split; [exact W|]
      end end end.
  Lemma attribute_case fs path limit strict : let l := PList [("id", text ["a"; "010"; "b"]%char)] [] [] [] in
    exists steps t, writeFile (T := fl) io 15 false false l = (Ok true, steps ++ [t]) /\
      openList (T := fl) io (S limit) 15 (putFile fs path t) strict path = Ok (PList [("id", "a b")] [] [] []).
  Proof.
    intro l. unfold l. case_of. eapply eq_trans; [refine (opened_text zip unzip 15 _ _ fs path limit strict Z _); vm_compute; reflexivity|]. reflexivity.
  Qed.
  Lemma return_case fs path limit strict : let l := PList [] [] [PEComment "Description" (Some (text ["a"; "013"; "b"]%char))] [] in
    exists steps t, writeFile (T := fl) io 15 false false l = (Ok true, steps ++ [t]) /\
      openList (T := fl) io (S limit) 15 (putFile fs path t) strict path = Ok (PList [] [] [PEComment "Description" (Some (text ["a"; "010"; "b"]%char))] []).
  Proof.
    intro l. unfold l. case_of. eapply eq_trans; [refine (opened_text zip unzip 15 _ _ fs path limit strict Z _); vm_compute; reflexivity|]. reflexivity.
  Qed.
  Lemma empty_case fs path limit strict : let l := PList [] [] [PEComment "Description" (Some "")] [] in
    exists steps t, writeFile (T := fl) io 15 false false l = (Ok true, steps ++ [t]) /\
      openList (T := fl) io (S limit) 15 (putFile fs path t) strict path = Ok (PList [] [] [PEComment "Description" None] []).
  Proof.
    intro l. unfold l. case_of. eapply eq_trans; [refine (opened_text zip unzip 15 _ _ fs path limit strict Z _); vm_compute; reflexivity|]. reflexivity.
  Qed.
  Definition emptyMap : plist fl :=
    PList [] [] [] [addElement (newLUT1D (AStr "32f") (AStr "32f") (AStr "l") (AStr "") (AStr "linear") (AStr "") (AStr "")) (EIndexMap {| im_dim := Some 0; im_in := []; im_out := [] |})].
  Lemma emptyMap_case fs path limit strict :
    exists steps t, writeFile (T := fl) io 15 false false emptyMap = (Ok true, steps ++ [t]) /\
      openList (T := fl) io (S limit) 15 (putFile fs path t) strict path = Err AttributeError.
  Proof.
    case_of. eapply eq_trans; [refine (opened_text zip unzip 15 _ _ fs path limit strict Z _); vm_compute; reflexivity|]. reflexivity.
  Qed.
End Cases.

Lemma attribute_refuted :
  forall (L : libm), let N := ieeeNum L in
  forall zip unzip fs path limit strict, gzipWorks zip unzip ->
    exists (l : plist fl) steps t, storableList (fun _ => Ok None) l /\
      writeFile (textFiles zip unzip) 15 false false l = (Ok true, steps ++ [t]) /\
      openList (textFiles zip unzip) (S limit) 15 (putFile fs path t) strict path = Ok (PList [("id", "a b")] [] [] []) /\
      keptList l = PList [("id", ("a" ++ lineFeed ++ "b")%string)] [] [] [].
Proof.
  intros L N zip unzip fs path limit strict Z. destruct (attribute_case L zip unzip Z fs path limit strict) as (steps & t & W & R).
  exists (PList [("id", text ["a"; "010"; "b"]%char)] [] [] []), steps, t. split; [|exact (conj W (conj R eq_refl))].
  repeat split; repeat constructor. intros [].
Qed.
Lemma return_refuted :
  forall (L : libm), let N := ieeeNum L in
  forall zip unzip fs path limit strict, gzipWorks zip unzip ->
    exists (l : plist fl) steps t, storableList (fun _ => Ok None) l /\
      writeFile (textFiles zip unzip) 15 false false l = (Ok true, steps ++ [t]) /\
      openList (textFiles zip unzip) (S limit) 15 (putFile fs path t) strict path =
        Ok (PList [] [] [PEComment "Description" (Some ("a" ++ lineFeed ++ "b")%string)] []) /\
      keptList l = PList [] [] [PEComment "Description" (Some ("a" ++ text ["013"%char] ++ "b")%string)] [].
Proof.
  intros L N zip unzip fs path limit strict Z. destruct (return_case L zip unzip Z fs path limit strict) as (steps & t & W & R).
  exists (PList [] [] [PEComment "Description" (Some (text ["a"; "013"; "b"]%char))] []), steps, t. split; [|exact (conj W (conj R eq_refl))].
  split; [constructor|]. split; [reflexivity|]. split; [|constructor]. constructor; [right; left; reflexivity|constructor].
Qed.
Lemma empty_text_refuted :
  forall (L : libm), let N := ieeeNum L in
  forall zip unzip fs path limit strict, gzipWorks zip unzip ->
    exists (l : plist fl) steps t, storableList (fun _ => Ok None) l /\
      writeFile (textFiles zip unzip) 15 false false l = (Ok true, steps ++ [t]) /\
      openList (textFiles zip unzip) (S limit) 15 (putFile fs path t) strict path = Ok (PList [] [] [PEComment "Description" None] []) /\
      keptList l = PList [] [] [PEComment "Description" (Some "")] [].
Proof.
  intros L N zip unzip fs path limit strict Z. destruct (empty_case L zip unzip Z fs path limit strict) as (steps & t & W & R).
  exists (PList [] [] [PEComment "Description" (Some "")] []), steps, t. split; [|exact (conj W (conj R eq_refl))].
  split; [constructor|]. split; [reflexivity|]. split; [|constructor]. constructor; [right; left; reflexivity|constructor].
Qed.
Lemma empty_map_refuted :
  forall (L : libm), let N := ieeeNum L in
  forall zip unzip fs path limit strict, gzipWorks zip unzip ->
    exists (l : plist fl) steps t, storableList (fun _ => Ok None) l /\
      writeFile (textFiles zip unzip) 15 false false l = (Ok true, steps ++ [t]) /\
      openList (T := fl) (textFiles zip unzip) (S limit) 15 (putFile fs path t) strict path = Err AttributeError.
Proof.
  intros L N zip unzip fs path limit strict Z. destruct (emptyMap_case L zip unzip Z fs path limit strict) as (steps & t & W & R).
  exists emptyMap, steps, t. split; [|exact (conj W R)].
  split; [constructor|]. split; [reflexivity|]. split; [constructor|]. constructor; [|constructor]. split; [|exact Logic.I]. split; [|split; [reflexivity|constructor; [split; [now left|discriminate]|constructor]]].
  split; [|split].
  - cbn. repeat (constructor; [cbn; intuition discriminate|]). constructor.
  - exists []; vm_compute; reflexivity.
  - repeat constructor; discriminate.
Qed.
