(** A second save that fails, and one that differs from the first. *)
From Coq Require Import Reals.
From Flocq Require Import Core BinarySingleNaN.
From Verif Require Import SpecWrite PTextIeee PXmlWrite MBuild.
Local Open Scope string_scope.
Local Open Scope list_scope.

(** One row of three equal entries, for the given output bit depth. *)
Definition oneRow (L : libm) (depth : string) (a b : Z) : plist fl :=
  let x := @nlit fl (ieeeNum L) a b in
  PList [("id", "l")] [] [] [setMatrix (@newMatrix fl (AStr "32f") (AStr depth) (AStr "m") (AStr "m")) [1; 3]%nat [x; x; x] "string"].
Lemma oneRow_storable L depth a b load : depth <> "True" -> depth <> "False" -> storableList load (oneRow L depth a b).
Proof.
  intros D1 D2. cbn [oneRow storableList]. split; [repeat constructor; intros []|]. split; [reflexivity|]. split; [constructor|].
  constructor; [|constructor].
  split; [|exact Logic.I]. split; [|split; [reflexivity|repeat constructor]].
  split; [repeat constructor; cbn; intuition discriminate|]. split; [exists []; reflexivity|].
  repeat (apply Forall_cons || apply Forall_nil); cbn; split; assumption || discriminate.
Qed.

Definition noFiles {T} : string -> res (option (plist T)) := fun _ => Ok None.
Definition isOk {A} (r : res A) : bool := match r with Ok _ => true | Err _ => false end.
Lemma isOk_Ok {A} (r : res A) : isOk r = true -> is_ok r.
Proof. destruct r; [eexists; reflexivity|discriminate]. Qed.
Definition xml (r : res xelem) : xelem := match r with Ok e => e | Err _ => XElem "" [] None [] end.

Lemma second_save_fails (L : libm) : let N := ieeeNum L in
  exists (l : plist fl) root l1, storableList noFiles l /\
    listWrite 15 false l = Ok root /\ listRead 15 noFiles true emptyList root = Ok l1 /\ listWrite 15 false l1 = Err OverflowError.
Proof.
  assert (W : exists root, @listWrite fl (ieeeNum L) ieeeText 15 false (oneRow L "10i" (10 ^ 39) 1) = Ok root).
  { eexists. vm_compute. reflexivity. }
  destruct W as [root W]. intro N.
  exists (oneRow L "10i" (10 ^ 39) 1), root, (@keptList fl (ieeeNum L) ieeeText (oneRow L "10i" (10 ^ 39) 1)).
  split; [apply oneRow_storable; discriminate|]. split; [exact W|]. split.
  - apply (@list_back fl (ieeeNum L) ieeeText (ieeeOk L) 15 15 noFiles true); [reflexivity|reflexivity| |exact W].
    apply oneRow_storable; discriminate.
  - vm_compute. reflexivity.
Qed.
Lemma second_save_differs (L : libm) : let N := ieeeNum L in
  exists (l : plist fl) root l1 root1, storableList noFiles l /\
    listWrite 15 false l = Ok root /\ listRead 15 noFiles true emptyList root = Ok l1 /\ listWrite 15 false l1 = Ok root1 /\ root1 <> root.
Proof.
  set (l := oneRow L "32f" 1 10).
  assert (W : @listWrite fl (ieeeNum L) ieeeText 15 false l = Ok (xml (@listWrite fl (ieeeNum L) ieeeText 15 false l))) by (vm_compute; reflexivity).
  set (l1 := @keptList fl (ieeeNum L) ieeeText l).
  assert (W1 : @listWrite fl (ieeeNum L) ieeeText 15 false l1 = Ok (xml (@listWrite fl (ieeeNum L) ieeeText 15 false l1))) by (vm_compute; reflexivity).
  assert (Ne : xml (@listWrite fl (ieeeNum L) ieeeText 15 false l1) <> xml (@listWrite fl (ieeeNum L) ieeeText 15 false l)) by (vm_compute; discriminate).
  intro N. exists l, (xml (@listWrite fl (ieeeNum L) ieeeText 15 false l)), l1, (xml (@listWrite fl (ieeeNum L) ieeeText 15 false l1)). split; [apply oneRow_storable; discriminate|]. split; [exact W|]. split; [|split; [exact W1|exact Ne]].
  apply (@list_back fl (ieeeNum L) ieeeText (ieeeOk L) 15 15 noFiles true); [reflexivity|reflexivity| |exact W].
  apply oneRow_storable; discriminate.
Qed.

(** An IndexMap that was written without its dimension. *)
Lemma without_dimension {T} {N : Num T} {X : NumText T} (e saved : xelem) (m : imap T) :
  dget (x_attrib e) "dim" = None -> imapRead e = Ok m -> imapWrite m = Ok saved ->
  dget (x_attrib saved) "dim" = Some "[]" /\ imapRead (T := T) saved = Err ValueError.
Proof.
  unfold imapRead at 1, imapWrite. intros D R W. rewrite D in R. cbn [bind] in R. destruct (x_text e) as [s|]; [|discriminate]. cbv zeta in R.
  destruct (mapM _ (MNumText.split s)) as [ins|]; [|discriminate]. cbn [bind] in R. destruct (mapM _ (MNumText.split s)) as [outs|]; [|discriminate]. cbn [bind] in R. injection R as <-.
  cbn [im_dim im_in im_out] in W. destruct (mapM imapPair _) as [ws|]; [|discriminate]. cbn [bind] in W. injection W as <-. split; reflexivity.
Qed.
Definition undimensioned : xelem :=
  XElem "ProcessList" [("id", "l")] None
    [XElem "LUT1D" [("name", "curve")] None [XElem "IndexMap" [] (Some "0@0 1@1") []; XElem "Array" [("dim", "2 1")] (Some "0 1") []]].
Lemma undimensioned_lost (L : libm) : let N := ieeeNum L in
  exists (l : plist fl) saved, listRead 15 noFiles true emptyList undimensioned = Ok l /\
    listWrite 15 false l = Ok saved /\ listRead 15 noFiles true (T := fl) emptyList saved = Err ValueError.
Proof.
  intro N.
  assert (H : (let* l := listRead (T := fl) 15 noFiles true emptyList undimensioned in let* saved := listWrite 15 false l in
               match listRead (T := fl) 15 noFiles true emptyList saved with Err ValueError => Ok true | _ => Ok false end) = Ok true) by (vm_compute; reflexivity).
  destruct (listRead 15 noFiles true emptyList undimensioned) as [l|] eqn:R; [|discriminate]. cbn [bind] in H.
  match type of H with bind ?w _ = _ => destruct w as [saved|] eqn:W; [|discriminate] end. cbn [bind] in H. exists l, saved. split; [first [exact R|reflexivity]|]. split; [first [exact W|reflexivity]|].
  match type of H with match ?w with _ => _ end = _ => destruct w as [|x] eqn:R2; [discriminate|] end. destruct x; try discriminate H. first [exact R2|reflexivity].
Qed.
