(** Saving what was opened (C77). *)
From Coq Require Import Reals.
From Flocq Require Import Core BinarySingleNaN.
From Verif Require Import SpecStable PStableNum PStable PStableCase PWriteCase PIeee MBuild Thm_Write.
Local Open Scope string_scope.
Local Open Scope list_scope.

(** The first save and load may round numbers; no later one does. What was read from a
    saved list and is saved again reads back exactly the same, whatever the
    features it is written with, so from then on every file is the same. *)
Theorem C77_saved_again :
  forall (L : libm), let N := ieeeNum L in
  forall c c' load strict (l : plist fl) root l1,
    autodesk_on c' = true -> duiker_on c' = true -> storableList load l ->
    listWrite c false l = Ok root -> listRead c' load strict emptyList root = Ok l1 ->
    forall c2 root1, listWrite c2 false l1 = Ok root1 -> listRead c' load strict emptyList root1 = Ok l1.
Proof. exact saved_again. Qed.
Print Assumptions C77_saved_again.

(** The three ways numbers go through text, each done twice. *)
Theorem C77_numbers_again :
  forall (L : libm), let N := ieeeNum L in
  forall x : fl,
    viaStr (viaStr x) = viaStr x /\ viaInt (viaInt x) = viaInt x /\
    (forall raw enc, viaArray raw enc (viaArray raw enc x) = viaArray raw enc x).
Proof. exact (fun L x => conj (viaStr_again x) (conj (viaInt_again L x) (fun raw enc => viaArray_again L raw enc x))). Qed.
Print Assumptions C77_numbers_again.

(** In particular the float32 nearest to a nine-decimal text prints, to nine decimals, as a
    text that reads back as it. *)
Theorem C77_decimals_again :
  forall x y z : fl, throughDecimals x y -> throughDecimals y z -> z = y.
Proof. exact throughDecimals_again. Qed.
Print Assumptions C77_decimals_again.

(** What was read can be saved again, with the features it was first saved with, exactly when
    the tables for integer bit depths hold finite numbers. *)
Theorem C77_can_save_again :
  forall (L : libm), let N := ieeeNum L in
  forall c c' load strict (l : plist fl) root l1,
    autodesk_on c' = true -> duiker_on c' = true -> storableList load l ->
    listWrite c false l = Ok root -> listRead c' load strict emptyList root = Ok l1 ->
    (is_ok (listWrite c false l1) <-> Forall (elementsInside finiteIntegers) (procs_of l1)).
Proof. exact writes_again. Qed.
Print Assumptions C77_can_save_again.

(** Not everything that was saved and opened can be saved again: a finite entry beyond the
    range of float32 in a table for 10i is read as infinity. *)
Theorem C77_always_again_refuted :
  forall (L : libm), let N := ieeeNum L in
  exists (l : plist fl) root l1, storableList noFiles l /\
    listWrite 15 false l = Ok root /\ listRead 15 noFiles true emptyList root = Ok l1 /\ listWrite 15 false l1 = Err OverflowError.
Proof. exact second_save_fails. Qed.
Print Assumptions C77_always_again_refuted.

(** The second file need not be the first: a Matrix of entries 0.1. *)
Theorem C77_first_file_refuted :
  forall (L : libm), let N := ieeeNum L in
  exists (l : plist fl) root l1 root1, storableList noFiles l /\
    listWrite 15 false l = Ok root /\ listRead 15 noFiles true emptyList root = Ok l1 /\ listWrite 15 false l1 = Ok root1 /\ root1 <> root.
Proof. exact second_save_differs. Qed.
Print Assumptions C77_first_file_refuted.

(** An IndexMap that was written without its dimension is saved with one that cannot be
    read. *)
Theorem C77_without_dimension :
  forall {T} {N : Num T} {X : NumText T} (e saved : xelem) (m : imap T),
    dget (x_attrib e) "dim" = None -> imapRead e = Ok m -> imapWrite m = Ok saved ->
    dget (x_attrib saved) "dim" = Some "[]" /\ imapRead (T := T) saved = Err ValueError.
Proof. exact @without_dimension. Qed.
Print Assumptions C77_without_dimension.

(** So not everything that was opened, and then saved, can be opened again. *)
Theorem C77_opened_refuted :
  forall (L : libm), let N := ieeeNum L in
  exists root (l : plist fl) saved, listRead 15 noFiles true emptyList root = Ok l /\
    listWrite 15 false l = Ok saved /\ listRead (T := fl) 15 noFiles true emptyList saved = Err ValueError.
Proof. exact (fun L => ex_intro _ undimensioned (undimensioned_lost L)). Qed.
Print Assumptions C77_opened_refuted.

Example C77_case (L : libm) (inner : plist fl) : let N := ieeeNum L in
  let l := richList L inner in
  let load := fun p => if String.eqb p "/inner.clf" then Ok (Some inner) else Err IOError in
  exists root l1 root1, listWrite 15 false l = Ok root /\ listRead 15 load true emptyList root = Ok l1 /\
    listWrite 0 false l1 = Ok root1 /\ listRead 15 load true emptyList root1 = Ok l1 /\
    Forall (elementsInside finiteIntegers) (procs_of l1).
Proof.
  assert (W0 : isOk (@listWrite fl (ieeeNum L) ieeeText 0 false (@keptList fl (ieeeNum L) ieeeText (richList L inner))) = true)
    by (vm_compute; reflexivity).
  assert (W2 : isOk (@listWrite fl (ieeeNum L) ieeeText 15 false (@keptList fl (ieeeNum L) ieeeText (richList L inner))) = true)
    by (vm_compute; reflexivity).
  pose proof (C45_case L inner) as H. cbv zeta in H |- *. destruct H as (S & root & W & _ & R).
  apply isOk_Ok in W0 as [root1 W1]. apply isOk_Ok in W2.
  exists root, (@keptList fl (ieeeNum L) ieeeText (richList L inner)), root1. split; [exact W|]. split; [exact R|]. split; [exact W1|].
  split.
  - exact (C77_saved_again L 15 15 _ true _ root _ eq_refl eq_refl S W R 0%Z root1 W1).
  - exact (proj1 (C77_can_save_again L 15 15 _ true _ root _ eq_refl eq_refl S W R) W2).
Qed.
