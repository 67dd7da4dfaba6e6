(** A Matrix that a round trip changes. *)
From Coq Require Import Reals Lra Psatz.
From Flocq Require Import Core BinarySingleNaN.
From Verif Require Import SpecWrite PTextIeee PXmlWrite MBuild.
Local Open Scope string_scope.
Local Open Scope list_scope.

Definition lastBitMatrix (L : libm) : node fl :=
  let q a b := @nlit fl (ieeeNum L) a b in
  setMatrix (@newMatrix fl (AStr "32f") (AStr "32f") (AStr "m") (AStr "m")) [3; 3]%nat
    [q (-1) 1; q 3 2; q 0 1;  q 0 1; q 1 1; q 0 1;  q 0 1; q 0 1; q 1 1]%Z "string".
Definition lastBitPixel (L : libm) : list fl :=
  let q a b := @nlit fl (ieeeNum L) a b in [q 1 33554432; q 8388609 8388608; q 0 1]%Z.

Definition sfOut (r : res (list fl)) : list SpecFloat.spec_float := match r with Ok o => map B2SF o | Err _ => [] end.

Lemma sf_map (l l' : list fl) : map B2SF l = map B2SF l' -> l = l'.
Proof.
  revert l'. induction l as [|x l IH]; intros [|y l'] E; try discriminate; [reflexivity|].
  injection E as E1 E2. f_equal; [now apply B2SF_inj|now apply IH].
Qed.

Lemma last_bit (L : libm) : let N := ieeeNum L in
  exists (n : node fl) pixel root l',
    (exists h, n = Node h BMatrix) /\ elementsInside exactElement n /\
    listWrite 15 false (PList [] [] [] [n]) = Ok root /\
    listRead 15 (fun _ => Ok None) true emptyList root = Ok l' /\
    outcome (listProcess 15 l' pixel 3) <> outcome (listProcess 15 (PList [] [] [] [n]) pixel 3).
Proof.
  assert (W : exists root, @listWrite fl (ieeeNum L) ieeeText 15 false (PList [] [] [] [lastBitMatrix L]) = Ok root).
  { eexists. vm_compute. reflexivity. }
  destruct W as [root W].
  exists (lastBitMatrix L), (lastBitPixel L), root, (@keptList fl (ieeeNum L) ieeeText (PList [] [] [] [lastBitMatrix L])).
  split; [eexists; reflexivity|]. split.
  { split; [|exact Logic.I]. constructor; [|constructor]. cbn [exactElement]. apply sf_map. vm_compute. reflexivity. }
  split; [exact W|]. split.
  - apply (@list_back fl (ieeeNum L) ieeeText (ieeeOk L) 15 15 (fun _ => Ok None) true); [reflexivity|reflexivity| |exact W].
    cbn [storableList]. split; [constructor|]. split; [reflexivity|]. split; [constructor|]. constructor; [|constructor].
    split; [|exact Logic.I]. split; [|split; [reflexivity|repeat constructor]].
    split; [repeat constructor; cbn; intuition discriminate|]. split; [exists []; reflexivity|].
    repeat (apply Forall_cons || apply Forall_nil); cbn; split; discriminate.
  - intro E. apply (f_equal sfOut) in E. revert E. vm_compute. discriminate.
Qed.
