(** A table given before its node is said to hold halfs. *)
From Flocq Require Import Core BinarySingleNaN.
From Verif Require Import SpecWrite PTextIeee PXmlWrite MBuild NumF PStableCase SpecMeta PMeta.
Local Open Scope string_scope.
Local Open Scope list_scope.

Definition halfLut : node fl := newLUT1D (AStr "16f") (AStr "16f") (AStr "l") (AStr "l") (AStr "linear") (AStr "") (AStr "").
Definition halfValues (L : libm) : list fl := let N := ieeeNum L in [n0; nlit 1 2; n1].
Definition sayHalfs (n : node fl) : node fl := setAttribute n "rawHalfs" (ABool true).
Definition theNode (r : res (node fl)) : node fl := match r with Ok n => n | Err _ => halfLut end.
Definition theList (r : res (plist fl)) : plist fl := match r with Ok n => n | Err _ => emptyList end.

Lemma order_matters (L : libm) : let N := ieeeNum L in
  exists (lut : node fl) table early late rootEarly rootLate,
    setArray1D (setAttribute lut "rawHalfs" (ABool true)) 1 table "string" = Ok early /\
    (exists n, setArray1D lut 1 table "string" = Ok n /\ late = setAttribute n "rawHalfs" (ABool true)) /\
    alike early late /\
    listWrite 15 false (PList [] [] [] [early]) = Ok rootEarly /\ is_ok (listRead 15 noFiles true emptyList rootEarly) /\
    listWrite 15 false (PList [] [] [] [late]) = Ok rootLate /\ listRead 15 noFiles true emptyList rootLate = Err ValueError.
Proof.
  set (early := theNode (@setArray1D fl (sayHalfs halfLut) 1 (halfValues L) "string")).
  set (n := theNode (@setArray1D fl halfLut 1 (halfValues L) "string")).
  set (we := @listWrite fl (ieeeNum L) ieeeText 15 false (PList [] [] [] [early])).
  set (wl := @listWrite fl (ieeeNum L) ieeeText 15 false (PList [] [] [] [sayHalfs n])).
  assert (A : alike early (sayHalfs n)) by (constructor; repeat split).
  assert (W1 : we = Ok (xml we)) by (vm_compute; reflexivity).
  assert (W2 : wl = Ok (xml wl)) by (vm_compute; reflexivity).
  assert (R1 : isOk (@listRead fl (ieeeNum L) ieeeText 15 noFiles true emptyList (xml we)) = true) by (vm_compute; reflexivity).
  assert (R2 : @listRead fl (ieeeNum L) ieeeText 15 noFiles true emptyList (xml wl) = Err ValueError) by (vm_compute; reflexivity).
  intro N. exists halfLut, (halfValues L), early, (sayHalfs n), (xml we), (xml wl).
  split; [reflexivity|]. split; [exists n; split; reflexivity|]. split; [exact A|]. split; [exact W1|].
  split; [apply isOk_Ok; exact R1|]. split; [exact W2|exact R2].
Qed.
