(** CDL in IEEE arithmetic. *)
From Coq Require Import Reals Lra Psatz.
From Flocq Require Import Core BinarySingleNaN.
From Verif Require Export PIeeeRange PCdlForm.
Local Open Scope R_scope.

Section CdlIeee.
  Variable L : libm.
  #[local] Instance NLc : Num fl := ieeeNum L.

  Lemma unit_order : Bleb (n0 : fl) n1 = true.
  Proof. vm_compute. reflexivity. Qed.
  Lemma low_sample d : Bleb (nofZ 0 : fl) (nf32 (normalizedToBitDepth (nf32 n0) d)) = true.
  Proof. unfold normalizedToBitDepth. repeat match goal with |- context [if ?b then _ else _] => destruct b end; vm_compute; reflexivity. Qed.
  Lemma high_sample d : Bleb (nf32 (normalizedToBitDepth (nf32 n1) d)) (bitDepthSize d : fl) = true.
  Proof. unfold normalizedToBitDepth, bitDepthSize. repeat match goal with |- context [if ?b then _ else _] => destruct b end; vm_compute; reflexivity. Qed.
  Lemma zero_low d : Bleb (n0 : fl) (bitDepthSize d : fl) = true.
  Proof. unfold bitDepthSize. repeat match goal with |- context [if ?b then _ else _] => destruct b end; vm_compute; reflexivity. Qed.

  Theorem cdl_in_range_ieee c h v n values st o dOut i y :
    (n = Node h (BCDL v) \/ n = Node h (BColorCorrection v)) -> (3 <= st)%nat -> dget (h_attrs h) "outBitDepth" = Some dOut ->
    (exists s, dget (h_attrs h) "style" = Some (AStr s) /\ In s ["Fwd"; "v1.2_Fwd"; "Rev"; "v1.2_Rev"]%string) ->
    nodeProcess c n values st = Ok o -> (i mod st < 3)%nat -> nth_error (po_out o) i = Some y ->
    Bleb (nofZ 0) y = true /\ Bleb y (bitDepthSize dOut) = true.
  Proof.
    intros Hn H3 Ho Hs H Hi Hy.
    assert (H' : cdlProcess c h v values st = Ok o) by (destruct Hn as [-> | ->]; exact H).
    destruct (cdl_clamped c h v values st o dOut i y H3 Ho Hs H' Hi Hy) as [->|[w ->]].
    - split; [vm_compute; reflexivity|apply zero_low].
    - destruct (clamp_between L (n0 : fl) n1 w unit_order) as [C1 [C2 _]].
      split; (eapply Bleb_trans; [|]).
      + apply low_sample.
      + apply f32_le, denorm_le, f32_le. exact C1.
      + apply f32_le, denorm_le, f32_le. exact C2.
      + apply high_sample.
  Qed.
End CdlIeee.
