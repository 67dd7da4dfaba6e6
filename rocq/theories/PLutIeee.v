(** The LUT formats with IEEE numbers. *)
From Coq Require Import List Arith Lia ZArith String Ascii Bool Reals.
From Flocq Require Import Core BinarySingleNaN.
From Verif Require Import PBase PNumText PTextIeee PTextSig PLutText PDecimals PSpi PSpi3 PCsp PCsp2 PCsp3 PCtl PCtl3 SpecWrite SpecLut.
Import ListNotations.
Local Open Scope string_scope.
Local Open Scope list_scope.

Lemma one_text (L : libm) : let N := ieeeNum L in exists one : fl, parseFloat "1.0" = Ok one /\ neqb one n1 = true.
Proof. intro N. eexists. split; [reflexivity|]. vm_compute. reflexivity. Qed.

Lemma spi3d_ieee (L : libm) : let N := ieeeNum L in
  forall str kept (lo hi : fl) data r0 r1 r2 f interp,
    latticeOf data r0 r1 r2 f -> (forall r g b, r < r0 -> g < r1 -> b < r2 -> Forall (printsAs str kept) (f r g b)) ->
    exists t vals, writeSPI3D str lo hi data r0 r1 r2 = Ok t /\
      readSPI3D t interp = Ok [lut3dNode "lut3d" (if String.eqb interp "linear" then "trilinear" else interp) r0 r1 r2 vals] /\
      tableOf vals r0 r1 r2 (fun r g b => map kept (f r g b)).
Proof. intros N str kept lo hi data r0 r1 r2 f interp. destruct (one_text L) as (one & P & E). now apply spi3d_round_trip with (one := one). Qed.

Lemma lut_numbers (L : libm) : let N := ieeeNum L in
  (forall x : fl, printsAs formatStr viaStr x /\ throughDigits x (viaStr x)) /\ (forall k (x : fl), atDecimals k x (viaFixed k x)).
Proof.
  intro N. split.
  - intro x. split; [split|apply digits_kept].
    + apply split_word, word_formatStr.
    + apply (parse_formatStr (OK := ieeeOk L)).
  - intros k x. apply fixed_kept.
Qed.

(** A lattice from the list of its colours. *)
Definition latticeFrom {T} (r0 r1 r2 : nat) (f : nat -> nat -> nat -> list T) : lattice T :=
  map (fun r => map (fun g => map (f r g) (seq 0 r2)) (seq 0 r1)) (seq 0 r0).
Lemma latticeFrom_of {T} r0 r1 r2 (f : nat -> nat -> nat -> list T) :
  (forall r g b, r < r0 -> g < r1 -> b < r2 -> List.length (f r g b) = 3) -> latticeOf (latticeFrom r0 r1 r2 f) r0 r1 r2 f.
Proof.
  intros H r g b Hr Hg Hb. split; [|now apply H]. unfold latticeGet, latticeFrom, getn.
  assert (G : forall A (h : nat -> A) n i, i < n -> nth_error (map h (seq 0 n)) i = Some (h i)).
  { intros A h n i Hi. apply map_nth_error. rewrite (nth_error_nth' _ 0) by (now rewrite seq_length). now rewrite seq_nth. }
  rewrite G by exact Hr. cbn [bind]. rewrite G by exact Hg. cbn [bind]. now rewrite G.
Qed.

Lemma csp_noncubic (L : libm) : let N := ieeeNum L in
  exists (data : lattice fl) f t range vals,
    latticeOf data 2 3 2 f /\ writeCSP3D n0 n1 data 2 3 2 = Ok t /\
    readCSP t = Ok [range; lut3dNode "lut3d" "trilinear" 2 3 2 vals] /\
    ~ tableOf vals 2 3 2 (fun r g b => map (viaFixed 6) (f r g b)).
Proof.
  intro N. set (f := fun _ _ _ : nat => [n0; n0; n0 : fl]). exists (latticeFrom 2 3 2 f), f.
  set (rows := map csp3Row (cells 2 3 2 (fun b g r => f r g b))).
  assert (R : exists vals, cspLut "3D" [2; 3; 2] rows = Ok (lut3dNode "lut3d" "trilinear" 2 3 2 vals) /\ List.length vals <> 36).
  { assert (C : match cspSamples (cspPlace 2 3) rows (repeat n0 (2 * 3 * 2 * 3)) with Ok v => negb (Nat.eqb (List.length v) 36) | Err _ => false end = true)
      by (vm_compute; reflexivity).
    unfold cspLut. cbn [getn nth_error bind]. change (String.eqb "3D" "3D") with true. cbv iota.
    destruct (cspSamples (cspPlace 2 3) rows (repeat n0 (2 * 3 * 2 * 3))) as [v|]; [|discriminate C]. cbn [bind]. exists v.
    split; [now rewrite lut3d_node|]. intro E. rewrite E in C. discriminate C. }
  destruct R as (vals & R & Len).
  assert (W : latticeOf (latticeFrom 2 3 2 f) 2 3 2 f) by (apply latticeFrom_of; reflexivity).
  eexists _, _, vals. split; [exact W|]. split.
  - unfold writeCSP3D. rewrite (cspRows_text _ _ _ _ f) by exact W. cbn [bind]. reflexivity.
  - split.
    + etransitivity; [apply (head_read (OK := ieeeOk L)); [now right|discriminate|apply (rows3D_lines (OK := ieeeOk L))]|]. 
      match goal with |- bind ?x _ = _ => replace x with (@Ok (node fl) (lut3dNode "lut3d" "trilinear" 2 3 2 vals)) by (symmetry; exact R) end. reflexivity.
    + intros [H _]. apply Len. exact H.
Qed.
