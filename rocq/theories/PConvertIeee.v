(** The converters at IEEE numbers. *)
From Coq Require Import List Arith Lia ZArith String Ascii Bool Permutation Reals.
From Flocq Require Import Core BinarySingleNaN.
From Verif Require Import PBase PFacts PNumText PTextIeee PIeeeArith PLutIeee PCsp4 PConvert PImport PTools SpecConvert NumF NumFText PIndent.
Import ListNotations.
Local Open Scope string_scope.
Local Open Scope list_scope.

Lemma steps_nonzero (L : libm) n : let N := ieeeNum L in (2 <= n)%nat -> (Z.of_nat n <= 2 ^ 53)%Z -> neqb (nofZ (T := fl) (Z.of_nat n - 1)) n0 = false.
Proof.
  intros N H1 H2. destruct (ofZ_exact L (Z.of_nat n - 1)) as [F E]; [lia|].
  change (Beqb (nofZ (T := fl) (Z.of_nat n - 1)) (@n0 fl N) = false).
  rewrite Beqb_correct; [|exact F|reflexivity]. unfold N. rewrite E. apply Req_bool_false. change (B2R (@n0 fl (ieeeNum L))) with 0%R.
  apply not_0_IZR. lia.
Qed.

Theorem csp_shaper_ieee (L : libm) : let N := ieeeNum L in
  forall samples n (lo hi : fl) data m f,
    2 <= n -> (Z.of_nat n <= 2 ^ 53)%Z -> n * 3 <= List.length samples -> latticeOf data m m m f ->
    exists t vals, writeCSP1D3D (Some samples) n lo hi data m m m = Ok t /\
      tableOf vals m m m (fun r g b => map (viaFixed 6) (f r g b)) /\
      readCSP t = (let shaper c := (map (viaFixed 6) (shaperInputs n lo hi), map (viaFixed 6) (shaperOutputs n samples c)) in
                   let* prelut := generateCLFPrelut (shaper 0) (shaper 1) (shaper 2) in
                   Ok (prelut ++ [lut3dNode "lut3d" "trilinear" m m m vals])).
Proof. intros N samples n lo hi data m f H1 H2. apply (csp_shaper_round_trip (OK := ieeeOk L)). now apply steps_nonzero. Qed.
Theorem csp_no_shaper_ieee (L : libm) : let N := ieeeNum L in
  forall n (lo hi : fl) data r0 r1 r2, 2 <= n -> (Z.of_nat n <= 2 ^ 53)%Z -> writeCSP1D3D None n lo hi data r0 r1 r2 = Err TypeError.
Proof. intros N n lo hi data r0 r1 r2 H1 H2. apply csp_no_shaper; [lia|now apply steps_nonzero]. Qed.

Theorem spi3d_trip_ieee (L : libm) : let N := ieeeNum L in
  forall str io compat kept formats c (l : plist fl) path a ra rp fs s, let n := wa_n3d a in
    Permutation formats (allFormats str io compat) -> extensionOf path = "spi3d" -> wa_style a = "3D" ->
    sample3D c l n n n (wa_inputMin a) (wa_inputMax a) = Ok s ->
    (forall r g b, r < n -> g < n -> b < n -> Forall (printsAs str kept) (cellOf s r g b)) ->
    exists t vals, let fs' := putFile fs path t in
      writeWith formats c l path a fs = (Ok LNone, fs') /\
      readWith formats path ra rp fs' =
        (Ok (wrapNodes rp [lut3dNode "lut3d" (if String.eqb (ra_interpolation ra) "linear" then "trilinear" else ra_interpolation ra) n n n vals]), fs') /\
      tableOf vals n n n (fun r g b => map kept (cellOf s r g b)).
Proof.
  intros N str io compat kept formats c l path a ra rp fs s n P E S Es F. destruct (one_text L) as (one & P1 & E1).
  exact (spi3d_trip str io compat kept one formats c l path a ra rp fs s P1 E1 P E S Es F).
Qed.
Theorem export_spi3d_ieee (L : libm) : let N := ieeeNum L in
  forall str io compat kept limit formats (o : exportOptions fl) clf lut (l : plist fl) s fs, let n := size3D o in
    Permutation formats (allFormats str io compat) -> shaperReadable (T := fl) (eo_shaperIn o) -> shaperReadable (T := fl) (eo_shaperOut o) ->
    eo_clf o = Some clf -> eo_lut o = Some lut -> lutKindOf o = Only3D -> extensionOf lut = "spi3d" ->
    openList io limit compat fs false clf = Ok l ->
    sample3D compat l n n n (eo_min o) (eo_max o) = Ok s ->
    (forall r g b, r < n -> g < n -> b < n -> Forall (printsAs str kept) (cellOf s r g b)) ->
    exists t, let fs' := putFile fs lut t in
      exportMain io compat limit formats o fs = (Ok tt, fs') /\
      forall ra rp, exists vals,
        readWith formats lut ra rp fs' =
        (Ok (wrapNodes rp [lut3dNode "lut3d" (if String.eqb (ra_interpolation ra) "linear" then "trilinear" else ra_interpolation ra) n n n vals]), fs') /\
        tableOf vals n n n (fun r g b => map kept (cellOf s r g b)).
Proof.
  intros N str io compat kept limit formats o clf lut l s fs n P H1 H2 C Lu K E O S F. destruct (one_text L) as (one & P1 & E1).
  exact (export_spi3d str io compat kept one limit formats o clf lut l s fs P1 E1 P H1 H2 C Lu K E O S F).
Qed.

(** ** A file library that knows one document, for concrete cases *)
Definition oneDocument (root : xelem) : fileLib string :=
  {| pretty := fun _ => Ok "document";
     parseXml := fun t => if String.eqb t "document" then Some root else None;
     gzip := fun t => ("gz" ++ t)%string;
     gunzip := fun t => match t with String "g" (String "z" t) => Some t | _ => None end;
     accepts := fun _ => true;
     nothing := "";
     prefixes := fun _ => [] |}.

(** ** A shaper on [0, 1e-7] *)
Definition tinyEnd : fl := binary_normalize 53 1024 eq_refl eq_refl mode_NE 3777893186295716 (-75) false.
Lemma tiny_unreadable (L : libm) : let N := ieeeNum L in
  let shaper := (map (viaFixed 6) (shaperInputs 3 n0 tinyEnd), map (viaFixed 6) (shaperOutputs 3 (repeat (n0 : fl) 9) 0)) in
  nltb (n0 : fl) tinyEnd = true /\ generateCLFPrelut shaper shaper shaper = Err ZeroDivisionError.
Proof.
  intros N shaper. split; [vm_compute; reflexivity|].
  assert (E : match generateCLFPrelut shaper shaper shaper with Err ZeroDivisionError => true | _ => false end = true) by (vm_compute; reflexivity).
  destruct (generateCLFPrelut shaper shaper shaper) as [|[]]; try discriminate. reflexivity.
Qed.

Theorem close_inputs (L : libm) : let N := ieeeNum L in
  exists samples n (lo hi : fl) t, nltb lo hi = true /\
    writeCSP1D3D (Some samples) n lo hi (latticeFrom 2 2 2 (fun r g b => map (fun k => nofZ (Z.of_nat k)) [r; g; b])) 2 2 2 = Ok t /\
    readCSP (T := fl) t = Err ZeroDivisionError.
Proof.
  intro N. destruct (tiny_unreadable L) as [Lt E].
  destruct (csp_shaper_ieee L (repeat n0 9) 3 n0 tinyEnd (latticeFrom 2 2 2 (fun r g b => map (fun k => nofZ (Z.of_nat k)) [r; g; b])) 2
              (fun r g b => map (fun k => nofZ (Z.of_nat k)) [r; g; b])) as (t & vals & W & _ & R).
  - lia.
  - vm_compute. discriminate.
  - reflexivity.
  - apply latticeFrom_of. reflexivity.
  - exists (repeat n0 9), 3, n0, tinyEnd, t. split; [exact Lt|]. split; [exact W|]. etransitivity; [exact R|].
    match goal with |- (let shaper := ?f in _) = _ => set (shaper := f) end. cbv zeta.
    assert (S : forall c, (c < 3)%nat -> shaper c = shaper 0).
    { intros c Hc. destruct c as [|[|[|c]]]; [reflexivity|reflexivity|reflexivity|lia]. }
    rewrite (S 1), (S 2) by lia. match type of E with generateCLFPrelut ?x _ _ = _ => change x with (shaper 0) in E end. rewrite E. reflexivity.
Qed.

Lemma sameTree_refl (e : xelem) : sameTree e e.
Proof.
  revert e. fix IH 1. intros [t a x ch]. rewrite PIndent.sameTree_eq. repeat split. induction ch as [|c ch Hc]; constructor; [apply IH|exact Hc].
Qed.

Lemma ok_of {A} (r : res A) : match r with Ok _ => true | _ => false end = true -> exists x, r = Ok x.
Proof. destruct r; [eauto|discriminate]. Qed.
