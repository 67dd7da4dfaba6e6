(** LUT files: .spi1d and .spi3d (C53, C54), .csp (C55), .ctl (C56). *)
From Coq Require Import List String ZArith Lia.
From Flocq Require Import BinarySingleNaN.
From Verif Require Import SpecLut SpecWrite PNumText PTextIeee PSpi PSpi3 PCsp2 PCsp3 PCtl PCtl3 PLutIeee.
From Verif Require Import PConvertIeee PLineEnds.
Import ListNotations.
Local Open Scope string_scope.
Local Open Scope list_scope.

(** * Numbers in LUT files *)

(** What a Python float printed with "%s" (12 significant digits) or with [k] decimals
    is read back as. Below, [str] is how the samples print; any way of printing
    that gives one word float() can read will do. *)
Theorem C53_numbers :
  forall (L : libm), let N := ieeeNum L in
  (forall x : fl, printsAs formatStr viaStr x /\ throughDigits x (viaStr x)) /\
  (forall k (x : fl), atDecimals k x (viaFixed k x)).
Proof. exact lut_numbers. Qed.
Print Assumptions C53_numbers.

(** * C53: .spi1d *)

(** Reading what was written gives a Range, exactly if the input interval as printed
    differs from [0, 1], and a LUT1D of the written size holding the samples as printed. *)
Theorem C53_round_trip :
  forall (L : libm), let N := ieeeNum L in
  forall str kept (lo hi : fl) data entries channels components interpolation useIndexMaps useHalfDomain,
    let k := Nat.min 3 (Nat.min components channels) in
    k <> 0 -> entries * channels <= List.length data ->
    Forall (printsAs str kept) (firstOfRows entries channels k data) ->
    exists t, writeSPI1D str lo hi data entries channels components = Ok t /\
      readSPI1D t false interpolation useIndexMaps useHalfDomain =
      Ok ((if negb (neqb (viaFixed 6 lo) n0) || negb (neqb (viaFixed 6 hi) n1)
           then [rangeNode "range" (viaFixed 6 lo) (viaFixed 6 hi)] else []) ++
          [lut1dNode "lut1d" interpolation entries k (map kept (firstOfRows entries channels k data))]).
Proof. exact (fun L str kept lo hi => @spi1d_round_trip fl (ieeeNum L) ieeeText (ieeeOk L) str kept lo hi). Qed.
Print Assumptions C53_round_trip.

Example C53_case (L : libm) : let N := ieeeNum L in
  let data := map nofZ [0; 1; 2; 3; 4; 5; 6; 7; 8]%Z : list fl in
  exists t, writeSPI1D formatStr (nofZ (-1)) n1 data 2 4 3 = Ok t /\
    readSPI1D t false "linear" false true =
    Ok [rangeNode "range" (viaFixed 6 (nofZ (-1))) (viaFixed 6 n1);
        lut1dNode "lut1d" "linear" 2 3 (map viaStr (map nofZ [0; 1; 2; 4; 5; 6]%Z))].
Proof.
  intros N data. destruct (C53_round_trip L formatStr viaStr (nofZ (-1)) n1 data 2 4 3 "linear" false true) as (t & W & R).
  - discriminate.
  - cbn. lia.
  - apply Forall_forall. intros x _. apply (C53_numbers L).
  - exists t. split; [exact W|]. etransitivity; [exact R|].
    match goal with |- Ok ((if ?b then _ else _) ++ _) = _ => replace b with true by (vm_compute; reflexivity) end. reflexivity.
Qed.

(** Read for the inverse, such a file gives the inverse of its table over its interval:
    by IndexMaps (C57) if asked for those, else over the halfs (C58) if asked for that, else
    resampled (C69). *)
Theorem C53_inverse :
  forall (L : libm), let N := ieeeNum L in
  forall str kept (lo hi : fl) data entries channels components,
    let k := Nat.min 3 (Nat.min components channels) in
    k <> 0 -> entries * channels <= List.length data ->
    Forall (printsAs str kept) (firstOfRows entries channels k data) ->
    exists t, writeSPI1D str lo hi data entries channels components = Ok t /\
      let table := map kept (firstOfRows entries channels k data) in
      forall interpolation useHalfDomain,
        readSPI1D t true interpolation true useHalfDomain = generateLUT1DInverseIndexMap entries k table (viaFixed 6 lo) (viaFixed 6 hi) /\
        readSPI1D t true interpolation false true = generateLUT1DInverseHalfDomain entries k table (viaFixed 6 lo) (viaFixed 6 hi) true /\
        readSPI1D t true interpolation false false = generateLUT1DInverseResampled entries k table (viaFixed 6 lo) (viaFixed 6 hi).
Proof. exact (fun L str kept lo hi => @spi1d_inverse fl (ieeeNum L) ieeeText (ieeeOk L) str kept lo hi). Qed.
Print Assumptions C53_inverse.

(** Values from 0 to 4 over [-1, 1], for the inverse by IndexMaps and resampled. *)
Example C53_inverse_case (L : libm) : let N := ieeeNum L in
  let data := map nofZ [0; 1; 4]%Z : list fl in
  exists t, writeSPI1D formatStr (nofZ (-1)) n1 data 3 1 3 = Ok t /\
    is_ok (readSPI1D (T := fl) t true "linear" true false) /\ is_ok (readSPI1D (T := fl) t true "linear" false false).
Proof.
  intros N data. destruct (C53_inverse L formatStr viaStr (nofZ (-1)) n1 data 3 1 3) as (t & W & R).
  - discriminate.
  - cbn. lia.
  - apply Forall_forall. intros x _. apply (C53_numbers L).
  - exists t. split; [exact W|]. destruct (R "linear" false) as (R1 & R2 & R3). split.
    + destruct (ok_of (generateLUT1DInverseIndexMap (T := fl) 3 1 (map viaStr data) (viaFixed 6 (nofZ (-1))) (viaFixed 6 n1))) as [x E]; [vm_compute; reflexivity|].
      exists x. exact (eq_trans R1 E).
    + destruct (ok_of (generateLUT1DInverseResampled (T := fl) 3 1 (map viaStr data) (viaFixed 6 (nofZ (-1))) (viaFixed 6 n1))) as [x E]; [vm_compute; reflexivity|].
      exists x. exact (eq_trans R3 E).
Qed.

(** A blank line makes reading fail, unless a Version line before it
    announces another version. *)
Theorem C53_blank_line :
  forall {T} {N : Num T} {X : NumText T} t l inverse interpolation useIndexMaps useHalfDomain,
    In l (splitLines t) -> MNumText.split l = [] ->
    (forall v w rest z, In v (splitLines t) -> MNumText.split v = "Version" :: w :: rest -> parseInt w = Ok z -> z = 1%Z) ->
    exists e, readSPI1D (T := T) t inverse interpolation useIndexMaps useHalfDomain = Err e.
Proof. exact @spi1d_blank. Qed.
Print Assumptions C53_blank_line.

Example C53_blank_case (L : libm) : let N := ieeeNum L in
  let t := lines ["Version 1"; "Length 1"; ""; "Components 1"; "{"; " 0.5"; "}"] in
  exists e, readSPI1D (T := fl) t false "linear" false true = Err e.
Proof.
  intros N t. apply C53_blank_line with (l := ""); [vm_compute; tauto|reflexivity|].
  intros v w rest z H E P. vm_compute in H.
  repeat (destruct H as [<-|H]; [vm_compute in E; try discriminate E; injection E as <- <-; vm_compute in P; now injection P as <-|]). destruct H.
Qed.

(** Files whose lines end with a carriage return, or with both characters, and files whose
    last line has no end, are read as those whose lines end with a line feed; the same holds
    of .spi3d and .csp files. *)
Theorem C53_line_ends :
  forall {T} {N : Num T} {X : NumText T} e ls last t,
    In e lineEnds -> Forall noLineEnd ls -> noLineEnd last -> last <> "" ->
    t = endedBy e (ls ++ [last]) \/ t = (endedBy e ls ++ last)%string ->
    (forall inverse interpolation maps half, readSPI1D (T := T) t inverse interpolation maps half = readSPI1D (lines (ls ++ [last])) inverse interpolation maps half) /\
    (forall interpolation, readSPI3D (T := T) t interpolation = readSPI3D (lines (ls ++ [last])) interpolation) /\
    readCSP (T := T) t = readCSP (lines (ls ++ [last])).
Proof. exact @line_ends. Qed.
Print Assumptions C53_line_ends.
(** Blanks at the end of lines make no difference either. *)
Theorem C53_trailing_blanks :
  forall {T} {N : Num T} {X : NumText T} ls ls',
    Forall noLineEnd ls -> Forall noLineEnd ls' -> Forall2 blanksAfter ls ls' ->
    (forall inverse interpolation maps half, readSPI1D (T := T) (lines ls') inverse interpolation maps half = readSPI1D (lines ls) inverse interpolation maps half) /\
    (forall interpolation, readSPI3D (T := T) (lines ls') interpolation = readSPI3D (lines ls) interpolation) /\
    readCSP (T := T) (lines ls') = readCSP (lines ls).
Proof. exact @line_blanks. Qed.
Print Assumptions C53_trailing_blanks.
Example C53_trailing_case : blanksAfter "BEGIN METADATA" "BEGIN METADATA  ".
Proof. exists "  ". split; [reflexivity|]. repeat (constructor; [reflexivity|]). constructor. Qed.
Example C53_line_ends_case (L : libm) : let N := ieeeNum L in
  let e := text ["013"%char; "010"%char] in let ls := ["Version 1"; "From 0.0 1.0"; "Length 2"; "Components 1"; "{"; " 0.5"; " 0.75"] in
  Forall noLineEnd ls /\ noLineEnd "}" /\ exists ns, readSPI1D (T := fl) (endedBy e ls ++ "}") false "linear" false true = Ok ns.
Proof.
  intros N e ls. split; [|split].
  - repeat (constructor; [repeat (constructor; [split; discriminate|]); constructor|]). constructor.
  - constructor; [split; discriminate|constructor].
  - apply ok_of. vm_compute. reflexivity.
Qed.

(** * C54: .spi3d *)

(** Reading what was written gives one LUT3D whose entries are the samples as printed, at
    their positions, for any three resolutions. *)
Theorem C54_round_trip :
  forall (L : libm), let N := ieeeNum L in
  forall str kept (lo hi : fl) data r0 r1 r2 f interpolation,
    latticeOf data r0 r1 r2 f ->
    (forall r g b, r < r0 -> g < r1 -> b < r2 -> Forall (printsAs str kept) (f r g b)) ->
    exists t vals, writeSPI3D str lo hi data r0 r1 r2 = Ok t /\
      readSPI3D t interpolation =
        Ok [lut3dNode "lut3d" (if String.eqb interpolation "linear" then "trilinear" else interpolation) r0 r1 r2 vals] /\
      tableOf vals r0 r1 r2 (fun r g b => map kept (f r g b)).
Proof. exact spi3d_ieee. Qed.
Print Assumptions C54_round_trip.

(** The input interval is not in the file. *)
Theorem C54_range_lost :
  forall {T} str (lo hi lo' hi' : T) data r0 r1 r2,
    writeSPI3D str lo hi data r0 r1 r2 = writeSPI3D str lo' hi' data r0 r1 r2.
Proof. exact (fun T str lo hi lo' hi' data r0 r1 r2 => eq_refl). Qed.
Print Assumptions C54_range_lost.

Definition someColour {T} {N : Num T} (r g b : nat) : list T := map (fun k => nofZ (Z.of_nat k)) [r; g; b].
Example C54_case (L : libm) : let N := ieeeNum L in
  exists t vals, writeSPI3D formatStr n0 n1 (latticeFrom 2 3 4 (@someColour fl _)) 2 3 4 = Ok t /\
    readSPI3D t "linear" = Ok [lut3dNode "lut3d" "trilinear" 2 3 4 vals] /\
    slice vals (((1 * 3 + 2) * 4 + 3) * 3) (((1 * 3 + 2) * 4 + 3) * 3 + 3) = map viaStr (someColour 1 2 3).
Proof.
  intros N. destruct (C54_round_trip L formatStr viaStr n0 n1 (latticeFrom 2 3 4 (@someColour fl _)) 2 3 4 (@someColour fl _) "linear")
    as (t & vals & W & R & [_ E]).
  - apply latticeFrom_of. reflexivity.
  - intros. apply Forall_forall. intros x _. apply (C53_numbers L).
  - exists t, vals. split; [exact W|]. split; [exact R|]. apply E; lia.
Qed.

(** * C55: .csp *)

(** A written 1D file of three columns reads as a Range for the input interval and a LUT1D of the
    samples, all with six decimals. *)
Theorem C55_1d :
  forall (L : libm), let N := ieeeNum L in
  forall (lo hi : fl) data entries channels components,
    Nat.min 3 (Nat.min components channels) = 3 -> entries * channels <= List.length data ->
    exists t, writeCSP1D lo hi data entries channels components = Ok t /\
      readCSP t = Ok [rangeNode "prelut_range" (viaFixed 6 lo) (viaFixed 6 hi);
                      lut1dNode "lut1d" "linear" entries 3 (map (viaFixed 6) (firstOfRows entries channels 3 data))].
Proof. exact (fun L => @csp1d_three fl (ieeeNum L) ieeeText (ieeeOk L)). Qed.
Print Assumptions C55_1d.
(** One column is repeated for the three channels. *)
Theorem C55_1d_one :
  forall (L : libm), let N := ieeeNum L in
  forall (lo hi : fl) data entries channels components,
    Nat.min 3 (Nat.min components channels) = 1 -> entries * channels <= List.length data ->
    exists t, writeCSP1D lo hi data entries channels components = Ok t /\
      readCSP t = Ok [rangeNode "prelut_range" (viaFixed 6 lo) (viaFixed 6 hi);
                      lut1dNode "lut1d" "linear" entries 3
                        (flat_map (fun x => repeat (viaFixed 6 x) 3) (firstOfRows entries channels 1 data))].
Proof. exact (fun L => @csp1d_one fl (ieeeNum L) ieeeText (ieeeOk L)). Qed.
Print Assumptions C55_1d_one.
(** Two columns are not read: the samples are all zero. *)
Theorem C55_1d_two :
  forall (L : libm), let N := ieeeNum L in
  forall (lo hi : fl) data entries channels components,
    Nat.min 3 (Nat.min components channels) = 2 -> entries * channels <= List.length data ->
    exists t, writeCSP1D lo hi data entries channels components = Ok t /\
      readCSP t = Ok [rangeNode "prelut_range" (viaFixed 6 lo) (viaFixed 6 hi);
                      lut1dNode "lut1d" "linear" entries 3 (repeat n0 (entries * 3))].
Proof. exact (fun L => @csp1d_two fl (ieeeNum L) ieeeText (ieeeOk L)). Qed.
Print Assumptions C55_1d_two.

Example C55_1d_case (L : libm) : let N := ieeeNum L in
  let data := map nofZ [0; 1; 2; 3; 4; 5]%Z : list fl in
  (exists t, writeCSP1D n0 n1 data 2 3 3 = Ok t /\
     readCSP t = Ok [rangeNode "prelut_range" (viaFixed 6 n0) (viaFixed 6 n1); lut1dNode "lut1d" "linear" 2 3 (map (viaFixed 6) data)]) /\
  (exists t, writeCSP1D n0 n1 data 2 3 1 = Ok t /\
     readCSP t = Ok [rangeNode "prelut_range" (viaFixed 6 n0) (viaFixed 6 n1);
                     lut1dNode "lut1d" "linear" 2 3 (map (viaFixed 6) (map nofZ [0; 0; 0; 3; 3; 3]%Z))]) /\
  (exists t, writeCSP1D n0 n1 data 2 3 2 = Ok t /\
     readCSP t = Ok [rangeNode "prelut_range" (viaFixed 6 n0) (viaFixed 6 n1); lut1dNode "lut1d" "linear" 2 3 (repeat n0 6)]).
Proof.
  intros N data. split; [|split].
  - destruct (C55_1d L n0 n1 data 2 3 3) as (t & W & R); [reflexivity|cbn; lia|]. exists t. split; [exact W|]. etransitivity; [exact R|reflexivity].
  - destruct (C55_1d_one L n0 n1 data 2 3 1) as (t & W & R); [reflexivity|cbn; lia|]. exists t. split; [exact W|]. etransitivity; [exact R|reflexivity].
  - destruct (C55_1d_two L n0 n1 data 2 3 2) as (t & W & R); [reflexivity|cbn; lia|]. exists t. split; [exact W|]. etransitivity; [exact R|reflexivity].
Qed.

(** A written cubic 3D file reads as a Range and a LUT3D with every sample at its position. *)
Theorem C55_3d :
  forall (L : libm), let N := ieeeNum L in
  forall (lo hi : fl) data n f, latticeOf data n n n f ->
    exists t vals, writeCSP3D lo hi data n n n = Ok t /\
      readCSP t = Ok [rangeNode "prelut_range" (viaFixed 6 lo) (viaFixed 6 hi); lut3dNode "lut3d" "trilinear" n n n vals] /\
      tableOf vals n n n (fun r g b => map (viaFixed 6) (f r g b)).
Proof. exact (fun L => @csp3d_round_trip fl (ieeeNum L) ieeeText (ieeeOk L)). Qed.
Print Assumptions C55_3d.

Example C55_3d_case (L : libm) : let N := ieeeNum L in
  exists t vals, writeCSP3D n0 n1 (latticeFrom 3 3 3 (@someColour fl _)) 3 3 3 = Ok t /\
    readCSP t = Ok [rangeNode "prelut_range" (viaFixed 6 n0) (viaFixed 6 n1); lut3dNode "lut3d" "trilinear" 3 3 3 vals] /\
    slice vals (((0 * 3 + 1) * 3 + 2) * 3) (((0 * 3 + 1) * 3 + 2) * 3 + 3) = map (viaFixed 6) (someColour 0 1 2).
Proof.
  intros N. destruct (C55_3d L n0 n1 (latticeFrom 3 3 3 (@someColour fl _)) 3 (@someColour fl _)) as (t & vals & W & R & [_ E]).
  - apply latticeFrom_of. reflexivity.
  - exists t, vals. split; [exact W|]. split; [exact R|]. apply E; lia.
Qed.

(** Not so when the resolutions differ, even though sampling and writing succeed. *)
Theorem C55_noncubic_refuted :
  forall (L : libm), let N := ieeeNum L in
  exists (data : lattice fl) f t range vals,
    latticeOf data 2 3 2 f /\ writeCSP3D n0 n1 data 2 3 2 = Ok t /\
    readCSP t = Ok [range; lut3dNode "lut3d" "trilinear" 2 3 2 vals] /\
    ~ tableOf vals 2 3 2 (fun r g b => map (viaFixed 6) (f r g b)).
Proof. exact csp_noncubic. Qed.
Print Assumptions C55_noncubic_refuted.

(** * C56: .ctl *)

(** The three tables of a three-channel 1D file all list the red samples. *)
Theorem C56_tables :
  forall (L : libm), let N := ieeeNum L in
  forall str kept (lo hi : fl) data entries channels components,
    Nat.min 3 (Nat.min components channels) = 3 -> entries * channels <= List.length data ->
    Forall (printsAs str kept) (firstOfRows entries channels 1 data) ->
    exists t, writeCTL1D str lo hi data entries channels components = Ok t /\
      forall j, j < 3 -> SpecLut.between ("const float lut" ++ natText j ++ "[] = {")%string "};" (splitLines t) =
                         commaLines (map str (firstOfRows entries channels 1 data)).
Proof. exact (fun L => @ctl1d_tables fl (ieeeNum L) ieeeText (ieeeOk L)). Qed.
Print Assumptions C56_tables.
(** So the file does not depend on the other samples. *)
Theorem C56_lost :
  forall {T} {X : NumText T} str (lo hi : T) d1 d2 entries channels components,
    (forall i, i < entries -> nth_error d1 (i * channels) = nth_error d2 (i * channels)) ->
    writeCTL1D str lo hi d1 entries channels components = writeCTL1D str lo hi d2 entries channels components.
Proof. exact @ctl1d_reds. Qed.
Print Assumptions C56_lost.
(** The cube of a 3D file lists every sample, blue varying fastest. *)
Theorem C56_cube :
  forall (L : libm), let N := ieeeNum L in
  forall (lo hi : fl) data r0 r1 r2 f, latticeOf data r0 r1 r2 f ->
    exists pre cube post, writeCTL3D lo hi data r0 r1 r2 =
      Ok (pre ++ "const float cube[" ++ natText r0 ++ "][" ++ natText r1 ++ "][" ++ natText r2 ++ "][3] = " ++ newline ++ "{" ++ newline ++
          cube ++ "};" ++ newline ++ post)%string /\
      bareWords cube = map (formatFixed 6) (colourList r0 r1 r2 f).
Proof. exact (fun L => @ctl3d_cube fl (ieeeNum L) ieeeText (ieeeOk L)). Qed.
Print Assumptions C56_cube.

(** The program in a file with one or three tables, or a cube, passes every channel through
    its table (or the colour through the cube) and alpha unchanged, over the interval given. *)
Theorem C56_program :
  forall {T} {X : NumText T},
    (forall str (lo hi : T) data entries channels components t, Nat.min 3 (Nat.min components channels) = 3 ->
       writeCTL1D str lo hi data entries channels components = Ok t ->
       exists title tables, t = lines ([title; ""; ctlBound "min1d" lo; ctlBound "max1d" hi; ""] ++ tables ++ ctlProgram (ctlLookups ["lut0"; "lut1"; "lut2"]))) /\
    (forall str (lo hi : T) data entries channels components t, Nat.min 3 (Nat.min components channels) = 1 ->
       writeCTL1D str lo hi data entries channels components = Ok t ->
       exists title tables, t = lines ([title; ""; ctlBound "min1d" lo; ctlBound "max1d" hi; ""] ++ tables ++ ctlProgram (ctlLookups ["lut"; "lut"; "lut"]))) /\
    (forall (lo hi : T) data r0 r1 r2 t, writeCTL3D lo hi data r0 r1 r2 = Ok t ->
       exists title cube, t = (lines [title; ""; ctlBound3 "min3d" lo; ctlBound3 "max3d" hi; ""] ++ cube ++
         lines (ctlProgram ["  lookup3D_f(cube, min3d, max3d, r, g, b, r, g, b);"]))%string).
Proof. exact @ctl_program. Qed.
Print Assumptions C56_program.

Example C56_case (L : libm) : let N := ieeeNum L in
  let data := map nofZ [0; 1; 2; 3; 4; 5]%Z : list fl in
  (exists t, writeCTL1D formatStr n0 n1 data 2 3 3 = Ok t /\
     SpecLut.between "const float lut2[] = {" "};" (splitLines t) = ["0.0,"; "3.0"]) /\
  writeCTL1D formatStr n0 n1 data 2 3 3 = writeCTL1D formatStr n0 n1 (map nofZ [0; 9; 9; 3; 9; 9]%Z) 2 3 3 /\
  exists pre cube post, writeCTL3D n0 n1 (latticeFrom 1 1 2 (@someColour fl _)) 1 1 2 =
    Ok (pre ++ "const float cube[1][1][2][3] = " ++ newline ++ "{" ++ newline ++ cube ++ "};" ++ newline ++ post)%string /\
    bareWords cube = ["0.000000"; "0.000000"; "0.000000"; "0.000000"; "0.000000"; "1.000000"].
Proof.
  intros N data. split; [|split].
  - destruct (C56_tables L formatStr viaStr n0 n1 data 2 3 3) as (t & W & R); [reflexivity|cbn; lia|apply Forall_forall; intros x _; apply (C53_numbers L)|].
    exists t. split; [exact W|]. etransitivity; [exact (R 2 ltac:(lia))|]. vm_compute. reflexivity.
  - apply C56_lost. intros [|[|i]] Hi; [reflexivity|reflexivity|lia].
  - destruct (C56_cube L n0 n1 (latticeFrom 1 1 2 (@someColour fl _)) 1 1 2 (@someColour fl _)) as (pre & cube & post & W & E).
    + apply latticeFrom_of. reflexivity.
    + exists pre, cube, post. split; [exact W|]. etransitivity; [exact E|]. vm_compute. reflexivity.
Qed.
