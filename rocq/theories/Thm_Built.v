(** Nodes built by calling constructors and setters (C90). *)
From Coq Require Import List String ZArith.
From Verif Require Import SpecBuilt SpecReal MXml NumZ PBuilt.
Import ListNotations.
Local Open Scope string_scope.
Local Open Scope list_scope.

(** * C90 *)

(** An ASC_CDL on which setters were called, in any order and any number of times, has for
    each parameter the value of the last call that set it, and none for those never set. *)
Theorem C90_cdl :
  forall {T} dIn dOut id name style (calls : list (cdlCall T)),
    exists h, fold_left makeCdlCall calls (newASCCDL dIn dOut id name style) =
      Node h (BCDL {| c_slope := lastOf slopeSaid calls; c_offset := lastOf offsetSaid calls;
                      c_power := lastOf powerSaid calls; c_sat := lastOf saturationSaid calls |}) /\
      plainHeader h [("inBitDepth", dIn); ("outBitDepth", dOut); ("id", id); ("name", name); ("style", style)].
Proof. exact @cdl_built. Qed.
Print Assumptions C90_cdl.
(** A ColorCorrection likewise, but the depths, style and name given are dropped. *)
Theorem C90_color_correction :
  forall {T} dIn dOut id name style (calls : list (cdlCall T)),
    exists h, fold_left makeCdlCall calls (newColorCorrection dIn dOut id name style) =
      Node h (BColorCorrection {| c_slope := lastOf slopeSaid calls; c_offset := lastOf offsetSaid calls;
                                  c_power := lastOf powerSaid calls; c_sat := lastOf saturationSaid calls |}) /\
      plainHeader h [("id", id)].
Proof. exact @correction_built. Qed.
Print Assumptions C90_color_correction.

(** A Range: the limits, the style and defaultRange are those set last; an empty style given
    to the constructor is no style, and defaultRange is off for None, False and "". *)
Theorem C90_range :
  forall {T} dIn dOut id name style dflt (calls : list (rangeCall T)),
    exists h, fold_left makeRangeCall calls (newRange dIn dOut id name style dflt) = Node h BRange /\
      dget (h_attrs h) "inBitDepth" = Some dIn /\ dget (h_attrs h) "outBitDepth" = Some dOut /\
      dget (h_attrs h) "id" = Some id /\ dget (h_attrs h) "name" = Some name /\
      dget (h_attrs h) "style" = match lastOf styleSaid calls with Some v => Some v | None => if aval_eqb style (AStr "") then None else Some style end /\
      dget (h_attrs h) "defaultRange" = on (match lastOf defaultSaid calls with Some v => v | None => dflt end) /\
      dget (h_vals h) "minInValue" = lastOf minInSaid calls /\ dget (h_vals h) "maxInValue" = lastOf maxInSaid calls /\
      dget (h_vals h) "minOutValue" = lastOf minOutSaid calls /\ dget (h_vals h) "maxOutValue" = lastOf maxOutSaid calls.
Proof. exact @range_built. Qed.
Print Assumptions C90_range.

(** Calls on Gamma and Log nodes add up, in order; on an ExposureContrast the last counts. *)
Theorem C90_gamma :
  forall {T} dIn dOut id name style (calls : list (T * T * option string)),
    exists h, fold_left (fun n c => let '(gamma, offset, channel) := c in setGamma n gamma offset channel) calls (newGamma dIn dOut id name style) =
      Node h (BGamma (map (fun c => let '(gamma, offset, channel) := c in {| g_gamma := gamma; g_offset := offset; g_chan := channel |}) calls)) /\
      plainHeader h [("inBitDepth", dIn); ("outBitDepth", dOut); ("id", id); ("name", name); ("style", style)].
Proof. exact @gamma_built. Qed.
Print Assumptions C90_gamma.
Theorem C90_log :
  forall {T} dIn dOut id name style (calls : list (T * T * T * T * T * option string)),
    exists h, fold_left (fun n c => let '(gamma, white, black, high, shadow, channel) := c in setLogParams n gamma white black high shadow channel) calls
                (newLog dIn dOut id name style) =
      Node h (BLog (map (fun c => let '(gamma, white, black, high, shadow, channel) := c in
                {| l_gamma := gamma; l_white := white; l_black := black; l_high := high; l_shadow := shadow; l_chan := channel |}) calls)) /\
      plainHeader h [("inBitDepth", dIn); ("outBitDepth", dOut); ("id", id); ("name", name); ("style", style)].
Proof. exact @log_built. Qed.
Print Assumptions C90_log.
Theorem C90_exposure_contrast :
  forall {T} {N : Num T} dIn dOut id name style (calls : list (T * T * T)),
    exists h, fold_left (fun n c => let '(exposure, contrast, pivot) := c in setExposureContrastPivot n exposure contrast pivot) calls
                (newExposureContrast dIn dOut id name style) =
      Node h (BExposureContrast match lastOf Some calls with
                                | Some (exposure, contrast, pivot) => {| e_exposure := exposure; e_contrast := contrast; e_pivot := pivot |}
                                | None => {| e_exposure := n0; e_contrast := n1; e_pivot := n1 |}
                                end) /\
      plainHeader h [("inBitDepth", dIn); ("outBitDepth", dOut); ("id", id); ("name", name); ("style", style)].
Proof. exact @contrast_built. Qed.
Print Assumptions C90_exposure_contrast.

(** LUTs: the table and its size are those set last, index maps add up; asking for the size
    of an index map always raises. *)
Theorem C90_lut1d :
  forall {T} dIn dOut id name interpolation raw halfDomain columns (calls : list (lutCall T)), columns <> 0 ->
    exists n, fold_left (makeLut1DCall columns) calls (Ok (newLUT1D dIn dOut id name interpolation raw halfDomain)) = Ok n /\
      getLUTDimensions n = match lastOf tableSaid calls with Some vals => Ok [List.length vals / columns; columns] | None => Err AttributeError end /\
      getLUTValues n = match lastOf tableSaid calls with Some vals => Ok vals | None => Err AttributeError end /\
      forall channel, getIndexMapValues n channel = pyget (List.concat (map mapsSaid calls)) channel /\
        exists e, getIndexMapDimensions n channel = Err e.
Proof. exact @lut1d_built. Qed.
Print Assumptions C90_lut1d.
Theorem C90_lut3d :
  forall {T} dIn dOut id name interpolation dims (calls : list (lutCall T)),
    let n := fold_left (makeLut3DCall dims) calls (newLUT3D dIn dOut id name interpolation) in
      getLUTDimensions n = match lastOf tableSaid calls with Some vals => Ok (dims ++ [3]) | None => Err AttributeError end /\
      getLUTValues n = match lastOf tableSaid calls with Some vals => Ok vals | None => Err AttributeError end /\
      forall channel, getIndexMapValues n channel = pyget (List.concat (map mapsSaid calls)) channel /\
        exists e, getIndexMapDimensions n channel = Err e.
Proof. exact @lut3d_built. Qed.
Print Assumptions C90_lut3d.

(** LUT3Ds built with one list object for the size compute what they would with lists of
    their own, but every one says its size has one 3 more for each of the others. *)
Theorem C90_shared_size :
  forall {T} {N : Num T} calls d0 d1 d2 i h vals enc, nth_error calls i = Some (Node h BLUT3D, vals, enc) ->
    exists n, nth_error (fst (setArrays3DShared calls [d0; d1; d2])) i = Some n /\
      getLUTDimensions n = Ok ([d0; d1; d2] ++ repeat 3 (List.length calls)) /\ getLUTValues n = Ok vals /\
      forall c values st, nodeProcess c n values st = nodeProcess c (setArray3D (Node h BLUT3D) [d0; d1; d2] vals enc) values st.
Proof. exact @shared_size. Qed.
Print Assumptions C90_shared_size.

Example C90_case :
  let calls := [CallOffset 1 2 3; CallSlope 4 5 6; CallOffset 7 8 9]%Z in
  lastOf slopeSaid calls = Some [4; 5; 6]%Z /\ lastOf offsetSaid calls = Some [7; 8; 9]%Z /\ lastOf powerSaid calls = None /\
  (let calls := [CallMinIn 1; CallDefault (ABool true); CallStyle (AStr "noClamp"); CallMinIn 2; CallDefault ANone]%Z in
   lastOf minInSaid calls = Some 2%Z /\ lastOf maxInSaid calls = None /\ lastOf styleSaid calls = Some (AStr "noClamp") /\
   on (match lastOf defaultSaid calls with Some v => v | None => AStr "x" end) = None).
Proof. repeat split. Qed.
(** A LUT1D given a table twice and four index maps; and two LUT3Ds with one size list. *)
Example C90_lut_case :
  let lut := newLUT3D (T := Z) (AStr "32f") (AStr "32f") (AStr "l") (AStr "l") (AStr "trilinear") in
  let calls := [(lut, seq 0 24, "string"); (lut, seq 1 24, "string")] in
  let calls := map (fun c => let '(n, vals, enc) := c in (n, map Z.of_nat vals, enc)) calls in
  (let calls := [CallTable [1; 2; 3]; CallMap ([0], [1]); CallTable [4; 5; 6; 7]; CallMaps ([1], [2]) ([3], [4]) ([5], [6])]%Z in
   lastOf tableSaid calls = Some [4; 5; 6; 7]%Z /\ pyget (List.concat (map mapsSaid calls)) (-1) = Ok ([5], [6])%Z) /\
  map getLUTDimensions (fst (setArrays3DShared calls [2; 2; 2])) = [Ok [2; 2; 2; 3; 3]; Ok [2; 2; 2; 3; 3]] /\
  snd (setArrays3DShared calls [2; 2; 2]) = [2; 2; 2; 3; 3] /\
  nth_error calls 1 = Some (lut, map Z.of_nat (seq 1 24), "string").
Proof. repeat split. Qed.
