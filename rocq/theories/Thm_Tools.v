(** Properties of the LUT format registry and of the image filter: C62-C65. *)
From Coq Require Import Reals Permutation.
From Flocq Require Import Core BinarySingleNaN.
From Verif Require Import NumF NumZ SpecTools PRegistry PFilter PPack.
Local Open Scope string_scope.
Local Open Scope list_scope.

(** * C62 *)

(** Reading: for every iteration order of the registry, every reading function of
    the formats and every state of the files, the format is chosen by extension. *)
Theorem C62_read_dispatch :
  forall (T : Type) (N : Num T) (W : Type) (rd : string -> reader T W) (wr : string -> writer T W)
         fs path a returnNodes (w : W),
    Permutation fs (shipped rd wr) ->
    readWith fs path a returnNodes w =
    match readsExt (extensionOf path) with
    | None => (Ok LNone, w)
    | Some name =>
        match rd name path a w with
        | (Err e, w') => (Err e, w')
        | (Ok [], w') => (Ok LNone, w')
        | (Ok ns, w') => (Ok (wrapNodes returnNodes ns), w')
        end
    end.
Proof. intros T N W rd wr fs path a rp w P. exact (registry_read rd wr fs path a rp w P). Qed.
Print Assumptions C62_read_dispatch.

(** Writing: the same; the list is sampled before the format is asked to write, so
    a list that cannot be sampled leaves the files alone. The result is None
    whether the format reports success or failure. *)
Theorem C62_write_dispatch :
  forall (T : Type) (N : Num T) (W : Type) (rd : string -> reader T W) (wr : string -> writer T W)
         fs c l path a (w : W),
    Permutation fs (shipped rd wr) ->
    writeWith fs c l path a w =
    match writesExt (writeStyle (wa_style a)) (extensionOf path) with
    | None => (Ok LNone, w)
    | Some name =>
        match sampleFor c l (writeStyle (wa_style a)) a with
        | Err e => (Err e, w)
        | Ok d => match wr name path d w with
                  | (Err e, w') => (Err e, w')
                  | (Ok _, w') => (Ok LNone, w')
                  end
        end
    end.
Proof. intros T N W rd wr fs c l path a w P. exact (registry_write rd wr fs c l path a w P). Qed.
Print Assumptions C62_write_dispatch.

(** The extension is the lower-cased text after the last dot of the file name. *)
Theorem C62_extension_of_path :
  forall dir stem ext, plainStem stem -> plainExt ext ->
    extensionOf (dir ++ "/" ++ stem ++ "." ++ ext)%string = lower ext.
Proof. exact extension_of_path. Qed.
Print Assumptions C62_extension_of_path.

Theorem C62_extension_of_file :
  forall stem ext, plainStem stem -> plainExt ext -> extensionOf (stem ++ "." ++ ext)%string = lower ext.
Proof. exact extension_of_file. Qed.
Print Assumptions C62_extension_of_file.

Example C62_case :
  plainStem "look.v2" /\ plainExt "CSP" /\ extensionOf "/luts/look.v2.CSP" = "csp" /\ readsExt "csp" = Some "CSP" /\
  extensionOf ".spi1d" = "" /\ extensionOf "a.spi1d/readme" = "" /\ readsExt "clf" = None /\
  writesExt (writeStyle "1D_3D_1D") "clf" = Some "CLF" /\ writesExt (writeStyle "1D") "clf" = None.
Proof.
  split; [|split; [|repeat split; reflexivity]].
  - split; [cbn; repeat constructor; discriminate|cbn; left; discriminate].
  - cbn; repeat constructor; discriminate.
Qed.

(** * C63 *)

(** Every complete run of the pool gives the rows of the image through the list, in
    order, whatever the number of workers and the schedule; one failing row and
    nothing is written. *)
Theorem C63_rows :
  forall (T : Type) (N : Num T) c l (img : image T) outBitDepth workers rows out,
    2 <= i_height img -> i_width img * i_channels img <> 0 -> hasRows img rows ->
    filterInTime c l img outBitDepth workers out ->
    out = match each (filteredRow c l (i_depth img) (outDepthOf img outBitDepth) (i_channels img)) rows with
          | Some v => FWrite (map nf32 v)
          | None => FReturn
          end.
Proof. intros T N c l img od k rows out H1 H2 H3 H4. exact (multi_result c l img od k rows out H1 H2 H3 H4). Qed.
Print Assumptions C63_rows.

(** The same pixel by pixel. *)
Theorem C63_pixels :
  forall (T : Type) (N : Num T) c l (img : image T) outBitDepth workers pxs out,
    2 <= i_height img -> i_width img <> 0 -> i_channels img <> 0 ->
    Forall (noneInside isExposureContrast) (procs_of l) ->
    cutInto (i_channels img) pxs (i_pixels img) -> List.length pxs = i_width img * i_height img ->
    filterInTime c l img outBitDepth workers out ->
    out = match each (filteredRow c l (i_depth img) (outDepthOf img outBitDepth) (i_channels img)) pxs with
          | Some v => FWrite (map nf32 v)
          | None => FReturn
          end.
Proof. intros T N c l img od k pxs out H1 H2 H3 H4 H5 H6 H7. exact (multi_pixels c l img od k pxs out H1 H2 H3 H4 H5 H6 H7). Qed.
Print Assumptions C63_pixels.

(** Every multithreaded call is such a run, or gives up without writing. *)
Theorem C63_every_run :
  forall (T : Type) (N : Num T) c l (img : image T) outBitDepth workers out,
    1 < workers -> filterImage c l img outBitDepth workers out ->
    out = FReturn \/ filterInTime c l img outBitDepth workers out.
Proof. intros T N c l img od k out H1 H2. exact (multi_or_timeout c l img od k out H1 H2). Qed.
Print Assumptions C63_every_run.

(** The pool cannot get stuck, and does at most two steps per row. *)
Theorem C63_pool_terminates :
  forall (T : Type) workers (work : nat -> option (list T)) n, 0 < workers ->
    (forall s, poolSteps workers work (startPool n) s -> In None (p_slots s) -> exists s', poolStep workers work s s') /\
    (exists cost : pool T -> nat, cost (startPool n) = 2 * n /\ forall s s', poolStep workers work s s' -> cost s' < cost s) /\
    (exists results, poolGet workers work n (Some results)).
Proof.
  intros T workers work n Hk. split; [intros s H1 H2; exact (pool_progress workers work n s Hk H1 H2)|]. split.
  - exists poolCost. split; [exact (start_cost n)|]. intros s s' H. exact (pool_step_cost workers work s s' H).
  - exists (map work (seq 0 n)). exact (pool_runs workers work n Hk).
Qed.
Print Assumptions C63_pool_terminates.

(** A 1 x 2 image of one RGB pixel per row through "add 5", finished out of order
    by two workers. *)
Definition addFive : plist Z :=
  PList [] [] [] [setMinOutValue (setMinInValue (newRange (AStr "32f") (AStr "32f") (AStr "a") (AStr "a") (AStr "noClamp") (AStr "")) 0%Z) 5%Z].
Definition twoRows : image Z :=
  {| i_width := 1; i_height := 2; i_channels := 3; i_depth := "32f"; i_pixels := [1; 2; 3; 4; 5; 6]%Z |}.
Example C63_case :
  hasRows twoRows [[1; 2; 3]; [4; 5; 6]]%Z /\
  filterInTime 0 addFive twoRows None 2 (FWrite [6; 7; 8; 9; 10; 11]%Z) /\
  Forall (noneInside isExposureContrast) (procs_of addFive).
Proof.
  split; [|split].
  - split; [|reflexivity]. split; [reflexivity|repeat constructor].
  - change (FWrite [6; 7; 8; 9; 10; 11]%Z) with
      (match copyBack twoRows [Some [6; 7; 8]%Z; Some [9; 10; 11]%Z] with Ok buf => FWrite buf | Err _ => FReturn end).
    constructor. apply (GetAll _ _ _ {| p_pending := []; p_running := []; p_slots := [Some (Some [6; 7; 8]%Z); Some (Some [9; 10; 11]%Z)] |}); [|reflexivity].
    eapply PMore; [apply (PTake _ _ 1); cbn; [auto|tauto]|].
    eapply PMore; [apply (PTake _ _ 0); cbn; [auto|intuition discriminate]|].
    eapply PMore; [apply (PFinish _ _ 0 1 []); reflexivity|].
    eapply PMore; [apply (PFinish _ _ 1 0 []); reflexivity|]. apply PDone.
  - repeat constructor.
Qed.

(** * C64 *)

(** Only row 5 is processed; the rest of the picture is written black. *)
Theorem C64_single_thread_one_row :
  forall (T : Type) (N : Num T) c l (img : image T) outBitDepth workers rows out,
    workers <= 1 -> hasRows img rows -> 6 <= i_height img ->
    filterImage c l img outBitDepth workers out ->
    match filteredRow c l (i_depth img) (outDepthOf img outBitDepth) (i_channels img) (nth 5 rows []) with
    | Some v => let n := i_width img * i_channels img in
                out = FWrite (repeat n0 (5 * n) ++ map nf32 v ++ repeat n0 (n * (i_height img - 6)))
    | None => exists e, out = FRaise e
    end.
Proof.
  intros T N c l img od k rows out Hk Hr Hh H. unfold filterImage in H. destruct (Nat.ltb_spec 1 k) as [Hc|Hc].
  - exact (False_rect _ (Nat.lt_irrefl _ (Nat.lt_le_trans _ _ _ Hc Hk))).
  - subst out. exact (single_result c l img od rows Hr Hh).
Qed.
Print Assumptions C64_single_thread_one_row.

(** Images of fewer than six rows make it fail. *)
Theorem C64_single_thread_short :
  forall (T : Type) (N : Num T) c l (img : image T) outBitDepth workers out,
    workers <= 1 -> i_height img <= 5 -> i_width img * i_channels img <> 0 ->
    List.length (i_pixels img) <= i_width img * i_channels img * i_height img ->
    filterImage c l img outBitDepth workers out -> exists e, out = FRaise e.
Proof.
  intros T N c l img od k out Hk Hh Hn Hp H. unfold filterImage in H. destruct (Nat.ltb_spec 1 k) as [Hc|Hc].
  - exact (False_rect _ (Nat.lt_irrefl _ (Nat.lt_le_trans _ _ _ Hc Hk))).
  - subst out. exact (single_short c l img od Hh Hn Hp).
Qed.
Print Assumptions C64_single_thread_short.

(** Images of one row always fail: nothing is written. *)
Theorem C64_one_row_fails :
  forall (T : Type) (N : Num T) c l (img : image T) outBitDepth workers out,
    i_height img = 1 -> i_width img * i_channels img <> 0 -> filterImage c l img outBitDepth workers out ->
    out = if Nat.ltb 1 workers then FReturn else FRaise ZeroDivisionError.
Proof. intros T N c l img od k out H1 H2 H3. exact (one_row c l img od k out H1 H2 H3). Qed.
Print Assumptions C64_one_row_fails.

Definition sevenRows : image Z :=
  {| i_width := 1; i_height := 7; i_channels := 1; i_depth := "32f"; i_pixels := [1; 2; 3; 4; 5; 6; 7]%Z |}.
(** One worker and two workers write different pictures. *)
Theorem C64_same_result_refuted :
  exists c (l : plist Z) (img : image Z) a b,
    filterImage c l img None 1 (FWrite a) /\ filterImage c l img None 2 (FWrite b) /\ a <> b.
Proof.
  exists 0%Z, addFive, sevenRows, [0; 0; 0; 0; 0; 11; 0]%Z, [6; 7; 8; 9; 10; 11; 12]%Z. split; [reflexivity|]. split; [|discriminate].
  apply in_time_is_run; [repeat constructor|].
  change (FWrite [6; 7; 8; 9; 10; 11; 12]%Z) with
    (match copyBack sevenRows (map (workRow 0 (setupFor addFive sevenRows None) sevenRows) (seq 0 7)) with Ok buf => FWrite buf | Err _ => FReturn end).
  constructor. exact (pool_runs 2 (workRow 0 (setupFor addFive sevenRows None) sevenRows) 7 (Nat.lt_0_succ 1)).
Qed.
Print Assumptions C64_same_result_refuted.

Example C64_case : hasRows sevenRows [[1]; [2]; [3]; [4]; [5]; [6]; [7]]%Z /\
  filterImage 0 addFive sevenRows None 1 (FWrite [0; 0; 0; 0; 0; 11; 0]%Z) /\
  filterImage 0 addFive twoRows None 1 (FRaise IndexError).
Proof. split; [split; [split; [reflexivity|repeat constructor]|reflexivity]|split; reflexivity]. Qed.

(** * C65 *)

(** 10-, 12- and 16-bit codes survive writing and reading back (the depth, too). *)
Theorem C65_codes_round_trip :
  forall (L : libm) depth b k, let N := ieeeNum L in
    In (depth, b) [("10i", 10); ("12i", 12); ("16i", 16)]%Z -> (0 <= k < 2 ^ b)%Z ->
    exists v, packSample 16 (writeShift depth) (nofZ k : fl) = Ok v /\ (0 <= v < 2 ^ 16)%Z /\
              readSample b v = Ok k /\ readDepth b = depth.
Proof. intros L depth b k N H1 H2. exact (codes_round_trip L depth b k H1 H2). Qed.
Print Assumptions C65_codes_round_trip.

(** Read and written back unchanged, a stored sample loses the bits below its depth. *)
Theorem C65_stored_round_trip :
  forall (L : libm) depth b v k, let N := ieeeNum L in
    In (depth, b) [("10i", 10); ("12i", 12); ("16i", 16)]%Z -> (0 <= v < 2 ^ 16)%Z -> readSample b v = Ok k ->
    packSample 16 (writeShift depth) (nofZ k : fl) = Ok (v - v mod 2 ^ (16 - b))%Z.
Proof. intros L depth b v k N H1 H2 H3. exact (stored_round_trip L depth b v k H1 H2 H3). Qed.
Print Assumptions C65_stored_round_trip.

(** Any finite value: truncated towards zero, shifted, reduced modulo the sample size. *)
Theorem C65_truncates_and_wraps :
  forall (L : libm) bits shift (x : fl), let N := ieeeNum L in
    (0 <= shift)%Z -> is_finite x = true ->
    packSample bits shift x =
    if ((- 2 ^ 63 <=? Ztrunc (B2R x) * 2 ^ shift) && (Ztrunc (B2R x) * 2 ^ shift <? 2 ^ 63))%Z
    then Ok ((Ztrunc (B2R x) * 2 ^ shift) mod 2 ^ bits)%Z else Err OverflowError.
Proof. intros L bits shift x N H1 H2. exact (pack_finite L bits shift x H1 H2). Qed.
Print Assumptions C65_truncates_and_wraps.

(** A value at or above code k and below k + 1 is written as k: no rounding. *)
Theorem C65_no_rounding :
  forall (L : libm) bits shift k (x : fl), let N := ieeeNum L in
    (0 <= shift)%Z -> (shift <= bits <= 16)%Z -> is_finite x = true ->
    (0 <= k < 2 ^ (bits - shift))%Z -> (IZR k <= B2R x < IZR (k + 1))%R ->
    packSample bits shift x = Ok (k * 2 ^ shift)%Z.
Proof. intros L bits shift k x N H1 H2 H3 H4 H5. exact (pack_between L bits shift k x H1 H2 H3 H4 H5). Qed.
Print Assumptions C65_no_rounding.

(** NaN and infinities cannot be written to an integer image. *)
Theorem C65_nonfinite_fails :
  forall (L : libm) depth tagged pixels (x : fl), let N := ieeeNum L in
    bitDepthIsInteger (AStr depth) = true -> In x pixels -> is_finite x = false ->
    exists e, writePixelArray depth tagged pixels = Err e.
Proof. intros L depth tagged pixels x N H1 H2 H3. exact (nonfinite_fails L depth tagged pixels x H1 H2 H3). Qed.
Print Assumptions C65_nonfinite_fails.

(** An image whose metadata has bits per sample cannot be written as 16f or 32f. *)
Theorem C65_tagged_float_fails :
  forall (T : Type) (N : Num T) depth (pixels : list T), In depth ["16f"; "32f"] ->
    writePixelArray depth true pixels = Err KeyError /\ exists p, writePixelArray depth false pixels = Ok (p, None).
Proof. exact @tagged_float. Qed.
Print Assumptions C65_tagged_float_fails.

Example C65_case :
  readSample 10 65535 = Ok 1023%Z /\ packSample 16 (writeShift "10i") 1023%Z = Ok 65472%Z /\ readSample 10 65472 = Ok 1023%Z /\
  packSample 8 0 256%Z = Ok 0%Z /\ packSample 8 0 (-1)%Z = Ok 255%Z /\ packSample 16 (writeShift "10i") 1024%Z = Ok 0%Z.
Proof. repeat split; reflexivity. Qed.
