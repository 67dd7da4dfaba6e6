(** Vocabulary for properties in exact arithmetic. *)
From Verif Require Export NumR SpecNum.
Local Open Scope R_scope.
Local Open Scope string_scope.

(** The largest code value of a bit depth (1 for the floating-point depths and
    for any unknown name). *)
Definition fullScale (d : aval) : R :=
  match d with
  | AStr "8i" => 255
  | AStr "10i" => 1023
  | AStr "12i" => 4095
  | AStr "16i" => 65535
  | _ => 1
  end.

(** A Range node's data: depths, clamping or not, whether a defaultRange attribute
    is present, and the four limits in code values (None: not set). *)
Record rangeData : Type := {
  r_in : aval; r_out : aval; r_clamps : bool; r_default : bool;
  r_minIn : option R; r_maxIn : option R; r_minOut : option R; r_maxOut : option R
}.
Definition isRange (h : header R) (r : rangeData) : Prop :=
  dget (h_attrs h) "inBitDepth" = Some (r_in r) /\
  dget (h_attrs h) "outBitDepth" = Some (r_out r) /\
  (r_clamps r = true <-> dget (h_attrs h) "style" = None \/ dget (h_attrs h) "style" = Some (AStr "clamp")) /\
  (r_default r = true <-> dget (h_attrs h) "defaultRange" <> None) /\
  dget (h_vals h) "minInValue" = r_minIn r /\ dget (h_vals h) "maxInValue" = r_maxIn r /\
  dget (h_vals h) "minOutValue" = r_minOut r /\ dget (h_vals h) "maxOutValue" = r_maxOut r.

(** The affine map through (x1, y1) and (x2, y2). *)
Definition through (x1 y1 x2 y2 x : R) : R := y1 + (x - x1) * (y2 - y1) / (x2 - x1).

(** The Range with input and output sides exchanged. *)
Definition exchanged (r : rangeData) : rangeData :=
  {| r_in := r_out r; r_out := r_in r; r_clamps := r_clamps r; r_default := r_default r;
     r_minIn := r_minOut r; r_maxIn := r_maxOut r; r_minOut := r_minIn r; r_maxOut := r_maxIn r |}.

(** A limit, or its default. *)
Definition orElse (o : option R) (d : R) : option R := match o with Some _ => o | None => Some d end.

(** Sum of [f 0 .. f (n-1)]. *)
Fixpoint sumTo (n : nat) (f : nat -> R) : R := match n with O => 0 | S k => sumTo k f + f k end.

(** A Matrix node's data: [n] rows of [n] coefficients, with or without a further
    column of offsets. *)
Definition isMatrix (h : header R) (n : nat) (coef : nat -> nat -> R) (offset : nat -> R) : Prop :=
  exists a cols rest,
    hasDepths h /\ lastArray (h_elems h) = Some a /\ a_dims a = n :: cols :: rest /\
    (n * cols <= List.length (a_vals a))%nat /\
    (forall i j, (i < n)%nat -> (j < n)%nat -> nth (i * cols + j) (a_vals a) 0 = coef i j) /\
    ((cols = n /\ forall i, (i < n)%nat -> offset i = 0) \/
     (cols = n + 1)%nat /\ forall i, (i < n)%nat -> nth (i * cols + n) (a_vals a) 0 = offset i).

(** The affine map on the first [n] samples of a pixel. *)
Definition affine (n : nat) (coef : nat -> nat -> R) (offset : nat -> R) (px : list R) : list R :=
  indexed (fun i x => if Nat.ltb i n then sumTo n (fun j => coef i j * nth j px 0) + offset i else x) px.

(** Neighbouring nodes agree on the bit depth between them. *)
Fixpoint agreeing {T} (ps : list (node T)) : Prop :=
  match ps with
  | p :: ((q :: _) as rest) => getOutBitDepth p = getInBitDepth q /\ agreeing rest
  | _ => True
  end.

(** A node that only changes the depth: Range(in, out, "", "", style='noClamp'). *)
Definition rescale (dIn dOut : aval) : node R := newRange dIn dOut (AStr "") (AStr "") (AStr "noClamp") (AStr "").

(** A LUT1D node with linear interpolation (or none given) and without half-domain
    indexing: input depth, table and its number of entries. *)
Definition isLUT1D (h : header R) (dIn : aval) (a : array R) (n : nat) : Prop :=
  dget (h_attrs h) "inBitDepth" = Some dIn /\ (exists d, dget (h_attrs h) "outBitDepth" = Some d) /\
  dget (h_attrs h) "interpolation" <> Some (AStr "cubic") /\ flagSet h "halfDomain" = false /\
  lastArray (h_elems h) = Some a /\ wellFormed1D a /\ hd_error (a_dims a) = Some n.

(** The input code value that addresses entry [k] of [n]. *)
Definition codeAt (dIn : aval) (n k : nat) : R := fullScale dIn * (INR k / INR (n - 1)).

(** The entries of one channel never decrease. *)
Definition nondecreasing (n : nat) (e : nat -> R) : Prop := forall k, (k + 1 < n)%nat -> e k <= e (k + 1)%nat.

(** Index maps. *)
Definition risingInputs (l : list R) : Prop := forall i, (i + 1 < List.length l)%nat -> nth i l 0 < nth (i + 1) l 0.

(** What node [n] uses as index map for channel [ch]: its only map, or the
    channel's own. *)
Definition mapFor (ims : list (imap R)) (ch : nat) (m : imap R) : Prop :=
  ims = [m] \/ ((3 <= List.length ims)%nat /\ nth_error ims ch = Some m).

(** The two interpolations. *)
Definition kindOf (tet : bool) : string := if tet then "tetrahedral" else "trilinear".

(** A LUT3D node with the given interpolation: input depth, table, entries per side. *)
Definition isLUT3D (h : header R) (interpolation : string) (dIn : aval) (a : array R) (n : nat) : Prop :=
  dget (h_attrs h) "inBitDepth" = Some dIn /\ (exists d, dget (h_attrs h) "outBitDepth" = Some d) /\
  dget (h_attrs h) "interpolation" = Some (AStr interpolation) /\
  lastArray (h_elems h) = Some a /\ wellFormed3D a n.

Definition colour3D (a : array R) (n i j k : nat) : R * R * R :=
  (entry3D a n i j k 0, entry3D a n i j k 1, entry3D a n i j k 2).
Definition part (ch : nat) (c : R * R * R) : R :=
  let '(r, g, b) := c in match ch with O => r | 1%nat => g | _ => b end.

(** [x] lies in the (closed) lattice cell [i], at fraction [f] of its width. *)
Definition inCell (dIn : aval) (n i : nat) (f x : R) : Prop :=
  (i + 1 < n)%nat /\ 0 <= f <= 1 /\ x = codeAt dIn n i + f * (codeAt dIn n (i + 1) - codeAt dIn n i).

(** The nearest input within range. *)
Definition intoRange (dIn : aval) (x : R) : R := Rmax 0 (Rmin (fullScale dIn) x).

(** The corner of cell (i, j, k) that is one step up along the axes in [up]. *)
Definition corner (a : array R) (n i j k ch : nat) (up : list nat) : R :=
  let step s := if existsb (Nat.eqb s) up then 1%nat else 0%nat in
  entry3D a n (i + step 0%nat) (j + step 1%nat) (k + step 2%nat) ch.

(** A LUT3D node holding a table of [d0 * d1 * d2] colours. *)
Definition node3D (interpolation : string) (dIn dOut id name : aval) (d0 d1 d2 : nat) (vals : list R) : node R :=
  setArray3D (newLUT3D dIn dOut id name (AStr interpolation)) [d0; d1; d2] vals "string".

(** A parameter element without channel applies to all three; one with channel
    "R", "G" or "B" to that one. Later elements win. *)
Definition appliesTo (channel : option string) (ch : nat) : bool :=
  match channel with
  | None => true
  | Some s => match ch with O => String.eqb s "R" | 1%nat => String.eqb s "G" | _ => String.eqb s "B" end
  end.
Definition knownChannel (channel : option string) : Prop :=
  channel = None \/ channel = Some "R" \/ channel = Some "G" \/ channel = Some "B".
Definition lastApplying {P V : Type} (chan : P -> option string) (val : P -> V) (d : V) (ps : list P) (ch : nat) : V :=
  fold_left (fun v p => if appliesTo (chan p) ch then val p else v) ps d.

(** A Gamma node: style, depths, gamma and offset of each channel. *)
Definition isGamma (h : header R) (ps : list (gparam R)) (style : string) (dIn dOut : aval) (gamma offset : nat -> R) : Prop :=
  dget (h_attrs h) "inBitDepth" = Some dIn /\ dget (h_attrs h) "outBitDepth" = Some dOut /\
  dget (h_attrs h) "style" = Some (AStr style) /\ Forall (fun p => knownChannel (g_chan p)) ps /\
  forall ch, (ch < 3)%nat -> lastApplying g_chan g_gamma 1 ps ch = gamma ch /\ lastApplying g_chan g_offset 0 ps ch = offset ch.

(** The parameters of a Log node per channel, and the smallest argument it passes
    to the logarithm. *)
Record logSettings : Type := { lsGamma : nat -> R; lsWhite : nat -> R; lsBlack : nat -> R; lsHigh : nat -> R; lsShadow : nat -> R }.
Definition isLog (h : header R) (ps : list (lparam R)) (style : string) (dIn dOut : aval) (s : logSettings) : Prop :=
  dget (h_attrs h) "inBitDepth" = Some dIn /\ dget (h_attrs h) "outBitDepth" = Some dOut /\
  dget (h_attrs h) "style" = Some (AStr style) /\ Forall (fun p => knownChannel (l_chan p)) ps /\
  forall ch, (ch < 3)%nat ->
    lastApplying l_chan l_gamma (6 / 10) ps ch = lsGamma s ch /\ lastApplying l_chan l_white 685 ps ch = lsWhite s ch /\
    lastApplying l_chan l_black 95 ps ch = lsBlack s ch /\ lastApplying l_chan l_high 1 ps ch = lsHigh s ch /\
    lastApplying l_chan l_shadow 0 ps ch = lsShadow s ch.
Definition floatMin : R := 11754943508222875 / 10 ^ 54.
(** The exposure of the black reference and the gain of the Cineon formula. *)
Definition blackExposure (s : logSettings) (ch : nat) : R :=
  Rpower 10 (Rmin (- (1 / 100000)) ((lsBlack s ch - lsWhite s ch) * (2 / 1000) / lsGamma s ch)).
Definition logGain (s : logSettings) (ch : nat) : R := (lsHigh s ch - lsShadow s ch) / (1 - blackExposure s ch).

(** An ExposureContrast node. *)
Definition isEC (h : header R) (style : string) (dIn dOut : aval) : Prop :=
  dget (h_attrs h) "inBitDepth" = Some dIn /\ dget (h_attrs h) "outBitDepth" = Some dOut /\
  dget (h_attrs h) "style" = Some (AStr style).

(** An ASC CDL: style, depths, and the numbers in force (slope 1, offset 0, power 1
    and saturation 1 when absent). *)
Record cdlSettings : Type := { cdSlope : nat -> R; cdOffset : nat -> R; cdPower : nat -> R; cdSat : R }.
Definition valueOr {A} (o : option A) (d : A) : A := match o with Some x => x | None => d end.
Definition three (f : nat -> R) : list R := [f 0%nat; f 1%nat; f 2%nat].
Definition isCDL (h : header R) (v : cdl R) (style : string) (dIn dOut : aval) (s : cdlSettings) : Prop :=
  dget (h_attrs h) "inBitDepth" = Some dIn /\ dget (h_attrs h) "outBitDepth" = Some dOut /\
  dget (h_attrs h) "style" = Some (AStr style) /\
  valueOr (c_slope v) [1; 1; 1] = three (cdSlope s) /\ valueOr (c_offset v) [0; 0; 0] = three (cdOffset s) /\
  valueOr (c_power v) [1; 1; 1] = three (cdPower s) /\ valueOr (c_sat v) 1 = cdSat s.
(** Both node types that carry a CDL. *)
Definition cdlNode (h : header R) (v : cdl R) (n : node R) : Prop := n = Node h (BCDL v) \/ n = Node h (BColorCorrection v).
Definition luma709 (c : R * R * R) : R := let '(r, g, b) := c in 2126 / 10000 * r + 7152 / 10000 * g + 722 / 10000 * b.
Definition mapColour (f : nat -> R -> R) (c : R * R * R) : R * R * R :=
  let '(r, g, b) := c in (f 0%nat r, f 1%nat g, f 2%nat b).
Definition saturate (sat : R) (c : R * R * R) : R * R * R := mapColour (fun _ x => luma709 c + sat * (x - luma709 c)) c.
(** A value held in [0, 1]. *)
Definition unit01 (x : R) : R := Rmin 1 (Rmax 0 x).
Definition everyChannel (P : nat -> R -> Prop) (c : R * R * R) : Prop :=
  let '(r, g, b) := c in P 0%nat r /\ P 1%nat g /\ P 2%nat b.
(** Slope, offset and power on a normalised value; negative results of the first
    two are left alone. *)
Definition gradeFree (s : cdlSettings) (i : nat) (x : R) : R :=
  let u := x * cdSlope s i + cdOffset s i in if Rlt_dec u 0 then u else Rpow u (cdPower s i).
Definition neutral (s : cdlSettings) : Prop :=
  cdSat s = 1 /\ forall i, (i < 3)%nat -> cdSlope s i = 1 /\ cdOffset s i = 0 /\ cdPower s i = 1.
Definition invertible (s : cdlSettings) : Prop := cdSat s <> 0 /\ forall i, (i < 3)%nat -> cdSlope s i <> 0 /\ 0 < cdPower s i.
