(** Model of the lookup half of python/aces/clf/Array.py. (The text
    encodings, Array.write / Array.read, are in MArrayText.v.) *)
From Verif Require Export MCommon.

(** What [self._values] is: a Python list given through the API, or a numpy
    array of some dtype produced by Array.read (Array.py 219-247). *)
Inductive dtype : Type := DtList | DtF16 | DtF32 | DtF64.

Section Array.
  Context {T : Type} {N : Num T}.
  Local Open Scope num_scope.

  (** Array.py 73-94. Dimensions are natural numbers (a negative "dim" entry in a
      file is not modelled). *)
  Record array : Type := {
    a_dims : list nat;
    a_vals : list T;
    a_dt : dtype;
    a_raw : bool;                 (* rawHalfs *)
    a_int : bool;                 (* valuesAreIntegers *)
    a_enc : string                (* floatEncoding *)
  }.

  (** Product of an array element with a float32 scalar: float32 arithmetic if
      the array is a float16/float32 numpy array, double otherwise. *)
  Definition amul (dt : dtype) (a x : T) : T :=
    match dt with DtF16 | DtF32 => nf32 (a * x) | DtList | DtF64 => a * x end.

  Definition dim (a : array) (i : nat) : res nat := getn (a_dims a) i.

  (** Array.py 325-344: lookup1D. *)
  Definition lookup1D (a : array) (index : Z) (channel : nat) : res T :=
    let* d0 := dim a 0 in
    let* d1 := dim a 1 in
    let z0 := Z.of_nat d0 in
    if Nat.eqb d1 3 then
      let c := Z.of_nat (Nat.min 2 channel) in
      if (index <? 0)%Z then pyget (a_vals a) c
      else if (z0 <=? index)%Z then pyget (a_vals a) ((z0 - 1) * 3 + c)%Z
      else pyget (a_vals a) (index * 3 + c)%Z
    else
      if (index <? 0)%Z then pyget (a_vals a) 0
      else if (z0 <=? index)%Z then pyget (a_vals a) (z0 - 1)%Z
      else pyget (a_vals a) index.

  (** Array.py 362-464: lookup1DHalfDomainInterpolated. [position] is a float32
      scalar, so the difference to its float16 rounding is a float32 and the
      distance between two halfs a float16. *)
  Definition lookup1DHalfDomain (a : array) (position : T) (channel : nat) : res T :=
    let h1 := nf16 position in
    if nisnan position then lookup1D a 31745 channel
    else if nf16inf position then
      if position <? n0 then lookup1D a 64512 channel else lookup1D a 31744 channel
    else
      let diff := nf32 (position - h1) in
      let '(offset, imin, imax) :=
        if position <? n0 then (-1, 32768, 64511)%Z else (1, 0, 31743)%Z in
      let h2 :=
        if n0 <=? diff then nhalf (Z.max imin (Z.min imax (nhbits h1 + offset)))
        else nhalf (Z.max imin (Z.min imax (nhbits h1 - offset))) in
      let range := nf16 (h2 - h1) in
      let ratio := if negb (range =? n0) then nf32 (diff / range) else n0 in
      let* v1 := lookup1D a (nhbits h1) channel in
      let* v2 := lookup1D a (nhbits h2) channel in
      Ok ((n1 - ratio) * v1 + amul (a_dt a) ratio v2).

  (** Array.py 486-507: lookup1DLinear. *)
  Definition lookup1DLinear (a : array) (position : T) (channel : nat) : res T :=
    let* d0 := dim a 0 in
    let index := position * nofZ (Z.of_nat d0 - 1) in
    if nisnan index || nisinf index then Ok index
    else
      let indexLow := nfloor index in
      let indexHigh := nceil index in
      let interp := index - nofZ indexLow in
      let* value1 := lookup1D a indexLow channel in
      let* value2 := lookup1D a indexHigh channel in
      Ok ((n1 - interp) * value1 + interp * value2).

  (** Array.py 510-514: lookup1DCubic. scipy is disabled at 57-63 and the callers
      leave useSciPy False, so the method always evaluates the unbound global
      name [lookup1DLinear]. *)
  Definition lookup1DCubic (a : array) (position : T) (channel : nat) : res T :=
    let* _ := dim a 0 in Err NameError.

  (** Array.py 534-547: lookup3D. [map] over three indices and the dimensions: a
      missing dimension is None and None-1 raises TypeError. *)
  Definition clampIndex (i : Z) (d : nat) : nat := Z.to_nat (Z.max 0 (Z.min i (Z.of_nat d - 1))).
  Definition lookup3D (a : array) (i0 i1 i2 : Z) : res (list T) :=
    match a_dims a with
    | d0 :: d1 :: d2 :: _ =>
        let j0 := clampIndex i0 d0 in
        let j1 := clampIndex i1 d1 in
        let j2 := clampIndex i2 d2 in
        let index1 := ((j0 * d0 * d1 + j1 * d1 + j2) * 3)%nat in
        Ok (slice (a_vals a) index1 (index1 + 3))
    | _ => Err TypeError
    end.

  (** Array.py 560-585 and 619-644: the clamped position along one axis, split
      into integer part and fraction. *)
  Definition axis (a : array) (position : list T) (k : nat) : res (Z * T) :=
    let* p := getn position k in
    let* d := dim a k in
    let f := clamp p * nofZ (Z.of_nat d - 1) in
    Ok (ntrunc f, f - nofZ (ntrunc f)).

  Definition corners (a : array) (r g b : Z) : res (list (list T)) :=
    let* c0 := lookup3D a r g b in
    let* c1 := lookup3D a r g (b + 1) in
    let* c2 := lookup3D a r (g + 1) b in
    let* c3 := lookup3D a r (g + 1) (b + 1) in
    let* c4 := lookup3D a (r + 1) g b in
    let* c5 := lookup3D a (r + 1) g (b + 1) in
    let* c6 := lookup3D a (r + 1) (g + 1) b in
    let* c7 := lookup3D a (r + 1) (g + 1) (b + 1) in
    Ok [c0; c1; c2; c3; c4; c5; c6; c7].

  (** Array.py 550-600: lookup3DTrilinear. *)
  Definition lookup3DTrilinear (a : array) (position : list T) : res (list T) :=
    let* (indexR, interpR) := axis a position 0 in
    let* (indexG, interpG) := axis a position 1 in
    let* (indexB, interpB) := axis a position 2 in
    let* cs := corners a indexR indexG indexB in
    match cs with
    | [c0; c1; c2; c3; c4; c5; c6; c7] =>
        let* e0 := mix c0 c1 interpB in
        let* e2 := mix c2 c3 interpB in
        let* e4 := mix c4 c5 interpB in
        let* e6 := mix c6 c7 interpB in
        let* f0 := mix e0 e2 interpG in
        let* f4 := mix e4 e6 interpG in
        mix f0 f4 interpR
    | _ => Err IndexError
    end.

  (** One line of Array.py 667-774: a four-term blend of corner components. *)
  Definition tetra4 (k : nat) (w0 : T) (p0 : list T) (w1 : T) (p1 : list T)
             (w2 : T) (p2 : list T) (w3 : T) (p3 : list T) : res T :=
    let* x0 := getn p0 k in
    let* x1 := getn p1 k in
    let* x2 := getn p2 k in
    let* x3 := getn p3 k in
    Ok (w0 * x0 + w1 * x1 + w2 * x2 + w3 * x3).

  Definition tetra (k : nat) (fx fy fz : T) (c0 c1 c2 c3 c4 c5 c6 c7 : list T) : res T :=
    if fy <? fx then
      if fz <? fy then tetra4 k (n1 - fx) c0 (fx - fy) c4 (fy - fz) c6 fz c7
      else if fz <? fx then tetra4 k (n1 - fx) c0 (fx - fz) c4 (fz - fy) c5 fy c7
      else tetra4 k (n1 - fz) c0 (fz - fx) c1 (fx - fy) c5 fy c7
    else
      if fy <? fz then tetra4 k (n1 - fz) c0 (fz - fy) c1 (fy - fx) c3 fx c7
      else if fx <? fz then tetra4 k (n1 - fy) c0 (fy - fz) c2 (fz - fx) c3 fx c7
      else tetra4 k (n1 - fy) c0 (fy - fx) c2 (fx - fz) c6 fz c7.

  (** Array.py 609-776: lookup3DTetrahedral. *)
  Definition lookup3DTetrahedral (a : array) (position : list T) : res (list T) :=
    let* (indexR, fx) := axis a position 0 in
    let* (indexG, fy) := axis a position 1 in
    let* (indexB, fz) := axis a position 2 in
    let* cs := corners a indexR indexG indexB in
    match cs with
    | [c0; c1; c2; c3; c4; c5; c6; c7] =>
        let* x := tetra 0 fx fy fz c0 c1 c2 c3 c4 c5 c6 c7 in
        let* y := tetra 1 fx fy fz c0 c1 c2 c3 c4 c5 c6 c7 in
        let* z := tetra 2 fx fy fz c0 c1 c2 c3 c4 c5 c6 c7 in
        Ok [x; y; z]
    | _ => Err IndexError
    end.
End Array.
Arguments array T : clear implicits.
