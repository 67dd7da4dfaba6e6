(** Model of python/aces/clf/Common.py (feature sets, clamp, mix) and of the
    bit-depth helpers of python/aces/clf/ProcessNode.py. *)
From Verif Require Export Py Num.
Open Scope string_scope.
Open Scope list_scope.

(** Common.py 61-66: featureSets; 68-76: the global [compatibility] word is
    passed to the model functions as an argument. *)
Definition feat_CLF : Z := 0.
Definition feat_Autodesk : Z := 1.
Definition feat_Duiker : Z := 2.
Definition feat_All : Z := 15.
(** [getFeatureCompatibility() & featureSets[...]] as a truth value. *)
Definition autodesk_on (compat : Z) : bool := negb (Z.land compat feat_Autodesk =? 0)%Z.
Definition duiker_on (compat : Z) : bool := negb (Z.land compat feat_Duiker =? 0)%Z.

(** Values an attribute dictionary can hold: strings from files or the API,
    booleans (ProcessNode.py 199-200 converts "True"/"False"), and None (adapter
    Range nodes built from a neighbour without a depth). Other Python objects
    are not modelled. *)
Inductive aval : Type := AStr (s : string) | ABool (b : bool) | ANone.

Definition aval_eqb (a b : aval) : bool :=
  match a, b with
  | AStr s, AStr t => String.eqb s t
  | ABool x, ABool y => Bool.eqb x y
  | ANone, ANone => true
  | _, _ => false
  end.

Section Common.
  Context {T : Type} {N : Num T}.
  Local Open Scope num_scope.

  (** Common.py 79-80: clamp(value, minValue=0.0, maxValue=1.0). *)
  Definition clamp (value : T) : T := pymin n1 (pymax n0 value).

  (** Common.py 83-87: mix. [value2] shorter than [value1] raises IndexError. *)
  Fixpoint mix (value1 value2 : list T) (mixAmount : T) : res (list T) :=
    match value1, value2 with
    | [], _ => Ok []
    | _ :: _, [] => Err IndexError
    | a :: t1, b :: t2 =>
        let* r := mix t1 t2 mixAmount in
        Ok (((n1 - mixAmount) * a + mixAmount * b) :: r)
    end.

  (** ProcessNode.py 107-119: bitDepthSize: 2^n - 1 for the integer depths, 1.0
      for anything else (unknown strings, None). *)
  Definition bitDepthSize (d : aval) : T :=
    if aval_eqb d (AStr "8i") then nofZ 255
    else if aval_eqb d (AStr "10i") then nofZ 1023
    else if aval_eqb d (AStr "12i") then nofZ 4095
    else if aval_eqb d (AStr "16i") then nofZ 65535
    else n1.

  (** ProcessNode.py 77-89. *)
  Definition bitDepthToNormalized (value : T) (d : aval) : T :=
    if aval_eqb d (AStr "8i") then value / nofZ 255
    else if aval_eqb d (AStr "10i") then value / nofZ 1023
    else if aval_eqb d (AStr "12i") then value / nofZ 4095
    else if aval_eqb d (AStr "16i") then value / nofZ 65535
    else value.

  (** ProcessNode.py 92-104. *)
  Definition normalizedToBitDepth (value : T) (d : aval) : T :=
    if aval_eqb d (AStr "8i") then value * nofZ 255
    else if aval_eqb d (AStr "10i") then value * nofZ 1023
    else if aval_eqb d (AStr "12i") then value * nofZ 4095
    else if aval_eqb d (AStr "16i") then value * nofZ 65535
    else value.

  (** ProcessNode.py 122-123. *)
  Definition bitDepthIsInteger (d : aval) : bool :=
    aval_eqb d (AStr "8i") || aval_eqb d (AStr "10i") || aval_eqb d (AStr "12i") || aval_eqb d (AStr "16i").

  (** Python's [x / y] on two Python floats. *)
  Definition pyfdiv (x y : T) : res T := if y =? n0 then Err ZeroDivisionError else Ok (x / y).

  (** Python's [pow(x, y)] on two Python floats: 0.0 to a negative power raises
      ZeroDivisionError, a negative number to a fractional power raises
      ValueError. (OverflowError on huge results is not modelled.) *)
  Definition pypow (x y : T) : res T :=
    if (x =? n0) && (y <? n0) then Err ZeroDivisionError
    else if (x <? n0) && negb (y =? nofZ (nfloor y)) then Err ValueError
    else Ok (npow x y).

  (** Integer part as [math.modf] and [int] take it (towards zero). *)
  Definition ntrunc (x : T) : Z := if x <? n0 then nceil x else nfloor x.

  (** Python's [int(x)] of a float. *)
  Definition pyint (x : T) : res Z :=
    if nisnan x then Err ValueError else if nisinf x then Err OverflowError else Ok (ntrunc x).
End Common.
