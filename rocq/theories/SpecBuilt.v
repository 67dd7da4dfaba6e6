(** Programs that build nodes by calling their setters (C90). *)
From Verif Require Export MBuilt.
Local Open Scope string_scope.
Local Open Scope list_scope.

(** What the last of some calls that says anything says. *)
Definition lastOf {A B} (says : A -> option B) (calls : list A) : option B :=
  fold_left (fun sofar call => match says call with Some b => Some b | None => sofar end) calls None.

Section Calls.
  Context {T : Type} {N : Num T}.

  Inductive cdlCall : Type := CallSlope (r g b : T) | CallOffset (r g b : T) | CallPower (r g b : T) | CallSaturation (s : T).
  Definition makeCdlCall (n : node T) (c : cdlCall) : node T :=
    match c with
    | CallSlope r g b => setSlope n r g b
    | CallOffset r g b => setOffset n r g b
    | CallPower r g b => setPower n r g b
    | CallSaturation s => setSaturation n s
    end.
  Definition slopeSaid c := match c with CallSlope r g b => Some [r; g; b] | _ => None end.
  Definition offsetSaid c := match c with CallOffset r g b => Some [r; g; b] | _ => None end.
  Definition powerSaid c := match c with CallPower r g b => Some [r; g; b] | _ => None end.
  Definition saturationSaid c := match c with CallSaturation s => Some s | _ => None end.

  Inductive rangeCall : Type :=
  | CallMinIn (x : T) | CallMaxIn (x : T) | CallMinOut (x : T) | CallMaxOut (x : T) | CallStyle (v : aval) | CallDefault (v : aval).
  Definition makeRangeCall (n : node T) (c : rangeCall) : node T :=
    match c with
    | CallMinIn x => setMinInValue n x
    | CallMaxIn x => setMaxInValue n x
    | CallMinOut x => setMinOutValue n x
    | CallMaxOut x => setMaxOutValue n x
    | CallStyle v => setStyle n v
    | CallDefault v => setDefaultRange n v
    end.
  Definition minInSaid c := match c with CallMinIn x => Some x | _ => None end.
  Definition maxInSaid c := match c with CallMaxIn x => Some x | _ => None end.
  Definition minOutSaid c := match c with CallMinOut x => Some x | _ => None end.
  Definition maxOutSaid c := match c with CallMaxOut x => Some x | _ => None end.
  Definition styleSaid c := match c with CallStyle v => Some v | _ => None end.
  Definition defaultSaid c := match c with CallDefault v => Some v | _ => None end.
  (** None, False and the empty text switch defaultRange off. *)
  Definition on (v : aval) : option aval :=
    match v with AStr "" | ABool false | ANone => None | _ => Some v end.

  (** Calls on a LUT1D or LUT3D node: one index map, three, or a table. *)
  Inductive lutCall : Type :=
  | CallMap (r : list T * list T) | CallMaps (r g b : list T * list T) | CallTable (vals : list T).
  Definition mapsSaid (c : lutCall) : list (list T * list T) :=
    match c with CallMap r => [r] | CallMaps r g b => [r; g; b] | CallTable _ => [] end.
  Definition tableSaid (c : lutCall) : option (list T) := match c with CallTable vals => Some vals | _ => None end.
  Definition makeLut1DCall (columns : nat) (n : res (node T)) (c : lutCall) : res (node T) :=
    let* n := n in
    match c with
    | CallMap r => Ok (setIndexMaps n r None)
    | CallMaps r g b => Ok (setIndexMaps n r (Some (g, b)))
    | CallTable vals => setArray1D n columns vals "string"
    end.
  Definition makeLut3DCall (dims : list nat) (n : node T) (c : lutCall) : node T :=
    match c with
    | CallMap r => setIndexMaps n r None
    | CallMaps r g b => setIndexMaps n r (Some (g, b))
    | CallTable vals => setArray3D n dims vals "string"
    end.

  (** The node's header holds the attributes the constructor was given and nothing else. *)
  Definition plainHeader (h : header T) (attrs : list (string * aval)) : Prop :=
    (forall k, dget (h_attrs h) k = dget attrs k) /\ h_vals h = [] /\ h_dyn h = [] /\ h_elems h = [].
End Calls.
Arguments cdlCall : clear implicits.
Arguments rangeCall : clear implicits.
Arguments lutCall : clear implicits.
