(** Vocabulary for changing the bit depths a list declares. *)
From Verif Require Export SpecReal MListApi.
Local Open Scope string_scope.

Section Vocabulary.
  Context {T : Type} {NM : Num T}.

  (** With the features [c] the list skips the node. *)
  Definition skipped (c : Z) (n : node T) : Prop := autodesk_on c = true /\ hasBypass n.

  (** Nodes that look at neither of their depths. *)
  Definition readsNoDepth (b : body T) : Prop :=
    match b with BMatrix | BGroup _ | BReference _ _ => True | _ => False end.
  Definition isLUT (b : body T) : Prop := match b with BLUT1D | BLUT3D => True | _ => False end.

  (** Nodes that turn the colours into numbers in [0, 1] by the input depth, and nodes that
      turn their results into code values of the output depth. *)
  Definition knownCurve (h : header T) (b : body T) : Prop :=
    match b with
    | BCDL _ | BColorCorrection _ => exists s, dget (h_attrs h) "style" = Some (AStr s) /\ In s knownCDL
    | BGamma _ | BLog _ => exists s, dget (h_attrs h) "style" = Some s /\ knownStyle b s
    | _ => False
    end.
  Definition knownLUT (h : header T) (b : body T) : Prop :=
    indexMaps (h_elems h) = [] /\
    match b with
    | BLUT1D => True
    | BLUT3D => exists s, dget (h_attrs h) "interpolation" = Some (AStr s) /\ In s ["trilinear"; "tetrahedral"]
    | _ => False
    end.
End Vocabulary.

(** The first three samples of every pixel of [st] samples, multiplied. *)
Definition scaledColours (st : nat) (s : R) (values : list R) : list R :=
  indexed (fun i x => if Nat.ltb (i mod st) 3 then (s * x)%R else x) values.
(** From code values of one depth to code values of another. *)
Definition depthRatio (d d' : aval) : R := (fullScale d' / fullScale d)%R.
