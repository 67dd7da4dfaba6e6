(** Model of the OCIO transform conversion of convertOCIOtoCLF.py. *)
From Verif Require Export MBuild.

Section Ocio.
  Context {T : Type} {N : Num T}.
  Local Open Scope num_scope.

  Definition isForward (direction : string) : bool := String.eqb direction "forward".

  (** convertOCIOtoCLF.py 70-77: [None] stands for the unassigned local. *)
  Definition ocioResolution (matrix : list T) : option (list nat) :=
    if Nat.eqb (List.length matrix) 16 then Some [4; 4; 3]
    else if Nat.eqb (List.length matrix) 12 then Some [3; 4; 3]
    else if Nat.eqb (List.length matrix) 9 then Some [3; 3; 3]
    else None.

  (** convertOCIOtoCLF.py 81-83. [matrix[11 == 0.0]], [matrix[14 == 0.0]] and
      [matrix[15 == 1.0]] all read [matrix[False]], the first entry. *)
  Definition looks3x3 (matrix : list T) : res bool :=
    if Nat.eqb (List.length matrix) 16 then
      let* m3 := getn matrix 3 in
      let* m7 := getn matrix 7 in
      let* m0 := getn matrix 0 in
      let* m12 := getn matrix 12 in
      let* m13 := getn matrix 13 in
      Ok ((m3 =? n0) && (m7 =? n0) && negb (m0 =? n0) && (m12 =? n0) && (m13 =? n0) && negb (m0 =? n0) && negb (m0 =? n0))
    else Ok false.

  (** convertOCIOtoCLF.py 68-109. (The assignments at 88-90 also change the
      caller's list; that side effect is not modelled. [print] is ignored.) *)
  Definition convertMatrix (matrix offset : list T) (direction : string) : res (option (node T)) :=
    let resolution := ocioResolution matrix in
    if isForward direction then
      let* small := looks3x3 matrix in
      let* (resolution, matrix) :=
        if (small : bool) then
          let* o0 := getn offset 0 in
          let* o1 := getn offset 1 in
          let* o2 := getn offset 2 in
          if negb (o0 =? n0) || negb (o1 =? n0) || negb (o2 =? n0) then
            let* m := setn matrix 3 o0 in
            let* m := setn m 7 o1 in
            let* m := setn m 11 o2 in
            Ok (Some [3; 4; 3], m)
          else
            let matrix33 := pySliceSet (repeat n0 9) 0 3 (slice matrix 0 3) in
            let matrix33 := pySliceSet matrix33 3 6 (slice matrix 4 7) in
            let matrix33 := pySliceSet matrix33 6 9 (slice matrix 8 11) in
            Ok (Some [3; 3; 3], matrix33)
        else Ok (resolution, matrix) in
      match resolution with
      | None => Err UnboundLocalError
      | Some dims =>
          Ok (Some (setMatrix (newMatrix (AStr "16f") (AStr "16f") (AStr "matrix1") (AStr "matrix1")) dims matrix "string"))
      end
    else Ok None.

  (** convertOCIOtoCLF.py 111-126. *)
  Definition convertLog (base : Z) (direction : string) : option (node T) :=
    let mk style := newLog (AStr "16f") (AStr "16f") (AStr "log") (AStr "log") (AStr style) in
    if (base =? 10)%Z then Some (mk (if isForward direction then "log10" else "antiLog10")%string)
    else if (base =? 2)%Z then Some (mk (if isForward direction then "log2" else "antiLog2")%string)
    else None.

  (** OCIO transforms as far as convertTransformsToProcessNodes looks at them. A
      file transform carries what Registry.read returns for its file ([None] for
      an unsupported extension). *)
  Inductive ocio : Type :=
  | OGroup (children : list ocio)
  | OFile (read : res (option (list (node T))))
  | OMatrix (matrix offset : list T) (direction : string)
  | OLog (base : Z) (direction : string)
  | OOther.

  (** convertOCIOtoCLF.py 128-182. [pns.extend(None)] raises TypeError. *)
  Fixpoint convertTransforms (t : ocio) : res (list (node T)) :=
    match t with
    | OGroup children =>
        (fix go l := match l with
                     | [] => Ok []
                     | t :: rest => let* a := convertTransforms t in let* b := go rest in Ok (a ++ b)
                     end) children
    | OFile read => let* r := read in match r with Some pns => Ok pns | None => Err TypeError end
    | OMatrix matrix offset direction =>
        let* r := convertMatrix matrix offset direction in
        Ok (match r with Some n => [n] | None => [] end)
    | OLog base direction => Ok (match convertLog base direction with Some n => [n] | None => [] end)
    | OOther => Ok []
    end.
End Ocio.
Arguments ocio T : clear implicits.
