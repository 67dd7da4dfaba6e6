(** Model of the getters of LUT nodes, and of LUT3D nodes built from one size list. *)
From Verif Require Export MBuild.
Local Open Scope list_scope.

Section Built.
  Context {T : Type} {N : Num T}.

  (** LUT1D.py 109-112 = LUT3D.py 102-105; [self._array] is None before setArray. *)
  Definition getLUTDimensions (n : node T) : res (list nat) :=
    match lastArray (h_elems (nheader n)) with Some a => Ok (a_dims a) | None => Err AttributeError end.
  Definition getLUTValues (n : node T) : res (list T) :=
    match lastArray (h_elems (nheader n)) with Some a => Ok (a_vals a) | None => Err AttributeError end.
  (** LUT1D.py 114-115 = LUT3D.py 107-108. IndexMap has getDimension (IndexMap.py 78) but
      no getDimensions. *)
  Definition getIndexMapDimensions (n : node T) (channel : Z) : res nat :=
    let* m := pyget (indexMaps (h_elems (nheader n))) channel in Err AttributeError.
  (** LUT1D.py 116-117 = LUT3D.py 109-110: inputs and outputs. *)
  Definition getIndexMapValues (n : node T) (channel : Z) : res (list T * list T) :=
    let* m := pyget (indexMaps (h_elems (nheader n))) channel in Ok (im_in m, im_out m).

  (** LUT3D.py 89-100 called on several nodes with one list object for the size: every call
      appends a 3 to that object, and every Array made holds the object itself. The nodes
      once all calls are made, and the list. *)
  Definition setArrays3DShared (calls : list (node T * list T * string)) (dims : list nat) : list (node T) * list nat :=
    let dims := dims ++ repeat 3 (List.length calls) in
    (map (fun call => let '(n, vals, enc) := call in addElement n (EArray (mkArray dims vals false (outIsInteger n) enc))) calls, dims).
End Built.
