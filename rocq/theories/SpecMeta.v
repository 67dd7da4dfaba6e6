(** What decides the colours a node computes, and what is only kept with it (C85). *)
From Verif Require Export MListApi.

Section Meta.
  Context {T : Type}.

  (** The attributes and value elements that processing looks at. *)
  Definition colourAttributes : list string :=
    ["inBitDepth"; "outBitDepth"; "bypass"; "style"; "defaultRange"; "interpolation"; "halfDomain"].
  Definition limitNames : list string := ["minInValue"; "maxInValue"; "minOutValue"; "maxOutValue"].
  (** Tables and index maps, without the descriptions around them and without what is only
      said about how to write a table (in which encoding, as halfs, as integers). *)
  Definition contents (a : array T) : array T :=
    {| a_dims := a_dims a; a_vals := a_vals a; a_dt := a_dt a; a_raw := false; a_int := false; a_enc := "" |}.
  Fixpoint tablesIn (es : list (element T)) : list (element T) :=
    match es with
    | [] => []
    | EArray a :: t => EArray (contents a) :: tablesIn t
    | EIndexMap m :: t => EIndexMap m :: tablesIn t
    | _ :: t => tablesIn t
    end.

  Definition sameSettings (h h' : header T) : Prop :=
    (forall k, In k colourAttributes -> dget (h_attrs h) k = dget (h_attrs h') k) /\
    (forall k, In k limitNames -> dget (h_vals h) k = dget (h_vals h') k) /\
    tablesIn (h_elems h) = tablesIn (h_elems h').

  (** The nodes differ at most in what processing does not look at, also inside Groups and
      in the lists References refer to. *)
  Inductive alike : node T -> node T -> Prop :=
  | AlikePlain h h' b : sameSettings h h' -> alike (Node h b) (Node h' b)
  | AlikeGroup h h' ps ps' : Forall2 alike ps ps' -> sameSettings h h' -> alike (Node h (BGroup ps)) (Node h' (BGroup ps'))
  | AlikeReference h h' w w' a v e ps a' v' e' ps' : Forall2 alike ps ps' -> sameSettings h h' ->
      alike (Node h (BReference w (Some (PList a v e ps)))) (Node h' (BReference w' (Some (PList a' v' e' ps')))).
  Definition alikeLists (l l' : plist T) : Prop := Forall2 alike (procs_of l) (procs_of l').
End Meta.
