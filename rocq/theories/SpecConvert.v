(** Vocabulary for the command line converters. *)
From Verif Require Export SpecFiles SpecTools SpecLut SpecSampling SpecPrelut MConvert.
Local Open Scope string_scope.
Local Open Scope list_scope.

(** The LUT a user asks convertCLFtoLUT for. *)
Inductive lutKind : Type := Only1D | Only3D | Both1D3D.

Section Vocabulary.
  Context {T : Type} {NM : Num T}.

  Definition lutKindOf (o : exportOptions T) : lutKind :=
    if eo_gen1d o then Only1D else if eo_gen3d o then Only3D else if eo_gen1d3d1d o then Both1D3D else Only1D.
  (** The options that count agree; --lutResolution3d, --format and repetitions do not count. *)
  Definition sameExport (o o' : exportOptions T) : Prop :=
    eo_clf o = eo_clf o' /\ eo_lut o = eo_lut o' /\ lutKindOf o = lutKindOf o' /\
    eo_res1d o = eo_res1d o' /\ hd_error (eo_res1d3d1d o) = hd_error (eo_res1d3d1d o') /\
    eo_min o = eo_min o' /\ eo_max o = eo_max o' /\
    hd_error (eo_shaperIn o) = hd_error (eo_shaperIn o') /\ hd_error (eo_shaperOut o) = hd_error (eo_shaperOut o').
  (** The size of a 3D LUT: the middle number of the first --lutResolution1d3d1d. *)
  Definition size3D (o : exportOptions T) : nat := match eo_res1d3d1d o with [] => 33 | (_, n, _) :: _ => n end.
  (** The three sizes of a 1D-3D-1D LUT: the first --lutResolution1d3d1d, or 1024, 33, 2. *)
  Definition sizesAsked (o : exportOptions T) : nat * nat * nat := match eo_res1d3d1d o with [] => (1024, 33, 2) | r :: _ => r end.
  (** The shaper asked for: the first option given, or none. *)
  Definition shaperAsked {X : NumText T} (s : list (string * string * string)) (kind : option string) (lo hi : T) : Prop :=
    match s with [] => kind = None | (k, a, b) :: _ => kind = Some k /\ parseFloat a = Ok lo /\ parseFloat b = Ok hi end.
  (** The shaper options hold numbers, or are not given. *)
  Definition shaperReadable {X : NumText T} (s : list (string * string * string)) : Prop :=
    match s with [] => True | (_, lo, hi) :: _ => (exists x, parseFloat (T := T) lo = Ok x) /\ (exists x, parseFloat (T := T) hi = Ok x) end.

  (** What Registry.read makes of the nodes of a file. *)
  Definition convertedList (ns : list (node T)) : plist T :=
    PList [("id", "Converted lut"); ("compCLFversion", "1.0"); ("name", "Converted lut")] [] [] ns.

  (** [n'] is [n] with another name and one more description. *)
  Definition renamed (description name : string) (n n' : node T) : Prop :=
    nbody n' = nbody n /\ h_vals (nheader n') = h_vals (nheader n) /\ h_dyn (nheader n') = h_dyn (nheader n) /\
    h_elems (nheader n') = h_elems (nheader n) ++ [EDesc (Some description)] /\
    getAttribute n' "name" = AStr name /\ (forall k, k <> "name" -> dget (h_attrs (nheader n')) k = dget (h_attrs (nheader n)) k).
  (** The nodes [ns'] are the nodes [ns], the [k]-th named [name k]. *)
  Definition described (description : string) (name : nat -> string) (ns ns' : list (node T)) : Prop :=
    List.length ns' = List.length ns /\
    forall k n n', nth_error ns k = Some n -> nth_error ns' k = Some n' -> renamed description (name k) n n'.

  (** Every file transform in [t] names an interpolation. *)
  Fixpoint namesInterpolation (t : otree T) : Prop :=
    match t with
    | TGroup children => (fix all l := match l with [] => True | t :: r => namesInterpolation t /\ all r end) children
    | TFile _ interpolation _ => interpolation <> "" /\ interpolation <> "True" /\ interpolation <> "False"
    | _ => True
    end.

  (** The transforms inside the groups of [t], in order, and what each becomes; [read] reads
      the file of a file transform. *)
  Fixpoint leaves (t : otree T) : list (otree T) :=
    match t with
    | TGroup children => (fix all l := match l with [] => [] | t :: r => leaves t ++ all r end) children
    | _ => [t]
    end.
  Definition leafNodes (read : string -> string -> string -> res (option (list (node T)))) (t : otree T) : res (list (node T)) :=
    match t with
    | TFile src interpolation direction =>
        match read src interpolation direction with Ok (Some ns) => Ok ns | Ok None => Err TypeError | Err e => Err e end
    | TMatrix matrix offset direction => convertTransforms (OMatrix matrix offset direction)
    | TLog base direction => convertTransforms (OLog base direction)
    | _ => Ok []
    end.
  (** A file name, and a path that does not end in a slash. *)
  Definition fileName (s : string) : Prop := Forall (fun a => a <> "/"%char) (chars s).
  Definition directory (s : string) : Prop := exists t a, s = (t ++ String a "")%string /\ a <> "/"%char.
  Definition relative (s : string) : Prop := forall t, s <> String "/" t.
End Vocabulary.
