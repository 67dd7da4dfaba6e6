(** Vocabulary for sampled and inverted LUTs. *)
From Verif Require Export SpecReal MSampling.
Local Open Scope R_scope.

(** Every sample mapped by the function of its channel (three channels per pixel). *)
Definition rgb {T} (f : nat -> T -> T) (values : list T) : list T := indexed (fun i x => f (i mod 3) x) values.

(** The list maps RGB buffers channel by channel with [f]; in particular it does
    not fail on them. *)
Definition mapsRGB (c : Z) (l : plist R) (f : nat -> R -> R) : Prop :=
  forall values, (List.length values mod 3 = 0)%nat -> outcome (listProcess c l values 3) = Ok (rgb f values).

(** Entry [k] of the table used for colour channel [ch], when [samples] holds
    [channels] interleaved tables (one table serves all three channels). *)
Definition column (channels : nat) (samples : list R) (ch k : nat) : R :=
  nth (k * channels + Nat.min ch (channels - 1)) samples 0.

(** A 1D LUT as the lutFormats code has it: [n] entries in one or three channels,
    each strictly increasing. *)
Definition risingTable (n channels : nat) (samples : list R) : Prop :=
  (2 <= n)%nat /\ (channels = 1 \/ channels = 3)%nat /\ List.length samples = (n * channels)%nat /\
  forall ch k, (ch < 3)%nat -> (k + 1 < n)%nat -> column channels samples ch k < column channels samples ch (k + 1).

(** The list that applies such a LUT to inputs from [minIn, maxIn]: a Range to
    [0, 1], then the LUT1D node. *)
Definition forwardLUT (channels : nat) (samples : list R) (minIn maxIn : R) (ps : list (node R)) : Prop :=
  exists lut,
    setArray1D (newLUT1D (AStr "16f") (AStr "16f") (AStr "l") (AStr "l") (AStr "linear") (AStr "") (AStr ""))
      channels samples "string" = Ok lut /\
    ps = [limitRange "r" "r" minIn maxIn 0 1; lut].

(** The position of [y] in a rising table, as a fraction of its length: linear
    between entries, 0 below the first, the last segment continued above the last. *)
Definition isPosition (n : nat) (e : nat -> R) (y p : R) : Prop :=
  (y <= e 0%nat -> p = 0) /\
  (forall k, (k + 1 < n)%nat -> e k <= y <= e (k + 1)%nat ->
     p = (INR k + (y - e k) / (e (k + 1)%nat - e k)) / INR (n - 1)) /\
  (e (n - 1)%nat <= y ->
     p = (INR (n - 2) + (y - e (n - 2)%nat) / (e (n - 1)%nat - e (n - 2)%nat)) / INR (n - 1)).

(** The [i]th of [n] evenly spaced points from [lo] to [hi]. *)
Definition gridPoint (n : nat) (lo hi : R) (i : nat) : R := lo + INR i / INR (n - 1) * (hi - lo).

(** What a list computes for one colour. *)
Definition colourThrough {T} {N : Num T} (c : Z) (l : plist T) (px : list T) : res (list T) := runList c l px.

(** A nested table of colours with [a] planes of [b] rows of [c] colours. *)
Definition hasShape {T} (a b c : nat) (s : lattice T) : Prop :=
  List.length s = a /\
  forall r, (r < a)%nat -> List.length (nth r s []) = b /\
    forall g, (g < b)%nat -> List.length (nth g (nth r s []) []) = c.
Definition cellOf {T} (s : lattice T) (r g b : nat) : list T := nth b (nth g (nth r s []) []) [].
