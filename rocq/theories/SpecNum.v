(** Vocabulary for the numeric properties: what it means for a node to act on each
    channel or on each colour of a buffer. Written independently of how the model
    computes. *)
From Verif Require Export Spec MBuild.

Section SpecNum.
  Context {T : Type} {N : Num T}.

  (** [f] applied to every element together with its position. *)
  Definition indexed {A B} (f : nat -> A -> B) (l : list A) : list B :=
    map (fun p => f (fst p) (snd p)) (combine (seq 0 (List.length l)) l).

  (** Buffers of pixels [st] samples wide: the first three samples of every pixel
      are the colour, which [f] maps; further samples are kept and an incomplete
      last pixel becomes zeros. *)
  Definition perColour (st : nat) (f : T -> T -> T -> T * T * T) (values : list T) : list T :=
    indexed (fun i x =>
      if Nat.ltb i (List.length values / st * st) then
        let p := i / st * st in
        let '(r, g, b) := f (nth p values n0) (nth (p + 1) values n0) (nth (p + 2) values n0) in
        match i mod st with 0 => r | 1 => g | 2 => b | _ => x end
      else n0) values.

  (** Whole pixels of [st] samples mapped by [F]; an incomplete last pixel becomes
      zeros. *)
  Definition pixelAt (st p : nat) (values : list T) : list T := map (fun k => nth (p * st + k) values n0) (seq 0 st).
  Definition perPixel (st : nat) (F : list T -> list T) (values : list T) : list T :=
    indexed (fun i _ =>
      if Nat.ltb i (List.length values / st * st) then nth (i mod st) (F (pixelAt st (i / st) values)) n0 else n0) values.

  (** The same when each channel is mapped on its own. *)
  Definition perChannel (st : nat) (f : nat -> T -> T) (values : list T) : list T :=
    perColour st (fun r g b => (f 0 r, f 1 g, f 2 b)) values.

  (** The node maps colours with [f], whatever the buffer and the number of
      channels per pixel (at least three); in particular it does not fail. *)
  Definition actsPerColour (c : Z) (n : node T) (f : T -> T -> T -> T * T * T) : Prop :=
    forall st values, 3 <= st -> outcome (nodeProcess c n values st) = Ok (perColour st f values).
  Definition actsPerChannel (c : Z) (n : node T) (f : nat -> T -> T) : Prop :=
    forall st values, 3 <= st -> outcome (nodeProcess c n values st) = Ok (perChannel st f values).

  (** The node maps pixels of [st] samples with [F]. *)
  Definition actsPerPixel (c : Z) (n : node T) (st : nat) (F : list T -> list T) : Prop :=
    forall values, outcome (nodeProcess c n values st) = Ok (perPixel st F values).

  (** The node maps every sample of the buffer with [f]. *)
  Definition actsPerSample (c : Z) (n : node T) (f : T -> T) : Prop :=
    forall st values, outcome (nodeProcess c n values st) = Ok (map f values).

  (** Entry [k] of channel [ch] of a 1D table (channel tables interleaved when
      there are three of them, else one flat table). *)
  Definition entry1D (a : array T) (k ch : nat) : T :=
    match a_dims a with
    | _ :: 3 :: _ => nth (k * 3 + ch) (a_vals a) n0
    | _ => nth k (a_vals a) n0
    end.

  (** Entry of a 3D table of [n] entries per side, blue fastest. *)
  Definition entry3D (a : array T) (n i j k ch : nat) : T := nth (((i * n + j) * n + k) * 3 + ch) (a_vals a) n0.

  (** The float32 sample a Range stores for the output limit [v] (a code value of
      depth [d]). *)
  Definition limitSample (d : aval) (v : T) : T :=
    nf32 (normalizedToBitDepth (nf32 (ndiv v (bitDepthSize d))) d).
End SpecNum.
