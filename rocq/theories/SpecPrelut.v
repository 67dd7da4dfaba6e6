(** Vocabulary for the shapers (preluts) of .csp files. *)
From Verif Require Export SpecSampling SpecLut.
Local Open Scope R_scope.

(** [(x, y)] is on the polyline through the points [(xs[k], ys[k])]. *)
Definition onPolyline (xs ys : list R) (x y : R) : Prop :=
  exists k, (k + 1 < List.length xs)%nat /\ nth k xs 0 <= x <= nth (k + 1) xs 0 /\
    y = through (nth k xs 0) (nth k ys 0) (nth (k + 1) xs 0) (nth (k + 1) ys 0) x.

(** A shaper of [n] points from [lo] to [hi] with strictly rising inputs. *)
Definition isShaper (n : nat) (lo hi : R) (p : list R * list R) : Prop :=
  List.length (fst p) = n /\ List.length (snd p) = n /\ risingInputs (fst p) /\ nth 0 (fst p) 0 = lo /\ nth (n - 1) (fst p) 0 = hi.

Section Shaper.
  Context {T : Type} {N : Num T}.

  (** The inputs written for a shaper of [n] samples on [lo, hi]. *)
  Definition shaperInputs (n : nat) (lo hi : T) : list T :=
    map (fun s => nadd (nmul (ndiv (nofZ (Z.of_nat s)) (nofZ (Z.of_nat n - 1))) (nsub hi lo)) lo) (seq 0 n).
  (** Its outputs for channel [ch], when [samples] holds [n] colours. *)
  Definition shaperOutputs (n : nat) (samples : list T) (ch : nat) : list T :=
    map (fun s => nth (s * 3 + ch) samples n0) (seq 0 n).
End Shaper.
