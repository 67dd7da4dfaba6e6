(** Sampling, inverse LUTs, shapers and the exported list: C57 - C61, C68, C69. *)
From Coq Require Import Reals Lra.
From Verif Require Import PExport.
Local Open Scope R_scope.

(** * C57 *)

Theorem C57_index_map_inverse :
  forall c n channels samples mi ma ps,
    risingTable n channels samples -> mi < ma -> forwardLUT channels samples mi ma ps ->
    exists inv f g,
      generateLUT1DInverseIndexMap n channels samples mi ma = Ok inv /\
      mapsRGB c (bareList (ps ++ inv)) f /\ mapsRGB c (bareList (inv ++ ps)) g /\
      (forall ch x, (ch < 3)%nat -> mi <= x <= ma -> f ch x = x) /\
      (forall ch y, (ch < 3)%nat -> column channels samples ch 0 <= y <= column channels samples ch (n - 1) -> g ch y = y).
Proof. exact index_map_inverse. Qed.
Print Assumptions C57_index_map_inverse.

Example C57_case : risingTable 3 1 [0; 1; 9] /\ (exists ps, forwardLUT 1 [0; 1; 9] (-1) 4 ps).
Proof. split; [exact knee_rising|]. exact (forward_exists 3 1 _ knee_rising (-1) 4). Qed.

(** * C58 *)

Theorem C58_range_not_used :
  forall (T : Type) (N : Num T) n channels (samples : list T) a b a' b' raw,
    generateLUT1DInverseHalfDomain n channels samples a b raw = generateLUT1DInverseHalfDomain n channels samples a' b' raw.
Proof. exact @half_ignores_range. Qed.
Print Assumptions C58_range_not_used.

(** Its entry for every half value is that value's position in the table. *)
Theorem C58_entries_are_positions :
  forall n channels samples, risingTable n channels samples -> forall a b raw,
    exists h arr,
      generateLUT1DInverseHalfDomain n channels samples a b raw = Ok [Node h BLUT1D] /\
      flagSet h "halfDomain" = true /\ lastArray (h_elems h) = Some arr /\
      forall k channel, (Z.of_nat k < 65536)%Z -> (channel < channels)%nat ->
        isPosition n (column channels samples channel) (nhalf (Z.of_nat k)) (nth (k * channels + channel) (a_vals arr) 0).
Proof. exact half_domain_table. Qed.
Print Assumptions C58_entries_are_positions.

(** So it undoes the forward LUT for at most one input range. *)
Theorem C58_one_range_at_most :
  forall n channels samples c a b a' b' raw raw' ps ps' inv inv',
    risingTable n channels samples -> a < b -> a' < b' ->
    forwardLUT channels samples a b ps -> forwardLUT channels samples a' b' ps' -> raw = raw' ->
    generateLUT1DInverseHalfDomain n channels samples a b raw = Ok inv ->
    generateLUT1DInverseHalfDomain n channels samples a' b' raw' = Ok inv' ->
    (forall x, a <= x <= b -> runList c (bareList (ps ++ inv)) [x; x; x] = Ok [x; x; x]) ->
    (forall x, a' <= x <= b' -> runList c (bareList (ps' ++ inv')) [x; x; x] = Ok [x; x; x]) ->
    a = a' /\ b = b'.
Proof. exact half_one_range. Qed.
Print Assumptions C58_one_range_at_most.

Example C58_case : risingTable 3 1 [0; 1; 9] /\ isPosition 3 (column 1 [0; 1; 9] 0) 5 (3 / 4).
Proof.
  split; [exact knee_rising|]. unfold isPosition, column. cbn. split; [intro; lra|]. split; [|intro; lra].
  intros [|[|k]] Hk H; cbn in *; try lra. lia.
Qed.

(** * C59 *)

(** The samples of a 1D LUT are the list's results at the grid points. *)
Theorem C59_samples_1d :
  forall c l n (lo hi : R) s, (2 <= n)%nat ->
    sample1D c l n lo hi = Ok s <->
    List.length s = (n * 3)%nat /\
    forall i, (i < n)%nat -> colourThrough c l (repeat (gridPoint n lo hi i) 3) = Ok (firstn 3 (skipn (i * 3) s)).
Proof. exact sample1D_points. Qed.
Print Assumptions C59_samples_1d.

(** Likewise those of a 3D LUT, for equal first and last resolutions. *)
Theorem C59_samples_3d :
  forall c l n m (lo hi : R) s, (2 <= n)%nat -> (2 <= m)%nat ->
    sample3D c l n m n lo hi = Ok s <->
    hasShape n m n s /\
    forall r g b, (r < n)%nat -> (g < m)%nat -> (b < n)%nat ->
      colourThrough c l [gridPoint n lo hi r; gridPoint m lo hi g; gridPoint n lo hi b] = Ok (cellOf s r g b).
Proof. exact sample3D_points. Qed.
Print Assumptions C59_samples_3d.

Theorem C59_grid_covers_interval :
  forall n (lo hi : R), (2 <= n)%nat ->
    gridPoint n lo hi 0 = lo /\ gridPoint n lo hi (n - 1) = hi /\
    (forall i, (i + 1 < n)%nat -> gridPoint n lo hi (i + 1) - gridPoint n lo hi i = (hi - lo) / INR (n - 1)).
Proof. exact grid_ends. Qed.
Print Assumptions C59_grid_covers_interval.

(** Different first and last resolutions always fail, with IndexError when the
    list itself processes every colour. *)
Theorem C59_uneven_resolution_fails :
  forall (T : Type) (N : Num T) c l r0 r1 r2 (lo hi : T),
    r0 <> r2 -> (1 <= r0)%nat -> (1 <= r1)%nat -> (1 <= r2)%nat ->
    exists e, sample3D c l r0 r1 r2 lo hi = Err e /\
      ((forall r g b, (r < r0)%nat -> (g < r1)%nat -> (b < r2)%nat -> exists vr vg vb px,
          samplePoint r r0 lo hi = Ok vr /\ samplePoint g r1 lo hi = Ok vg /\ samplePoint b r2 lo hi = Ok vb /\
          colourThrough c l [vr; vg; vb] = Ok px) -> e = IndexError).
Proof. exact sample3D_uneven. Qed.
Print Assumptions C59_uneven_resolution_fails.

Theorem C59_one_sample_fails :
  forall (T : Type) (N : Num T) c l (lo hi : T) r1 r2, neqb (nofZ 0) n0 = true -> (1 <= r1)%nat -> (1 <= r2)%nat ->
    sample1D c l 1 lo hi = Err ZeroDivisionError /\ sample3D c l 1 r1 r2 lo hi = Err ZeroDivisionError.
Proof. exact sample_one. Qed.
Print Assumptions C59_one_sample_fails.

Example C59_case : sample1D 0 (bareList []) 3 1 5 = Ok [1; 1; 1; 3; 3; 3; 5; 5; 5].
Proof.
  assert (M0 : mapsRGB 0 (bareList []) (fun _ x => x)) by (apply list_maps; apply chain_nil).
  apply C59_samples_1d; [lia|]. split; [reflexivity|]. intros i Hi. rewrite (maps_colour _ _ _ _ M0) by reflexivity.
  destruct i as [|[|[|i]]]; try lia; unfold rgb, indexed, gridPoint; cbn; repeat f_equal; lra.
Qed.

(** * C60 *)

Theorem C60_shapers_undone :
  forall c kind a b lo hi, a < b ->
    (kind = "linear"%string /\ lo = a /\ hi = b) \/
    (kind = "log2"%string /\ lo = Rpower 2 a /\ hi = Rpower 2 b /\ floatMin <= lo) ->
    exists F I f g,
      createShaper (Some kind) a b = Ok (F, I, lo, hi) /\
      mapsRGB c F (fun _ => f) /\ mapsRGB c I (fun _ => g) /\
      (forall x, lo <= x <= hi -> 0 <= f x <= 1 /\ g (f x) = x) /\
      (forall u, 0 <= u <= 1 -> lo <= g u <= hi /\ f (g u) = u) /\
      f lo = 0 /\ f hi = 1.
Proof. exact shaper_undone. Qed.
Print Assumptions C60_shapers_undone.

Theorem C60_other_shapers_are_empty :
  forall (T : Type) (N : Num T) kind (a b : T), kind <> Some "linear"%string -> kind <> Some "log2"%string ->
    createShaper kind a b = Ok (bareList [], bareList [], n0, n1).
Proof. exact shaper_other. Qed.
Print Assumptions C60_other_shapers_are_empty.

(** The tables of a 1D-3D-1D sampling. The input table samples the input shaper;
    the 3D table holds list and output shaper after the inverse input shaper; the
    output table samples the inverse of the INPUT shaper. *)
Theorem C60_tables :
  forall c l n1d n m n1dOut inType a b outType a' b' F I lo hi F' I' lo' hi' s,
    (2 <= n1d)%nat -> (2 <= n)%nat -> (2 <= m)%nat -> (2 <= n1dOut)%nat ->
    createShaper inType a b = Ok (F, I, lo, hi) -> createShaper outType a' b' = Ok (F', I', lo', hi') ->
    sample1D3D1D c l n1d n m n n1dOut inType a b outType a' b' = Ok s ->
    s_inMin s = lo /\ s_inMax s = hi /\ s_outMin s = lo' /\ s_outMax s = hi' /\
    (inType = None -> s_in s = None) /\
    (inType <> None -> exists t, s_in s = Some t /\ List.length t = (n1d * 3)%nat /\
       forall i, (i < n1d)%nat -> colourThrough c F (repeat (gridPoint n1d lo hi i) 3) = Ok (firstn 3 (skipn (i * 3) t))) /\
    (hasShape n m n (s_3d s) /\
     forall r g k, (r < n)%nat -> (g < m)%nat -> (k < n)%nat ->
       exists u p,
         (if given inType then colourThrough c I [gridPoint n 0 1 r; gridPoint m 0 1 g; gridPoint n 0 1 k] = Ok u
          else u = [gridPoint n 0 1 r; gridPoint m 0 1 g; gridPoint n 0 1 k]) /\
         colourThrough c l u = Ok p /\
         (if given outType then colourThrough c F' p = Ok (cellOf (s_3d s) r g k) else cellOf (s_3d s) r g k = p)) /\
    (outType = None -> s_out s = None) /\
    (outType <> None -> exists t, s_out s = Some t /\ List.length t = (n1dOut * 3)%nat /\
       forall i, (i < n1dOut)%nat -> colourThrough c I (repeat (gridPoint n1dOut 0 1 i) 3) = Ok (firstn 3 (skipn (i * 3) t))).
Proof. exact pipeline_contents. Qed.
Print Assumptions C60_tables.

(** So with two linear shapers it undoes the output shaper only if they agree. *)
Theorem C60_output_table_right_iff_same :
  forall c l n1d n m n1dOut a b a' b' s t,
    (2 <= n1d)%nat -> (2 <= n)%nat -> (2 <= m)%nat -> (2 <= n1dOut)%nat -> a < b -> a' < b' ->
    sample1D3D1D c l n1d n m n n1dOut (Some "linear"%string) a b (Some "linear"%string) a' b' = Ok s -> s_out s = Some t ->
    (forall F' I' lo' hi' i, createShaper (Some "linear"%string) a' b' = Ok (F', I', lo', hi') -> (i < n1dOut)%nat ->
       colourThrough c I' (repeat (gridPoint n1dOut 0 1 i) 3) = Ok (firstn 3 (skipn (i * 3) t))) <-> a = a' /\ b = b'.
Proof. exact output_table_right. Qed.
Print Assumptions C60_output_table_right_iff_same.

(** A log2 shaper from 2^-12 to 2^3, well above the smallest float. *)
Example C60_case : floatMin <= Rpower 2 (-12).
Proof.
  replace (Rpower 2 (-12)) with (/ 4096); [unfold floatMin; lra|].
  replace (-12) with (- INR 12) by (cbn; lra). rewrite Rpower_Ropp. f_equal. rewrite Rpower_pow by lra. cbn. lra.
Qed.

(** * C61 *)

(** The exported list with a linear input shaper [a, b] (or none: 0, 1). Where
    a + x (b - a) - the shaper's inverse at x - is a lattice point, it returns
    what the sampled list returns at the inverse of that point. *)
Theorem C61_exported_linear :
  forall c l n1d n n2 inType pa pb a b po pq s useHalf,
    (2 <= n1d)%nat -> (2 <= n)%nat -> (2 <= n2)%nat ->
    (inType = Some "linear"%string /\ a = pa /\ b = pb /\ a < b) \/ (inType = None /\ a = 0 /\ b = 1) ->
    sample1D3D1D c l n1d n n n n2 inType pa pb None po pq = Ok s ->
    exists out, exportCLF true useHalf (s_in s) n1d (s_inMin s) (s_inMax s) (s_3d s) n n n (s_out s) = Ok out /\
      forall r g k x0 x1 x2, (r < n)%nat -> (g < n)%nat -> (k < n)%nat -> 0 <= x0 <= 1 -> 0 <= x1 <= 1 -> 0 <= x2 <= 1 ->
        a + x0 * (b - a) = gridPoint n 0 1 r -> a + x1 * (b - a) = gridPoint n 0 1 g -> a + x2 * (b - a) = gridPoint n 0 1 k ->
        colourThrough c out [x0; x1; x2] = colourThrough c l [gridPoint n a b r; gridPoint n a b g; gridPoint n a b k].
Proof. exact export_linear. Qed.
Print Assumptions C61_exported_linear.

(** With the shaper [0, 1], or without one, both agree at the lattice points. *)
Theorem C61_unit_range_agrees :
  forall c l n1d n n2 inType pa pb po pq s,
    (2 <= n1d)%nat -> (2 <= n)%nat -> (2 <= n2)%nat ->
    (inType = Some "linear"%string /\ pa = 0 /\ pb = 1) \/ inType = None ->
    sample1D3D1D c l n1d n n n n2 inType pa pb None po pq = Ok s ->
    exists out, exportCLF true true (s_in s) n1d (s_inMin s) (s_inMax s) (s_3d s) n n n (s_out s) = Ok out /\
      forall r g k, (r < n)%nat -> (g < n)%nat -> (k < n)%nat ->
        colourThrough c out [gridPoint n 0 1 r; gridPoint n 0 1 g; gridPoint n 0 1 k] =
        colourThrough c l [gridPoint n 0 1 r; gridPoint n 0 1 g; gridPoint n 0 1 k].
Proof. exact export_unit. Qed.
Print Assumptions C61_unit_range_agrees.

(** For the identity list and the shaper [0, 2] the exported list returns four
    times its input. *)
Theorem C61_other_range_refuted :
  exists l n1d n n2 s out x,
    sample1D3D1D 0 l n1d n n n n2 (Some "linear"%string) 0 2 None 0 1 = Ok s /\
    exportCLF true true (s_in s) n1d (s_inMin s) (s_inMax s) (s_3d s) n n n (s_out s) = Ok out /\
    0 <= x <= 2 /\ colourThrough 0 l [x; x; x] = Ok [x; x; x] /\ colourThrough 0 out [x; x; x] = Ok [4 * x; 4 * x; 4 * x].
Proof. exact export_wrong. Qed.
Print Assumptions C61_other_range_refuted.

Example C61_case : exists s, sample1D3D1D 0 (bareList []) 64 5 5 5 7 (Some "linear"%string) 0 2 None 0 1 = Ok s.
Proof. apply bare_sampling; lia. Qed.

(** * C68 *)

Theorem C68_default_stride :
  forall (T : Type) (N : Num T) c (l : plist T) values, values <> [] ->
    listProcess c l values 0 = listProcess c l values (List.length values).
Proof. exact @list_stride0. Qed.
Print Assumptions C68_default_stride.

Theorem C68_default_stride_node :
  forall (T : Type) (N : Num T) c (n : node T) values, values <> [] ->
    nodeProcess c n values 0 = nodeProcess c n values (List.length values).
Proof. exact @node_stride0. Qed.
Print Assumptions C68_default_stride_node.

(** Six samples without a stride are one pixel of six channels: only the first
    three go through the LUT. *)
Example C68_case :
  let l := bareList [newRange (T := R) (AStr "10i") (AStr "16f") (AStr "r") (AStr "r") (AStr "") ANone] in
  listProcess 0 l [1; 2; 3; 4; 5; 6] 0 = listProcess 0 l [1; 2; 3; 4; 5; 6] 6.
Proof. apply (C68_default_stride R). discriminate. Qed.

(** * C69 *)

Theorem C69_resampled_inverse :
  forall c n channels samples mi ma ps,
    risingTable n channels samples -> mi < ma -> forwardLUT channels samples mi ma ps ->
    exists inv lo hi g,
      generateLUT1DInverseResampled n channels samples mi ma = Ok inv /\
      (forall ch, (ch < 3)%nat -> lo <= column channels samples ch 0 /\ column channels samples ch (n - 1) <= hi) /\
      (exists ch, (ch < 3)%nat /\ lo = column channels samples ch 0) /\
      (exists ch, (ch < 3)%nat /\ hi = column channels samples ch (n - 1)) /\
      mapsRGB c (bareList (inv ++ ps)) g /\
      forall ch i, (ch < 3)%nat -> (i < 2 * n)%nat ->
        let y := gridPoint (2 * n) lo hi i in
        column channels samples ch 0 <= y <= column channels samples ch (n - 1) -> g ch y = y.
Proof. exact resampled_exact. Qed.
Print Assumptions C69_resampled_inverse.

(** In between the result can be off by a third of full scale. *)
Theorem C69_between_points_refuted :
  exists n channels samples ps inv y g,
    risingTable n channels samples /\ forwardLUT channels samples 0 1 ps /\
    generateLUT1DInverseResampled n channels samples 0 1 = Ok inv /\
    mapsRGB 0 (bareList (inv ++ ps)) g /\
    column channels samples 0 0 <= y <= column channels samples 0 (n - 1) /\ g 0%nat y < y - 1 / 3.
Proof. exact resampled_between. Qed.
Print Assumptions C69_between_points_refuted.

Example C69_case : risingTable 3 1 [0; 1; 9] /\ (exists ps, forwardLUT 1 [0; 1; 9] 0 1 ps) /\
  gridPoint 6 0 9 1 = 18 / 10 /\ column 1 [0; 1; 9] 0 0 <= 18 / 10 <= column 1 [0; 1; 9] 0 2.
Proof.
  split; [exact knee_rising|]. split; [exact (forward_exists 3 1 _ knee_rising 0 1)|]. unfold gridPoint, column. cbn. lra.
Qed.
