(** 3D LUTs: C27 - C31. *)
From Coq Require Import Reals Lra.
From Verif Require Import PLut3DStride.
Local Open Scope R_scope.

(** A two-entry-per-side table for 10i input. *)
Definition cubeVals : list R :=
  [0; 0; 0;  0; 0; 1;  0; 1; 0;  0; 1; 1;  1; 0; 0;  1; 0; 1;  1; 1; 0;  5; 6; 7].
Definition cubeArray : array R := mkArray [2; 2; 2; 3]%nat cubeVals false false "string".
Definition cubeHeader (tet : bool) : header R :=
  hAddElem (hSetAttr (newHeader (AStr "10i") (AStr "16f") (AStr "l") (AStr "l")) "interpolation" (AStr (kindOf tet))) (EArray cubeArray).
Example C27_data : forall tet, isLUT3D (cubeHeader tet) (kindOf tet) (AStr "10i") cubeArray 2 /\ indexMaps (h_elems (cubeHeader tet)) = [].
Proof.
  intro tet. split; [|reflexivity]. split; [reflexivity|]. split; [eexists; reflexivity|]. split; [reflexivity|].
  split; [reflexivity|]. split; [eexists; reflexivity|]. split; [lia|reflexivity].
Qed.
(** It is what the constructor and setArray build. *)
Example C27_built : forall tet,
  node3D (kindOf tet) (AStr "10i") (AStr "16f") (AStr "l") (AStr "l") 2 2 2 cubeVals = Node (cubeHeader tet) BLUT3D.
Proof. intros []; reflexivity. Qed.

(** * C27 *)

Theorem C27_entries_at_lattice_points :
  forall c h dIn a n tet,
    isLUT3D h (kindOf tet) dIn a n -> indexMaps (h_elems h) = [] -> (2 <= n)%nat ->
    exists F, actsPerColour c (Node h BLUT3D) F /\
      forall i j k, (i < n)%nat -> (j < n)%nat -> (k < n)%nat ->
        F (codeAt dIn n i) (codeAt dIn n j) (codeAt dIn n k) = colour3D a n i j k.
Proof. exact lut3d_entries. Qed.
Print Assumptions C27_entries_at_lattice_points.

(** With index maps the table is read at the mapped position. *)
Theorem C27_mapped_positions :
  forall c h h0 dIn a n tet,
    isLUT3D h (kindOf tet) dIn a n -> goodMaps (indexMaps (h_elems h)) -> indexMaps (h_elems h) <> [] ->
    isLUT3D h0 (kindOf tet) dIn a n -> indexMaps (h_elems h0) = [] -> (2 <= n)%nat ->
    exists F F0, actsPerColour c (Node h BLUT3D) F /\ actsPerColour c (Node h0 BLUT3D) F0 /\
      forall r g b mr mg mb yr yg yb,
        mapFor (indexMaps (h_elems h)) 0 mr -> mapFor (indexMaps (h_elems h)) 1 mg -> mapFor (indexMaps (h_elems h)) 2 mb ->
        imapProcess mr r = Ok yr -> imapProcess mg g = Ok yg -> imapProcess mb b = Ok yb ->
        F r g b = F0 (fullScale dIn * (yr / INR (n - 1))) (fullScale dIn * (yg / INR (n - 1))) (fullScale dIn * (yb / INR (n - 1))).
Proof. exact lut3d_mapped. Qed.
Print Assumptions C27_mapped_positions.

Example C27_case : forall tet, outcome (nodeProcess 0 (Node (cubeHeader tet) BLUT3D) [1023; 0; 1023; 1023; 1023; 1023] 3) = Ok [1; 0; 1; 5; 6; 7].
Proof.
  intro tet. destruct (C27_entries_at_lattice_points 0 _ _ _ _ _ (proj1 (C27_data tet)) (proj2 (C27_data tet)) ltac:(lia)) as [F [HF HE]].
  rewrite (HF 3%nat _ ltac:(lia)). unfold perColour, indexed. cbn.
  pose proof (HE 1%nat 0%nat 1%nat ltac:(lia) ltac:(lia) ltac:(lia)) as E1. pose proof (HE 1%nat 1%nat 1%nat ltac:(lia) ltac:(lia) ltac:(lia)) as E2.
  unfold codeAt in E1, E2. cbn in E1, E2.
  replace (1023 * (1 / 1)) with 1023 in E1, E2 by lra. replace (1023 * (0 / 1)) with 0 in E1 by lra. rewrite E1, E2. reflexivity.
Qed.
Definition cubeMapped (tet : bool) : header R := hAddElem (cubeHeader tet) (EIndexMap (mkIndexMap [0; 500; 1023] [1; 0; 1])).
Example C27_mapped_data : forall tet,
  isLUT3D (cubeMapped tet) (kindOf tet) (AStr "10i") cubeArray 2 /\ goodMaps (indexMaps (h_elems (cubeMapped tet))) /\
  mapFor (indexMaps (h_elems (cubeMapped tet))) 1 (mkIndexMap [0; 500; 1023] [1; 0; 1]).
Proof.
  intro tet. split; [|split; [|left; reflexivity]].
  - split; [reflexivity|]. split; [eexists; reflexivity|]. split; [reflexivity|].
    split; [reflexivity|]. split; [eexists; reflexivity|]. split; [lia|reflexivity].
  - split; [cbn; lia|]. repeat constructor; discriminate.
Qed.

(** * C28 *)

Theorem C28_within_corners :
  forall c h dIn a n tet,
    isLUT3D h (kindOf tet) dIn a n -> indexMaps (h_elems h) = [] -> (2 <= n)%nat ->
    exists F, actsPerColour c (Node h BLUT3D) F /\
      (forall i j k fr fg fb r g b ch lo hi,
         inCell dIn n i fr r -> inCell dIn n j fg g -> inCell dIn n k fb b -> (ch < 3)%nat ->
         (forall up, lo <= corner a n i j k ch up <= hi) -> lo <= part ch (F r g b) <= hi) /\
      (forall r g b, F r g b = F (intoRange dIn r) (intoRange dIn g) (intoRange dIn b)).
Proof. exact lut3d_bounded. Qed.
Print Assumptions C28_within_corners.

Example C28_case :
  inCell (AStr "10i") 2 0 (1 / 3) 341 /\ intoRange (AStr "10i") (-4) = 0 /\ intoRange (AStr "10i") 2000 = 1023 /\
  forall up, 0 <= corner cubeArray 2 0 0 0 0 up <= 5.
Proof.
  split; [split; [lia|split; [lra|unfold codeAt; cbn; lra]]|].
  split; [unfold intoRange; cbn; rewrite Rmin_right, Rmax_left; lra|].
  split; [unfold intoRange; cbn; rewrite Rmin_left, Rmax_right; lra|].
  intro up. unfold corner. destruct (existsb (Nat.eqb 0) up), (existsb (Nat.eqb 1) up), (existsb (Nat.eqb 2) up); cbn; lra.
Qed.

(** * C29 *)

Theorem C29_affine_tables :
  forall c h dIn a n tet (p0 pr pg pb : nat -> R),
    isLUT3D h (kindOf tet) dIn a n -> indexMaps (h_elems h) = [] -> (2 <= n)%nat ->
    (forall i j k ch, (i < n)%nat -> (j < n)%nat -> (k < n)%nat -> (ch < 3)%nat ->
       entry3D a n i j k ch = p0 ch + pr ch * codeAt dIn n i + pg ch * codeAt dIn n j + pb ch * codeAt dIn n k) ->
    exists F, actsPerColour c (Node h BLUT3D) F /\
      forall r g b ch, 0 <= r <= fullScale dIn -> 0 <= g <= fullScale dIn -> 0 <= b <= fullScale dIn -> (ch < 3)%nat ->
        part ch (F r g b) = p0 ch + pr ch * r + pg ch * g + pb ch * b.
Proof. exact lut3d_affine. Qed.
Print Assumptions C29_affine_tables.

Theorem C29_sampled_function :
  forall c id tid n (f : R -> R -> R -> list R) dIn dOut,
    (2 <= n)%nat -> (forall r g b, List.length (f r g b) = 3%nat) ->
    exists node F, simple3DLUT id tid n n n f dIn dOut = Ok node /\ actsPerColour c node F /\
      (forall i j k ch, (i < n)%nat -> (j < n)%nat -> (k < n)%nat -> (ch < 3)%nat ->
         part ch (F (codeAt dIn n i) (codeAt dIn n j) (codeAt dIn n k)) =
         nth ch (f (INR i / INR (n - 1)) (INR j / INR (n - 1)) (INR k / INR (n - 1))) 0) /\
      ((exists p0 pr pg pb : nat -> R, forall r g b ch, (ch < 3)%nat -> nth ch (f r g b) 0 = p0 ch + pr ch * r + pg ch * g + pb ch * b) ->
       forall r g b ch, 0 <= r <= fullScale dIn -> 0 <= g <= fullScale dIn -> 0 <= b <= fullScale dIn -> (ch < 3)%nat ->
         part ch (F r g b) = nth ch (f (r / fullScale dIn) (g / fullScale dIn) (b / fullScale dIn)) 0).
Proof. exact sampled_cube. Qed.
Print Assumptions C29_sampled_function.

(** The default function of simple3DLUT is the identity. *)
Example C29_case : forall r g b, 0 <= r <= 1 -> 0 <= g <= 1 -> 0 <= b <= 1 ->
  exists node, simple3DLUT (AStr "i") (AStr "i") 32 32 32 (fun r g b => [r; g; b]) (AStr "16f") (AStr "16f") = Ok node /\
    outcome (nodeProcess 0 node [r; g; b] 3) = Ok [r; g; b].
Proof.
  intros r g b Hr Hg Hb.
  destruct (C29_sampled_function 0 (AStr "i") (AStr "i") 32 (fun r g b => [r; g; b]) (AStr "16f") (AStr "16f")) as [nd [F [E [HF [_ HA]]]]];
    [lia|reflexivity|].
  exists nd. split; [exact E|]. rewrite (HF 3%nat _ ltac:(lia)). unfold perColour, indexed. cbn.
  assert (P : forall ch, (ch < 3)%nat -> part ch (F r g b) = nth ch [r / 1; g / 1; b / 1] 0).
  { intros ch Hc. apply (HA); try assumption.
    exists (fun _ => 0), (fun ch => if Nat.eqb ch 0 then 1 else 0), (fun ch => if Nat.eqb ch 1 then 1 else 0), (fun ch => if Nat.eqb ch 2 then 1 else 0).
    intros r' g' b' [|[|[|ch']]] Hc'; cbn; try lra; lia. }
  pose proof (P 0%nat ltac:(lia)) as P0. pose proof (P 1%nat ltac:(lia)) as P1. pose proof (P 2%nat ltac:(lia)) as P2.
  destruct (F r g b) as [[u v] w]. cbn in *. repeat (f_equal; try lra).
Qed.

(** * C30 *)

(** For any order of the axes in which the fractions do not increase the result
    is the blend of the corresponding path of corners. Equal fractions allow
    several orders, so the formulas agree where the tetrahedra meet. *)
Theorem C30_tetrahedra_agree :
  forall c h dIn a n,
    isLUT3D h "tetrahedral" dIn a n -> indexMaps (h_elems h) = [] -> (2 <= n)%nat ->
    exists F, actsPerColour c (Node h BLUT3D) F /\
      forall i j k (f : nat -> R) r g b ch s1 s2 s3,
        inCell dIn n i (f 0%nat) r -> inCell dIn n j (f 1%nat) g -> inCell dIn n k (f 2%nat) b -> (ch < 3)%nat ->
        Permutation [s1; s2; s3] [0; 1; 2]%nat -> f s3 <= f s2 <= f s1 ->
        part ch (F r g b) =
          (1 - f s1) * corner a n i j k ch [] + (f s1 - f s2) * corner a n i j k ch [s1]
          + (f s2 - f s3) * corner a n i j k ch [s1; s2] + f s3 * corner a n i j k ch [s1; s2; s3].
Proof. exact lut3d_tetrahedra. Qed.
Print Assumptions C30_tetrahedra_agree.

(** Red 2/3, green and blue 1/3: red first, then green and blue in either order. *)
Example C30_case :
  let f := fun s : nat => match s with O => 2 / 3 | _ => 1 / 3 end in
  inCell (AStr "10i") 2 0 (f 0%nat) 682 /\ inCell (AStr "10i") 2 0 (f 1%nat) 341 /\ inCell (AStr "10i") 2 0 (f 2%nat) 341 /\
  f 2%nat <= f 1%nat <= f 0%nat /\ f 1%nat <= f 2%nat <= f 0%nat /\ Permutation [0; 2; 1]%nat [0; 1; 2]%nat.
Proof.
  cbv zeta. repeat match goal with |- inCell _ _ _ _ _ /\ _ => split; [split; [lia|split; [lra|unfold codeAt; cbn; lra]]|] end.
  split; [lra|]. split; [lra|]. repeat constructor.
Qed.

(** * C31 *)

(** At a lattice point the node fails or reads address i*d0*d1 + j*d1 + k. *)
Theorem C31_address_read :
  forall c tet dIn dOut id name d0 d1 d2 vals i j k out,
    (2 <= d0)%nat -> (2 <= d1)%nat -> (2 <= d2)%nat -> List.length vals = (d0 * d1 * d2 * 3)%nat ->
    (i < d0)%nat -> (j < d1)%nat -> (k < d2)%nat ->
    outcome (nodeProcess c (node3D (kindOf tet) dIn dOut id name d0 d1 d2 vals)
               [codeAt dIn d0 i; codeAt dIn d1 j; codeAt dIn d2 k] 3) = Ok out ->
    let address := (i * d0 * d1 + j * d1 + k)%nat in
    (address < d0 * d1 * d2)%nat /\
    out = [nth (address * 3) vals 0; nth (address * 3 + 1) vals 0; nth (address * 3 + 2) vals 0].
Proof. exact stride_entries. Qed.
Print Assumptions C31_address_read.

(** Every non-cubic shape has a table and a lattice point where the node does not
    return the entry stored there (blue fastest). *)
Theorem C31_noncubic_refuted :
  forall c tet dIn dOut id name d0 d1 d2,
    (2 <= d0)%nat -> (2 <= d1)%nat -> (2 <= d2)%nat -> ~ (d0 = d1 /\ d1 = d2) ->
    exists vals i j k,
      List.length vals = (d0 * d1 * d2 * 3)%nat /\ (i < d0)%nat /\ (j < d1)%nat /\ (k < d2)%nat /\
      let address := ((i * d1 + j) * d2 + k)%nat in
      outcome (nodeProcess c (node3D (kindOf tet) dIn dOut id name d0 d1 d2 vals)
                 [codeAt dIn d0 i; codeAt dIn d1 j; codeAt dIn d2 k] 3) <>
      Ok [nth (address * 3) vals 0; nth (address * 3 + 1) vals 0; nth (address * 3 + 2) vals 0].
Proof. exact noncubic_wrong. Qed.
Print Assumptions C31_noncubic_refuted.

(** In a 4 x 2 x 2 table the entry for full red would be at address 24 of 16: the lookup fails. *)
Example C31_case : ~ exists out,
  outcome (nodeProcess 0 (node3D "trilinear" (AStr "16f") (AStr "16f") (AStr "l") (AStr "l") 4 2 2 (repeat 0 48))
             [codeAt (AStr "16f") 4 3; codeAt (AStr "16f") 2 0; codeAt (AStr "16f") 2 0] 3) = Ok out.
Proof.
  intros [out H]. pose proof (C31_address_read 0 false (AStr "16f") (AStr "16f") (AStr "l") (AStr "l") 4 2 2 (repeat 0 48) 3 0 0 out
    ltac:(lia) ltac:(lia) ltac:(lia) eq_refl ltac:(lia) ltac:(lia) ltac:(lia) H) as [L _]. lia.
Qed.
