(** LUT3D in exact arithmetic. *)
From Coq Require Import Lra.
From Flocq Require Import Core.
From Coq Require Export Permutation.
From Verif Require Export PMap PSample.
Local Open Scope R_scope.

(* ------------------------------------------------------------------ *)
(** * The interpolations on a grid of numbers *)

(** Linear between [floor] and the next entry. *)
Definition lin1 (e : Z -> R) (t : R) : R :=
  (1 - (t - IZR (Zfloor t))) * e (Zfloor t) + (t - IZR (Zfloor t)) * e (Zfloor t + 1)%Z.

Lemma lin1_cell e t z : IZR z <= t <= IZR (z + 1) -> lin1 e t = e z + (t - IZR z) * (e (z + 1)%Z - e z).
Proof.
  intros [H1 H2]. unfold lin1. destruct (Req_dec t (IZR (z + 1))) as [->|Hn].
  - rewrite Zfloor_IZR. rewrite plus_IZR in *. replace (IZR z + IZR 1 - (IZR z + IZR 1)) with 0 by lra. lra.
  - assert (Ef : Zfloor t = z) by (apply Zfloor_imp; lra). rewrite Ef. lra.
Qed.

Definition triV (e : Z -> Z -> Z -> R) (r g b : Z) (fr fg fb : R) : R :=
  (1 - fr) * ((1 - fg) * ((1 - fb) * e r g b + fb * e r g (b + 1)%Z) + fg * ((1 - fb) * e r (g + 1)%Z b + fb * e r (g + 1)%Z (b + 1)%Z))
  + fr * ((1 - fg) * ((1 - fb) * e (r + 1)%Z g b + fb * e (r + 1)%Z g (b + 1)%Z)
          + fg * ((1 - fb) * e (r + 1)%Z (g + 1)%Z b + fb * e (r + 1)%Z (g + 1)%Z (b + 1)%Z)).

Definition tetV (e : Z -> Z -> Z -> R) (r g b : Z) (fx fy fz : R) : R :=
  let c0 := e r g b in let c1 := e r g (b + 1)%Z in let c2 := e r (g + 1)%Z b in let c3 := e r (g + 1)%Z (b + 1)%Z in
  let c4 := e (r + 1)%Z g b in let c5 := e (r + 1)%Z g (b + 1)%Z in let c6 := e (r + 1)%Z (g + 1)%Z b in
  let c7 := e (r + 1)%Z (g + 1)%Z (b + 1)%Z in
  if Rltb fy fx then
    if Rltb fz fy then (1 - fx) * c0 + (fx - fy) * c4 + (fy - fz) * c6 + fz * c7
    else if Rltb fz fx then (1 - fx) * c0 + (fx - fz) * c4 + (fz - fy) * c5 + fy * c7
    else (1 - fz) * c0 + (fz - fx) * c1 + (fx - fy) * c5 + fy * c7
  else
    if Rltb fy fz then (1 - fz) * c0 + (fz - fy) * c1 + (fy - fx) * c3 + fx * c7
    else if Rltb fx fz then (1 - fy) * c0 + (fy - fz) * c2 + (fz - fx) * c3 + fx * c7
    else (1 - fy) * c0 + (fy - fx) * c2 + (fx - fz) * c6 + fz * c7.

Ltac orders :=
  repeat match goal with
  | |- context [Rltb ?x ?y] =>
      let E := fresh "E" in destruct (Rltb x y) eqn:E; [apply Rltb_spec in E|apply Rltb_false in E]
  end.
Ltac tie x y := try (let H := fresh "T" in assert (H : x = y) by lra; rewrite !H in *; clear H; try ring).
Ltac ties := try (exfalso; lra); try ring.

(** Moving a base corner along an axis where the fraction is 1. *)
Lemma tri_shift_r e r g b fg fb : triV e r g b 1 fg fb = triV e (r + 1) g b 0 fg fb.
Proof. unfold triV. ring. Qed.
Lemma tri_shift_g e r g b fr fb : triV e r g b fr 1 fb = triV e r (g + 1) b fr 0 fb.
Proof. unfold triV. ring. Qed.
Lemma tri_shift_b e r g b fr fg : triV e r g b fr fg 1 = triV e r g (b + 1) fr fg 0.
Proof. unfold triV. ring. Qed.

Lemma tet_shift_r e r g b fy fz : 0 <= fy <= 1 -> 0 <= fz <= 1 -> tetV e r g b 1 fy fz = tetV e (r + 1) g b 0 fy fz.
Proof.
  intros H1 H2. unfold tetV. cbv zeta. orders; ties; tie fy 1; tie fy 0; tie fz 1; tie fz 0; tie fy fz; ring.
Qed.
Lemma tet_shift_g e r g b fx fz : 0 <= fx <= 1 -> 0 <= fz <= 1 -> tetV e r g b fx 1 fz = tetV e r (g + 1) b fx 0 fz.
Proof.
  intros H1 H2. unfold tetV. cbv zeta. orders; ties; tie fx 1; tie fx 0; tie fz 1; tie fz 0; tie fx fz; ring.
Qed.
Lemma tet_shift_b e r g b fx fy : 0 <= fx <= 1 -> 0 <= fy <= 1 -> tetV e r g b fx fy 1 = tetV e r g (b + 1) fx fy 0.
Proof.
  intros H1 H2. unfold tetV. cbv zeta. orders; ties; tie fx 1; tie fx 0; tie fy 1; tie fy 0; tie fx fy; ring.
Qed.

(** Either interpolation. *)
Definition interpV (tet : bool) := if tet then tetV else triV.

Lemma floor_cases t z f : 0 <= f <= 1 -> t = IZR z + f ->
  (Zfloor t = z /\ t - IZR (Zfloor t) = f) \/ (f = 1 /\ Zfloor t = (z + 1)%Z /\ t - IZR (Zfloor t) = 0).
Proof.
  intros Hf ->. destruct (Req_dec f 1) as [->|Hn].
  - right. replace (IZR z + 1) with (IZR (z + 1)) by (rewrite plus_IZR; lra). rewrite Zfloor_IZR. repeat split; lra.
  - left. assert (E : Zfloor (IZR z + f) = z) by (apply Zfloor_imp; rewrite plus_IZR; lra). rewrite E. split; [reflexivity|lra].
Qed.

Lemma interp_cell tet e (i j k : Z) fr fg fb r g b :
  0 <= fr <= 1 -> 0 <= fg <= 1 -> 0 <= fb <= 1 -> r = IZR i + fr -> g = IZR j + fg -> b = IZR k + fb ->
  interpV tet e (Zfloor r) (Zfloor g) (Zfloor b) (r - IZR (Zfloor r)) (g - IZR (Zfloor g)) (b - IZR (Zfloor b)) =
  interpV tet e i j k fr fg fb.
Proof.
  intros Hr Hg Hb Er Eg Eb.
  destruct (floor_cases r i fr Hr Er) as [[F1 F2]|[F0 [F1 F2]]]; rewrite F2, F1; clear F1 F2;
  destruct (floor_cases g j fg Hg Eg) as [[G1 G2]|[G0 [G1 G2]]]; rewrite G2, G1; clear G1 G2;
  destruct (floor_cases b k fb Hb Eb) as [[B1 B2]|[B0 [B1 B2]]]; rewrite B2, B1; clear B1 B2;
  clear Er Eg Eb; subst; destruct tet; cbn [interpV];
  rewrite ?tri_shift_r, ?tri_shift_g, ?tri_shift_b, ?tet_shift_r, ?tet_shift_g, ?tet_shift_b by lra; try reflexivity.
Qed.

(* ------------------------------------------------------------------ *)
(** * The table *)

Definition grid (a : array R) (n ch : nat) (i j k : Z) : R := entry3D a n (clampZ n i) (clampZ n j) (clampZ n k) ch.

Lemma lookup3D_R (a : array R) n i j k :
  wellFormed3D a n -> lookup3D a i j k = Ok [grid a n 0 i j k; grid a n 1 i j k; grid a n 2 i j k].
Proof.
  intros [[rest Hd] [Hn Hl]]. unfold lookup3D, grid, entry3D. rewrite Hd. cbv zeta.
  change (clampIndex i n) with (clampZ n i). change (clampIndex j n) with (clampZ n j). change (clampIndex k n) with (clampZ n k).
  pose proof (clampZ_lt n i Hn). pose proof (clampZ_lt n j Hn). pose proof (clampZ_lt n k Hn).
  generalize dependent (clampZ n i). generalize dependent (clampZ n j). generalize dependent (clampZ n k). intros z Hz y Hy x Hx.
  replace ((x * n * n + y * n + z) * 3)%nat with (((x * n + y) * n + z) * 3)%nat by lia.
  set (p := (((x * n + y) * n + z) * 3)%nat).
  assert (Hp : (p + 3 <= List.length (a_vals a))%nat) by (unfold p; rewrite Hl; nia).
  assert (G : forall c, (c < 3)%nat -> nth_error (slice (a_vals a) p (p + 3)) c = Some (nth (p + c) (a_vals a) n0)).
  { intros c Hc. rewrite slice_nth by lia. apply nth_error_nth'. lia. }
  assert (L : List.length (slice (a_vals a) p (p + 3)) = 3%nat) by (rewrite slice_length; lia).
  destruct (slice (a_vals a) p (p + 3)) as [|u [|v [|w [|? t]]]]; try discriminate.
  pose proof (G 0%nat ltac:(lia)) as G0. pose proof (G 1%nat ltac:(lia)) as G1. pose proof (G 2%nat ltac:(lia)) as G2.
  cbn in G0, G1, G2. injection G0 as ->. injection G1 as ->. injection G2 as ->. reflexivity.
Qed.

Lemma corners_R (a : array R) n r g b : wellFormed3D a n ->
  corners a r g b = Ok (map (fun p => [grid a n 0 (fst (fst p)) (snd (fst p)) (snd p); grid a n 1 (fst (fst p)) (snd (fst p)) (snd p);
                                       grid a n 2 (fst (fst p)) (snd (fst p)) (snd p)])
    [(r, g, b); (r, g, b + 1); (r, g + 1, b); (r, g + 1, b + 1); (r + 1, g, b); (r + 1, g, b + 1); (r + 1, g + 1, b); (r + 1, g + 1, b + 1)]%Z).
Proof. intro H. unfold corners. rewrite !(lookup3D_R a n) by assumption. reflexivity. Qed.

Definition clampR (x : R) : R := Rmin 1 (Rmax 0 x).
Lemma clampR_bounds x : 0 <= clampR x <= 1.
Proof. unfold clampR, Rmin, Rmax. repeat destruct (Rle_dec _ _); lra. Qed.
Lemma clamp_R x : clamp x = clampR x.
Proof. unfold clamp. rewrite pymin_R, pymax_R. reflexivity. Qed.

Lemma axis_R (a : array R) n px k p :
  wellFormed3D a n -> (k < 3)%nat -> nth_error px k = Some p ->
  axis a px k = Ok (Zfloor (clampR p * INR (n - 1)), clampR p * INR (n - 1) - IZR (Zfloor (clampR p * INR (n - 1)))).
Proof.
  intros [[rest Hd] [Hn _]] Hk Hp. unfold axis. apply getn_some in Hp. rewrite Hp. cbn [bind].
  assert (Ed : dim a k = Ok n) by (unfold dim; rewrite Hd; destruct k as [|[|[|k]]]; try lia; reflexivity).
  rewrite Ed. cbn [bind]. cbv zeta. rewrite clamp_R. realize. rewrite INR_pred by assumption.
  unfold ntrunc. realize.
  destruct (Rltb (clampR p * INR (n - 1)) 0) eqn:E; [|reflexivity]. apply Rltb_spec in E.
  pose proof (clampR_bounds p). pose proof (pos_INR (n - 1)). nra.
Qed.

Definition lookupFun (tet : bool) (a : array R) (n : nat) (r g b : R) (ch : nat) : R :=
  let u x := clampR x * INR (n - 1) in
  interpV tet (grid a n ch) (Zfloor (u r)) (Zfloor (u g)) (Zfloor (u b))
    (u r - IZR (Zfloor (u r))) (u g - IZR (Zfloor (u g))) (u b - IZR (Zfloor (u b))).

Lemma tri_R (a : array R) n r g b t : wellFormed3D a n ->
  lookup3DTrilinear a (r :: g :: b :: t) =
  Ok [lookupFun false a n r g b 0; lookupFun false a n r g b 1; lookupFun false a n r g b 2].
Proof.
  intro H. unfold lookup3DTrilinear.
  rewrite (axis_R a n _ 0 r H), (axis_R a n _ 1 g H), (axis_R a n _ 2 b H) by (reflexivity || lia). cbn [bind].
  rewrite (corners_R a n) by assumption. reflexivity.
Qed.

Lemma tet_R (a : array R) n r g b t : wellFormed3D a n ->
  lookup3DTetrahedral a (r :: g :: b :: t) =
  Ok [lookupFun true a n r g b 0; lookupFun true a n r g b 1; lookupFun true a n r g b 2].
Proof.
  intro H. unfold lookup3DTetrahedral.
  rewrite (axis_R a n _ 0 r H), (axis_R a n _ 1 g H), (axis_R a n _ 2 b H) by (reflexivity || lia). cbn [bind].
  rewrite (corners_R a n) by assumption. cbn [map fst snd bind].
  unfold lookupFun, interpV. cbv zeta.
  set (ir := Zfloor (clampR r * INR (n - 1))). set (ig := Zfloor (clampR g * INR (n - 1))). set (ib := Zfloor (clampR b * INR (n - 1))).
  set (fx := clampR r * INR (n - 1) - IZR ir). set (fy := clampR g * INR (n - 1) - IZR ig). set (fz := clampR b * INR (n - 1) - IZR ib).
  unfold tetra, tetra4, tetV. cbn [getn nth_error bind]. realize.
  destruct (Rltb fy fx); [destruct (Rltb fz fy); [|destruct (Rltb fz fx)]|destruct (Rltb fy fz); [|destruct (Rltb fx fz)]]; reflexivity.
Qed.

Lemma lut3d_lookups c h dIn a n tet (pos : nat -> R -> R) :
  isLUT3D h (kindOf tet) dIn a n ->
  (forall ch x, (ch < 3)%nat -> stage (indexMaps (h_elems h)) a dIn ch ch x = Ok (pos ch x)) ->
  actsPerColour c (Node h BLUT3D) (fun r g b =>
    let F := lookupFun tet a n (pos 0%nat r) (pos 1%nat g) (pos 2%nat b) in (F 0%nat, F 1%nat, F 2%nat)).
Proof.
  intros [Hi [[d Ho] [Hc [Ha Hw]]]] Hp st values Hst.
  cbn [nodeProcess]. rewrite lut3d_form by lia. unfold dgetE. rewrite Hi, Ho. cbn [bind]. rewrite Ha, Hc.
  apply pixelwise_colour; [assumption|]. intros px Hl. rewrite lut3dPixel_form by assumption.
  destruct (three_of px ltac:(lia)) as [x [y [z [t ->]]]].
  cbn [firstn mapMi skipn]. rewrite !Hp by lia. cbn [bind app]. cbv zeta.
  destruct tet; cbn [kindOf]; cbn [aval_eqb String.eqb Ascii.eqb Bool.eqb].
  - rewrite (tet_R a n) by assumption. cbn [bind set3]. reflexivity.
  - rewrite (tri_R a n) by assumption. cbn [bind set3]. reflexivity.
Qed.

Definition lut3dFun (tet : bool) (a : array R) (dIn : aval) (n : nat) (r g b : R) : R * R * R :=
  let F := lookupFun tet a n (r / fullScale dIn) (g / fullScale dIn) (b / fullScale dIn) in (F 0%nat, F 1%nat, F 2%nat).

Lemma lut3d_plain c h dIn a n tet :
  isLUT3D h (kindOf tet) dIn a n -> indexMaps (h_elems h) = [] ->
  actsPerColour c (Node h BLUT3D) (lut3dFun tet a dIn n).
Proof.
  intros H Hm. refine (lut3d_lookups c h dIn a n tet (fun _ x => x / fullScale dIn) H _).
  intros ch x _. rewrite Hm. unfold stage. rewrite normalize_R. reflexivity.
Qed.

Lemma cell_pos dIn n i f x : inCell dIn n i f x -> clampR (x / fullScale dIn) * INR (n - 1) = IZR (Z.of_nat i) + f.
Proof.
  intros [Hi [Hf ->]]. pose proof (fullScale_pos dIn). assert (Hp : 0 < INR (n - 1)) by (apply lt_0_INR; lia).
  unfold codeAt. rewrite plus_INR. cbn [INR].
  assert (E : (fullScale dIn * (INR i / INR (n - 1)) + f * (fullScale dIn * ((INR i + 1) / INR (n - 1)) - fullScale dIn * (INR i / INR (n - 1)))) / fullScale dIn
              = (INR i + f) / INR (n - 1)) by (field; split; lra).
  rewrite E. assert (0 <= (INR i + f) / INR (n - 1) <= 1).
  { pose proof (pos_INR i). assert (INR i + 1 <= INR (n - 1)) by (rewrite <- S_INR; apply le_INR; lia).
    assert (0 < / INR (n - 1)) by now apply Rinv_0_lt_compat.
    assert (INR (n - 1) * / INR (n - 1) = 1) by (field; lra). unfold Rdiv. split; nra. }
  unfold clampR. rewrite Rmax_right, Rmin_right by lra. rewrite <- INR_IZR_INZ. field. lra.
Qed.

Lemma lut3d_cell tet a dIn n i j k fr fg fb r g b ch :
  inCell dIn n i fr r -> inCell dIn n j fg g -> inCell dIn n k fb b -> (ch < 3)%nat ->
  part ch (lut3dFun tet a dIn n r g b) = interpV tet (grid a n ch) (Z.of_nat i) (Z.of_nat j) (Z.of_nat k) fr fg fb.
Proof.
  intros Hr Hg Hb Hc.
  assert (E : lookupFun tet a n (r / fullScale dIn) (g / fullScale dIn) (b / fullScale dIn) ch =
              interpV tet (grid a n ch) (Z.of_nat i) (Z.of_nat j) (Z.of_nat k) fr fg fb).
  { unfold lookupFun. apply interp_cell; try apply Hr; try apply Hg; try apply Hb.
    - exact (cell_pos _ _ _ _ _ Hr). - exact (cell_pos _ _ _ _ _ Hg). - exact (cell_pos _ _ _ _ _ Hb). }
  rewrite <- E. unfold lut3dFun. destruct ch as [|[|[|ch]]]; try lia; reflexivity.
Qed.

(* ------------------------------------------------------------------ *)
(** * Weights *)

(** Both interpolations take a weighted mean of the eight corners, with weights
    that depend on the fractions only, are not negative, and reproduce the
    fractions. *)
Lemma interp_weights tet fr fg fb : 0 <= fr <= 1 -> 0 <= fg <= 1 -> 0 <= fb <= 1 ->
  exists w0 w1 w2 w3 w4 w5 w6 w7,
    0 <= w0 /\ 0 <= w1 /\ 0 <= w2 /\ 0 <= w3 /\ 0 <= w4 /\ 0 <= w5 /\ 0 <= w6 /\ 0 <= w7 /\
    w0 + w1 + w2 + w3 + w4 + w5 + w6 + w7 = 1 /\
    w4 + w5 + w6 + w7 = fr /\ w2 + w3 + w6 + w7 = fg /\ w1 + w3 + w5 + w7 = fb /\
    forall e i j k, interpV tet e i j k fr fg fb =
      w0 * e i j k + w1 * e i j (k + 1)%Z + w2 * e i (j + 1)%Z k + w3 * e i (j + 1)%Z (k + 1)%Z
      + w4 * e (i + 1)%Z j k + w5 * e (i + 1)%Z j (k + 1)%Z + w6 * e (i + 1)%Z (j + 1)%Z k + w7 * e (i + 1)%Z (j + 1)%Z (k + 1)%Z.
Proof.
  intros Hr Hg Hb. destruct tet; cbn [interpV].
  - unfold tetV. cbv zeta. orders;
      [exists (1-fr),0,0,0,(fr-fg),0,(fg-fb),fb | exists (1-fr),0,0,0,(fr-fb),(fb-fg),0,fg | exists (1-fb),(fb-fr),0,0,0,(fr-fg),0,fg
      |exists (1-fb),(fb-fg),0,(fg-fr),0,0,0,fr | exists (1-fg),0,(fg-fb),(fb-fr),0,0,0,fr | exists (1-fg),0,(fg-fr),0,0,0,(fr-fb),fb];
      repeat (split; [lra|]); intros; ring.
  - exists ((1-fr)*(1-fg)*(1-fb)), ((1-fr)*(1-fg)*fb), ((1-fr)*fg*(1-fb)), ((1-fr)*fg*fb),
      (fr*(1-fg)*(1-fb)), (fr*(1-fg)*fb), (fr*fg*(1-fb)), (fr*fg*fb).
    repeat (split; [try ring; repeat apply Rmult_le_pos; lra|]). unfold triV. intros; ring.
Qed.

Lemma grid_nat a n ch i j k : (i < n)%nat -> (j < n)%nat -> (k < n)%nat ->
  grid a n ch (Z.of_nat i) (Z.of_nat j) (Z.of_nat k) = entry3D a n i j k ch.
Proof. intros. unfold grid. now rewrite !clampZ_in. Qed.

Lemma colour_parts c d : (forall ch, (ch < 3)%nat -> part ch c = part ch d) -> c = d.
Proof.
  destruct c as [[x y] z], d as [[x' y'] z']. intro H.
  pose proof (H 0%nat ltac:(lia)). pose proof (H 1%nat ltac:(lia)). pose proof (H 2%nat ltac:(lia)). cbn in *. congruence.
Qed.

Lemma cell_at dIn n i : (2 <= n)%nat -> (i < n)%nat ->
  exists i' f, inCell dIn n i' f (codeAt dIn n i) /\ (i' = i /\ f = 0 \/ S i' = i /\ f = 1).
Proof.
  intros Hn Hi. destruct (Nat.eq_dec (i + 1) n) as [E|E].
  - exists (i - 1)%nat, 1. split; [|right; split; [lia|reflexivity]]. split; [lia|]. split; [lra|]. replace (i - 1 + 1)%nat with i by lia. lra.
  - exists i, 0. split; [|left; auto]. split; [lia|]. split; lra.
Qed.

Theorem lut3d_entries c h dIn a n tet :
  isLUT3D h (kindOf tet) dIn a n -> indexMaps (h_elems h) = [] -> (2 <= n)%nat ->
  exists F, actsPerColour c (Node h BLUT3D) F /\
    forall i j k, (i < n)%nat -> (j < n)%nat -> (k < n)%nat ->
      F (codeAt dIn n i) (codeAt dIn n j) (codeAt dIn n k) = colour3D a n i j k.
Proof.
  intros H Hm Hn. exists (lut3dFun tet a dIn n). split; [now apply lut3d_plain|]. intros i j k Hi Hj Hk.
  apply colour_parts. intros ch Hc.
  replace (part ch (colour3D a n i j k)) with (grid a n ch (Z.of_nat i) (Z.of_nat j) (Z.of_nat k))
    by (rewrite grid_nat by assumption; destruct ch as [|[|[|ch]]]; try lia; reflexivity).
  destruct (cell_at dIn n i Hn Hi) as [i' [fr [Cr Er]]]. destruct (cell_at dIn n j Hn Hj) as [j' [fg [Cg Eg]]].
  destruct (cell_at dIn n k Hn Hk) as [k' [fb [Cb Eb]]].
  rewrite (lut3d_cell tet a dIn n i' j' k' fr fg fb _ _ _ ch Cr Cg Cb Hc).
  clear Cr Cg Cb.
  assert (U : forall e i j k, interpV tet e i j k 0 0 0 = e i j k).
  { intros. destruct tet; cbn [interpV]; [unfold tetV; cbv zeta; orders; try lra|unfold triV; ring]. }
  destruct Er as [[-> ->]|[<- ->]], Eg as [[-> ->]|[<- ->]], Eb as [[-> ->]|[<- ->]];
    rewrite ?Nat2Z.inj_succ; unfold Z.succ; rewrite <- U; destruct tet; cbn [interpV];
    rewrite ?tri_shift_r, ?tri_shift_g, ?tri_shift_b, ?tet_shift_r, ?tet_shift_g, ?tet_shift_b by lra; reflexivity.
Qed.

Lemma clampR_intoRange dIn x : clampR (intoRange dIn x / fullScale dIn) = clampR (x / fullScale dIn).
Proof.
  pose proof (fullScale_pos dIn) as H. assert (Hi : 0 < / fullScale dIn) by now apply Rinv_0_lt_compat.
  assert (E1 : fullScale dIn * / fullScale dIn = 1) by (field; lra).
  unfold intoRange, clampR, Rdiv.
  destruct (Rle_dec x 0).
  - rewrite (Rmin_right (fullScale dIn) x) by lra. rewrite (Rmax_left 0 x) by lra.
    rewrite (Rmax_left 0 (x * / fullScale dIn)) by nra. rewrite (Rmax_left 0 (0 * / fullScale dIn)) by lra. reflexivity.
  - destruct (Rle_dec x (fullScale dIn)).
    + rewrite (Rmin_right (fullScale dIn) x) by lra. rewrite (Rmax_right 0 x) by lra. reflexivity.
    + rewrite (Rmin_left (fullScale dIn) x) by lra. rewrite (Rmax_right 0 (fullScale dIn)) by lra. rewrite E1.
      rewrite (Rmax_right 0 1) by lra. rewrite (Rmax_right 0 (x * / fullScale dIn)) by nra.
      rewrite (Rmin_left 1 1) by lra. rewrite (Rmin_left 1 (x * / fullScale dIn)) by nra. reflexivity.
Qed.

Theorem lut3d_bounded c h dIn a n tet :
  isLUT3D h (kindOf tet) dIn a n -> indexMaps (h_elems h) = [] -> (2 <= n)%nat ->
  exists F, actsPerColour c (Node h BLUT3D) F /\
    (forall i j k fr fg fb r g b ch lo hi,
       inCell dIn n i fr r -> inCell dIn n j fg g -> inCell dIn n k fb b -> (ch < 3)%nat ->
       (forall up, lo <= corner a n i j k ch up <= hi) -> lo <= part ch (F r g b) <= hi) /\
    (forall r g b, F r g b = F (intoRange dIn r) (intoRange dIn g) (intoRange dIn b)).
Proof.
  intros H Hm Hn. exists (lut3dFun tet a dIn n). split; [now apply lut3d_plain|]. split.
  - intros i j k fr fg fb r g b ch lo hi Hr Hg Hb Hc Hbd.
    rewrite (lut3d_cell tet a dIn n i j k fr fg fb r g b ch Hr Hg Hb Hc).
    destruct (interp_weights tet fr fg fb (proj1 (proj2 Hr)) (proj1 (proj2 Hg)) (proj1 (proj2 Hb)))
      as [w0 [w1 [w2 [w3 [w4 [w5 [w6 [w7 [P0 [P1 [P2 [P3 [P4 [P5 [P6 [P7 [S [_ [_ [_ E]]]]]]]]]]]]]]]]]]]].
    rewrite E. clear E. destruct Hr as [Hi _], Hg as [Hj _], Hb as [Hk _].
    replace (Z.of_nat i + 1)%Z with (Z.of_nat (i + 1)) by lia. replace (Z.of_nat j + 1)%Z with (Z.of_nat (j + 1)) by lia.
    replace (Z.of_nat k + 1)%Z with (Z.of_nat (k + 1)) by lia. rewrite !grid_nat by lia.
    pose proof (Hbd []) as B0. pose proof (Hbd [2%nat]) as B1. pose proof (Hbd [1%nat]) as B2. pose proof (Hbd [1%nat;2%nat]) as B3.
    pose proof (Hbd [0%nat]) as B4. pose proof (Hbd [0%nat;2%nat]) as B5. pose proof (Hbd [0%nat;1%nat]) as B6. pose proof (Hbd [0%nat;1%nat;2%nat]) as B7.
    unfold corner in *. cbn [existsb Nat.eqb orb] in *. rewrite !Nat.add_0_r in *.
    assert (M : forall w x, 0 <= w -> lo <= x <= hi -> w * lo <= w * x <= w * hi)
      by (intros w x Hw [X1 X2]; split; apply Rmult_le_compat_l; assumption).
    apply (M w0) in B0; [|assumption]. apply (M w1) in B1; [|assumption]. apply (M w2) in B2; [|assumption].
    apply (M w3) in B3; [|assumption]. apply (M w4) in B4; [|assumption]. apply (M w5) in B5; [|assumption].
    apply (M w6) in B6; [|assumption]. apply (M w7) in B7; [|assumption].
    assert (lo = w0*lo+w1*lo+w2*lo+w3*lo+w4*lo+w5*lo+w6*lo+w7*lo) by (replace lo with (1 * lo) at 1 by ring; rewrite <- S; ring).
    assert (hi = w0*hi+w1*hi+w2*hi+w3*hi+w4*hi+w5*hi+w6*hi+w7*hi) by (replace hi with (1 * hi) at 1 by ring; rewrite <- S; ring).
    lra.
  - intros r g b. unfold lut3dFun, lookupFun. rewrite !clampR_intoRange. reflexivity.
Qed.

Theorem lut3d_affine c h dIn a n tet (p0 pr pg pb : nat -> R) :
  isLUT3D h (kindOf tet) dIn a n -> indexMaps (h_elems h) = [] -> (2 <= n)%nat ->
  (forall i j k ch, (i < n)%nat -> (j < n)%nat -> (k < n)%nat -> (ch < 3)%nat ->
     entry3D a n i j k ch = p0 ch + pr ch * codeAt dIn n i + pg ch * codeAt dIn n j + pb ch * codeAt dIn n k) ->
  exists F, actsPerColour c (Node h BLUT3D) F /\
    forall r g b ch, 0 <= r <= fullScale dIn -> 0 <= g <= fullScale dIn -> 0 <= b <= fullScale dIn -> (ch < 3)%nat ->
      part ch (F r g b) = p0 ch + pr ch * r + pg ch * g + pb ch * b.
Proof.
  intros H Hm Hn He. exists (lut3dFun tet a dIn n). split; [now apply lut3d_plain|].
  intros r g b ch Hr Hg Hb Hc.
  pose proof (fullScale_pos dIn) as Hfs. assert (Hp : 0 < INR (n - 1)) by (apply lt_0_INR; lia).
  assert (C : forall x, 0 <= x <= fullScale dIn -> exists i f, inCell dIn n i f x).
  { intros x [X0 X1]. destruct (find_cell n (x / fullScale dIn * INR (n - 1)) Hn) as [k [Hk Hbk]].
    { pose proof (code_le dIn n 0 x Hn X0) as G1. pose proof (code_le dIn n x _ Hn X1) as G2.
      replace (fullScale dIn / fullScale dIn * INR (n - 1)) with (INR (n - 1)) in G2 by (field; lra). unfold Rdiv in *. lra. }
    exists k, (x / fullScale dIn * INR (n - 1) - INR k). split; [assumption|]. rewrite plus_INR in Hbk. cbn [INR] in Hbk.
    split; [lra|]. unfold codeAt. rewrite plus_INR. cbn [INR]. field. split; lra. }
  destruct (C r Hr) as [i [fr Cr]]. destruct (C g Hg) as [j [fg Cg]]. destruct (C b Hb) as [k [fb Cb]].
  rewrite (lut3d_cell tet a dIn n i j k fr fg fb r g b ch Cr Cg Cb Hc).
  destruct (interp_weights tet fr fg fb (proj1 (proj2 Cr)) (proj1 (proj2 Cg)) (proj1 (proj2 Cb)))
    as [w0 [w1 [w2 [w3 [w4 [w5 [w6 [w7 [_ [_ [_ [_ [_ [_ [_ [_ [S [S1 [S2 [S3 E]]]]]]]]]]]]]]]]]]]].
  rewrite E. clear E. destruct Cr as [Hi [_ ->]], Cg as [Hj [_ ->]], Cb as [Hk [_ ->]].
  replace (Z.of_nat i + 1)%Z with (Z.of_nat (i + 1)) by lia. replace (Z.of_nat j + 1)%Z with (Z.of_nat (j + 1)) by lia.
  replace (Z.of_nat k + 1)%Z with (Z.of_nat (k + 1)) by lia. rewrite !grid_nat by lia. rewrite !He by lia.
  rewrite <- S1, <- S2, <- S3. replace w0 with (1 - w1 - w2 - w3 - w4 - w5 - w6 - w7) by lra. ring.
Qed.

(** Tetrahedral interpolation by closed tetrahedra. *)
Theorem lut3d_tetrahedra c h dIn a n :
  isLUT3D h "tetrahedral" dIn a n -> indexMaps (h_elems h) = [] -> (2 <= n)%nat ->
  exists F, actsPerColour c (Node h BLUT3D) F /\
    forall i j k (f : nat -> R) r g b ch s1 s2 s3,
      inCell dIn n i (f 0%nat) r -> inCell dIn n j (f 1%nat) g -> inCell dIn n k (f 2%nat) b -> (ch < 3)%nat ->
      Permutation [s1; s2; s3] [0; 1; 2]%nat -> f s3 <= f s2 <= f s1 ->
      part ch (F r g b) =
        (1 - f s1) * corner a n i j k ch [] + (f s1 - f s2) * corner a n i j k ch [s1]
        + (f s2 - f s3) * corner a n i j k ch [s1; s2] + f s3 * corner a n i j k ch [s1; s2; s3].
Proof.
  intros H Hm Hn. exists (lut3dFun true a dIn n). split; [now apply lut3d_plain|].
  intros i j k f r g b ch s1 s2 s3 Hr Hg Hb Hc Hp Hf.
  rewrite (lut3d_cell true a dIn n i j k _ _ _ r g b ch Hr Hg Hb Hc). cbn [interpV].
  destruct Hr as [Hi _], Hg as [Hj _], Hb as [Hk _]. unfold tetV. cbv zeta.
  replace (Z.of_nat i + 1)%Z with (Z.of_nat (i + 1)) by lia. replace (Z.of_nat j + 1)%Z with (Z.of_nat (j + 1)) by lia.
  replace (Z.of_nat k + 1)%Z with (Z.of_nat (k + 1)) by lia. rewrite !grid_nat by lia. unfold corner.
  assert (Hs : In (s1, s2, s3) [(0,1,2);(0,2,1);(1,0,2);(1,2,0);(2,0,1);(2,1,0)]%nat).
  { assert (I1 : In s1 [0;1;2]%nat) by (eapply Permutation_in; [exact Hp|cbn; auto]).
    assert (I2 : In s2 [0;1;2]%nat) by (eapply Permutation_in; [exact Hp|cbn; auto]).
    assert (I3 : In s3 [0;1;2]%nat) by (eapply Permutation_in; [exact Hp|cbn; auto]).
    assert (ND : NoDup [s1; s2; s3]) by (eapply Permutation_NoDup; [symmetry; exact Hp|repeat constructor; cbn; intuition lia]).
    inversion ND as [|? ? N1 ND2]; subst. inversion ND2 as [|? ? N2 _]; subst. cbn in *.
    destruct I1 as [<-|[<-|[<-|[]]]], I2 as [<-|[<-|[<-|[]]]], I3 as [<-|[<-|[<-|[]]]]; try (exfalso; tauto); tauto. }
  cbn in Hs.
  destruct Hs as [E|[E|[E|[E|[E|[E|[]]]]]]]; injection E as <- <- <-; cbn [existsb Nat.eqb orb]; rewrite !Nat.add_0_r;
    set (x := f 0%nat) in *; set (y := f 1%nat) in *; set (z := f 2%nat) in *; clearbody x y z; orders; ties; tie x y; tie y z; tie x z; ring.
Qed.
