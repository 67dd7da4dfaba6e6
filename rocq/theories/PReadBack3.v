(** 3D LUT files written from a list and read back: values at the lattice points. *)
From Coq Require Import Reals Lra Lia ZArith List String Psatz Arith Permutation.
From Flocq Require Import Core BinarySingleNaN.
From Verif Require Import MConvert SpecTools SpecPrelut SpecFiles SpecReadBack PBase PFacts PIeee PIeeeArith PLut1D PLut3D PSlope3D PRound PCloseLut PClose3D
  PLattice PGrid PConvert PConvertIeee PLutIeee PTextIeee PReadBack.
Import ListNotations.
Local Open Scope string_scope.
Local Open Scope list_scope.
Local Open Scope R_scope.

Lemma acts_unique {T} {N : Num T} c (n : node T) F F' x y z : actsPerColour c n F -> actsPerColour c n F' -> F x y z = F' x y z.
Proof.
  intros A A'. pose proof (A 3%nat [x; y; z] ltac:(lia)) as O. rewrite (A' 3%nat [x; y; z] ltac:(lia)) in O. apply Ok_inj in O.
  unfold perColour, indexed in O. cbn in O. destruct (F x y z) as [[r g] b]. destruct (F' x y z) as [[r' g'] b']. now injection O as -> -> ->.
Qed.

(** The table's slope in exact arithmetic. *)
Lemma cube_slope tet (a : array R) n ch D r g b r' g' b' : (2 <= n)%nat -> (ch < 3)%nat -> smooth n D (fun i j k => entry3D a n i j k ch) ->
  0 <= r <= 1 -> 0 <= g <= 1 -> 0 <= b <= 1 -> 0 <= r' <= 1 -> 0 <= g' <= 1 -> 0 <= b' <= 1 ->
  Rabs (component ch (lut3dFun tet a (AStr "16f") n r' g' b') - component ch (lut3dFun tet a (AStr "16f") n r g b)) <=
    INR (n - 1) * D * (Rabs (r' - r) + Rabs (g' - g) + Rabs (b' - b)).
Proof.
  intros Hn Hch HD Hr Hg Hb Hr' Hg' Hb'. set (E := grid a n ch).
  assert (Eq : forall x y z, 0 <= x <= 1 -> 0 <= y <= 1 -> 0 <= z <= 1 ->
     component ch (lut3dFun tet a (AStr "16f") n x y z) = at3 tet E (x * INR (n - 1)) (y * INR (n - 1)) (z * INR (n - 1))).
  { intros x y z Hx Hy Hz.
    assert (C : forall t, 0 <= t <= 1 -> clampR (t / fullScale (AStr "16f")) = t).
    { intros t Ht. change (fullScale (AStr "16f")) with 1. unfold clampR, Rmin, Rmax. replace (t / 1) with t by field. repeat destruct (Rle_dec _ _); lra. }
    rewrite <- (C x), <- (C y), <- (C z) at 2 by assumption. destruct ch as [|[|[|ch]]]; try lia; reflexivity. }
  rewrite !Eq by assumption.
  assert (D0 : 0 <= D) by (destruct (HD 0%nat 0%nat 0%nat) as [A _]; [lia|lia|lia|]; eapply Rle_trans; [apply Rabs_pos|exact A]).
  assert (Same : forall x, Rabs (x - x) <= D) by (intro x; rewrite Rminus_diag_eq, Rabs_R0 by reflexivity; exact D0).
  assert (Hcl : forall z, (clampZ n z < n)%nat) by (intro z; apply clampZ_lt; lia).
  assert (S1 : steps D E).
  { intros i j k. unfold E, grid. destruct (clampZ_next n i ltac:(lia)) as [Q|[Q1 Q2]]; [rewrite Q; apply Same|rewrite Q1]. now apply HD. }
  assert (S2 : steps D (swapRG E)).
  { intros i j k. unfold swapRG, E, grid. destruct (clampZ_next n i ltac:(lia)) as [Q|[Q1 Q2]]; [rewrite Q; apply Same|rewrite Q1]. now apply HD. }
  assert (S3 : steps D (swapRB E)).
  { intros i j k. unfold swapRB, E, grid. destruct (clampZ_next n i ltac:(lia)) as [Q|[Q1 Q2]]; [rewrite Q; apply Same|rewrite Q1]. now apply HD. }
  eapply Rle_trans; [apply (slope3 tet E D); assumption|]. rewrite <- !Rmult_minus_distr_r, !Rabs_mult, (Rabs_pos_eq (INR (n - 1))) by apply pos_INR.
  right. ring.
Qed.

Section Cube.
  Variable L : libm.
  #[local] Hint Extern 0 (Num fl) => exact (ieeeNum L) : typeclass_instances.

  Lemma cube_near_any c (h : header fl) (a : array fl) tet n : isCube h (kindOf tet) (AStr "16f") a n -> (2 <= n)%nat -> (Z.of_nat n <= 2 ^ 53)%Z ->
    exists F, actsPerColour c (Node h BLUT3D) F /\
      forall ch M D, (ch < 3)%nat ->
        let e i j k := nth (((i * n + j) * n + k) * 3 + ch) (a_vals a) (B754_zero false) in
        (forall i j k, (i < n)%nat -> (j < n)%nat -> (k < n)%nat -> is_finite (e i j k) = true /\ Rabs (B2R (e i j k)) <= M) ->
        M <= bpow radix2 125 -> smooth n D (fun i j k => B2R (e i j k)) ->
        forall r g b xr xg xb, (r < n)%nat -> (g < n)%nat -> (b < n)%nat -> isGridPoint n r xr -> isGridPoint n g xg -> isGridPoint n b xb ->
          within (56 / 10) (M + INR (n - 1) * D) (B2R (e r g b)) (component ch (F (nf32 xr) (nf32 xg) (nf32 xb))).
  Proof.
    intros Hc Hn Hm. destruct (proj1 (proj2 (proj2 (proj2 (proj2 Hc))))) as (_ & _ & Lv). set (vals := a_vals a) in *.
    set (a' := @floatTable R [n; n; n; 3%nat] (map B2R vals)).
    set (h' := @SpecLut.halfHeader R "" (interpolationAttr (kindOf tet)) [] [EArray a']).
    assert (Hw' : wellFormed3D a' n) by (split; [eexists; reflexivity|]; split; [lia|]; cbn [a' floatTable a_vals]; rewrite map_length; exact Lv).
    assert (Hc' : isCube h' (kindOf tet) (AStr "16f") a' n).
    { split; [reflexivity|]. split; [eexists; reflexivity|]. split; [destruct tet; reflexivity|]. split; [reflexivity|]. split; [exact Hw'|reflexivity]. }
    assert (Hl' : isLUT3D h' (kindOf tet) (AStr "16f") a' n).
    { split; [reflexivity|]. split; [eexists; reflexivity|]. split; [destruct tet; reflexivity|]. split; [reflexivity|exact Hw']. }
    destruct (lut3d_close L c h h' tet (AStr "16f") a a' n Hc Hc' eq_refl Hn Hm) as (F & F' & Ac & Ac' & Cl).
    destruct (lut3d_entries c h' (AStr "16f") a' n tet Hl' eq_refl Hn) as (F2 & Ac2 & Ent).
    pose proof (lut3d_plain c h' (AStr "16f") a' n tet Hl' eq_refl) as Ac3.
    exists F. split; [exact Ac|]. intros ch M D Hch e He HM HD r g b xr xg xb Hr Hg Hb Gr Gg Gb.
    destruct (f32_grid L n r xr Hn Hr Gr) as (Fr & Br & Er). destruct (f32_grid L n g xg Hn Hg Gg) as (Fg & Bg & Eg). destruct (f32_grid L n b xb Hn Hb Gb) as (Fb & Bb & Eb).
    assert (B126 : forall x, 0 <= x <= 1 -> Rabs x <= bpow radix2 126).
    { intros x Hx. rewrite Rabs_pos_eq by lra. apply Rle_trans with 1; [lra|]. change 1 with (bpow radix2 0). apply bpow_le. lia. }
    pose proof (Cl ch M D Hch He HM HD _ _ _ Fr Fg Fb (B126 _ Br) (B126 _ Bg) (B126 _ Bb)) as W.
    eapply within_more; [exact W|]. rewrite (acts_unique c _ F' _ _ _ _ Ac' Ac3).
    assert (HD' : smooth n D (fun i j k => entry3D a' n i j k ch)).
    { intros i j k Hi Hj Hk. unfold entry3D. cbn [a' floatTable a_vals]. change (@n0 R realNum) with (B2R (B754_zero false : fl)). rewrite !map_nth. now apply HD. }
    assert (Eb2 : B2R (e r g b) = component ch (lut3dFun tet a' (AStr "16f") n (INR r / INR (n - 1)) (INR g / INR (n - 1)) (INR b / INR (n - 1)))).
    { assert (Cd : forall i, codeAt (AStr "16f") n i = INR i / INR (n - 1)) by (intro i; unfold codeAt; change (fullScale (AStr "16f")) with 1; ring).
      rewrite <- !Cd. rewrite (acts_unique c _ _ _ _ _ _ Ac3 Ac2), Ent by assumption.
      transitivity (entry3D a' n r g b ch); [|destruct ch as [|[|[|ch]]]; try lia; reflexivity].
      unfold entry3D. cbn [a' floatTable a_vals]. change (@n0 R realNum) with (B2R (B754_zero false : fl)). rewrite map_nth. reflexivity. }
    match goal with |- Rabs (_ - ?z) + _ <= _ => change z with (B2R (e r g b)) end. rewrite Eb2.
    pose proof (cube_slope tet a' n ch D _ _ _ _ _ _ Hn Hch HD' (frac01 n r Hn Hr) (frac01 n g Hn Hg) (frac01 n b Hn Hb) Br Bg Bb) as Sl.
    assert (D0 : 0 <= D) by (destruct (HD 0%nat 0%nat 0%nat) as [A _]; [lia|lia|lia|]; eapply Rle_trans; [apply Rabs_pos|exact A]).
    assert (M0 : 0 <= M) by (eapply Rle_trans; [apply Rabs_pos|exact (proj2 (He r g b Hr Hg Hb))]).
    assert (N0 : 0 <= INR (n - 1) * D) by (apply Rmult_le_pos; [apply pos_INR|exact D0]).
    assert (e0 := bpow_gt_0 radix2 (-23)). assert (t0 := bpow_gt_0 radix2 (-148)).
    set (e23 := bpow radix2 (-23)) in *. set (t := bpow radix2 (-148)) in *. set (S := INR (n - 1) * D) in *.
    assert (Sl' : S * (Rabs (B2R (nf32 xr) - INR r / INR (n - 1)) + Rabs (B2R (nf32 xg) - INR g / INR (n - 1)) + Rabs (B2R (nf32 xb) - INR b / INR (n - 1))) <= S * (153 / 100 * e23)) by (apply Rmult_le_compat_l; lra).
    assert (0 <= e23 * M) by (apply Rmult_le_pos; lra). assert (0 <= e23 * S) by (apply Rmult_le_pos; lra).
    eapply Rle_trans; [apply Rplus_le_compat_r; eapply Rle_trans; [exact Sl|exact Sl']|]. lra.
  Qed.

  Lemma cube_near c id tet n (vals : list fl) : (2 <= n)%nat -> (Z.of_nat n <= 2 ^ 53)%Z -> List.length vals = (n * n * n * 3)%nat ->
    let node := lut3dNode id (kindOf tet) n n n vals in
    notBypassed node = true /\
    exists F, actsPerColour c node F /\
      forall ch M D, (ch < 3)%nat ->
        let e i j k := nth (((i * n + j) * n + k) * 3 + ch) vals (B754_zero false) in
        (forall i j k, (i < n)%nat -> (j < n)%nat -> (k < n)%nat -> is_finite (e i j k) = true /\ Rabs (B2R (e i j k)) <= M) ->
        M <= bpow radix2 125 -> smooth n D (fun i j k => B2R (e i j k)) ->
        forall r g b xr xg xb, (r < n)%nat -> (g < n)%nat -> (b < n)%nat -> isGridPoint n r xr -> isGridPoint n g xg -> isGridPoint n b xb ->
          within (56 / 10) (M + INR (n - 1) * D) (B2R (e r g b)) (component ch (F (nf32 xr) (nf32 xg) (nf32 xb))).
  Proof.
    intros Hn Hm Lv node. split; [destruct tet; reflexivity|].
    set (a := floatTable [n; n; n; 3%nat] vals). set (h := SpecLut.halfHeader id (interpolationAttr (kindOf tet)) [] [EArray a]).
    assert (Hw : wellFormed3D a n) by (split; [eexists; reflexivity|]; split; [lia|exact Lv]).
    assert (Hc : isCube h (kindOf tet) (AStr "16f") a n).
    { split; [reflexivity|]. split; [eexists; reflexivity|]. split; [destruct tet; reflexivity|]. split; [reflexivity|]. split; [exact Hw|reflexivity]. }
    exact (cube_near_any c h a tet n Hc Hn Hm).
  Qed.

  Lemma unit_lattice c (l : plist fl) n colour : (2 <= n)%nat -> (Z.of_nat n <= 2 ^ 53)%Z ->
    (forall r g b xr xg xb, (r < n)%nat -> (g < n)%nat -> (b < n)%nat -> isGridPoint n r xr -> isGridPoint n g xg -> isGridPoint n b xb ->
       colourThrough c l [xr; xg; xb] = Ok (colour r g b)) ->
    exists s, sample3D c l n n n n0 n1 = Ok s /\ forall r g b, (r < n)%nat -> (g < n)%nat -> (b < n)%nat -> cellOf s r g b = colour r g b.
  Proof.
    intros Hn Hm Hc. exists (latticeFrom n n n colour).
    assert (Nth : forall A (f : nat -> A) k i d, (i < k)%nat -> nth i (map f (seq 0 k)) d = f i).
    { intros A f k i d Hi. rewrite (nth_indep _ d (f 0%nat)) by (now rewrite map_length, seq_length). now rewrite map_nth, seq_nth. }
    assert (Cell : forall r g b, (r < n)%nat -> (g < n)%nat -> (b < n)%nat -> cellOf (latticeFrom n n n colour) r g b = colour r g b).
    { intros r g b Hr Hg Hb. unfold cellOf, latticeFrom. now rewrite !Nth. }
    split; [|exact Cell]. unfold sample3D. match goal with |- fillLattice n n n ?f = _ => set (F := f) end. rewrite (lattice_loop F), (nested_iff n n n F).
    split.
    - unfold hasShape, latticeFrom. rewrite map_length, seq_length. split; [reflexivity|]. intros r Hr. rewrite Nth by exact Hr. rewrite map_length, seq_length. split; [reflexivity|].
      intros g Hg. rewrite Nth by exact Hg. now rewrite map_length, seq_length.
    - intros r g b Hr Hg Hb. rewrite Cell by assumption. unfold F.
      rewrite (sample_point L n r _ Hn Hr Hm (grid_point L n r Hn Hr Hm)), (sample_point L n g _ Hn Hg Hm (grid_point L n g Hn Hg Hm)), (sample_point L n b _ Hn Hb Hm (grid_point L n b Hn Hb Hm)).
      cbn [bind]. apply Hc; try assumption; now apply grid_point.
  Qed.

  Lemma kept_cube (str : fl -> string) kept n M D (colour : nat -> nat -> nat -> list fl) ch : accurateText str kept -> tameCube n M D colour -> (ch < 3)%nat -> M <= bpow radix2 124 ->
    let e i j k := nth ch (colour i j k) (B754_zero false) in let s := bpow radix2 (-24) * M + bpow radix2 (-1074) in
    (forall i j k, (i < n)%nat -> (j < n)%nat -> (k < n)%nat ->
       is_finite (kept (e i j k)) = true /\ Rabs (B2R (kept (e i j k)) - B2R (e i j k)) <= s /\ Rabs (B2R (kept (e i j k))) <= M + s) /\
    smooth n (D + 2 * s) (fun i j k => B2R (kept (e i j k))).
  Proof.
    intros A T Hch HM e s. destruct (T ch Hch) as [T1' T2'].
    assert (T1 : forall i j k, (i < n)%nat -> (j < n)%nat -> (k < n)%nat -> is_finite (e i j k) = true /\ Rabs (B2R (e i j k)) <= M) by exact T1'.
    assert (T2 : smooth n D (fun i j k => B2R (e i j k))) by exact T2'. clear T1' T2'. clearbody e.
    assert (K : forall i j k, (i < n)%nat -> (j < n)%nat -> (k < n)%nat -> is_finite (kept (e i j k)) = true /\ Rabs (B2R (kept (e i j k)) - B2R (e i j k)) <= s).
    { intros i j k Hi Hj Hk. destruct (T1 i j k Hi Hj Hk) as [F B].
      assert (G : Rabs (B2R (e i j k)) <= bpow radix2 125) by (apply Rle_trans with (1 := B); apply Rle_trans with (1 := HM); apply bpow_le; lia).
      destruct (proj2 (A (e i j k)) F G) as [F' E]. split; [exact F'|]. apply Rle_trans with (1 := E). unfold s. apply Rplus_le_compat_r.
      apply Rmult_le_compat_l; [apply bpow_ge_0|exact B]. }
    split.
    - intros i j k Hi Hj Hk. destruct (K i j k Hi Hj Hk) as [F E]. split; [exact F|]. split; [exact E|].
      replace (B2R (kept (e i j k))) with ((B2R (kept (e i j k)) - B2R (e i j k)) + B2R (e i j k)) by ring.
      eapply Rle_trans; [apply Rabs_triang|]. pose proof (proj2 (T1 i j k Hi Hj Hk)). lra.
    - assert (Two : forall x y : fl, Rabs (B2R (kept x) - B2R x) <= s -> Rabs (B2R (kept y) - B2R y) <= s -> Rabs (B2R x - B2R y) <= D -> Rabs (B2R (kept x) - B2R (kept y)) <= D + 2 * s).
      { intros x y E E' B. apply Rabs_le_inv in E, E', B. apply Rabs_le. lra. }
      intros i j k Hi Hj Hk. destruct (T2 i j k Hi Hj Hk) as (B1 & B2 & B3).
      split; [|split]; (apply Two; [apply K; lia|apply K; lia|assumption]).
  Qed.

  Theorem spi3d_grid str io compat kept formats c (l : plist fl) path a ra fs n colour tet :
    accurateText str kept -> Permutation formats (allFormats str io compat) -> extensionOf path = "spi3d" -> wa_style a = "3D" ->
    (ra_interpolation ra = kindOf tet \/ (ra_interpolation ra = "linear" /\ tet = false)) ->
    wa_n3d a = n -> wa_inputMin a = n0 -> wa_inputMax a = n1 -> (2 <= n)%nat -> (Z.of_nat n <= 65536)%Z ->
    (forall r g b xr xg xb, (r < n)%nat -> (g < n)%nat -> (b < n)%nat -> isGridPoint n r xr -> isGridPoint n g xg -> isGridPoint n b xb ->
       colourThrough c l [xr; xg; xb] = Ok (colour r g b)) ->
    exists t l', let fs' := putFile fs path t in
      writeWith formats c l path a fs = (Ok LNone, fs') /\ readWith formats path ra false fs' = (Ok (LList l'), fs') /\
      forall c' M D, tameCube n M D colour -> M <= bpow radix2 124 ->
        forall r g b xr xg xb, (r < n)%nat -> (g < n)%nat -> (b < n)%nat -> isGridPoint n r xr -> isGridPoint n g xg -> isGridPoint n b xb ->
          exists ys, colourThrough c' l' [xr; xg; xb] = Ok ys /\ List.length ys = 3%nat /\
            forall ch, (ch < 3)%nat ->
              within 7 (M + INR (n - 1) * D) (B2R (nth ch (colour r g b) (B754_zero false))) (nth ch ys (B754_zero false)).
  Proof.
    intros A P E S Ki En Elo Ehi Hn Hm Hc.
    destruct (unit_lattice c l n colour Hn ltac:(lia) Hc) as (s & Es & Hs).
    assert (L3 : forall r g b, (r < n)%nat -> (g < n)%nat -> (b < n)%nat -> List.length (colour r g b) = 3%nat).
    { intros r g b Hr Hg Hb. pose proof (Hc r g b _ _ _ Hr Hg Hb (grid_point L n r Hn Hr ltac:(lia)) (grid_point L n g Hn Hg ltac:(lia)) (grid_point L n b Hn Hb ltac:(lia))) as Q.
      apply PSampling.runList_length in Q. exact Q. }
    destruct (spi3d_trip_ieee L str io compat kept formats c l path a ra false fs s P E S) as (t & vals & W & R & Tb).
    { now rewrite En, Elo, Ehi. }
    { intros r g b _ _ _. apply Forall_forall. intros v _. apply A. }
    cbv zeta in R. rewrite En in R, Tb.
    assert (Kd : (if String.eqb (ra_interpolation ra) "linear" then "trilinear" else ra_interpolation ra) = kindOf tet).
    { destruct Ki as [->|[-> ->]]; [destruct tet; reflexivity|reflexivity]. }
    rewrite Kd in R. cbn [wrapNodes] in R.
    exists t. eexists. intro fs'. split; [exact W|]. split; [exact R|].
    intros c' M D T HM r g b xr xg xb Hr Hg Hb Gr Gg Gb. destruct Tb as [Lv Tb].
    destruct (cube_near c' "lut3d" tet n vals Hn ltac:(lia) Lv) as (Nb & F & Ac & Cl).
    rewrite (one_node L c' _ _ _ _ F _ _ _ Nb Ac).
    assert (Ent : forall i j k ch, (i < n)%nat -> (j < n)%nat -> (k < n)%nat -> (ch < 3)%nat ->
      nth (((i * n + j) * n + k) * 3 + ch) vals (B754_zero false) = kept (nth ch (colour i j k) (B754_zero false))).
    { intros i j k ch Hi Hj Hk Hch. pose proof (Tb i j k Hi Hj Hk) as Q. rewrite Hs in Q by assumption.
      rewrite <- (map_nth kept), (nth_indep (map kept _) _ (B754_zero false)) by (rewrite map_length, L3 by assumption; exact Hch). rewrite <- Q. unfold slice.
      symmetry. rewrite nth_slice by lia. reflexivity. }
    destruct (F (nf32 xr) (nf32 xg) (nf32 xb)) as [[y0 y1] y2] eqn:EF.
    eexists. split; [reflexivity|]. split; [reflexivity|]. intros ch Hch.
    destruct (kept_cube str kept n M D colour ch A T Hch HM) as [K1 K2].
    assert (M0 : 0 <= M) by (eapply Rle_trans; [apply Rabs_pos|exact (proj2 (proj1 (T ch Hch) r g b Hr Hg Hb))]).
    assert (D0 : 0 <= D) by (eapply Rle_trans; [apply Rabs_pos|apply (proj2 (T ch Hch) 0%nat 0%nat 0%nat); lia]).
    pose proof (Cl ch (M + (bpow radix2 (-24) * M + bpow radix2 (-1074))) (D + 2 * (bpow radix2 (-24) * M + bpow radix2 (-1074))) Hch) as C. cbv zeta in C.
    assert (C' : within (56 / 10) (M + (bpow radix2 (-24) * M + bpow radix2 (-1074)) + INR (n - 1) * (D + 2 * (bpow radix2 (-24) * M + bpow radix2 (-1074))))
                   (B2R (kept (nth ch (colour r g b) (B754_zero false)))) (component ch (F (nf32 xr) (nf32 xg) (nf32 xb)))).
    { rewrite <- Ent by assumption. apply C; try assumption.
      - intros i j k Hi Hj Hk. rewrite Ent by assumption. destruct (K1 i j k Hi Hj Hk) as (Fi & _ & B). split; assumption.
      - now apply size_bound.
      - intros i j k Hi Hj Hk. rewrite !Ent by lia. now apply K2. }
    rewrite EF in C'.
    assert (Ey : nth ch [y0; y1; y2] (B754_zero false) = component ch (y0, y1, y2)) by (destruct ch as [|[|[|ch]]]; try reflexivity; lia).
    match goal with |- within _ _ _ ?z => change z with (nth ch [y0; y1; y2] (B754_zero false)) end.
    rewrite Ey. eapply within_more; [exact C'|]. destruct (K1 r g b Hr Hg Hb) as (_ & B & _).
    pose proof (text_allowance (56 / 10) M D (Z.of_nat n) Hm M0 D0) as Q. rewrite <- minus_IZR, INR_pred in Q by lia.
    assert (N1 : 1 <= INR (n - 1)) by (change 1 with (INR 1); apply le_INR; lia). specialize (Q N1 ltac:(lra)). cbv zeta in Q.
    eapply Rle_trans; [apply Rplus_le_compat_r; exact B|]. apply Rle_trans with (1 := Q). apply Rmult_le_compat_r; [|lra].
    assert (0 <= INR (n - 1) * D) by (apply Rmult_le_pos; lra).
    apply Rplus_le_le_0_compat; [apply Rmult_le_pos; [apply bpow_ge_0|lra]|apply bpow_ge_0].
  Qed.
End Cube.
