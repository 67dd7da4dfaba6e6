(** LUT3D with different numbers of entries per side. *)
From Coq Require Import Lra.
From Flocq Require Import Core.
From Verif Require Export PLut3DMore.
Local Open Scope R_scope.

Lemma mix_0 (v1 v2 e : list R) : mix v1 v2 0 = Ok e -> e = v1.
Proof.
  revert v2 e. induction v1 as [|x t IH]; intros v2 e H; cbn [mix] in H; [now apply Ok_inj in H|].
  destruct v2 as [|y u]; [discriminate|]. apply bind_ok in H. destruct H as [r [Hr H]]. apply IH in Hr. subst r.
  apply Ok_inj in H. subst e. f_equal. realize. lra.
Qed.

Lemma axis_lattice (a : array R) dIn d rest pre px k i :
  a_dims a = pre ++ d :: rest -> List.length pre = k -> (2 <= d)%nat -> (i < d)%nat ->
  nth_error px k = Some (codeAt dIn d i / fullScale dIn) -> axis a px k = Ok (Z.of_nat i, 0).
Proof.
  intros Hd Hk Hn Hi Hp. unfold axis. apply getn_some in Hp. rewrite Hp. cbn [bind].
  assert (Ed : dim a k = Ok d).
  { unfold dim. apply getn_some. rewrite Hd, nth_error_app2 by lia. rewrite Hk, Nat.sub_diag. reflexivity. }
  rewrite Ed. cbn [bind]. cbv zeta. rewrite clamp_R. realize. rewrite INR_pred by lia.
  assert (Hfs := fullScale_pos dIn). assert (Hpos : 0 < INR (d - 1)) by (apply lt_0_INR; lia).
  assert (E : clampR (codeAt dIn d i / fullScale dIn) * INR (d - 1) = IZR (Z.of_nat i)).
  { unfold codeAt. replace (fullScale dIn * (INR i / INR (d - 1)) / fullScale dIn) with (INR i / INR (d - 1)) by (field; split; lra).
    assert (0 <= INR i / INR (d - 1) <= 1).
    { pose proof (pos_INR i). assert (INR i <= INR (d - 1)) by (apply le_INR; lia).
      assert (0 < / INR (d - 1)) by now apply Rinv_0_lt_compat.
      assert (INR (d - 1) * / INR (d - 1) = 1) by (field; lra). unfold Rdiv. split; nra. }
    unfold clampR. rewrite Rmax_right, Rmin_right by lra. rewrite <- INR_IZR_INZ. field. lra. }
  rewrite E. unfold ntrunc. realize.
  destruct (Rltb (IZR (Z.of_nat i)) 0) eqn:E0; [apply Rltb_spec in E0; apply lt_IZR in E0; lia|].
  realize. rewrite Zfloor_IZR. f_equal. f_equal. lra.
Qed.

Lemma tetra_000 k c0 c1 c2 c3 c4 c5 c6 c7 (x : R) :
  tetra k 0 0 0 c0 c1 c2 c3 c4 c5 c6 c7 = Ok x -> nth_error c0 k = Some x.
Proof.
  unfold tetra, tetra4. realize. destruct (Rltb 0 0) eqn:E; [apply Rltb_spec in E; lra|]. clear E. intro H.
  apply bind_ok in H. destruct H as [x0 [H0 H]]. apply bind_ok in H. destruct H as [x1 [H1 H]].
  apply bind_ok in H. destruct H as [x2 [H2 H]]. apply bind_ok in H. destruct H as [x3 [H3 H]].
  apply Ok_inj in H. apply getn_some in H0. rewrite H0. f_equal. lra.
Qed.

(** At a lattice point the node fails or returns the colour at this address. *)
Lemma stride_reads c tet dIn dOut id name d0 d1 d2 vals i j k out :
  (2 <= d0)%nat -> (2 <= d1)%nat -> (2 <= d2)%nat -> List.length vals = (d0 * d1 * d2 * 3)%nat ->
  (i < d0)%nat -> (j < d1)%nat -> (k < d2)%nat ->
  outcome (nodeProcess c (node3D (kindOf tet) dIn dOut id name d0 d1 d2 vals)
             [codeAt dIn d0 i; codeAt dIn d1 j; codeAt dIn d2 k] 3) = Ok out ->
  (i * d0 * d1 + j * d1 + k < d0 * d1 * d2)%nat /\
  out = slice vals ((i * d0 * d1 + j * d1 + k) * 3) ((i * d0 * d1 + j * d1 + k) * 3 + 3).
Proof.
  intros H0 H1 H2 Hl Hi Hj Hk H.
  unfold outcome in H. destruct (nodeProcess _ _ _ _) as [o|] eqn:Eo; [|discriminate]. apply Ok_inj in H. subst out.
  unfold node3D, newLUT3D, setArray3D, addElement in Eo.
  assert (Eopt : optAttr (newHeader (T := R) dIn dOut id name) "interpolation" (AStr (kindOf tet)) =
                 hSetAttr (newHeader dIn dOut id name) "interpolation" (AStr (kindOf tet))) by (destruct tet; reflexivity).
  rewrite Eopt in Eo. cbn [nodeProcess] in Eo. rewrite lut3d_form in Eo by lia.
  cbn [hAddElem hSetAttr newHeader h_attrs h_elems dset dgetE dget String.eqb Ascii.eqb Bool.eqb bind lastArray app indexMaps] in Eo.
  unfold pixelwise in Eo. apply bind_ok in Eo. destruct Eo as [outs [Ho E]]. apply Ok_inj in E. subst o. cbn [po_out].
  change (pixels 3 [codeAt dIn d0 i; codeAt dIn d1 j; codeAt dIn d2 k]) with [[codeAt dIn d0 i; codeAt dIn d1 j; codeAt dIn d2 k]] in Ho.
  cbn [mapM] in Ho. apply bind_ok in Ho. destruct Ho as [px [Hpx Ho]]. apply Ok_inj in Ho. subst outs.
  change (List.length (leftover 3 [codeAt dIn d0 i; codeAt dIn d1 j; codeAt dIn d2 k])) with 0%nat. cbn [concat repeat]. rewrite !app_nil_r.
  rewrite lut3dPixel_form in Hpx by reflexivity. cbn [firstn mapMi skipn stage] in Hpx. rewrite !normalize_R in Hpx. cbn [bind app] in Hpx. cbv zeta in Hpx.
  repeat match type of Hpx with context [nf32 ?x] => change (nf32 x) with x in Hpx end.
  set (ps := [codeAt dIn d0 i / fullScale dIn; codeAt dIn d1 j / fullScale dIn; codeAt dIn d2 k / fullScale dIn]) in *.
  match type of Hpx with context [lookup3DTrilinear ?arr ps] => set (a := arr) in Hpx end.
  assert (X0 : axis a ps 0 = Ok (Z.of_nat i, 0)) by (apply (axis_lattice a dIn d0 [d1; d2; 3%nat] [] ps 0 i); auto).
  assert (X1 : axis a ps 1 = Ok (Z.of_nat j, 0)) by (apply (axis_lattice a dIn d1 [d2; 3%nat] [d0] ps 1 j); auto).
  assert (X2 : axis a ps 2 = Ok (Z.of_nat k, 0)) by (apply (axis_lattice a dIn d2 [3%nat] [d0; d1] ps 2 k); auto).
  set (p := ((i * d0 * d1 + j * d1 + k) * 3)%nat) in *. set (c0 := slice vals p (p + 3)) in *.
  assert (Hc0 : exists c1 c2 c3 c4 c5 c6 c7, corners a (Z.of_nat i) (Z.of_nat j) (Z.of_nat k) = Ok [c0; c1; c2; c3; c4; c5; c6; c7]).
  { unfold corners, lookup3D. cbn [a_dims a mkArray app bind].
    do 7 eexists. do 2 f_equal. unfold c0, p, clampIndex. cbn [a_vals a mkArray].
    replace (Z.to_nat (Z.max 0 (Z.min (Z.of_nat i) (Z.of_nat d0 - 1)))) with i by lia.
    replace (Z.to_nat (Z.max 0 (Z.min (Z.of_nat j) (Z.of_nat d1 - 1)))) with j by lia.
    replace (Z.to_nat (Z.max 0 (Z.min (Z.of_nat k) (Z.of_nat d2 - 1)))) with k by lia. reflexivity. }
  destruct Hc0 as [c1 [c2 [c3 [c4 [c5 [c6 [c7 Hcs]]]]]]].
  assert (Hlen : List.length c0 = (Nat.min (p + 3) (List.length vals) - Nat.min p (List.length vals))%nat).
  { unfold c0, slice. rewrite firstn_length, skipn_length. lia. }
  assert (Hfit : forall q, (q = i * d0 * d1 + j * d1 + k)%nat -> (List.length c0 = 3%nat /\ (q < d0 * d1 * d2)%nat) \/ List.length c0 = 0%nat).
  { intros q Eq. assert (Ep : p = (q * 3)%nat) by (unfold p; lia). rewrite Hlen, Ep, Hl. lia. }
  assert (Hset : exists col, set3 ps col = Ok px /\ (col = c0 \/ (exists x y z, col = [x; y; z] /\ c0 = [x; y; z]))).
  { destruct tet; cbn [kindOf aval_eqb String.eqb Ascii.eqb Bool.eqb] in Hpx.
    - apply bind_ok in Hpx. destruct Hpx as [col [Hcol Hs]]. exists col. split; [exact Hs|]. right.
      unfold lookup3DTetrahedral in Hcol. rewrite X0, X1, X2 in Hcol. cbn [bind] in Hcol. rewrite Hcs in Hcol. cbn [bind] in Hcol.
      apply bind_ok in Hcol. destruct Hcol as [x [Tx Hcol]]. apply bind_ok in Hcol. destruct Hcol as [y [Ty Hcol]].
      apply bind_ok in Hcol. destruct Hcol as [z [Tz Hcol]]. apply Ok_inj in Hcol.
      apply tetra_000 in Tx, Ty, Tz. exists x, y, z. split; [now symmetry|].
      destruct (Hfit _ eq_refl) as [[L3 _]|L0]; [|rewrite (proj1 (length_zero_iff_nil c0) L0) in Tx; discriminate].
      destruct c0 as [|u [|v [|w [|]]]]; try discriminate. cbn in Tx, Ty, Tz. congruence.
    - apply bind_ok in Hpx. destruct Hpx as [col [Hcol Hs]]. exists col. split; [exact Hs|]. left.
      unfold lookup3DTrilinear in Hcol. rewrite X0, X1, X2 in Hcol. cbn [bind] in Hcol. rewrite Hcs in Hcol. cbn [bind] in Hcol.
      apply bind_ok in Hcol. destruct Hcol as [e0 [M0 Hcol]]. apply bind_ok in Hcol. destruct Hcol as [e2 [_ Hcol]].
      apply bind_ok in Hcol. destruct Hcol as [e4 [_ Hcol]]. apply bind_ok in Hcol. destruct Hcol as [e6 [_ Hcol]].
      apply bind_ok in Hcol. destruct Hcol as [f0 [M1 Hcol]]. apply bind_ok in Hcol. destruct Hcol as [f4 [_ Hcol]].
      apply mix_0 in M0, M1, Hcol. congruence. }
  destruct Hset as [col [Hs Hcol]].
  assert (col = c0) as -> by (destruct Hcol as [->|[x [y [z [-> ->]]]]]; reflexivity). clear Hcol.
  destruct (Hfit _ eq_refl) as [[L3 Hq]|L0].
  - split; [exact Hq|]. destruct c0 as [|u [|v [|w [|]]]]; try discriminate. cbn in Hs. apply Ok_inj in Hs. now subst px.
  - rewrite (proj1 (length_zero_iff_nil c0) L0) in Hs. discriminate.
Qed.

Theorem stride_entries c tet dIn dOut id name d0 d1 d2 vals i j k out :
  (2 <= d0)%nat -> (2 <= d1)%nat -> (2 <= d2)%nat -> List.length vals = (d0 * d1 * d2 * 3)%nat ->
  (i < d0)%nat -> (j < d1)%nat -> (k < d2)%nat ->
  outcome (nodeProcess c (node3D (kindOf tet) dIn dOut id name d0 d1 d2 vals)
             [codeAt dIn d0 i; codeAt dIn d1 j; codeAt dIn d2 k] 3) = Ok out ->
  let address := (i * d0 * d1 + j * d1 + k)%nat in
  (address < d0 * d1 * d2)%nat /\
  out = [nth (address * 3) vals 0; nth (address * 3 + 1) vals 0; nth (address * 3 + 2) vals 0].
Proof.
  intros H0 H1 H2 Hl Hi Hj Hk H address.
  destruct (stride_reads c tet dIn dOut id name d0 d1 d2 vals i j k out H0 H1 H2 Hl Hi Hj Hk H) as [Hf ->]. fold address in Hf |- *.
  split; [exact Hf|]. set (p := (address * 3)%nat). assert (Hp : (p + 3 <= List.length vals)%nat) by (rewrite Hl; unfold p; lia).
  assert (L : List.length (slice vals p (p + 3)) = 3%nat) by (rewrite slice_length; lia).
  assert (G : forall ch, (ch < 3)%nat -> nth_error (slice vals p (p + 3)) ch = Some (nth (p + ch) vals 0)).
  { intros ch Hc. rewrite slice_nth by lia. apply nth_error_nth'. lia. }
  destruct (slice vals p (p + 3)) as [|u [|v [|w [|]]]]; try discriminate.
  pose proof (G 0%nat ltac:(lia)) as G0. pose proof (G 1%nat ltac:(lia)) as G1. pose proof (G 2%nat ltac:(lia)) as G2.
  cbn [nth_error] in G0, G1, G2. injection G0 as ->. injection G1 as ->. injection G2 as ->. now rewrite Nat.add_0_r.
Qed.

(** No non-cubic shape works. *)
Theorem noncubic_wrong c tet dIn dOut id name d0 d1 d2 :
  (2 <= d0)%nat -> (2 <= d1)%nat -> (2 <= d2)%nat -> ~ (d0 = d1 /\ d1 = d2) ->
  exists vals i j k,
    List.length vals = (d0 * d1 * d2 * 3)%nat /\ (i < d0)%nat /\ (j < d1)%nat /\ (k < d2)%nat /\
    let address := ((i * d1 + j) * d2 + k)%nat in
    outcome (nodeProcess c (node3D (kindOf tet) dIn dOut id name d0 d1 d2 vals)
               [codeAt dIn d0 i; codeAt dIn d1 j; codeAt dIn d2 k] 3) <>
    Ok [nth (address * 3) vals 0; nth (address * 3 + 1) vals 0; nth (address * 3 + 2) vals 0].
Proof.
  intros H0 H1 H2 Hne. set (vals := map INR (seq 0 (d0 * d1 * d2 * 3))).
  assert (Hl : List.length vals = (d0 * d1 * d2 * 3)%nat) by (unfold vals; now rewrite map_length, seq_length).
  assert (Hv : forall p, (p < d0 * d1 * d2 * 3)%nat -> nth p vals 0 = INR p).
  { intros p Hp. unfold vals. apply nth_error_nth. rewrite nth_error_map, (nth_error_nth' _ 0%nat) by (rewrite seq_length; lia).
    rewrite seq_nth by lia. reflexivity. }
  assert (W : forall i j k, (i < d0)%nat -> (j < d1)%nat -> (k < d2)%nat ->
     (i * d0 * d1 + j * d1 + k <> (i * d1 + j) * d2 + k)%nat -> ((i * d1 + j) * d2 + k < d0 * d1 * d2)%nat ->
     let address := ((i * d1 + j) * d2 + k)%nat in
     outcome (nodeProcess c (node3D (kindOf tet) dIn dOut id name d0 d1 d2 vals)
               [codeAt dIn d0 i; codeAt dIn d1 j; codeAt dIn d2 k] 3) <>
     Ok [nth (address * 3) vals 0; nth (address * 3 + 1) vals 0; nth (address * 3 + 2) vals 0]).
  { intros i j k Hi Hj Hk Hd Hr address H.
    destruct (stride_entries c tet dIn dOut id name d0 d1 d2 vals i j k _ H0 H1 H2 Hl Hi Hj Hk H) as [Hf E].
    injection E as E _ _. rewrite !Hv in E by lia. apply INR_eq in E. unfold address in E. lia. }
  assert (D4 : (4 <= d0 * d1)%nat) by nia.
  destruct (Nat.eq_dec d1 d2) as [E12|N12].
  - exists vals, 1%nat, 0%nat, 0%nat. split; [exact Hl|]. split; [lia|]. split; [lia|]. split; [lia|]. subst d2.
    assert (D : (d0 < d1 \/ d1 < d0)%nat) by lia. apply W; try lia; destruct D; nia.
  - exists vals, 0%nat, 1%nat, 0%nat. split; [exact Hl|]. split; [lia|]. split; [lia|]. split; [lia|]. 
    assert (D : (d1 < d2 \/ d2 < d1)%nat) by lia. apply W; try lia; destruct D; nia.
Qed.
