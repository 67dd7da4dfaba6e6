(** convertCLFtoLUT followed by convertLUTtoCLF: values at the grid points. *)
From Coq Require Import Reals Lra Lia ZArith List String Psatz Arith Permutation.
From Flocq Require Import Core BinarySingleNaN.
From Verif Require Import NumF MConvert SpecConvert SpecWrite SpecTools SpecPrelut SpecFiles SpecReadBack SpecIeee SpecXml PBase PFacts PIeee PIeeeArith PLut1D PHalfLut PRound PCloseLut
  PGrid PConvert PConvertIeee PTools PImport PXmlWrite PXmlIeee PLutIeee PTextIeee PReadBack PReadBack3.
Import ListNotations.
Local Open Scope string_scope.
Local Open Scope list_scope.
Local Open Scope R_scope.

Section Nine.
  Variable L : libm.
  #[local] Hint Extern 0 (Num fl) => exact (ieeeNum L) : typeclass_instances.

  (** What a value keeps of the nine decimals of a document. *)
  Lemma decimals_near (x : fl) : is_finite x = true -> Rabs (B2R x) <= bpow radix2 125 ->
    let y := nf32 (flRound (flFixed 9 x)) in
    is_finite y = true /\ Rabs (B2R y - B2R x) <= 51 / 100 * bpow radix2 (-23) * Rabs (B2R x) + 51 / 100 / 10 ^ 9.
  Proof.
    intros F B y. pose proof (decimals_kept L x) as K. change (throughDecimals x y) in K. clearbody y. unfold throughDecimals in K. rewrite F in K.
    destruct K as (n & d & Kn & Fd & Ed & _ & Ky).
    set (q := IZR n / 10 ^ 9) in *. pose proof (rnd_rel (p := 53) (e := 1024) q) as R1.
    change (rnd (p := 53) (e := 1024) q) with (round radix2 (FLT_exp (-1074) 53) ZnearestE q) in R1. rewrite <- Ed in R1.
    assert (Aq : Rabs q <= Rabs (B2R x) + / 2 / 10 ^ 9) by (replace q with ((q - B2R x) + B2R x) by ring; eapply Rle_trans; [apply Rabs_triang|lra]).
    destruct small_facts as (S1 & S2 & S3). 
    assert (S4 : bpow radix2 (2 - 1024 - 53) <= / 10 ^ 12) by (apply Rle_trans with (bpow radix2 (-40)); [apply bpow_le; lia|change (bpow radix2 (-40)) with (/ 1099511627776); lra]).
    assert (S5 : bpow radix2 (2 - 128 - 24) <= / 10 ^ 12) by (apply Rle_trans with (bpow radix2 (-40)); [apply bpow_le; lia|change (bpow radix2 (-40)) with (/ 1099511627776); lra]).
    assert (E23 : bpow radix2 (-23) = / 8388608) by reflexivity. assert (E24 : bpow radix2 (-24) = / 16777216) by reflexivity.
    assert (E53 : bpow radix2 (- (53)) <= / 10 ^ 12) by (apply Rle_trans with (bpow radix2 (-40)); [apply bpow_le; lia|change (bpow radix2 (-40)) with (/ 1099511627776); lra]).
    assert (P53 := bpow_gt_0 radix2 (- (53))).
    assert (Q1 : bpow radix2 (- (53)) * Rabs q <= / 10 ^ 12 * Rabs q) by (apply Rmult_le_compat_r; [apply Rabs_pos|exact E53]).
    assert (Q2 : Rabs (B2R d - q) <= / 10 ^ 12 * Rabs q + / 10 ^ 12) by lra.
    assert (P := Rabs_pos (B2R x)).
    assert (Ad : Rabs (B2R d) <= Rabs q + (/ 10 ^ 12 * Rabs q + / 10 ^ 12)).
    { replace (B2R d) with ((B2R d - q) + q) by ring. eapply Rle_trans; [apply Rabs_triang|lra]. }
    assert (Bd : Rabs (B2R d) <= bpow radix2 126).
    { change (bpow radix2 126) with (2 * bpow radix2 125). assert (1 <= bpow radix2 125) by (change 1 with (bpow radix2 0); apply bpow_le; lia). lra. }
    pose proof (rnd_rel (p := 24) (e := 128) (B2R d)) as R2. change (- (24))%Z with (-24)%Z in R2. rewrite E24 in R2.
    assert (Ey : is_finite y = true /\ B2R y = rnd (p := 24) (e := 128) (B2R d)).
    { unfold roundedTo in Ky. destruct d as [sd|sd| |sd md ed Pd]; try discriminate.
      - cbv zeta in Ky. rewrite Rlt_bool_true in Ky.
        + destruct Ky as (Fy & Ky & _). split; assumption.
        + cbn [B2R]. rewrite round_0 by apply valid_rnd_N. rewrite Rabs_R0. apply bpow_gt_0.
      - cbv zeta in Ky. set (dd := B754_finite sd md ed Pd : fl) in *. rewrite Rlt_bool_true in Ky.
        + destruct Ky as (Fy & Ky & _). split; assumption.
        + apply Rle_lt_trans with (bpow radix2 126); [|apply bpow_lt; lia].
          apply abs_round_le_generic; [apply FLT_exp_valid; reflexivity|apply valid_rnd_N|apply generic_format_bpow; unfold FLT_exp; lia|exact Bd]. }
    destruct Ey as [Fy Ey]. split; [exact Fy|]. rewrite Ey, E23.
    set (z := rnd (p := 24) (e := 128) (B2R d)) in *.
    replace (z - B2R x) with ((z - B2R d) + (B2R d - q) + (q - B2R x)) by ring.
    eapply Rle_trans; [apply Rabs_triang|]. eapply Rle_trans; [apply Rplus_le_compat_r, Rabs_triang|].
    set (X := Rabs (B2R x)) in *. set (Q := Rabs q) in *. set (DD := Rabs (B2R d)) in *. lra.
  Qed.

  Lemma twice_kept (str : fl -> string) kept (x : fl) M : accurateText str kept -> is_finite x = true -> Rabs (B2R x) <= M -> M <= bpow radix2 124 ->
    let y := nf32 (flRound (flFixed 9 (kept x))) in
    is_finite y = true /\ Rabs (B2R y - B2R x) <= 102 / 100 * bpow radix2 (-23) * M + 52 / 100 / 10 ^ 9.
  Proof.
    intros A F B HM y. destruct (proj2 (A x) F) as [Fk Ek]; [apply Rle_trans with (1 := B), Rle_trans with (1 := HM), bpow_le; lia|].
    assert (M0 : 0 <= M) by (eapply Rle_trans; [apply Rabs_pos|exact B]).
    assert (E23 : bpow radix2 (-23) = / 8388608) by reflexivity. assert (E24 : bpow radix2 (-24) = / 16777216) by reflexivity.
    assert (S4 : bpow radix2 (-1074) <= / 10 ^ 12) by (apply Rle_trans with (bpow radix2 (-40)); [apply bpow_le; lia|change (bpow radix2 (-40)) with (/ 1099511627776); lra]).
    assert (Ak : Rabs (B2R (kept x)) <= M + (bpow radix2 (-24) * M + bpow radix2 (-1074))).
    { replace (B2R (kept x)) with ((B2R (kept x) - B2R x) + B2R x) by ring. eapply Rle_trans; [apply Rabs_triang|].
      assert (bpow radix2 (-24) * Rabs (B2R x) <= bpow radix2 (-24) * M) by (apply Rmult_le_compat_l; [apply bpow_ge_0|exact B]). lra. }
    destruct (decimals_near (kept x) Fk) as [Fy Ey]; [apply Rle_trans with (1 := Ak); now apply size_bound|]. fold y in Fy, Ey.
    split; [exact Fy|]. replace (B2R y - B2R x) with ((B2R y - B2R (kept x)) + (B2R (kept x) - B2R x)) by ring.
    eapply Rle_trans; [apply Rabs_triang|]. rewrite E23, E24 in *.
    set (X := Rabs (B2R x)) in *. set (K := Rabs (B2R (kept x))) in *. lra.
  Qed.

  Lemma twice_allowance k M D (n : Z) : (n <= 65536)%Z -> 0 <= M -> 0 <= D -> 1 <= IZR n - 1 -> 1 <= k <= 57 / 10 ->
    let s := 102 / 100 * bpow radix2 (-23) * M + 52 / 100 / 10 ^ 9 in
    s + k * (bpow radix2 (-23) * (M + s + (IZR n - 1) * (D + 2 * s)) + bpow radix2 (-148)) <=
    (k + 14 / 10) * (bpow radix2 (-23) * (M + (IZR n - 1) * D)) + / 10 ^ 9.
  Proof.
    intros Hn M0 D0 H1 Hk s. apply IZR_le in Hn. assert (Hm : 1 <= IZR n - 1 <= 65535) by lra. clear Hn H1. set (m := IZR n - 1) in *. clearbody m.
    assert (S : 0 < bpow radix2 (-148) <= / 10 ^ 12).
    { split; [apply bpow_gt_0|]. apply Rle_trans with (bpow radix2 (-40)); [apply bpow_le; lia|change (bpow radix2 (-40)) with (/ 1099511627776); lra]. }
    assert (E23 : bpow radix2 (-23) = / 8388608) by reflexivity. unfold s. clear s. rewrite E23. set (t := bpow radix2 (-148)) in *. clearbody t.
    set (s := 102 / 100 * / 8388608 * M + 52 / 100 / 10 ^ 9). assert (s0 : 0 <= s) by (unfold s; lra).
    assert (A1 : m * s <= 65535 * s) by (apply Rmult_le_compat_r; lra). assert (A3 : 0 <= m * D) by (apply Rmult_le_pos; lra).
    replace (m * (D + 2 * s)) with (m * D + 2 * (m * s)) by ring. set (ms := m * s) in *. set (mD := m * D) in *. clearbody ms mD.
    assert (B : / 8388608 * (M + s + (mD + 2 * ms)) + t <= (/ 8388608 * (M + mD)) + (131071 / 8388608 * s + t)) by lra.
    assert (B' : k * (/ 8388608 * (M + s + (mD + 2 * ms)) + t) <= k * (/ 8388608 * (M + mD) + (131071 / 8388608 * s + t))) by (apply Rmult_le_compat_l; lra).
    assert (B2 : k * (131071 / 8388608 * s + t) <= 57 / 10 * (131071 / 8388608 * s + t)) by (apply Rmult_le_compat_r; lra).
    unfold s in *. clearbody s. clear s. lra.
  Qed.

  (** ** One table of entries near given colours *)
  Lemma kept_curve c at_ v e (h : header fl) (arr : array fl) n (colour : nat -> list fl) M D s :
    isLinearLUT h (AStr "16f") arr n -> notBypassed (Node h BLUT1D) = true -> (2 <= n)%nat -> (Z.of_nat n <= 65536)%Z ->
    tameCurve n M D colour -> M + s <= bpow radix2 125 ->
    (forall k ch, (k < n)%nat -> (ch < 3)%nat -> is_finite (entry1D arr k ch) = true /\ Rabs (B2R (entry1D arr k ch) - B2R (nth ch (colour k) (B754_zero false))) <= s) ->
    forall (i : nat -> nat) (x : nat -> fl), (forall ch, (ch < 3)%nat -> (i ch < n)%nat /\ isGridPoint n (i ch) (x ch)) ->
      exists ys, colourThrough c (PList at_ v e [Node h BLUT1D]) (map x (seq 0 3)) = Ok ys /\ List.length ys = 3%nat /\
        forall ch, (ch < 3)%nat -> is_finite (nth ch ys (B754_zero false)) = true /\
          Rabs (B2R (nth ch ys (B754_zero false)) - B2R (nth ch (colour (i ch)) (B754_zero false))) <=
            s + 26 / 10 * (bpow radix2 (-23) * (M + s + INR (n - 1) * (D + 2 * s)) + bpow radix2 (-148)).
  Proof.
    intros Lin Nb Hn Hm T HM Ent i x Hx. destruct (curve_near L c h arr n Lin Hn ltac:(lia)) as (f & Ac & Cl).
    cbn [seq map]. rewrite (one_curve L c _ _ _ _ f _ _ _ Nb Ac). eexists. split; [reflexivity|]. split; [reflexivity|].
    intros ch Hch. destruct (Hx ch Hch) as [Hi G].
    assert (C' : within (26 / 10) (M + s + INR (n - 1) * (D + 2 * s)) (B2R (entry1D arr (i ch) ch)) (f ch (nf32 (x ch)))).
    { apply (Cl ch (M + s) (D + 2 * s) Hch); try assumption.
      - intros k Hk. destruct (Ent k ch Hk Hch) as [F B]. split; [exact F|].
        pose proof (proj2 (proj1 (T ch Hch) k Hk)) as B2. replace (B2R (entry1D arr k ch)) with ((B2R (entry1D arr k ch) - B2R (nth ch (colour k) (B754_zero false))) + B2R (nth ch (colour k) (B754_zero false))) by ring.
        eapply Rle_trans; [apply Rabs_triang|]. lra.
      - intros k Hk. destruct (Ent k ch ltac:(lia) Hch) as [_ B1]. destruct (Ent (k + 1)%nat ch ltac:(lia) Hch) as [_ B2]. pose proof (proj2 (T ch Hch) k Hk) as B3.
        apply Rabs_le_inv in B1, B2, B3. apply Rabs_le. lra. }
    assert (Ey : nth ch [f 0%nat (nf32 (x 0%nat)); f 1%nat (nf32 (x 1%nat)); f 2%nat (nf32 (x 2%nat))] (B754_zero false) = f ch (nf32 (x ch))).
    { destruct ch as [|[|[|ch]]]; try reflexivity. lia. }
    match goal with |- is_finite ?z = true /\ _ => change z with (nth ch [f 0%nat (nf32 (x 0%nat)); f 1%nat (nf32 (x 1%nat)); f 2%nat (nf32 (x 2%nat))] (B754_zero false)) end.
    rewrite Ey. destruct C' as [F C']. split; [exact F|].
    pose proof (proj2 (Ent (i ch) ch Hi Hch)) as B. set (y := B2R (f ch (nf32 (x ch)))) in *.
    replace (y - B2R (nth ch (colour (i ch)) (B754_zero false))) with ((y - B2R (entry1D arr (i ch) ch)) + (B2R (entry1D arr (i ch) ch) - B2R (nth ch (colour (i ch)) (B754_zero false)))) by ring.
    eapply Rle_trans; [apply Rabs_triang|]. lra.
  Qed.

  Lemma kept_table c at_ v e (h : header fl) (arr : array fl) tet n (colour : nat -> nat -> nat -> list fl) M D s :
    isCube h (kindOf tet) (AStr "16f") arr n -> notBypassed (Node h BLUT3D) = true -> (2 <= n)%nat -> (Z.of_nat n <= 65536)%Z ->
    tameCube n M D colour -> M + s <= bpow radix2 125 ->
    (let en i j k ch := nth (((i * n + j) * n + k) * 3 + ch) (a_vals arr) (B754_zero false) in
     forall i j k ch, (i < n)%nat -> (j < n)%nat -> (k < n)%nat -> (ch < 3)%nat ->
       is_finite (en i j k ch) = true /\ Rabs (B2R (en i j k ch) - B2R (nth ch (colour i j k) (B754_zero false))) <= s) ->
    forall r g b xr xg xb, (r < n)%nat -> (g < n)%nat -> (b < n)%nat -> isGridPoint n r xr -> isGridPoint n g xg -> isGridPoint n b xb ->
      exists ys, colourThrough c (PList at_ v e [Node h BLUT3D]) [xr; xg; xb] = Ok ys /\ List.length ys = 3%nat /\
        forall ch, (ch < 3)%nat -> is_finite (nth ch ys (B754_zero false)) = true /\
          Rabs (B2R (nth ch ys (B754_zero false)) - B2R (nth ch (colour r g b) (B754_zero false))) <=
            s + 56 / 10 * (bpow radix2 (-23) * (M + s + INR (n - 1) * (D + 2 * s)) + bpow radix2 (-148)).
  Proof.
    intros Cu Nb Hn Hm T HM Ent' r g b xr xg xb Hr Hg Hb Gr Gg Gb.
    destruct (cube_near_any L c h arr tet n Cu Hn ltac:(lia)) as (F & Ac & Cl).
    rewrite (one_node L c _ _ _ _ F _ _ _ Nb Ac).
    set (en := fun i j k ch => nth (((i * n + j) * n + k) * 3 + ch) (a_vals arr) (B754_zero false)).
    assert (Ent : forall i j k ch, (i < n)%nat -> (j < n)%nat -> (k < n)%nat -> (ch < 3)%nat ->
       is_finite (en i j k ch) = true /\ Rabs (B2R (en i j k ch) - B2R (nth ch (colour i j k) (B754_zero false))) <= s) by exact Ent'.
    assert (Cl' : forall ch M0 D0, (ch < 3)%nat ->
      (forall i j k, (i < n)%nat -> (j < n)%nat -> (k < n)%nat -> is_finite (en i j k ch) = true /\ Rabs (B2R (en i j k ch)) <= M0) ->
      M0 <= bpow radix2 125 -> smooth n D0 (fun i j k => B2R (en i j k ch)) ->
        within (56 / 10) (M0 + INR (n - 1) * D0) (B2R (en r g b ch)) (component ch (F (nf32 xr) (nf32 xg) (nf32 xb)))).
    { intros ch M0 D0 Hch H1 H2 H3. exact (Cl ch M0 D0 Hch H1 H2 H3 r g b xr xg xb Hr Hg Hb Gr Gg Gb). }
    clear Cl Ent'. clearbody en.
    destruct (F (nf32 xr) (nf32 xg) (nf32 xb)) as [[y0 y1] y2] eqn:EF.
    eexists. split; [reflexivity|]. split; [reflexivity|]. intros ch Hch. destruct (T ch Hch) as [T1 T2].
    assert (C' : within (56 / 10) (M + s + INR (n - 1) * (D + 2 * s)) (B2R (en r g b ch)) (component ch (y0, y1, y2))).
    { apply Cl'; try assumption.
      - intros i j k Hi Hj Hk. destruct (Ent i j k ch Hi Hj Hk Hch) as [Fi B]. split; [exact Fi|]. pose proof (proj2 (T1 i j k Hi Hj Hk)) as B2.
        replace (B2R (en i j k ch)) with ((B2R (en i j k ch) - B2R (nth ch (colour i j k) (B754_zero false))) + B2R (nth ch (colour i j k) (B754_zero false))) by ring.
        eapply Rle_trans; [apply Rabs_triang|]. lra.
      - assert (Two : forall u w u' w' : R, Rabs (u - u') <= s -> Rabs (w - w') <= s -> Rabs (u' - w') <= D -> Rabs (u - w) <= D + 2 * s).
        { intros u w u' w' E E' B. apply Rabs_le_inv in E, E', B. apply Rabs_le. lra. }
        intros i j k Hi Hj Hk. destruct (T2 i j k Hi Hj Hk) as (B1 & B2 & B3).
        split; [|split]; (eapply Two; [apply Ent; lia|apply Ent; lia|eassumption]). }
    assert (Ey : nth ch [y0; y1; y2] (B754_zero false) = component ch (y0, y1, y2)) by (destruct ch as [|[|[|ch]]]; try reflexivity; lia).
    match goal with |- is_finite ?z = true /\ _ => change z with (nth ch [y0; y1; y2] (B754_zero false)) end.
    rewrite Ey. destruct C' as [Fy C']. split; [exact Fy|]. pose proof (proj2 (Ent r g b ch Hr Hg Hb Hch)) as B. set (y := B2R (component ch (y0, y1, y2))) in *.
    replace (y - B2R (nth ch (colour r g b) (B754_zero false))) with ((y - B2R (en r g b ch)) + (B2R (en r g b ch) - B2R (nth ch (colour r g b) (B754_zero false)))) by ring.
    eapply Rle_trans; [apply Rabs_triang|]. lra.
  Qed.
End Nine.

Lemma all_rows {A} k (vs : list A) m : k <> 0%nat -> List.length vs = (m * k)%nat -> completeRows k vs = vs.
Proof. intros Hk E. unfold completeRows. rewrite E, Nat.mod_mul, Nat.sub_0_r by exact Hk. rewrite <- E. apply firstn_all. Qed.

Lemma table_unique n (v' v : list fl) f : (0 < n)%nat -> tableOf v' n n n f -> tableOf v n n n f -> v' = v.
Proof.
  intros Hn [Lv' Tb'] [Lv Tb].
  apply nth_ext with (d := B754_zero false) (d' := B754_zero false); [congruence|]. intros p Hp. rewrite Lv' in Hp.
  set (ch := (p mod 3)%nat). set (q := (p / 3)%nat). set (k := (q mod n)%nat). set (q2 := (q / n)%nat). set (j := (q2 mod n)%nat). set (i := (q2 / n)%nat).
  assert (Hch : (ch < 3)%nat) by (apply Nat.mod_upper_bound; lia). assert (Hk : (k < n)%nat) by (apply Nat.mod_upper_bound; lia). assert (Hj : (j < n)%nat) by (apply Nat.mod_upper_bound; lia).
  assert (Hq : (q < n * n * n)%nat) by (apply Nat.div_lt_upper_bound; lia). assert (Hq2 : (q2 < n * n)%nat) by (apply Nat.div_lt_upper_bound; lia).
  assert (Hi : (i < n)%nat) by (apply Nat.div_lt_upper_bound; lia).
  assert (Ep : p = (((i * n + j) * n + k) * 3 + ch)%nat).
  { pose proof (Nat.div_mod p 3 ltac:(lia)) as D1. pose proof (Nat.div_mod q n ltac:(lia)) as D2. pose proof (Nat.div_mod q2 n ltac:(lia)) as D3. fold q ch in D1. fold q2 k in D2. fold i j in D3. nia. }
  rewrite Ep. pose proof (Tb i j k Hi Hj Hk) as Q. pose proof (Tb' i j k Hi Hj Hk) as Q'. unfold slice in Q, Q'.
  rewrite <- (nth_slice v' _ 3), <- (nth_slice v _ 3) by exact Hch.
  match type of Q with firstn ?m _ = _ => replace m with 3%nat in Q by lia end. match type of Q' with firstn ?m _ = _ => replace m with 3%nat in Q' by lia end. now rewrite Q, Q'.
Qed.

Section Tools.
  Variable L : libm.
  #[local] Hint Extern 0 (Num fl) => exact (ieeeNum L) : typeclass_instances.

  Lemma lut1d_node_writes compat (k n : nat) id interp (vals : list fl) at_ v e : k <> 0%nat ->
    exists root, listWrite compat false (PList at_ v e [lut1dNode id interp n k vals]) = Ok root.
  Proof.
    intro Hk. unfold listWrite. cbn [nodesWrite]. unfold lut1dNode, SpecLut.halfHeader. cbn [nodeWrite]. unfold headerWrite. cbn [h_elems mapM elementWrite].
    change (floatTable [n; k] vals) with (mkArray [n; k] vals false false "string"). destruct (PImport.array_writes compat false n k vals Hk) as [es ->].
    cbn [bind]. eexists. reflexivity.
  Qed.
  Lemma cube_writes compat (n : nat) (vals : list fl) : exists e, arrayWrite compat (mkArray [n; n; n; 3%nat] vals false false "string") = Ok e.
  Proof.
    unfold arrayWrite. cbn [a_dims mkArray arrayColumns List.length Nat.eqb orb Nat.sub getn nth_error bind a_vals a_enc].
    unfold pydiv. cbn [Nat.eqb bind].
    destruct (mapM_all_ok (fun i => rowText compat (mkArray [n; n; n; 3%nat] vals false false "string") (slice vals (i * 3) ((i + 1) * 3))) (seq 0 (List.length vals / 3))) as [rs E].
    { intros i _. apply PImport.rowText_ok. }
    rewrite E. eexists. reflexivity.
  Qed.
  Lemma lut3d_node_writes compat (n : nat) id interp (vals : list fl) at_ v e :
    exists root, listWrite compat false (PList at_ v e [lut3dNode id interp n n n vals]) = Ok root.
  Proof.
    unfold listWrite. cbn [nodesWrite]. unfold lut3dNode, SpecLut.halfHeader. cbn [nodeWrite]. unfold headerWrite. cbn [h_elems mapM elementWrite].
    change (floatTable [n; n; n; 3%nat] vals) with (mkArray [n; n; n; 3%nat] vals false false "string"). destruct (cube_writes compat n vals) as [es ->].
    cbn [bind]. eexists. reflexivity.
  Qed.

  Theorem spi1d_tools str io compat kept limit formats (o : exportOptions fl) clf lut (l : plist fl) fs n colour :
    accurateText str kept -> Permutation formats (allFormats str io compat) -> shaperReadable (T := fl) (eo_shaperIn o) -> shaperReadable (T := fl) (eo_shaperOut o) ->
    eo_clf o = Some clf -> eo_lut o = Some lut -> lutKindOf o = Only1D -> extensionOf lut = "spi1d" ->
    eo_res1d o = n -> eo_min o = n0 -> eo_max o = n1 -> (2 <= n)%nat -> (Z.of_nat n <= 65536)%Z ->
    openList io limit compat fs false clf = Ok l ->
    (forall i x, (i < n)%nat -> isGridPoint n i x -> colourThrough compat l [x; x; x] = Ok (colour i)) ->
    exists t lr root, let fs1 := putFile fs lut t in
      exportMain io compat limit formats o fs = (Ok tt, fs1) /\
      (forall maps half, readWith formats lut {| ra_inverse := false; ra_interpolation := "linear"; ra_useIndexMaps := maps; ra_useHalfDomain := half |} false fs1 =
                         (Ok (LList lr), fs1)) /\
      listWrite compat false lr = Ok root /\
      (keepsDocument io root ->
       forall clf2 maps half, exists t2, let fs2 := putFile fs1 clf2 t2 in
         importMain io compat formats (Some lut) (Some clf2) false maps half fs1 = (Ok tt, fs2) /\
         exists l2, (forall c limit2 strict, autodesk_on c = true -> duiker_on c = true -> openList io (S limit2) c fs2 strict clf2 = Ok l2) /\
           forall c M D, tameCurve n M D colour -> M <= bpow radix2 124 ->
             forall (i : nat -> nat) (x : nat -> fl), (forall ch, (ch < 3)%nat -> (i ch < n)%nat /\ isGridPoint n (i ch) (x ch)) ->
               exists ys, colourThrough c l2 (map x (seq 0 3)) = Ok ys /\ List.length ys = 3%nat /\
                 forall ch, (ch < 3)%nat -> is_finite (nth ch ys (B754_zero false)) = true /\
                   Rabs (B2R (nth ch ys (B754_zero false)) - B2R (nth ch (colour (i ch)) (B754_zero false))) <=
                     4 * (bpow radix2 (-23) * (M + INR (n - 1) * D)) + / 10 ^ 9).
  Proof.
    intros A P H1 H2 C Lu K E En Elo Ehi Hn Hm Op Hc.
    destruct (unit_samples L compat l n colour Hn ltac:(lia) Hc) as (s & Es & Ls & Hs).
    destruct (export_spi1d (OK := ieeeOk L) str io compat kept limit formats o clf lut l s fs P H1 H2 C Lu K E Op) as (t & W & R).
    { now rewrite En, Elo, Ehi. }
    { apply Forall_forall. intros v _. apply A. }
    assert (Z : (negb (neqb (viaFixed 6 (eo_min o)) n0) || negb (neqb (viaFixed 6 (eo_max o)) n1))%bool = false).
    { rewrite Elo, Ehi. vm_compute. reflexivity. }
    cbv zeta in R. rewrite Z in R. rewrite En in R. cbn [app] in R.
    set (lr := convertedList [lut1dNode "lut1d" "linear" n 3 (map kept s)]).
    destruct (lut1d_node_writes compat 3 n "lut1d" "linear" (map kept s) [("id", "Converted lut"); ("compCLFversion", "1.0"); ("name", "Converted lut")] [] [] ltac:(discriminate)) as [root Wr].
    exists t, lr, root. intro fs1. split; [exact W|]. split; [intros maps half; exact (R "linear" maps half false)|]. split; [exact Wr|].
    intros Kd clf2 maps half.
    destruct (import_written (OK := ieeeOk L) str io compat formats lut clf2 false maps half fs1 fs1 lr root P (R "linear" maps half false) Wr Kd) as (t2 & Im & Re).
    exists t2. intro fs2. split; [exact Im|]. exists (keptList lr). split; [exact Re|].
    intros c M D T HM i x Hx.
    set (vals := map (fun v => nf32 (flRound (flFixed 9 v))) (map kept s)).
    assert (Ev : keptRows (floatTable [n; 3%nat] (map kept s)) = map kept s).
    { unfold keptRows, floatTable. cbn [a_dims rowLength a_vals]. apply (all_rows 3 _ n); [discriminate|]. rewrite map_length, Ls. lia. }
    set (arr := keptArr false (floatTable [n; 3%nat] (map kept s))).
    assert (Av : a_vals arr = vals) by (unfold arr, keptArr; cbn [a_vals]; rewrite Ev; reflexivity).
    set (h := SpecLut.halfHeader "lut1d" (interpolationAttr "linear") [] [EArray arr]).
    change (keptList lr) with (PList [("id", "Converted lut"); ("compCLFversion", "1.0"); ("name", "Converted lut")] [] [] [Node h BLUT1D]).
    assert (Lin : isLinearLUT h (AStr "16f") arr n).
    { split; [reflexivity|]. split; [eexists; reflexivity|]. split; [intro Q; discriminate|].
      split; [reflexivity|]. split; [reflexivity|]. split; [reflexivity|]. split; [|reflexivity].
      unfold wellFormed1D. rewrite Av. exists n, 3%nat, []. unfold vals. rewrite !map_length, Ls. repeat split; lia. }
    set (sl := 102 / 100 * bpow radix2 (-23) * M + 52 / 100 / 10 ^ 9).
    assert (H0 : (0 < n)%nat) by lia.
    assert (M0 : 0 <= M) by (eapply Rle_trans; [apply Rabs_pos|exact (proj2 (proj1 (T 0%nat ltac:(lia)) 0%nat H0))]).
    assert (D0 : 0 <= D) by (eapply Rle_trans; [apply Rabs_pos|apply (proj2 (T 0%nat ltac:(lia)) 0%nat); lia]).
    assert (HM2 : M + sl <= bpow radix2 125).
    { change (bpow radix2 125) with (2 * bpow radix2 124). unfold sl. change (bpow radix2 (-23)) with (/ 8388608).
      assert (2 <= bpow radix2 124) by (change 2 with (bpow radix2 1); apply bpow_le; lia). lra. }
    assert (Ent : forall k ch, (k < n)%nat -> (ch < 3)%nat -> is_finite (entry1D arr k ch) = true /\ Rabs (B2R (entry1D arr k ch) - B2R (nth ch (colour k) (B754_zero false))) <= sl).
    { intros k ch Hk Hch.
      assert (Ee : entry1D arr k ch = nf32 (flRound (flFixed 9 (kept (nth ch (colour k) (B754_zero false)))))).
      { change (entry1D arr k ch) with (nth (k * 3 + ch) (a_vals arr) (B754_zero false)). rewrite Av. unfold vals. rewrite map_map.
        rewrite (nth_indep _ (B754_zero false) (nf32 (flRound (flFixed 9 (kept (B754_zero false)))))) by (rewrite map_length, Ls; lia).
        rewrite (map_nth (fun v => nf32 (flRound (flFixed 9 (kept v))))). do 4 f_equal. now apply Hs. }
      rewrite Ee. apply (twice_kept L str kept); try assumption; apply (proj1 (T ch Hch) k Hk). }
    destruct (kept_curve L c [("id", "Converted lut"); ("compCLFversion", "1.0"); ("name", "Converted lut")] [] [] h arr n colour M D sl Lin eq_refl Hn Hm T HM2 Ent i x Hx) as (ys & Ey & Ly & By).
    exists ys. split; [exact Ey|]. split; [exact Ly|]. intros ch Hch. destruct (By ch Hch) as [Fy B]. split; [exact Fy|].
    eapply Rle_trans; [exact B|].
    assert (N1 : 1 <= INR (n - 1)) by (change 1 with (INR 1); apply le_INR; lia).
    pose proof (twice_allowance (26 / 10) M D (Z.of_nat n) Hm M0 D0) as Q. rewrite <- minus_IZR, INR_pred in Q by lia. specialize (Q N1 ltac:(lra)). cbv zeta in Q. fold sl in Q.
    replace (26 / 10 + 14 / 10) with 4 in Q by lra. exact Q.
  Qed.

  Theorem spi3d_tools str io compat kept limit formats (o : exportOptions fl) clf lut (l : plist fl) fs n colour :
    accurateText str kept -> Permutation formats (allFormats str io compat) -> shaperReadable (T := fl) (eo_shaperIn o) -> shaperReadable (T := fl) (eo_shaperOut o) ->
    eo_clf o = Some clf -> eo_lut o = Some lut -> lutKindOf o = Only3D -> extensionOf lut = "spi3d" ->
    size3D o = n -> eo_min o = n0 -> eo_max o = n1 -> (2 <= n)%nat -> (Z.of_nat n <= 65536)%Z ->
    openList io limit compat fs false clf = Ok l ->
    (forall r g b xr xg xb, (r < n)%nat -> (g < n)%nat -> (b < n)%nat -> isGridPoint n r xr -> isGridPoint n g xg -> isGridPoint n b xb ->
       colourThrough compat l [xr; xg; xb] = Ok (colour r g b)) ->
    exists t lr root, let fs1 := putFile fs lut t in
      exportMain io compat limit formats o fs = (Ok tt, fs1) /\
      (forall inverse maps half, readWith formats lut {| ra_inverse := inverse; ra_interpolation := "linear"; ra_useIndexMaps := maps; ra_useHalfDomain := half |} false fs1 =
                         (Ok (LList lr), fs1)) /\
      listWrite compat false lr = Ok root /\
      (keepsDocument io root ->
       forall clf2 inverse maps half, exists t2, let fs2 := putFile fs1 clf2 t2 in
         importMain io compat formats (Some lut) (Some clf2) inverse maps half fs1 = (Ok tt, fs2) /\
         exists l2, (forall c limit2 strict, autodesk_on c = true -> duiker_on c = true -> openList io (S limit2) c fs2 strict clf2 = Ok l2) /\
           forall c M D, tameCube n M D colour -> M <= bpow radix2 124 ->
             forall r g b xr xg xb, (r < n)%nat -> (g < n)%nat -> (b < n)%nat -> isGridPoint n r xr -> isGridPoint n g xg -> isGridPoint n b xb ->
               exists ys, colourThrough c l2 [xr; xg; xb] = Ok ys /\ List.length ys = 3%nat /\
                 forall ch, (ch < 3)%nat -> is_finite (nth ch ys (B754_zero false)) = true /\
                   Rabs (B2R (nth ch ys (B754_zero false)) - B2R (nth ch (colour r g b) (B754_zero false))) <=
                     7 * (bpow radix2 (-23) * (M + INR (n - 1) * D)) + / 10 ^ 9).
  Proof.
    intros A P H1 H2 C Lu K E En Elo Ehi Hn Hm Op Hc.
    destruct (unit_lattice L compat l n colour Hn ltac:(lia) Hc) as (s & Es & Hs).
    assert (L3 : forall r g b, (r < n)%nat -> (g < n)%nat -> (b < n)%nat -> List.length (colour r g b) = 3%nat).
    { intros r g b Hr Hg Hb. pose proof (Hc r g b _ _ _ Hr Hg Hb (grid_point L n r Hn Hr ltac:(lia)) (grid_point L n g Hn Hg ltac:(lia)) (grid_point L n b Hn Hb ltac:(lia))) as Q.
      apply PSampling.runList_length in Q. exact Q. }
    destruct (export_spi3d_ieee L str io compat kept limit formats o clf lut l s fs P H1 H2 C Lu K E Op) as (t & W & R).
    { now rewrite En, Elo, Ehi. }
    { intros r g b _ _ _. apply Forall_forall. intros v _. apply A. }
    cbv zeta in R. rewrite En in R.
    destruct (R {| ra_inverse := false; ra_interpolation := "linear"; ra_useIndexMaps := false; ra_useHalfDomain := false |} false) as (tab & R0 & Lv & Tb).
    cbn [ra_interpolation] in R0. change (String.eqb "linear" "linear") with true in R0. cbv iota in R0.
    set (lr := convertedList [lut3dNode "lut3d" "trilinear" n n n tab]).
    assert (Rd : forall inverse maps half, readWith formats lut {| ra_inverse := inverse; ra_interpolation := "linear"; ra_useIndexMaps := maps; ra_useHalfDomain := half |} false (putFile fs lut t) =
                         (Ok (LList lr), putFile fs lut t)).
    { intros inverse maps half. destruct (R {| ra_inverse := inverse; ra_interpolation := "linear"; ra_useIndexMaps := maps; ra_useHalfDomain := half |} false) as (tab' & R1 & Lv' & Tb').
      rewrite R1. cbn [ra_interpolation]. change (String.eqb "linear" "linear") with true. cbv iota. cbn [wrapNodes]. unfold lr, convertedList. do 6 f_equal.
      apply (table_unique n _ _ (fun r g b => map kept (cellOf s r g b))); [lia|split; assumption|split; assumption]. }
    destruct (lut3d_node_writes compat n "lut3d" "trilinear" tab [("id", "Converted lut"); ("compCLFversion", "1.0"); ("name", "Converted lut")] [] []) as [root Wr].
    exists t, lr, root. intro fs1. split; [exact W|]. split; [exact Rd|]. split; [exact Wr|].
    intros Kd clf2 inverse maps half.
    destruct (import_written (OK := ieeeOk L) str io compat formats lut clf2 inverse maps half fs1 fs1 lr root P (Rd inverse maps half) Wr Kd) as (t2 & Im & Re).
    exists t2. intro fs2. split; [exact Im|]. exists (keptList lr). split; [exact Re|].
    intros c M D T HM r g b xr xg xb Hr Hg Hb Gr Gg Gb.
    set (vals := map (fun v => nf32 (flRound (flFixed 9 v))) tab).
    assert (Ev : keptRows (floatTable [n; n; n; 3%nat] tab) = tab).
    { unfold keptRows, floatTable. cbn [a_dims rowLength a_vals]. apply (all_rows 3 _ (n * n * n)); [discriminate|exact Lv]. }
    set (arr := keptArr false (floatTable [n; n; n; 3%nat] tab)).
    assert (Av : a_vals arr = vals) by (unfold arr, keptArr; cbn [a_vals]; rewrite Ev; reflexivity).
    set (h := SpecLut.halfHeader "lut3d" (interpolationAttr "trilinear") [] [EArray arr]).
    change (keptList lr) with (PList [("id", "Converted lut"); ("compCLFversion", "1.0"); ("name", "Converted lut")] [] [] [Node h BLUT3D]).
    assert (Cu : isCube h (kindOf false) (AStr "16f") arr n).
    { split; [reflexivity|]. split; [eexists; reflexivity|]. split; [reflexivity|].
      split; [reflexivity|]. split; [|reflexivity]. split; [exists [3%nat]; reflexivity|]. split; [lia|]. rewrite Av. unfold vals. now rewrite map_length. }
    set (sl := 102 / 100 * bpow radix2 (-23) * M + 52 / 100 / 10 ^ 9).
    assert (H0 : (0 < n)%nat) by lia.
    assert (M0 : 0 <= M) by (eapply Rle_trans; [apply Rabs_pos|exact (proj2 (proj1 (T 0%nat ltac:(lia)) 0%nat 0%nat 0%nat H0 H0 H0))]).
    assert (D0 : 0 <= D) by (eapply Rle_trans; [apply Rabs_pos|apply (proj2 (T 0%nat ltac:(lia)) 0%nat 0%nat 0%nat); lia]).
    assert (HM2 : M + sl <= bpow radix2 125).
    { change (bpow radix2 125) with (2 * bpow radix2 124). unfold sl. change (bpow radix2 (-23)) with (/ 8388608).
      assert (2 <= bpow radix2 124) by (change 2 with (bpow radix2 1); apply bpow_le; lia). lra. }
    destruct (kept_table L c [("id", "Converted lut"); ("compCLFversion", "1.0"); ("name", "Converted lut")] [] [] h arr false n colour M D sl Cu eq_refl Hn Hm T HM2) with (r := r) (g := g) (b := b) (xr := xr) (xg := xg) (xb := xb)
      as (ys & Ey & Ly & By); try assumption.
    { cbv zeta beta. intros i j k ch Hi Hj Hk Hch.
      assert (Ee : nth (((i * n + j) * n + k) * 3 + ch) (a_vals arr) (B754_zero false) = nf32 (flRound (flFixed 9 (kept (nth ch (colour i j k) (B754_zero false)))))).
      { rewrite Av. unfold vals.
        assert (Lp : (((i * n + j) * n + k) * 3 + ch < n * n * n * 3)%nat) by (assert ((i * n + j) * n + k < n * n * n)%nat by nia; lia).
        rewrite (nth_indep _ (B754_zero false) (nf32 (flRound (flFixed 9 (B754_zero false))))) by (rewrite map_length, Lv; exact Lp).
        rewrite (map_nth (fun v => nf32 (flRound (flFixed 9 v)))). do 3 f_equal.
        pose proof (Tb i j k Hi Hj Hk) as Q. rewrite Hs in Q by assumption. unfold slice in Q. rewrite <- (nth_slice tab _ 3) by exact Hch.
        match type of Q with firstn ?m _ = _ => replace m with 3%nat in Q by lia end. rewrite Q.
        rewrite (nth_indep _ (B754_zero false) (kept (B754_zero false))) by (rewrite map_length, L3 by assumption; exact Hch). now rewrite map_nth. }
      rewrite Ee. apply (twice_kept L str kept); try assumption; apply (proj1 (T ch Hch) i j k Hi Hj Hk). }
    exists ys. split; [exact Ey|]. split; [exact Ly|]. intros ch Hch. destruct (By ch Hch) as [Fy B]. split; [exact Fy|].
    eapply Rle_trans; [exact B|].
    assert (N1 : 1 <= INR (n - 1)) by (change 1 with (INR 1); apply le_INR; lia).
    pose proof (twice_allowance (56 / 10) M D (Z.of_nat n) Hm M0 D0) as Q. rewrite <- minus_IZR, INR_pred in Q by lia. specialize (Q N1 ltac:(lra)). cbv zeta in Q. fold sl in Q.
    replace (56 / 10 + 14 / 10) with 7 in Q by lra. exact Q.
  Qed.
End Tools.

(** ** Numbers in [-1, 1], for concrete cases *)
Definition smallNumber (L : libm) (y : fl) : bool := let N := ieeeNum L in (is_finite y && nleb (nofZ (-1)) y && nleb y (nofZ 1))%bool.
Lemma small_real L y : smallNumber L y = true -> is_finite y = true /\ Rabs (B2R y) <= 1.
Proof.
  unfold smallNumber. cbv zeta. intro H. apply andb_prop in H. destruct H as [H H3]. apply andb_prop in H. destruct H as [H1 H2].
  destruct (ofZ_exact L 1 ltac:(lia)) as [F1 E1]. destruct (ofZ_exact L (-1) ltac:(lia)) as [F2 E2].
  cbn [nleb ieeeNum] in H2, H3. change (Bleb (@nofZ fl (ieeeNum L) (-1)) y = true) in H2. change (Bleb y (@nofZ fl (ieeeNum L) 1) = true) in H3.
  rewrite Bleb_correct in H2, H3 by assumption. rewrite E2 in H2. rewrite E1 in H3.
  destruct (Rle_bool_spec (IZR (-1)) (B2R y)); [|discriminate]. destruct (Rle_bool_spec (B2R y) (IZR 1)); [|discriminate].
  split; [exact H1|]. apply Rabs_le. lra.
Qed.
Lemma small_curve L n (colour : nat -> list fl) :
  (forall i ch, (i < n)%nat -> (ch < 3)%nat -> smallNumber L (nth ch (colour i) (B754_zero false)) = true) -> tameCurve n 1 2 colour.
Proof.
  intros H ch Hch e. assert (B : forall i, (i < n)%nat -> is_finite (e i) = true /\ Rabs (B2R (e i)) <= 1) by (intros i Hi; apply (small_real L); now apply H).
  clearbody e. split; [exact B|]. intros i Hi. destruct (B i) as [_ B1]; [lia|]. destruct (B (i + 1)%nat) as [_ B2]; [lia|]. apply Rabs_le_inv in B1, B2. apply Rabs_le. lra.
Qed.
Lemma small_cube L n (colour : nat -> nat -> nat -> list fl) :
  (forall r g b ch, (r < n)%nat -> (g < n)%nat -> (b < n)%nat -> (ch < 3)%nat -> smallNumber L (nth ch (colour r g b) (B754_zero false)) = true) -> tameCube n 1 2 colour.
Proof.
  intros H ch Hch e.
  assert (B : forall i j k, (i < n)%nat -> (j < n)%nat -> (k < n)%nat -> is_finite (e i j k) = true /\ Rabs (B2R (e i j k)) <= 1) by (intros i j k Hi Hj Hk; apply (small_real L); now apply H).
  clearbody e. split; [exact B|].
  assert (Two : forall u w : R, Rabs u <= 1 -> Rabs w <= 1 -> Rabs (u - w) <= 2) by (intros u w B1 B2; apply Rabs_le_inv in B1, B2; apply Rabs_le; lra).
  intros i j k Hi Hj Hk. split; [|split]; apply Two; apply B; lia.
Qed.
Lemma table_of_two (f : nat -> nat -> nat -> list fl) : (forall r g b, (r < 2)%nat -> (g < 2)%nat -> (b < 2)%nat -> List.length (f r g b) = 3%nat) ->
  tableOf (colourList 2 2 2 f) 2 2 2 f.
Proof.
  intro H. unfold colourList. cbn [seq flat_map app].
  assert (L3 : forall l : list fl, List.length l = 3%nat -> exists x y z, l = [x; y; z]) by (intros [|x [|y [|z [|]]]] E; try discriminate; eauto).
  destruct (L3 _ (H 0 0 0 ltac:(lia) ltac:(lia) ltac:(lia))%nat) as (x0 & y0 & z0 & E0). destruct (L3 _ (H 0 0 1 ltac:(lia) ltac:(lia) ltac:(lia))%nat) as (x1 & y1 & z1 & E1).
  destruct (L3 _ (H 0 1 0 ltac:(lia) ltac:(lia) ltac:(lia))%nat) as (x2 & y2 & z2 & E2). destruct (L3 _ (H 0 1 1 ltac:(lia) ltac:(lia) ltac:(lia))%nat) as (x3 & y3 & z3 & E3).
  destruct (L3 _ (H 1 0 0 ltac:(lia) ltac:(lia) ltac:(lia))%nat) as (x4 & y4 & z4 & E4). destruct (L3 _ (H 1 0 1 ltac:(lia) ltac:(lia) ltac:(lia))%nat) as (x5 & y5 & z5 & E5).
  destruct (L3 _ (H 1 1 0 ltac:(lia) ltac:(lia) ltac:(lia))%nat) as (x6 & y6 & z6 & E6). destruct (L3 _ (H 1 1 1 ltac:(lia) ltac:(lia) ltac:(lia))%nat) as (x7 & y7 & z7 & E7).
  rewrite E0, E1, E2, E3, E4, E5, E6, E7. split; [reflexivity|].
  intros r g b Hr Hg Hb. destruct r as [|[|r]], g as [|[|g]], b as [|[|b]]; try lia; cbn; symmetry; assumption.
Qed.
