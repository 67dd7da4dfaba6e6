(** Tables sampled from a function, in IEEE arithmetic. *)
From Coq Require Import Reals Lra Lia ZArith List String Psatz Arith.
From Flocq Require Import Core BinarySingleNaN.
From Verif Require Import SpecErrors SpecReadBack MBuild PBase PFacts PAct PReal PIeee PIeeeArith PHalf PHalfCode PHalfLut PLut1D PSample PLut3DMore PRound PClose PCloseLut PErrors PErrorsLut.
Import ListNotations.
Local Open Scope string_scope.
Local Open Scope list_scope.
Local Open Scope R_scope.

Section Half.
  Variable L : libm.
  #[local] Hint Extern 0 (Num fl) => exact (ieeeNum L) : typeclass_instances.

  Theorem half_table id tid ch (f : fl -> fl) raw dIn dOut : (ch = 1 \/ ch = 3)%nat ->
    exists h a, simpleSampledLUTHalfDomain id tid ch f raw dIn dOut = Ok (Node h BLUT1D) /\ isHalfLUT h dIn a /\
      forall k i, (0 <= k < 65536)%Z -> (i < 3)%nat -> entryAt L a k i = f (nhalf k).
  Proof.
    intro Hch. unfold simpleSampledLUTHalfDomain.
    assert (Hc : Z.of_nat (256 * 256) = 65536%Z) by (rewrite Nat2Z.inj_mul; reflexivity).
    generalize dependent (256 * 256)%nat. intros n Hn. unfold halfTable. rewrite (fill_table n ch (fun i => f (nhalf (Z.of_nat i)))). cbn [bind].
    unfold setArray1D, pydiv. rewrite (map_length _ (seq _ _)), seq_length.
    assert (Ech : match ch with O => Err ZeroDivisionError | _ => Ok (n * ch / ch)%nat end = Ok n) by (destruct Hch as [-> | ->]; f_equal; now rewrite Nat.div_mul).
    rewrite Ech. cbn [bind]. set (vals := map _ _).
    assert (At : forall k, k = "inBitDepth" \/ k = "outBitDepth" \/ k = "interpolation" \/ k = "halfDomain" ->
      dget (h_attrs (nheader (@newLUT1D fl dIn dOut id tid (AStr "linear") raw (ABool true)))) k =
      if String.eqb k "inBitDepth" then Some dIn else if String.eqb k "outBitDepth" then Some dOut
      else if String.eqb k "interpolation" then Some (AStr "linear") else Some (ABool true)).
    { intros k Hk. unfold newLUT1D, newHeader, optAttr, hSetAttr. cbn [nheader aval_eqb String.eqb Ascii.eqb Bool.eqb andb h_attrs].
      destruct (aval_eqb raw (AStr "")); cbn [h_attrs]; repeat (destruct Hk as [Hk|Hk]); subst k; reflexivity. }
    unfold newLUT1D in At |- *. cbn [nheader] in At. cbn [addElement nheader].
    eexists. eexists. split; [reflexivity|]. split.
    - unfold isHalfLUT. cbn [hAddElem h_attrs h_elems]. rewrite !At by auto. cbn [String.eqb Ascii.eqb Bool.eqb]. split; [reflexivity|]. split; [eexists; reflexivity|].
      split; [discriminate|]. split; [unfold flagSet; cbn [h_attrs]; rewrite At by auto; reflexivity|].
      assert (El : h_elems (optAttr (optAttr (optAttr (@newHeader fl dIn dOut id tid) "interpolation" (AStr "linear")) "rawHalfs" raw) "halfDomain" (ABool true)) = []).
      { unfold optAttr. destruct (aval_eqb raw _); reflexivity. }
      rewrite El. cbn [app indexMaps lastArray]. split; [reflexivity|]. split; [reflexivity|]. split.
      + exists n, ch, []. split; [reflexivity|]. split; [lia|]. split; [lia|]. cbn [a_vals mkArray]. unfold vals. now rewrite map_length, seq_length.
      + exists n. split; [reflexivity|exact Hn].
    - intros k i Hk Hi. unfold entryAt. rewrite (sampled_entry (fun j => f (nhalf (Z.of_nat j))) n ch); [|exact Hch|reflexivity|reflexivity|lia|exact Hi].
      rewrite Z2Nat.id by lia. reflexivity.
  Qed.

  Theorem half_sampled c id tid ch (f : fl -> fl) raw dIn dOut : (ch = 1 \/ ch = 3)%nat ->
    exists node g, simpleSampledLUTHalfDomain id tid ch f raw dIn dOut = Ok node /\ actsPerChannel c node g /\
      forall i x, (i < 3)%nat ->
        let p := nf32 (bitDepthToNormalized x dIn) in
        (is_nan p = true -> g i x = nf32 (f B754_nan)) /\
        (Bleb (nofZ 65520) p = true -> g i x = nf32 (f (B754_infinity false))) /\
        (Bleb p (nofZ (-65520)) = true -> g i x = nf32 (f (B754_infinity true))) /\
        ((forall j, finiteCode j -> is_finite (f (nhalf j)) = true) ->
         forall k, finiteCode k -> is_finite p = true -> B2R p = halfNumber k -> Bsign p = negativeCode k ->
           sameNumber (g i x) (nf32 (f (nhalf k)))).
  Proof.
    intro Hch. destruct (half_table id tid ch f raw dIn dOut Hch) as (h & a & E & Hh & En).
    destruct (half_domain L c h dIn a Hh) as (g & Ag & Hg). destruct (half_exact L c h dIn a Hh) as (g' & Ag' & Hg').
    assert (G : forall i x, (i < 3)%nat -> g i x = g' i x).
    { intros i x Hi. pose proof (Ag 3%nat [x; x; x] (le_n 3)) as A1. pose proof (Ag' 3%nat [x; x; x] (le_n 3)) as A2. rewrite A1 in A2. apply Ok_inj in A2.
      unfold perChannel in A2. rewrite !perColour3 in A2. injection A2 as Q1 Q2 Q3. destruct i as [|[|[|i]]]; [exact Q1|exact Q2|exact Q3|lia]. }
    exists (Node h BLUT1D), g. split; [exact E|]. split; [exact Ag|]. intros i x Hi. cbv zeta. destruct (Hg i x Hi) as (H1 & H2 & H3 & _).
    split; [|split; [|split]].
    - intro P. rewrite (H1 P), En by lia. reflexivity.
    - intro P. rewrite (H2 P), En by lia. reflexivity.
    - intro P. rewrite (H3 P), En by lia. reflexivity.
    - intros Hf k Fk Fp Ep Sp. rewrite (G i x Hi). rewrite <- (En k i) by (destruct Fk; lia). apply (Hg' i x k Hi Fk); try assumption.
      intros j Fj. rewrite En by (destruct Fj; lia). now apply Hf.
  Qed.
End Half.

Section HalfIdentity.
  Variable L : libm.
  #[local] Hint Extern 0 (Num fl) => exact (ieeeNum L) : typeclass_instances.

  Lemma half_format k : finiteCode k -> generic_format radix2 fexp16 (halfNumber k).
  Proof.
    intro H. unfold halfNumber. destruct (Z.ltb_spec k 32768).
    - apply format_magnitude. destruct H; lia.
    - apply generic_format_opp, format_magnitude. destruct H; lia.
  Qed.
  Lemma nf32_half (x : fl) k : finiteCode k -> is_finite x = true -> B2R x = halfNumber k ->
    is_finite (nf32 x) = true /\ B2R (nf32 x) = halfNumber k /\ Bsign (nf32 x) = Bsign x.
  Proof.
    intros Fk Fx Ex. destruct (nf32_exact L x Fx) as [F E].
    - rewrite Ex. apply f16_32. now apply half_format.
    - rewrite Ex. eapply Rle_lt_trans; [apply number_bound; exact Fk|]. change (bpow radix2 128) with (IZR (2 ^ 128)). apply IZR_lt. reflexivity.
    - split; [exact F|]. split; [now rewrite E|]. change (nf32 x) with (f64 (f32of x)) in F |- *.
      assert (Fn : is_nan (f32of x) = false) by (destruct (f32of x); [reflexivity|reflexivity|discriminate F|reflexivity]). rewrite f64_sign by exact Fn.
      apply toFormat_sign. now apply finite_not_nan.
  Qed.
  Lemma number_same (x y : fl) : is_finite x = true -> is_finite y = true -> B2R x = B2R y -> Bsign x = Bsign y -> x = y.
  Proof. intros. now apply B2R_Bsign_inj. Qed.

  Theorem half_identity c id tid ch raw dIn dOut : (ch = 1 \/ ch = 3)%nat -> dIn = AStr "16f" \/ dIn = AStr "32f" ->
    exists node g, simpleSampledLUTHalfDomain id tid ch (fun x : fl => x) raw dIn dOut = Ok node /\ actsPerChannel c node g /\
      forall i, (i < 3)%nat ->
        (forall x k, finiteCode k -> is_finite x = true -> B2R x = halfNumber k -> Bsign x = negativeCode k -> sameNumber (g i x) x) /\
        g i B754_nan = B754_nan /\ (forall s, g i (B754_infinity s) = B754_infinity s).
  Proof.
    intros Hch HdI. destruct (half_sampled L c id tid ch (fun x : fl => x) raw dIn dOut Hch) as (node & g & E & A & H). exists node, g. split; [exact E|]. split; [exact A|].
    assert (Nm : forall x : fl, bitDepthToNormalized x dIn = x) by (intro x; destruct HdI as [-> | ->]; reflexivity).
    intros i Hi. split; [|split].
    - intros x k Fk Fx Ex Sx. specialize (H i x Hi). cbv zeta in H. rewrite Nm in H. destruct H as (_ & _ & _ & H). destruct (nf32_half x k Fk Fx Ex) as (F & E' & S).
      assert (Vf : forall j, finiteCode j -> is_finite (nhalf j : fl) = true) by (intros j Fj; exact (proj1 (value_code j Fj))).
      specialize (H Vf k Fk F E'). rewrite S in H. specialize (H Sx). destruct (value_code k Fk) as [Fv Ev].
      change (@nhalf fl (ieeeNum L) k) with (halfValue k) in H. destruct (nf32_half (halfValue k) k Fk Fv Ev) as (F2 & E2 & S2).
      destruct (Req_dec (halfNumber k) 0) as [Z0|NZ].
      + assert (Z : is_finite (g i x) = true /\ B2R (g i x) = 0).
        { destruct H as [-> |(F3 & _ & Z3 & _)]; [split; [exact F2|now rewrite E2]|split; assumption]. }
        right. split; [apply Z|]. split; [exact Fx|]. split; [apply Z|]. now rewrite Ex.
      + left. destruct H as [-> |(_ & _ & _ & Z3)]; [|rewrite E2 in Z3; contradiction]. apply number_same; [exact F2|exact Fx|now rewrite E2, Ex|].
        destruct (Rtotal_order (halfNumber k) 0) as [Ng|[Z|Ps]]; [| contradiction|].
        * rewrite (sign_neg _ F2) by (rewrite E2; exact Ng). symmetry. apply sign_neg; [exact Fx|now rewrite Ex].
        * rewrite (sign_pos _ F2) by (rewrite E2; exact Ps). symmetry. apply sign_pos; [exact Fx|now rewrite Ex].
    - specialize (H i B754_nan Hi). cbv zeta in H. rewrite Nm in H. exact (proj1 H eq_refl).
    - intro s. specialize (H i (B754_infinity s) Hi). cbv zeta in H. rewrite Nm in H. destruct H as (_ & H1 & H2 & _). destruct s; [exact (H2 eq_refl)|exact (H1 eq_refl)].
  Qed.
End HalfIdentity.

(** * Tables of any size *)
Section Linear.
  Variable L : libm.
  #[local] Hint Extern 0 (Num fl) => exact (ieeeNum L) : typeclass_instances.

  Lemma samplePos_ieee i n : (2 <= n)%nat -> (Z.of_nat n <= 2 ^ 53)%Z -> samplePos i n = Ok (ndiv (nofZ (Z.of_nat i)) (nofZ (Z.of_nat n - 1)) : fl).
  Proof.
    intros H1 H2. unfold samplePos, pyfdiv. destruct (ofZ_exact L (Z.of_nat n - 1)) as [F E]; [lia|].
    rewrite (eqb0 L _ F), E, Req_bool_false; [reflexivity|]. apply not_0_IZR. lia.
  Qed.

  Theorem linear_table id tid ch n (f : fl -> fl) dIn dOut : (2 <= n)%nat -> (Z.of_nat n <= 2 ^ 53)%Z -> (ch = 1 \/ ch = 3)%nat ->
    exists h a, simpleSampledLUT id tid ch n f dIn dOut = Ok (Node h BLUT1D) /\ isLinearLUT h dIn a n /\
      forall k i, (k < n)%nat -> (i < 3)%nat -> entry1D a k i = f (ndiv (nofZ (Z.of_nat k)) (nofZ (Z.of_nat n - 1))).
  Proof.
    intros Hn Hm Hch. unfold simpleSampledLUT, sampledTable.
    rewrite (for_each_ext _ _ (fun i vals => for_each (seq 0 ch) (fun c vals => setn vals (i * ch + c) (f (ndiv (nofZ (Z.of_nat i)) (nofZ (Z.of_nat n - 1))))) vals))
      by (intros i s _; rewrite samplePos_ieee by assumption; reflexivity).
    rewrite (fill_table n ch (fun i => f (ndiv (nofZ (Z.of_nat i)) (nofZ (Z.of_nat n - 1))))). cbn [bind].
    unfold setArray1D, pydiv. rewrite (map_length _ (seq _ _)), seq_length.
    assert (Ech : match ch with O => Err ZeroDivisionError | _ => Ok (n * ch / ch)%nat end = Ok n) by (destruct Hch as [-> | ->]; f_equal; now rewrite Nat.div_mul).
    rewrite Ech. cbn [bind]. set (vals := map _ _). eexists. eexists. split; [reflexivity|]. split.
    - split; [reflexivity|]. split; [eexists; reflexivity|]. split; [discriminate|]. split; [reflexivity|]. split; [reflexivity|]. split; [reflexivity|]. split; [|reflexivity].
      exists n, ch, []. split; [reflexivity|]. split; [lia|]. split; [lia|]. cbn [a_vals mkArray]. unfold vals. now rewrite map_length, seq_length.
    - intros k i Hk Hi. apply (sampled_entry (fun j => f (ndiv (nofZ (Z.of_nat j)) (nofZ (Z.of_nat n - 1)))) n ch); [exact Hch|reflexivity|reflexivity|exact Hk|exact Hi].
  Qed.

  Lemma lut_cell (a : array R) dIn n ch (e : nat -> R) x k : (2 <= n)%nat -> (k + 1 < n)%nat -> (forall j, (j < n)%nat -> entry1D a j ch = e j) ->
    INR k <= x / fullScale dIn * INR (n - 1) <= INR (k + 1) ->
    let w := x / fullScale dIn * INR (n - 1) - INR k in lutFun a dIn n ch x = (1 - w) * e k + w * e (k + 1)%nat.
  Proof.
    intros Hn Hk He Hb w. unfold lutFun. rewrite (lin_cell _ _ (Z.of_nat k)).
    - replace (Z.of_nat k + 1)%Z with (Z.of_nat (k + 1)) by lia. rewrite !entryZ_nat by lia. rewrite !He by lia. rewrite <- INR_IZR_INZ. unfold w. ring.
    - replace (Z.of_nat k + 1)%Z with (Z.of_nat (k + 1)) by lia. rewrite <- !INR_IZR_INZ. exact Hb.
  Qed.

  Theorem sampled_error c id tid ch n (f : fl -> fl) (F : R -> R) dIn dOut d K M :
    (2 <= n)%nat -> (Z.of_nat n <= 2 ^ 50)%Z -> (ch = 1 \/ ch = 3)%nat -> 0 <= K ->
    (forall k, (k < n)%nat -> let y := f (ndiv (nofZ (Z.of_nat k)) (nofZ (Z.of_nat n - 1))) in
       is_finite y = true /\ Rabs (B2R y - F (INR k / INR (n - 1))) <= d) ->
    (forall x, 0 <= x <= 1 -> Rabs (F x) <= M) ->
    (forall x y, 0 <= x <= 1 -> 0 <= y <= 1 -> Rabs (F x - F y) <= K * Rabs (x - y)) ->
    M + d <= bpow radix2 125 ->
    let E := 2 * unit32 (M + d + K + 2 * INR (n - 1) * d) in
    exists node g, simpleSampledLUT id tid ch n f dIn dOut = Ok node /\ actsPerChannel c node g /\
      forall i x, (i < 3)%nat -> is_finite x = true -> 0 <= B2R x <= fullScale dIn ->
        is_finite (g i x) = true /\
        Rabs (B2R (g i x) - F (B2R x / fullScale dIn)) <= d + K / (2 * INR (n - 1)) + E /\
        ((exists p q, forall x, F x = p * x + q) -> Rabs (B2R (g i x) - F (B2R x / fullScale dIn)) <= d + E).
  Proof.
    intros Hn Hm Hch HK Hf HF HL HM E. destruct (linear_table id tid ch n f dIn dOut Hn ltac:(lia) Hch) as (h & a & Es & Hl & He).
    exists (Node h BLUT1D), (linFun L a dIn). split; [exact Es|]. split; [exact (linear_acts L c h dIn a n Hl)|]. intros i x Hi Fx Hx.
    destruct Hl as [_ [_ [_ [_ [_ [_ [Hw Hnn]]]]]]]. pose proof (fullScale_pos dIn) as Pd.
    assert (P : 0 < INR (n - 1)) by (apply lt_0_INR; lia). assert (Pi : 0 < / INR (n - 1)) by now apply Rinv_0_lt_compat.
    assert (Un : forall k, (k < n)%nat -> 0 <= INR k / INR (n - 1) <= 1).
    { intros k Hk. unfold Rdiv. split; [apply Rmult_le_pos; [apply pos_INR|lra]|]. rewrite <- (Rinv_r (INR (n - 1))) by lra. apply Rmult_le_compat_r; [lra|]. apply le_INR. lia. }
    assert (Hent : forall k, (k < n)%nat -> is_finite (entry1D a k i) = true /\ Rabs (B2R (entry1D a k i)) <= M + d).
    { intros k Hk. rewrite (He k i Hk Hi). destruct (Hf k Hk) as [Fy Ey]. split; [exact Fy|]. pose proof (HF _ (Un k Hk)) as B.
      match goal with |- Rabs ?y <= _ => replace y with ((y - F (INR k / INR (n - 1))) + F (INR k / INR (n - 1))) by ring end. eapply Rle_trans; [apply Rabs_triang|]. lra. }
    assert (Dn : 0 <= d) by (eapply Rle_trans; [apply Rabs_pos|apply (Hf 0%nat ltac:(lia))]).
    set (e := fun k => B2R (entry1D a k i)).
    assert (Ee : forall k, (k < n)%nat -> Rabs (e k - F (INR k / INR (n - 1))) <= d) by (intros k Hk; unfold e; rewrite (He k i Hk Hi); apply Hf; exact Hk).
    set (D := K / INR (n - 1) + 2 * d).
    assert (HD : forall k, (k + 1 < n)%nat -> Rabs (B2R (entry1D a (k + 1) i) - B2R (entry1D a k i)) <= D).
    { intros k Hk. fold (e (k + 1)%nat) (e k). pose proof (Ee k ltac:(lia)) as A1. pose proof (Ee (k + 1)%nat ltac:(lia)) as A2.
      pose proof (HL _ _ (Un (k + 1)%nat ltac:(lia)) (Un k ltac:(lia))) as A3. replace (INR (k + 1) / INR (n - 1) - INR k / INR (n - 1)) with (/ INR (n - 1)) in A3 by (rewrite plus_INR; cbn [INR]; field; lra).
      rewrite (Rabs_pos_eq (/ _)) in A3 by lra. fold (K / INR (n - 1)) in A3. apply Rabs_le_inv in A1, A2, A3. apply Rabs_le. unfold D. lra. }
    assert (I1 : INR (n - 1) <= bpow radix2 50).
    { rewrite INR_IZR_INZ. replace (bpow radix2 50) with (IZR (2 ^ 50)) by reflexivity. apply IZR_le. lia. }
    assert (Xb : 0 <= B2R x / fullScale dIn <= 1).
    { unfold Rdiv. split; [apply Rmult_le_pos; [lra|left; now apply Rinv_0_lt_compat]|]. rewrite <- (Rinv_r (fullScale dIn)) by lra. apply Rmult_le_compat_r; [left; now apply Rinv_0_lt_compat|lra]. }
    assert (HX : Rabs (B2R x) / fullScale dIn * INR (n - 1) <= bpow radix2 51).
    { rewrite (Rabs_pos_eq (B2R x)) by lra. apply Rle_trans with (1 * bpow radix2 50); [apply Rmult_le_compat; lra|]. rewrite Rmult_1_l. apply bpow_le. lia. }
    destruct (lut1d_anywhere L a dIn n i (M + d) D Hw Hnn Hn ltac:(lia) Hi Hent HM HD x Fx HX) as [Fy Ey].
    fold (unit32 (M + d + INR (n - 1) * D)) in Ey.
    replace (M + d + INR (n - 1) * D) with (M + d + K + 2 * INR (n - 1) * d) in Ey by (unfold D; field; lra). fold E in Ey.
    destruct (find_cell n (B2R x / fullScale dIn * INR (n - 1)) Hn) as [k [Hk Hb]].
    { split; [apply Rmult_le_pos; lra|]. rewrite <- (Rmult_1_l (INR (n - 1))) at 2. apply Rmult_le_compat_r; lra. }
    pose proof (lut_cell (exactArray a) dIn n i e (B2R x) k Hn Hk (fun j _ => exact_entry1D L a j i) Hb) as Lc. cbv zeta in Lc.
    set (u := B2R x / fullScale dIn) in *. set (w := u * INR (n - 1) - INR k) in *.
    assert (W : 0 <= w <= 1) by (unfold w; rewrite plus_INR in Hb; cbn [INR] in Hb; lra).
    pose proof (Ee k ltac:(lia)) as A1. pose proof (Ee (k + 1)%nat ltac:(lia)) as A2. set (F0 := F (INR k / INR (n - 1))) in *. set (F1 := F (INR (k + 1) / INR (n - 1))) in *.
    assert (Near : Rabs (lutFun (exactArray a) dIn n i (B2R x) - ((1 - w) * F0 + w * F1)) <= d).
    { rewrite Lc. replace ((1 - w) * e k + w * e (k + 1)%nat - ((1 - w) * F0 + w * F1)) with ((1 - w) * (e k - F0) + w * (e (k + 1)%nat - F1)) by ring.
      eapply Rle_trans; [apply Rabs_triang|]. rewrite !Rabs_mult, (Rabs_pos_eq w), (Rabs_pos_eq (1 - w)) by lra.
      apply Rle_trans with ((1 - w) * d + w * d); [|right; ring]. apply Rplus_le_compat; apply Rmult_le_compat_l; lra. }
    split; [exact Fy|].
    assert (Tri : forall r, Rabs ((1 - w) * F0 + w * F1 - F u) <= r -> Rabs (B2R (linFun L a dIn i x) - F u) <= d + r + E).
    { intros r Hr. apply Rabs_le_inv in Hr, Near, Ey. apply Rabs_le. lra. }
    split.
    - apply Tri. replace ((1 - w) * F0 + w * F1 - F u) with ((1 - w) * (F0 - F u) + w * (F1 - F u)) by ring.
      pose proof (HL _ u (Un k ltac:(lia)) Xb) as B1. pose proof (HL _ u (Un (k + 1)%nat ltac:(lia)) Xb) as B2. fold F0 in B1. fold F1 in B2.
      assert (U1 : Rabs (INR k / INR (n - 1) - u) = w / INR (n - 1)).
      { replace (INR k / INR (n - 1) - u) with (- (w / INR (n - 1))) by (unfold w; field; lra). rewrite Rabs_Ropp. apply Rabs_pos_eq. unfold Rdiv. apply Rmult_le_pos; lra. }
      assert (U2 : Rabs (INR (k + 1) / INR (n - 1) - u) = (1 - w) / INR (n - 1)).
      { replace (INR (k + 1) / INR (n - 1) - u) with ((1 - w) / INR (n - 1)) by (unfold w; rewrite plus_INR; cbn [INR]; field; lra). apply Rabs_pos_eq. unfold Rdiv. apply Rmult_le_pos; lra. }
      rewrite U1 in B1. rewrite U2 in B2. eapply Rle_trans; [apply Rabs_triang|]. rewrite !Rabs_mult, (Rabs_pos_eq w), (Rabs_pos_eq (1 - w)) by lra.
      apply Rle_trans with ((1 - w) * (K * (w / INR (n - 1))) + w * (K * ((1 - w) / INR (n - 1)))); [apply Rplus_le_compat; apply Rmult_le_compat_l; lra|].
      replace ((1 - w) * (K * (w / INR (n - 1))) + w * (K * ((1 - w) / INR (n - 1)))) with ((K / INR (n - 1)) * (2 * w * (1 - w))) by (field; lra).
      replace (K / (2 * INR (n - 1))) with ((K / INR (n - 1)) * / 2) by (field; lra). apply Rmult_le_compat_l; [unfold Rdiv; apply Rmult_le_pos; lra|].
      pose proof (Rle_0_sqr (w - / 2)) as Sq. unfold Rsqr in Sq. lra.
    - intros (p & q & Hpq). replace (d + E) with (d + 0 + E) by ring. apply Tri. right. unfold F0, F1. rewrite !Hpq.
      replace ((1 - w) * (p * (INR k / INR (n - 1)) + q) + w * (p * (INR (k + 1) / INR (n - 1)) + q) - (p * u + q)) with 0; [apply Rabs_R0|].
      unfold w. rewrite plus_INR. cbn [INR]. field. lra.
  Qed.
End Linear.

Section Identity.
  Variable L : libm.
  #[local] Hint Extern 0 (Num fl) => exact (ieeeNum L) : typeclass_instances.

  Theorem identity_error c id tid ch n dIn dOut : (2 <= n)%nat -> (Z.of_nat n <= 2 ^ 50)%Z -> (ch = 1 \/ ch = 3)%nat ->
    exists node g, simpleSampledLUT id tid ch n (fun x : fl => x) dIn dOut = Ok node /\ actsPerChannel c node g /\
      forall i x, (i < 3)%nat -> is_finite x = true -> 0 <= B2R x <= fullScale dIn ->
        is_finite (g i x) = true /\ Rabs (B2R (g i x) - B2R x / fullScale dIn) <= 5 * bpow radix2 (-23).
  Proof.
    intros Hn Hm Hch. assert (P : 0 < INR (n - 1)) by (apply lt_0_INR; lia). assert (Pi : 0 < / INR (n - 1)) by now apply Rinv_0_lt_compat.
    assert (I1 : INR (n - 1) <= bpow radix2 50).
    { rewrite INR_IZR_INZ. replace (bpow radix2 50) with (IZR (2 ^ 50)) by reflexivity. apply IZR_le. lia. }
    assert (P23 : bpow radix2 (-23) = / 8388608) by reflexivity.
    assert (P54 : bpow radix2 (-54) = bpow radix2 (-23) * / 2147483648) by (change (-54)%Z with (-23 + -31)%Z; rewrite bpow_plus; reflexivity).
    assert (P148 : 0 < bpow radix2 (-148) <= bpow radix2 (-54)) by (split; [apply bpow_gt_0|apply bpow_le; lia]).
    destruct (sampled_error L c id tid ch n (fun x : fl => x) (fun x => x) dIn dOut (bpow radix2 (-54)) 1 1 Hn Hm Hch) as (node & g & E & A & H).
    - lra.
    - intros k Hk. cbv zeta. destruct (ofZ_exact L (Z.of_nat n - 1)) as [Fn En]; [lia|]. destruct (ofZ_exact L (Z.of_nat k)) as [Fk Ek]; [lia|].
      rewrite (INR_pred n) in En by lia. rewrite <- INR_IZR_INZ in Ek.
      assert (Rd : Rounds (p := 53) (e := 1024) (ndiv (nofZ (Z.of_nat k)) (nofZ (Z.of_nat n - 1)) : fl) (INR k / INR (n - 1))) by (rewrite <- Ek, <- En; apply div_Rounds; try assumption; lra).
      assert (Un : 0 <= INR k / INR (n - 1) <= 1).
      { unfold Rdiv. split; [apply Rmult_le_pos; [apply pos_INR|lra]|]. rewrite <- (Rinv_r (INR (n - 1))) by lra. apply Rmult_le_compat_r; [lra|]. apply le_INR. lia. }
      destruct (Rounds_finite _ _ 0 Rd) as [F Er]; [rewrite Rabs_pos_eq by lra; change (bpow radix2 0) with 1; lra|lia|lia|]. split; [exact F|]. rewrite Er.
      apply (rnd_half (p := 53) (e := 1024) 0); [rewrite Rabs_pos_eq by lra; change (bpow radix2 0) with 1; lra|lia].
    - intros x Hx. rewrite Rabs_pos_eq; lra.
    - intros x y _ _. lra.
    - apply Rle_trans with (bpow radix2 1); [change (bpow radix2 1) with 2; rewrite P54, P23; lra|apply bpow_le; lia].
    - exists node, g. split; [exact E|]. split; [exact A|]. intros i x Hi Fx Hx. destruct (H i x Hi Fx Hx) as (F & _ & B). split; [exact F|].
      eapply Rle_trans; [apply B; exists 1, 0; intro; ring|]. unfold unit32.
      assert (Q : INR (n - 1) * bpow radix2 (-54) <= / 16).
      { replace (/ 16) with (bpow radix2 50 * bpow radix2 (-54)) by (rewrite <- bpow_plus; reflexivity). apply Rmult_le_compat_r; [apply bpow_ge_0|exact I1]. }
      assert (Q0 : bpow radix2 (-23) * (1 + bpow radix2 (-54) + 1 + 2 * INR (n - 1) * bpow radix2 (-54)) <= bpow radix2 (-23) * (17 / 8 + / 1000)).
      { apply Rmult_le_compat_l; [apply bpow_ge_0|]. assert (bpow radix2 (-54) <= / 1000) by (rewrite P54, P23; lra). lra. }
      rewrite P54 in *. pose proof (bpow_gt_0 radix2 (-23)). lra.
  Qed.
End Identity.

(** * Cubes *)
Section Cube.
  Context {T : Type} {N : Num T}.
  Variable pos : nat -> T.

  Lemma slice_fill (G : nat -> T) total q (vs : list T) :
    (3 * q + 3 <= total)%nat -> List.length vs = 3%nat -> (forall c, (c < 3)%nat -> nth c vs n0 = G (3 * q + c)%nat) ->
    pySliceSet (filled G total (3 * q)) (3 * q) (3 * q + 3) vs = filled G total (3 * (q + 1)).
  Proof.
    intros H Hl Hv. destruct vs as [|u [|v [|w [|]]]]; try discriminate.
    pose proof (Hv 0%nat ltac:(lia)) as V0. pose proof (Hv 1%nat ltac:(lia)) as V1. pose proof (Hv 2%nat ltac:(lia)) as V2. cbn [nth] in V0, V1, V2.
    subst. unfold pySliceSet, filled.
    rewrite firstn_app, map_length, seq_length, Nat.sub_diag, firstn_O, app_nil_r.
    rewrite firstn_all2 by (rewrite map_length, seq_length; lia).
    rewrite skipn_app, map_length, seq_length. rewrite skipn_all2 by (rewrite map_length, seq_length; lia).
    replace (3 * q + 3 - 3 * q)%nat with 3%nat by lia.
    replace (total - 3 * q)%nat with (S (S (S (total - 3 * (q + 1))))) by lia. cbn [repeat skipn app].
    replace (3 * (q + 1))%nat with (S (S (S (3 * q)))) by lia. rewrite !seq_S, !map_app, <- !app_assoc. cbn [map app].
    replace (0 + 3 * q)%nat with (3 * q + 0)%nat by lia. replace (0 + S (3 * q))%nat with (3 * q + 1)%nat by lia.
    replace (0 + S (S (3 * q)))%nat with (3 * q + 2)%nat by lia.
    replace (S (S (S (total - 3 * (q + 1)))) - 3)%nat with (total - 3 * (q + 1))%nat by lia.
    replace (total - S (S (S (3 * q))))%nat with (total - 3 * (q + 1))%nat by lia. reflexivity.
  Qed.

  Definition cubeAt (n : nat) (f : T -> T -> T -> list T) (p : nat) : T :=
    let q := (p / 3)%nat in nth (p mod 3) (f (pos (q / n / n)%nat) (pos ((q / n) mod n)%nat) (pos (q mod n)%nat)) n0.
  Lemma cubeAt_at n f x y z c : (x < n)%nat -> (y < n)%nat -> (z < n)%nat -> (c < 3)%nat ->
    cubeAt n f (3 * ((x * n + y) * n + z) + c) = nth c (f (pos x) (pos y) (pos z)) n0.
  Proof.
    intros Hx Hy Hz Hc. unfold cubeAt. rewrite (Nat.mul_comm 3). cbv zeta.
    rewrite div_add_small by assumption. rewrite (Nat.add_comm _ c), Nat.mod_add, (Nat.mod_small c 3) by lia.
    rewrite div_add_small by assumption. rewrite div_add_small by assumption.
    rewrite (Nat.add_comm (x * n) y), Nat.mod_add, (Nat.mod_small y) by lia.
    rewrite (Nat.add_comm _ z), Nat.mod_add, (Nat.mod_small z) by lia. reflexivity.
  Qed.

  Lemma table3D_cube n (f : T -> T -> T -> list T) : (forall i, samplePos i n = Ok (pos i)) -> (forall r g b, List.length (f r g b) = 3%nat) ->
    table3D n n n f = Ok (map (cubeAt n f) (seq 0 (n * n * n * 3))).
  Proof.
    intros Hp Hf. unfold table3D.
    rewrite <- (filled_start (cubeAt n f)), <- filled_end. set (total := (n * n * n * 3)%nat).
    replace (filled (cubeAt n f) total total) with (filled (cubeAt n f) total (3 * (n * n * n))) by (f_equal; unfold total; lia).
    change (filled (cubeAt n f) total 0) with ((fun x => filled (cubeAt n f) total (3 * (x * n * n))) 0%nat).
    replace (n * n * n)%nat with (n * n * n)%nat by lia.
    apply (PLut3DMore.advance (fun x => filled (cubeAt n f) total (3 * (x * n * n)))). intros x Hx. rewrite Hp. cbn [bind].
    replace (filled (cubeAt n f) total (3 * (x * n * n))) with ((fun y => filled (cubeAt n f) total (3 * ((x * n + y) * n))) 0%nat)
      by (cbv beta; f_equal; lia).
    replace (filled (cubeAt n f) total (3 * ((x + 1) * n * n))) with ((fun y => filled (cubeAt n f) total (3 * ((x * n + y) * n))) n)
      by (cbv beta; f_equal; lia).
    apply (PLut3DMore.advance (fun y => filled (cubeAt n f) total (3 * ((x * n + y) * n)))). intros y Hy. rewrite Hp. cbn [bind].
    replace (filled (cubeAt n f) total (3 * ((x * n + y) * n))) with ((fun z => filled (cubeAt n f) total (3 * ((x * n + y) * n + z))) 0%nat)
      by (cbv beta; f_equal; lia).
    replace (filled (cubeAt n f) total (3 * ((x * n + (y + 1)) * n))) with ((fun z => filled (cubeAt n f) total (3 * ((x * n + y) * n + z))) n)
      by (cbv beta; f_equal; lia).
    apply (PLut3DMore.advance (fun z => filled (cubeAt n f) total (3 * ((x * n + y) * n + z)))). intros z Hz. rewrite Hp. cbn [bind].
    f_equal. rewrite (Nat.mul_comm _ 3). rewrite slice_fill; [f_equal; lia| |apply Hf|].
    - unfold total. nia.
    - intros c Hc. symmetry. now apply cubeAt_at.
  Qed.
End Cube.

Section CubeNode.
  Variable L : libm.
  #[local] Hint Extern 0 (Num fl) => exact (ieeeNum L) : typeclass_instances.

  Theorem cube_table id tid n (f : fl -> fl -> fl -> list fl) dIn dOut : (2 <= n)%nat -> (Z.of_nat n <= 2 ^ 53)%Z -> (forall r g b, List.length (f r g b) = 3%nat) ->
    let pos i : fl := ndiv (nofZ (Z.of_nat i)) (nofZ (Z.of_nat n - 1)) in
    exists h a, simple3DLUT id tid n n n f dIn dOut = Ok (Node h BLUT3D) /\ isCube h "trilinear" dIn a n /\
      forall i j k ch, (i < n)%nat -> (j < n)%nat -> (k < n)%nat -> (ch < 3)%nat -> entry3D a n i j k ch = nth ch (f (pos i) (pos j) (pos k)) n0.
  Proof.
    intros Hn Hm Hf pos. unfold simple3DLUT. rewrite (table3D_cube pos n f) by (try assumption; intro i; now apply samplePos_ieee). cbn [bind].
    set (vals := map _ _). eexists. exists (mkArray ([n; n; n] ++ [3%nat]) vals false (outIsInteger (newLUT3D (T := fl) dIn dOut id tid (AStr "trilinear"))) "string").
    split; [reflexivity|]. split.
    - split; [reflexivity|]. split; [eexists; reflexivity|]. split; [reflexivity|]. split; [reflexivity|]. split; [|reflexivity].
      split; [eexists; reflexivity|]. split; [lia|]. cbn [a_vals mkArray]. unfold vals. now rewrite map_length, seq_length.
    - intros i j k ch Hi Hj Hk Hc. rewrite <- (cubeAt_at pos n f) by assumption. unfold entry3D. cbn [a_vals mkArray]. unfold vals.
      apply nth_error_nth. rewrite nth_error_map.
      replace (((i * n + j) * n + k) * 3 + ch)%nat with (3 * ((i * n + j) * n + k) + ch)%nat by lia.
      rewrite (nth_error_nth' _ 0%nat) by (rewrite seq_length; nia). rewrite seq_nth by nia. reflexivity.
  Qed.

  Theorem uneven_place :
    exists r0 r1 r2 r g b (f : fl -> fl -> fl -> list fl) h a, (2 <= r0)%nat /\ (2 <= r1)%nat /\ (2 <= r2)%nat /\ (r < r0)%nat /\ (g < r1)%nat /\ (b < r2)%nat /\
      (forall x y z, List.length (f x y z) = 3%nat) /\
      simple3DLUT (AStr "i") (AStr "i") r0 r1 r2 f (AStr "16f") (AStr "16f") = Ok (Node h BLUT3D) /\ lastArray (h_elems h) = Some a /\ a_dims a = [r0; r1; r2; 3]%nat /\
      let pos i n : fl := ndiv (nofZ (Z.of_nat i)) (nofZ (Z.of_nat n - 1)) in
      let at_ := (((r * r1 + g) * r2 + b) * 3)%nat in
      slice (a_vals a) at_ (at_ + 3) <> f (pos r r0) (pos g r1) (pos b r2).
  Proof.
    exists 2%nat, 3%nat, 3%nat, 0%nat, 2%nat, 0%nat, (fun r g b : fl => [r; g; b]). eexists. eexists.
    split; [lia|]. split; [lia|]. split; [lia|]. split; [lia|]. split; [lia|]. split; [lia|]. split; [reflexivity|].
    split; [reflexivity|]. split; [reflexivity|]. split; [reflexivity|]. cbv zeta. intro H.
    apply (f_equal (fun l : list fl => match l with B754_zero _ :: _ => true | _ => false end)) in H. vm_compute in H. discriminate.
  Qed.
  Theorem uneven_length :
    exists r0 r1 r2 (f : fl -> fl -> fl -> list fl) h a, (2 <= r0)%nat /\ (2 <= r1)%nat /\ (2 <= r2)%nat /\ (forall x y z, List.length (f x y z) = 3%nat) /\
      simple3DLUT (AStr "i") (AStr "i") r0 r1 r2 f (AStr "16f") (AStr "16f") = Ok (Node h BLUT3D) /\ lastArray (h_elems h) = Some a /\ a_dims a = [r0; r1; r2; 3]%nat /\
      List.length (a_vals a) <> (r0 * r1 * r2 * 3)%nat.
  Proof.
    exists 3%nat, 2%nat, 2%nat, (fun r g b : fl => [r; g; b]). eexists. eexists. split; [lia|]. split; [lia|]. split; [lia|]. split; [reflexivity|].
    split; [reflexivity|]. split; [reflexivity|]. split; [reflexivity|]. vm_compute. discriminate.
  Qed.
End CubeNode.
