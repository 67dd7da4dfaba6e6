(** Code values through changes of depth. *)
From Coq Require Import Reals Lra Lia ZArith List String Psatz.
From Flocq Require Import Core BinarySingleNaN.
From Verif Require Import SpecCode NumF PBase PChain PIeee PIeeeArith PIeeeRange PRound.
Local Open Scope R_scope.

(** A number close to an integer of less than 24 bits rounds to it. *)
Lemma rnd_integer e k r : (0 <= e < 23)%Z -> (2 ^ e < k < 2 ^ (e + 1))%Z -> Rabs (r - IZR k) < bpow radix2 (e - 24) -> rnd (p := 24) (e := 128) r = IZR k.
Proof.
  intros He Hk B.
  assert (P : bpow radix2 e = IZR (2 ^ e)) by (rewrite <- (IZR_Zpower radix2 e) by lia; reflexivity).
  assert (P1 : bpow radix2 (e + 1) = IZR (2 ^ (e + 1))) by (rewrite <- (IZR_Zpower radix2 (e + 1)) by lia; reflexivity).
  assert (W : IZR (2 ^ (23 - e)) = bpow radix2 (23 - e)) by (rewrite <- (IZR_Zpower radix2 (23 - e)) by lia; reflexivity).
  assert (K1 : IZR (2 ^ e) + 1 <= IZR k) by (rewrite <- plus_IZR; apply IZR_le; lia).
  assert (K2 : IZR k + 1 <= IZR (2 ^ (e + 1))) by (rewrite <- plus_IZR; apply IZR_le; lia).
  assert (S : bpow radix2 (e - 24) <= / 2) by (change (/ 2) with (bpow radix2 (-1)); apply bpow_le; lia).
  apply Rabs_def2 in B. pose proof (bpow_gt_0 radix2 e).
  assert (M : mag radix2 r = (e + 1)%Z :> Z).
  { apply mag_unique. rewrite Rabs_pos_eq by lra. replace (e + 1 - 1)%Z with e by lia. lra. }
  assert (C : cexp radix2 (SpecFloat.fexp 24 128) r = (e - 23)%Z) by (unfold cexp, SpecFloat.fexp, SpecFloat.emin; rewrite M; lia).
  unfold rnd, round, scaled_mantissa. rewrite C.
  assert (Z : ZnearestE (r * bpow radix2 (- (e - 23))) = (k * 2 ^ (23 - e))%Z).
  { apply Znearest_imp. rewrite mult_IZR. rewrite W.
    replace (- (e - 23))%Z with (23 - e)%Z by lia. rewrite <- Rmult_minus_distr_r, Rabs_mult, (Rabs_pos_eq (bpow _ _)) by apply bpow_ge_0.
    apply Rlt_le_trans with (bpow radix2 (e - 24) * bpow radix2 (23 - e)).
    - apply Rmult_lt_compat_r; [apply bpow_gt_0|]. apply Rabs_def1; lra.
    - rewrite <- bpow_plus. replace (e - 24 + (23 - e))%Z with (-1)%Z by lia. right. reflexivity. }
  rewrite Z. unfold F2R. cbn [Fnum Fexp]. rewrite mult_IZR. rewrite W.
  rewrite Rmult_assoc, <- bpow_plus. replace (23 - e + (e - 23))%Z with 0%Z by lia. change (bpow radix2 0) with 1. ring.
Qed.

Section Codes.
  Variable L : libm.
  #[local] Instance NL : Num fl := ieeeNum L.
  Notation "'code' k" := (@nofZ fl (ieeeNum L) k) (at level 9).
  Notation store32 x := (@nf32 fl (ieeeNum L) x).

  Definition thereAndBack (s : Z) (k : Z) : fl := store32 (nmul (store32 (ndiv (code k) (code s))) (code s)).

  Lemma same_number (z : fl) k : (0 < k < 2 ^ 53)%Z -> is_finite z = true -> B2R z = IZR k -> z = code k.
  Proof.
    intros Hk F E. destruct (ofZ_exact L k) as [Fk Ek]; [lia|]. assert (P : 0 < IZR k) by (apply IZR_lt; lia).
    apply B2R_inj; [| |congruence].
    - destruct z; try discriminate; [cbn in E; lra|reflexivity].
    - destruct (code k); try discriminate; [cbn in Ek; lra|reflexivity].
  Qed.
  Lemma between_powers n e k : (8 <= n <= 16)%Z -> (0 <= e)%Z -> (2 ^ e < k < 2 ^ (e + 1))%Z -> (k < 2 ^ n - 1)%Z -> thereAndBack (2 ^ n - 1) k = code k.
  Proof.
    intros Hn He Hk Hs. unfold thereAndBack.
    assert (En : (e < n)%Z) by (apply (Z.pow_lt_mono_r_iff 2); lia).
    assert (N16 : (2 ^ n <= 2 ^ 16)%Z) by (apply Z.pow_le_mono_r; lia). assert (N8 : (2 ^ 8 <= 2 ^ n)%Z) by (apply Z.pow_le_mono_r; lia).
    set (s := (2 ^ n - 1)%Z) in *.
    destruct (ofZ_exact L k) as [Fk Ek]; [lia|]. destruct (ofZ_exact L s) as [Fs Es]; [lia|].
    assert (Pn : bpow radix2 n = IZR s + 1) by (rewrite <- (IZR_Zpower radix2 n) by lia; unfold s; rewrite <- plus_IZR; f_equal; change (radix_val radix2) with 2%Z; lia).
    assert (Ps : 255 <= IZR s) by (apply IZR_le; lia).
    assert (Pe : bpow radix2 (e + 1) = IZR (2 ^ (e + 1))) by (rewrite <- (IZR_Zpower radix2 (e + 1)) by lia; reflexivity).
    assert (K0 : 0 < IZR k) by (apply IZR_lt; lia). assert (Ks : IZR k + 1 <= IZR s) by (rewrite <- plus_IZR; apply IZR_le; lia).
    assert (K2 : IZR k + 1 <= bpow radix2 (e + 1)) by (rewrite Pe, <- plus_IZR; apply IZR_le; lia).
    (* k / s below 2^(e+1-n) *)
    assert (Q : IZR k / IZR s <= bpow radix2 (e + 1 - n)).
    { unfold Z.sub. rewrite bpow_plus, bpow_opp, Pn.
      assert (X : IZR k * (IZR s + 1) <= bpow radix2 (e + 1) * IZR s).
      { destruct (Z.eq_dec (e + 1) n) as [->|Ne]; [rewrite Pn; nra|].
        assert (bpow radix2 (e + 1) <= IZR s).
        { assert (2 * bpow radix2 (e + 1) <= bpow radix2 n) by (change 2 with (bpow radix2 1); rewrite <- bpow_plus; apply bpow_le; lia).
          pose proof (bpow_gt_0 radix2 (e + 1)). lra. }
        nra. }
      apply Rmult_le_reg_r with (IZR s * (IZR s + 1)); [nra|]. replace (IZR k / IZR s * (IZR s * (IZR s + 1))) with (IZR k * (IZR s + 1)) by (field; lra).
      replace (bpow radix2 (e + 1) * / (IZR s + 1) * (IZR s * (IZR s + 1))) with (bpow radix2 (e + 1) * IZR s) by (field; lra). exact X. }
    assert (Q0 : 0 < IZR k / IZR s) by (apply Rdiv_lt_0_compat; lra).
    (* the quotient *)
    assert (R1 : Rounds (ndiv (code k) (code s)) (IZR k / IZR s)).
    { rewrite <- Ek, <- Es. apply div_Rounds; [exact Fk|exact Fs|]. rewrite Es. lra. }
    set (q := ndiv (code k) (code s)) in *.
    destruct (Rounds_finite _ _ (e + 1 - n) R1) as [Fq Eq]; [rewrite Rabs_pos_eq; lra|lia|lia|].
    assert (H1 := rnd_half (p := 53) (e := 1024) (e + 1 - n) (IZR k / IZR s) ltac:(rewrite Rabs_pos_eq; lra) ltac:(lia)). rewrite <- Eq in H1.
    assert (Bq : Rabs (B2R q) <= bpow radix2 (e + 1 - n)).
    { rewrite Eq. apply abs_round_le_generic; [apply fexp_valid|apply valid_rnd_N| |rewrite Rabs_pos_eq; lra].
      apply generic_format_bpow. unfold SpecFloat.fexp, SpecFloat.emin. lia. }
    destruct (f32_finite q (e + 1 - n) Fq Bq) as [Fa Ea]; [lia|lia|].
    assert (H2 := rnd_half (p := 24) (e := 128) (e + 1 - n) (B2R q) Bq ltac:(lia)). rewrite <- Ea in H2.
    change (f64 (f32of q)) with (store32 q) in *. set (a := store32 q) in *.
    assert (Ba : Rabs (B2R a) <= bpow radix2 (e + 1 - n)).
    { rewrite Ea. apply abs_round_le_generic; [apply fexp_valid|apply valid_rnd_N| |exact Bq].
      apply generic_format_bpow. unfold SpecFloat.fexp, SpecFloat.emin. lia. }
    (* the product *)
    assert (Bp : Rabs (B2R a * IZR s) <= bpow radix2 (e + 1)).
    { rewrite Rabs_mult, (Rabs_pos_eq (IZR s)) by lra. apply Rle_trans with (bpow radix2 (e + 1 - n) * bpow radix2 n).
      - apply Rmult_le_compat; [apply Rabs_pos|lra|exact Ba|lra].
      - rewrite <- bpow_plus. apply bpow_le. lia. }
    assert (R3 : Rounds (nmul a (code s)) (B2R a * IZR s)) by (rewrite <- Es; apply mult_Rounds; assumption).
    set (b := nmul a (code s)) in *.
    destruct (Rounds_finite _ _ (e + 1) R3 Bp) as [Fb Eb]; [lia|lia|].
    assert (H3 := rnd_half (p := 53) (e := 1024) (e + 1) (B2R a * IZR s) Bp ltac:(lia)). rewrite <- Eb in H3.
    assert (Bb : Rabs (B2R b) <= bpow radix2 (e + 1)).
    { rewrite Eb. apply abs_round_le_generic; [apply fexp_valid|apply valid_rnd_N| |exact Bp].
      apply generic_format_bpow. unfold SpecFloat.fexp, SpecFloat.emin. lia. }
    destruct (f32_finite b (e + 1) Fb Bb) as [Fz Ez]; [lia|lia|].
    apply same_number; [lia|exact Fz|].
    change (store32 b) with (f64 (f32of b)). rewrite Ez. apply (rnd_integer e); [lia|exact Hk|].
    (* adding up *)
    replace (e + 1 - n - 53 - 1)%Z with (e - n - 53)%Z in H1 by lia. replace (e + 1 - n - 24 - 1)%Z with (e - n - 24)%Z in H2 by lia.
    replace (e + 1 - 53 - 1)%Z with (e - 53)%Z in H3 by lia.
    assert (T1 : Rabs (B2R a * IZR s - IZR k) <= (bpow radix2 n - 1) * (bpow radix2 (e - n - 53) + bpow radix2 (e - n - 24))).
    { replace (bpow radix2 n - 1) with (IZR s) by lra. replace (B2R a * IZR s - IZR k) with (IZR s * ((B2R q - IZR k / IZR s) + (B2R a - B2R q))) by (field; lra).
      rewrite Rabs_mult, (Rabs_pos_eq (IZR s)) by lra. apply Rmult_le_compat_l; [lra|]. eapply Rle_trans; [apply Rabs_triang|]. lra. }
    replace (B2R b - IZR k) with ((B2R b - B2R a * IZR s) + (B2R a * IZR s - IZR k)) by ring.
    eapply Rle_lt_trans; [apply Rabs_triang|].
    set (X := bpow radix2 (e - n - 53)) in *.
    assert (E24 : bpow radix2 (e - n - 24) = bpow radix2 29 * X) by (unfold X; rewrite <- bpow_plus; f_equal; lia).
    assert (E53 : bpow radix2 (e - 53) = bpow radix2 n * X) by (unfold X; rewrite <- bpow_plus; f_equal; lia).
    assert (EG : bpow radix2 (e - 24) = bpow radix2 29 * (bpow radix2 n * X)) by (unfold X; rewrite <- !bpow_plus; f_equal; lia).
    assert (X0 : 0 < X) by apply bpow_gt_0.
    assert (N : bpow radix2 n <= 65536) by (rewrite Pn; replace 65536 with (65535 + 1) by lra; apply Rplus_le_compat_r; apply IZR_le; lia).
    assert (P29 : bpow radix2 29 = 536870912) by reflexivity.
    rewrite E24 in T1. rewrite E53 in H3. rewrite EG, P29 in *.
    set (nn := bpow radix2 n) in *. clearbody nn X. assert (nn * X <= 65536 * X) by (apply Rmult_le_compat_r; lra). lra.
  Qed.

  (** Computed cases. *)
  Definition sameCode (z : fl) (k : Z) : bool := is_finite z && Beqb z (code k) && Bool.eqb (Bsign z) false.
  Lemma sameCode_eq z k : (0 <= k < 2 ^ 53)%Z -> sameCode z k = true -> z = code k.
  Proof.
    intros Hk H. unfold sameCode in H. apply andb_true_iff in H as [H S]. apply andb_true_iff in H as [F E]. apply Bool.eqb_prop in S.
    destruct (ofZ_exact L k) as [Fk Ek]; [lia|]. rewrite Beqb_correct in E by assumption.
    assert (E' : B2R z = B2R (code k)) by (revert E; case Req_bool_spec; [auto|discriminate]).
    destruct (Z.eq_dec k 0) as [->|Nz].
    - change (code 0) with (B754_zero false : fl) in *. destruct z as [s|s| |s m e B]; try discriminate.
      + cbn in S. now subst s.
      + exfalso. cbn in E', S. subst s. revert E'. unfold F2R. cbn [Fnum Fexp cond_Zopp]. pose proof (bpow_gt_0 radix2 e).
        assert (0 < IZR (Zpos m)) by (apply IZR_lt; reflexivity). nra.
    - apply same_number; [lia|exact F|congruence].
  Qed.
  Definition ends (n : Z) : bool :=
    sameCode (thereAndBack (2 ^ n - 1) 0) 0 && sameCode (thereAndBack (2 ^ n - 1) (2 ^ n - 1)) (2 ^ n - 1) &&
    forallb (fun e => sameCode (thereAndBack (2 ^ n - 1) (2 ^ Z.of_nat e)) (2 ^ Z.of_nat e)) (seq 0 (Z.to_nat n)).
  Lemma ends_ok : ends 8 && ends 10 && ends 12 && ends 16 = true.
  Proof. vm_cast_no_check (eq_refl true). Qed.
  Lemma there_and_back n k : In n [8; 10; 12; 16]%Z -> isCode (2 ^ n - 1) k -> thereAndBack (2 ^ n - 1) k = code k.
  Proof.
    intros Hn Hk. assert (E : ends n = true).
    { pose proof ends_ok as E. rewrite !andb_true_iff in E. destruct E as [[[E1 E2] E3] E4]. destruct Hn as [<-|[<-|[<-|[<-|[]]]]]; assumption. }
    assert (B : (8 <= n <= 16)%Z) by (destruct Hn as [<-|[<-|[<-|[<-|[]]]]]; lia).
    assert (N16 : (2 ^ n <= 2 ^ 16)%Z) by (apply Z.pow_le_mono_r; lia). unfold isCode in Hk.
    unfold ends in E. rewrite !andb_true_iff in E. destruct E as [[E0 E1] E2]. rewrite forallb_forall in E2.
    destruct (Z.eq_dec k 0) as [->|N0]; [apply sameCode_eq; [lia|exact E0]|].
    destruct (Z.eq_dec k (2 ^ n - 1)) as [->|N1]; [apply sameCode_eq; [lia|exact E1]|].
    pose proof (Z.log2_spec k ltac:(lia)) as [G1 G2]. pose proof (Z.log2_nonneg k) as G0. set (e := Z.log2 k) in *. clearbody e.
    destruct (Z.eq_dec k (2 ^ e)) as [Ee|Ne].
    - apply sameCode_eq; [lia|]. assert (Lt : (e < n)%Z) by (apply (Z.pow_lt_mono_r_iff 2); lia).
      specialize (E2 (Z.to_nat e)). rewrite Z2Nat.id in E2 by exact G0. rewrite <- Ee in E2. apply E2. apply in_seq. lia.
    - apply (between_powers n e); lia.
  Qed.

  (** Through a larger integer depth. *)
  Definition through (s t : Z) (x : fl) : fl := store32 (nmul (store32 (ndiv x (code s))) (code t)).
  Fixpoint allCodes (n : nat) (k : Z) (p : Z -> bool) : bool := match n with O => true | S m => if p k then allCodes m (k + 1) p else false end.
  Lemma allCodes_in n k p i : allCodes n k p = true -> (k <= i < k + Z.of_nat n)%Z -> p i = true.
  Proof.
    revert k. induction n as [|n IH]; intros k H Hi; [lia|]. cbn [allCodes] in H. destruct (p k) eqn:E; [|discriminate].
    destruct (Z.eq_dec i k) as [->|N]; [exact E|]. apply (IH (k + 1)%Z H). lia.
  Qed.
  Definition survives (s t : Z) (k : Z) : bool := sameCode (through t s (through s t (code k))) k.
  Lemma wide8 : allCodes 256 0 (fun k => survives 255 1023 k && survives 255 4095 k && survives 255 65535 k) = true.
  Proof. vm_cast_no_check (eq_refl true). Qed.
  Lemma wide10 : allCodes 1024 0 (fun k => survives 1023 4095 k && survives 1023 65535 k) = true.
  Proof. vm_cast_no_check (eq_refl true). Qed.
  Lemma wide12 : allCodes 4096 0 (survives 4095 65535) = true.
  Proof. vm_cast_no_check (eq_refl true). Qed.
  Lemma nat12 : Z.of_nat 4096 = 4096%Z.
  Proof. vm_compute. reflexivity. Qed.
  Lemma survives_eq s t k : isCode s k -> (s <= 4095)%Z -> survives s t k = true -> through t s (through s t (code k)) = code k.
  Proof. intros [H0 H1] H2 H. apply sameCode_eq; [clear H; lia|exact H]. Qed.
  Lemma wide s t k : In (s, t) [(255, 1023); (255, 4095); (255, 65535); (1023, 4095); (1023, 65535); (4095, 65535)]%Z -> isCode s k ->
    through t s (through s t (code k)) = code k.
  Proof.
    intros Hp Hk. destruct Hp as [E|[E|[E|[E|[E|[E|[]]]]]]]; injection E as <- <-; apply survives_eq; try exact Hk; try lia; destruct Hk as [Hk0 Hk1].
    - exact (proj1 (andb_prop _ _ (proj1 (andb_prop _ _ (allCodes_in 256 0 _ k wide8 ltac:(lia)))))).
    - exact (proj2 (andb_prop _ _ (proj1 (andb_prop _ _ (allCodes_in 256 0 _ k wide8 ltac:(lia)))))).
    - exact (proj2 (andb_prop _ _ (allCodes_in 256 0 _ k wide8 ltac:(lia)))).
    - exact (proj1 (andb_prop _ _ (allCodes_in 1024 0 _ k wide10 ltac:(lia)))).
    - exact (proj2 (andb_prop _ _ (allCodes_in 1024 0 _ k wide10 ltac:(lia)))).
    - refine (allCodes_in 4096 0 _ k wide12 _). rewrite nat12. lia.
  Qed.
  Lemma eight_ok : allCodes 256 0 (fun k => sameCode (through 255 65535 (code k)) (257 * k)) = true.
  Proof. vm_cast_no_check (eq_refl true). Qed.

  (** * Nodes *)
  Lemma f32_twice (x : fl) : store32 (store32 x) = store32 x.
  Proof. cbn [nf32 ieeeNum]. unfold f64, f32of. rewrite (narrow_widen (p2:=53) (e2:=1024) (toFormat 24 128 x)) by lia. reflexivity. Qed.
  Definition change1 (d d' : aval) (x : fl) : fl := store32 (normalizedToBitDepth (store32 (bitDepthToNormalized x d)) d').
  Lemma change_acts c d d' : actsPerSample c (depthChange d d') (change1 d d').
  Proof.
    intros st values.
    assert (E : rangeFun (nheader (depthChange d d')) = Ok (fun x => Ok (change1 d d' x))) by reflexivity.
    change (depthChange d d') with (Node (nheader (depthChange d d')) (BRange (T := fl))). cbn [nodeProcess]. rewrite rangeProcess_elem, E. cbn [bind].
    assert (M : mapM (fun x => Ok (change1 d d' x)) values = Ok (map (change1 d d') values)).
    { induction values as [|x t IH]; [reflexivity|]. cbn [mapM bind map]. now rewrite IH. }
    rewrite M. reflexivity.
  Qed.
  Lemma depth_cases d s : largestCode d = Some s -> exists n, In n [8; 10; 12; 16]%Z /\ s = (2 ^ n - 1)%Z /\
    (forall x : fl, bitDepthToNormalized x d = ndiv x (code s) /\ normalizedToBitDepth x d = nmul x (code s)).
  Proof.
    intro H. destruct d as [t| |]; try discriminate. unfold bitDepthToNormalized, normalizedToBitDepth, aval_eqb.
    destruct (String.eqb_spec t "8i") as [->|N1]; [injection H as <-; exists 8%Z; split; [left; reflexivity|split; [reflexivity|intro x; split; reflexivity]]|].
    destruct (String.eqb_spec t "10i") as [->|N2]; [injection H as <-; exists 10%Z; split; [right; left; reflexivity|split; [reflexivity|intro x; split; reflexivity]]|].
    destruct (String.eqb_spec t "12i") as [->|N3]; [injection H as <-; exists 12%Z; split; [right; right; left; reflexivity|split; [reflexivity|intro x; split; reflexivity]]|].
    destruct (String.eqb_spec t "16i") as [->|N4]; [injection H as <-; exists 16%Z; split; [right; right; right; left; reflexivity|split; [reflexivity|intro x; split; reflexivity]]|].
    exfalso. revert H. cbn [largestCode].
    repeat (match goal with |- context [match ?b with _ => _ end] => destruct b end; try discriminate; try congruence).
  Qed.
  Lemma depth_float d : largestCode d = None -> forall x : fl, bitDepthToNormalized x d = x /\ normalizedToBitDepth x d = x.
  Proof.
    intros H x. unfold bitDepthToNormalized, normalizedToBitDepth. destruct d as [t|b|]; [|split; reflexivity|split; reflexivity]. unfold aval_eqb.
    destruct (String.eqb_spec t "8i") as [->|N1]; [discriminate|].
    destruct (String.eqb_spec t "10i") as [->|N2]; [discriminate|].
    destruct (String.eqb_spec t "12i") as [->|N3]; [discriminate|].
    destruct (String.eqb_spec t "16i") as [->|N4]; [discriminate|]. split; reflexivity.
  Qed.
  Lemma change_code d s k : largestCode d = Some s -> isCode s k -> change1 d d (code k) = code k.
  Proof.
    intros H Hk. destruct (depth_cases d s H) as (n & Hn & -> & E). unfold change1. rewrite (proj1 (E _)), (proj2 (E _)). now apply there_and_back.
  Qed.
  Lemma change_back d d' s k : largestCode d = Some s -> (forall s', largestCode d' = Some s' -> (s <= s')%Z) -> isCode s k ->
    change1 d' d (change1 d d' (code k)) = code k.
  Proof.
    intros H H' Hk. destruct (depth_cases d s H) as (n & Hn & Es & E). destruct (largestCode d') as [s'|] eqn:Hd.
    - specialize (H' s' eq_refl). destruct (depth_cases d' s' Hd) as (n' & Hn' & Es' & E').
      destruct (Z.eq_dec s s') as [Ee|Ne].
      + assert (X : change1 d d' (code k) = code k).
        { unfold change1. rewrite (proj1 (E _)), (proj2 (E' _)), <- Ee, Es. apply there_and_back; [exact Hn|now rewrite <- Es]. }
        rewrite X. unfold change1. rewrite (proj1 (E' _)), (proj2 (E _)), <- Ee, Es. apply there_and_back; [exact Hn|now rewrite <- Es].
      + unfold change1. rewrite (proj1 (E _)), (proj2 (E' _)), (proj1 (E' _)), (proj2 (E _)). apply wide; [|exact Hk].
        clear E E' H Hd Hk. subst s s'. destruct Hn as [<-|[<-|[<-|[<-|[]]]]], Hn' as [<-|[<-|[<-|[<-|[]]]]]; cbn in *; try lia; auto 10.
    - unfold change1. rewrite (proj1 (E _)), (proj2 (E _)), (proj1 (depth_float d' Hd _)), (proj2 (depth_float d' Hd _)). rewrite !f32_twice.
      rewrite Es. apply there_and_back; [exact Hn|now rewrite <- Es].
  Qed.

  Theorem codes_kept c d s ks st : largestCode d = Some s -> Forall (isCode s) ks ->
    outcome (nodeProcess c (depthChange d d) (map (fun k => code k) ks) st) = Ok (map (fun k => code k) ks).
  Proof.
    intros H F. rewrite change_acts, map_map. f_equal. apply map_ext_in. intros k Hk. rewrite Forall_forall in F. exact (change_code d s k H (F k Hk)).
  Qed.
  Theorem codes_back c d d' s ks st o : largestCode d = Some s -> (forall s', largestCode d' = Some s' -> (s <= s')%Z) -> Forall (isCode s) ks ->
    nodeProcess c (depthChange d d') (map (fun k => code k) ks) st = Ok o ->
    outcome (nodeProcess c (depthChange d' d) (po_out o) st) = Ok (map (fun k => code k) ks).
  Proof.
    intros H H' F P. pose proof (change_acts c d d' st (map (fun k => code k) ks)) as A. rewrite P in A. cbn [outcome bind] in A. apply Ok_inj in A. rewrite A.
    rewrite change_acts, !map_map. f_equal. apply map_ext_in. intros k Hk. rewrite Forall_forall in F. exact (change_back d d' s k H H' (F k Hk)).
  Qed.
  Theorem codes_8_16 c ks st : Forall (isCode 255) ks ->
    outcome (nodeProcess c (depthChange (AStr "8i") (AStr "16i")) (map (fun k => code k) ks) st) = Ok (map (fun k => code (257 * k)) ks).
  Proof.
    intro F. rewrite change_acts, map_map. f_equal. apply map_ext_in. intros k Hk. rewrite Forall_forall in F. specialize (F k Hk). unfold isCode in F.
    apply sameCode_eq; [lia|]. exact (allCodes_in _ _ _ k eight_ok ltac:(lia)).
  Qed.

  Lemma narrow_bad : sameCode (through 255 1023 (through 1023 255 (code 999))) 999 = false.
  Proof. vm_cast_no_check (eq_refl false). Qed.
  Lemma same_refl : sameCode (code 999) 999 = true.
  Proof. vm_cast_no_check (eq_refl true). Qed.
  Theorem narrower : exists d d' s k c st o, largestCode d = Some s /\ isCode s k /\
    nodeProcess c (depthChange d d') [code k] st = Ok o /\ outcome (nodeProcess c (depthChange d' d) (po_out o) st) <> Ok [code k].
  Proof.
    exists (AStr "10i"), (AStr "8i"), 1023%Z, 999%Z, 0%Z, 1%nat.
    pose proof (change_acts 0%Z (AStr "10i") (AStr "8i") 1%nat [code 999]) as A.
    destruct (nodeProcess 0%Z (depthChange (AStr "10i") (AStr "8i")) [code 999] 1%nat) as [o|] eqn:P; [|discriminate A].
    cbn [outcome bind] in A. apply Ok_inj in A. exists o.
    split; [reflexivity|]. split; [unfold isCode; lia|]. split; [reflexivity|]. rewrite A, change_acts. cbn [map].
    intro X. apply Ok_inj in X. apply (f_equal (hd (code 0))) in X. cbn [hd] in X.
    assert (B : sameCode (through 255 1023 (through 1023 255 (code 999))) 999 = sameCode (code 999) 999) by exact (f_equal (fun z => sameCode z 999) X).
    rewrite narrow_bad, same_refl in B. discriminate B.
  Qed.
End Codes.
