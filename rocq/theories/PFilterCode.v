(** Codes written by filterImageWithCLF. *)
From Coq Require Import Reals Lra Lia ZArith List String Psatz.
From Flocq Require Import Core BinarySingleNaN.
From Verif Require Import SpecFilterTool SpecReal PBase PFilter PIeee PIeeeArith PIeeeRange PRange PRound PPack PCode PCloseRange.
Import ListNotations.
Local Open Scope Z_scope.

Section FilterCode.
  Variable L : libm.
  #[local] Instance NLt : Num fl := ieeeNum L.
  Notation "'code' k" := (@nofZ fl (ieeeNum L) k) (at level 9).

  Fixpoint allRange (b : nat) (a : Z) (p : Z -> bool) : bool :=
    match b with O => p a | S b => if allRange b a p then allRange b (a + 2 ^ Z.of_nat b) p else false end.
  Lemma allRange_in b a p i : allRange b a p = true -> a <= i < a + 2 ^ Z.of_nat b -> p i = true.
  Proof.
    revert a. induction b as [|b IH]; intros a H Hi.
    - change (2 ^ Z.of_nat 0) with 1 in Hi. replace i with a by lia. exact H.
    - cbn [allRange] in H. destruct (allRange b a p) eqn:E; [|discriminate].
      rewrite Nat2Z.inj_succ, Z.pow_succ_r in Hi by lia.
      destruct (Z_lt_ge_dec i (a + 2 ^ Z.of_nat b)) as [G|G]; [apply (IH a E); lia|apply (IH _ H); lia].
  Qed.

  Lemma below n k : 0 <= k -> k <= 2 ^ Z.of_nat n - 1 -> 0 <= k < 0 + 2 ^ Z.of_nat n.
  Proof. lia. Qed.

  (** The exact ratio is far enough from the integers around it. *)
  Definition clear (s t k : Z) : bool :=
    let r := (k * t) mod s in
    (3 * (k * t) + 1 <=? r * 2 ^ 23) && (3 * (k * t) + 1 <=? (s - r) * 2 ^ 23) && (newCode s t k =? k * t / s).
  Definition falls (s t k : Z) : bool :=
    let y := through L s t (code k) in
    is_finite y && Bleb (code (newCode s t k)) y && Bltb y (code (newCode s t k + 1)).
  Definition decided (s t k : Z) : bool := if s <? k then true else if clear s t k then true else falls s t k.

  Lemma d_8_10 : allRange 8 0 (decided 255 1023) = true. Proof. vm_cast_no_check (eq_refl true). Qed.
  Lemma d_8_12 : allRange 8 0 (decided 255 4095) = true. Proof. vm_cast_no_check (eq_refl true). Qed.
  Lemma d_8_16 : allRange 8 0 (decided 255 65535) = true. Proof. vm_cast_no_check (eq_refl true). Qed.
  Lemma d_10_8 : allRange 10 0 (decided 1023 255) = true. Proof. vm_cast_no_check (eq_refl true). Qed.
  Lemma d_10_12 : allRange 10 0 (decided 1023 4095) = true. Proof. vm_cast_no_check (eq_refl true). Qed.
  Lemma d_10_16 : allRange 10 0 (decided 1023 65535) = true. Proof. vm_cast_no_check (eq_refl true). Qed.
  Lemma d_12_8 : allRange 12 0 (decided 4095 255) = true. Proof. vm_cast_no_check (eq_refl true). Qed.
  Lemma d_12_10 : allRange 12 0 (decided 4095 1023) = true. Proof. vm_cast_no_check (eq_refl true). Qed.
  Lemma d_12_16 : allRange 12 0 (decided 4095 65535) = true. Proof. vm_cast_no_check (eq_refl true). Qed.
  Lemma d_16_8 : allRange 16 0 (decided 65535 255) = true. Proof. vm_cast_no_check (eq_refl true). Qed.
  Lemma d_16_10 : allRange 16 0 (decided 65535 1023) = true. Proof. vm_cast_no_check (eq_refl true). Qed.
  Lemma d_16_12 : allRange 16 0 (decided 65535 4095) = true. Proof. vm_cast_no_check (eq_refl true). Qed.

  Lemma falls_between s t k : 0 <= newCode s t k -> newCode s t k < 2 ^ 52 -> falls s t k = true ->
    is_finite (through L s t (code k)) = true /\ (IZR (newCode s t k) <= B2R (through L s t (code k)) < IZR (newCode s t k + 1))%R.
  Proof.
    intros H0 H1 H. unfold falls in H. apply andb_prop in H as [H H3]. apply andb_prop in H as [H1' H2].
    destruct (ofZ_exact L (newCode s t k)) as [Fa Ea]; [lia|]. destruct (ofZ_exact L (newCode s t k + 1)) as [Fb Eb]; [lia|].
    split; [exact H1'|]. rewrite Bleb_correct in H2 by assumption. rewrite Bltb_correct in H3 by assumption. rewrite Ea in H2. rewrite Eb in H3. split.
    - destruct (Rle_bool_spec (IZR (newCode s t k)) (B2R (through L s t (code k)))); [assumption|discriminate].
    - destruct (Rlt_bool_spec (B2R (through L s t (code k))) (IZR (newCode s t k + 1))); [assumption|discriminate].
  Qed.
  Lemma clear_between s t k y : 0 < s <= 65535 -> 0 <= k -> 0 <= t -> clear s t k = true ->
    (Rabs (B2R y - IZR k / IZR s * IZR t) <= 3 * bpow radix2 (-23) * Rabs (IZR k / IZR s * IZR t) + bpow radix2 (-132))%R ->
    (IZR (newCode s t k) <= B2R (y : fl) < IZR (newCode s t k + 1))%R.
  Proof.
    intros Hs Hk Ht H B. unfold clear in H. apply andb_prop in H as [H E]. apply andb_prop in H as [H1 H2]. apply Z.eqb_eq in E. rewrite E. clear E.
    apply Z.leb_le in H1, H2. set (r := (k * t) mod s) in *. set (q := k * t / s) in *.
    assert (D : k * t = s * q + r) by (apply Z.div_mod; lia).
    assert (Ps : (0 < IZR s <= 65535)%R) by (split; [apply IZR_lt|apply IZR_le]; lia).
    apply IZR_le in H1, H2. rewrite plus_IZR, !mult_IZR in H1, H2. rewrite minus_IZR in H2. change (2 ^ 23) with 8388608 in H1, H2.
    apply (f_equal IZR) in D. rewrite mult_IZR, plus_IZR, mult_IZR in D.
    assert (Ex : (IZR k / IZR s * IZR t = IZR q + IZR r / IZR s)%R) by (field_simplify_eq; [lra|lra]).
    assert (Px : (0 <= IZR k / IZR s * IZR t)%R).
    { apply Rmult_le_pos; [|apply IZR_le; lia]. apply Rmult_le_pos; [apply IZR_le; lia|]. left. apply Rinv_0_lt_compat. lra. }
    rewrite (Rabs_pos_eq _ Px) in B. apply Rabs_le_inv in B.
    change (bpow radix2 (-23)) with (/ 8388608)%R in B.
    assert (T : (bpow radix2 (-132) <= / 8388608 / 131072)%R) by (replace (/ 8388608 / 131072)%R with (bpow radix2 (-40)) by (cbn; lra); apply bpow_le; lia).
    assert (E3 : (IZR s * (3 * / 8388608 * (IZR k / IZR s * IZR t)) = 3 * (IZR k * IZR t) * / 8388608)%R) by (field; lra).
    set (x := (IZR k / IZR s * IZR t)%R) in *. set (e := (3 * / 8388608 * x)%R) in *. 
    assert (Er : (IZR s * (IZR r / IZR s) = IZR r)%R) by (field; lra). set (fr := (IZR r / IZR s)%R) in *.
    assert (S1 : (IZR s * (e + / 8388608 / 131072) < IZR r)%R) by (rewrite Rmult_plus_distr_l, E3; lra).
    assert (S2 : (IZR s * (e + / 8388608 / 131072) < IZR s - IZR r)%R) by (rewrite Rmult_plus_distr_l, E3; lra).
    rewrite <- Er in S1. apply Rmult_lt_reg_l in S1; [|lra].
    assert (S3 : (IZR s * (e + / 8388608 / 131072) < IZR s * (1 - fr))%R) by (rewrite Rmult_minus_distr_l, Er; lra).
    apply Rmult_lt_reg_l in S3; [|lra]. rewrite plus_IZR. lra.
  Qed.

  Lemma scale_of d s : largestCode d = Some s -> fullScale d = IZR s.
  Proof.
    intro H. destruct d as [t| |]; try discriminate. revert H. unfold largestCode, fullScale.
    repeat (match goal with |- context [match ?b with _ => _ end] => destruct b end; try discriminate); intro H; injection H as <-; reflexivity.
  Qed.
  Lemma code_small s k t : isCode s k -> 0 < s -> 0 < t <= 65535 -> s <= 65535 -> 0 <= newCode s t k <= t.
  Proof.
    intros [H0 H1] Hs Ht Hs'. unfold newCode.
    assert (Q : 0 <= k * t / s <= t).
    { split; [apply Z.div_pos; nia|]. apply Z.div_le_upper_bound; nia. }
    destruct (_ && _)%bool eqn:E; [|lia]. apply andb_prop in E as [E1 E2]. apply Z.eqb_eq in E1. subst t.
    apply Bool.orb_prop in E2 as [E2|E2]; apply andb_prop in E2 as [E2 E3]; apply Z.eqb_eq in E2; apply Z.eqb_eq in E3; subst s k.
    - change (617 * 65535 / 1023) with 39525. lia.
    - change (2183 * 65535 / 4095) with 34935. lia.
  Qed.
  Lemma decided_in d d' s t k : largestCode d = Some s -> largestCode d' = Some t -> s <> t -> isCode s k -> decided s t k = true.
  Proof.
    intros H H' Ne [H0 H1]. destruct (depth_cases L d s H) as (n & Hn & Es & _). destruct (depth_cases L d' t H') as (n' & Hn' & Et & _).
    clear H H'.
    destruct Hn as [<-|[<-|[<-|[<-|[]]]]]; destruct Hn' as [<-|[<-|[<-|[<-|[]]]]]; try (exfalso; apply Ne; rewrite Es, Et; reflexivity); rewrite Es in H1 |- *; rewrite Et.
    - exact (allRange_in 8 0 _ k d_8_10 (below 8 k H0 H1)).
    - exact (allRange_in 8 0 _ k d_8_12 (below 8 k H0 H1)).
    - exact (allRange_in 8 0 _ k d_8_16 (below 8 k H0 H1)).
    - exact (allRange_in 10 0 _ k d_10_8 (below 10 k H0 H1)).
    - exact (allRange_in 10 0 _ k d_10_12 (below 10 k H0 H1)).
    - exact (allRange_in 10 0 _ k d_10_16 (below 10 k H0 H1)).
    - exact (allRange_in 12 0 _ k d_12_8 (below 12 k H0 H1)).
    - exact (allRange_in 12 0 _ k d_12_10 (below 12 k H0 H1)).
    - exact (allRange_in 12 0 _ k d_12_16 (below 12 k H0 H1)).
    - exact (allRange_in 16 0 _ k d_16_8 (below 16 k H0 H1)).
    - exact (allRange_in 16 0 _ k d_16_10 (below 16 k H0 H1)).
    - exact (allRange_in 16 0 _ k d_16_12 (below 16 k H0 H1)).
  Qed.

  (** * One sample through an empty list *)
  Definition sampleOut (d d' : aval) (x : fl) : fl := change1 L ANone d' (change1 L d ANone (nf32 x)).
  Lemma f32_code k : 0 <= k <= 65535 -> nf32 (code k) = code k.
  Proof.
    intro Hk. destruct (Z.eq_dec k 0) as [->|Nz]; [apply B2SF_inj; vm_compute; reflexivity|].
    destruct (ofZ_exact L k) as [Fk Ek]; [lia|].
    assert (B : (Rabs (B2R (code k)) <= bpow radix2 16)%R).
    { rewrite Ek, Rabs_pos_eq by (apply IZR_le; lia). change (bpow radix2 16) with 65536%R. apply IZR_le. lia. }
    destruct (f32_finite (code k) 16 Fk B) as [F E]; [lia|lia|].
    apply (same_number L); [lia|exact F|].
    etransitivity; [exact E|]. rewrite Ek. apply rnd_format.
    apply generic_format_FLT. exists (Defs.Float radix2 k 0); [unfold F2R; cbn; lra|cbn [Fnum]; change (radix2 ^ 24) with 16777216; lia|cbn [Fexp]; unfold SpecFloat.emin; lia].
  Qed.
  Lemma sample_change d d' k : 0 <= k <= 65535 -> sampleOut d d' (code k) = change1 L d d' (code k).
  Proof.
    intro Hk. unfold sampleOut. rewrite f32_code by exact Hk. unfold change1.
    assert (N1 : forall x : fl, bitDepthToNormalized x ANone = x) by reflexivity. assert (N2 : forall x : fl, normalizedToBitDepth x ANone = x) by reflexivity.
    change (@normalizedToBitDepth fl (NL L)) with (@normalizedToBitDepth fl NLt). change (@bitDepthToNormalized fl (NL L)) with (@bitDepthToNormalized fl NLt).
    rewrite N1, N2. now rewrite !f32_twice.
  Qed.
  Theorem sample_between d d' s t k : largestCode d = Some s -> largestCode d' = Some t -> isCode s k ->
    is_finite (change1 L d d' (code k)) = true /\ (IZR (newCode s t k) <= B2R (change1 L d d' (code k)) < IZR (newCode s t k + 1))%R /\ 0 <= newCode s t k <= t.
  Proof.
    intros H H' Hk. destruct (depth_cases L d s H) as (n & Hn & Es & E). destruct (depth_cases L d' t H') as (n' & Hn' & Et & E').
    assert (Bs : 255 <= s <= 65535) by (subst s; destruct Hn as [<-|[<-|[<-|[<-|[]]]]]; cbn; lia).
    assert (Bt : 255 <= t <= 65535) by (subst t; destruct Hn' as [<-|[<-|[<-|[<-|[]]]]]; cbn; lia).
    destruct (ofZ_exact L k) as [Fk Ek]; [destruct Hk; lia|].
    destruct (Z.eq_dec s t) as [Ee|Ne].
    - clear Et Hn'. subst t. assert (X : change1 L d d' (code k) = code k).
      { unfold change1. rewrite (proj1 (E _)), (proj2 (E' _)). rewrite Es. apply (there_and_back L); [exact Hn|now rewrite <- Es]. }
      rewrite X. assert (Nk : newCode s s k = k).
      { unfold newCode. rewrite Z.div_mul by lia. destruct (_ && _)%bool eqn:B; [|lia]. exfalso. apply andb_prop in B as [B1 B2]. apply Z.eqb_eq in B1. rewrite B1 in B2. discriminate. }
      rewrite Nk. split; [exact Fk|]. rewrite Ek. split; [|destruct Hk; lia]. split; [lra|apply IZR_lt; lia].
    - assert (N := code_small s k t Hk ltac:(lia) ltac:(lia) ltac:(lia)).
      assert (D := decided_in d d' s t k H H' Ne Hk). unfold decided in D. destruct (Z.ltb_spec s k) as [G|_]; [destruct Hk; lia|].
      assert (X : change1 L d d' (code k) = through L s t (code k)) by (unfold change1, through; rewrite (proj1 (E _)), (proj2 (E' _)); reflexivity).
      destruct (clear s t k) eqn:C.
      + assert (G : (1 <= bpow radix2 109)%R) by (change 1%R with (bpow radix2 0); apply bpow_le; lia).
        assert (G2 : bpow radix2 125 = (65536 * bpow radix2 109)%R) by exact (bpow_plus radix2 16 109).
        assert (Rk : (0 <= IZR k <= IZR s)%R) by (destruct Hk; split; apply IZR_le; lia).
        assert (Rs : (255 <= IZR s <= 65535)%R) by (split; apply IZR_le; lia). assert (Rt : (255 <= IZR t <= 65535)%R) by (split; apply IZR_le; lia).
        assert (Q : (0 <= IZR k / IZR s <= 1)%R).
        { split; [apply Rmult_le_pos; [lra|left; apply Rinv_0_lt_compat; lra]|]. apply Rmult_le_reg_r with (IZR s); [lra|]. unfold Rdiv. rewrite Rmult_assoc, Rinv_l by lra. lra. }
        assert (Q2 : (0 <= IZR k / IZR s * IZR t <= 65535)%R) by (split; [apply Rmult_le_pos; lra|replace 65535%R with (1 * 65535)%R by lra; apply Rmult_le_compat; lra]).
        destruct (change1_close L d d' (code k) Fk) as [F B].
        * rewrite (scale_of d s H), Ek, Rabs_pos_eq by lra. lra.
        * rewrite (scale_of d s H), (scale_of d' t H'), Ek, Rabs_pos_eq by lra. lra.
        * rewrite (scale_of d s H), (scale_of d' t H'), Ek in B. split; [exact F|]. split; [|exact N]. apply clear_between; try lia; [destruct Hk; lia|exact C|exact B].
      + rewrite X. destruct (falls_between s t k) as [F B]; [lia|lia|exact D|]. split; [exact F|]. split; [exact B|exact N].
  Qed.
End FilterCode.
