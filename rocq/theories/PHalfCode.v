(** Half-float codes. *)
From Coq Require Import Reals Lra Psatz.
From Flocq Require Import Core BinarySingleNaN.
From Verif Require Export SpecIeee PIeeeArith.
Local Open Scope R_scope.

Lemma bpow_split a b : bpow radix2 (a + b) = bpow radix2 a * bpow radix2 b.
Proof. apply bpow_plus. Qed.

Lemma magnitude_step k : (0 <= k < 31743)%Z ->
  halfMagnitude (k + 1) - halfMagnitude k = bpow radix2 (Z.max 1 (k / 1024) - 25).
Proof.
  intro H. unfold halfMagnitude.
  pose proof (Z.div_mod k 1024 ltac:(lia)) as D. pose proof (Z.mod_pos_bound k 1024 ltac:(lia)) as M.
  set (q := (k / 1024)%Z) in *. set (r := (k mod 1024)%Z) in *.
  assert (Q : (0 <= q)%Z) by (apply Z.div_pos; lia).
  destruct (Z.eq_dec r 1023) as [E|E].
  - assert (D2 : ((k + 1) / 1024 = q + 1)%Z) by (symmetry; apply (Z.div_unique _ _ _ 0); lia).
    assert (M2 : ((k + 1) mod 1024 = 0)%Z) by (symmetry; apply (Z.mod_unique _ _ (q + 1)); lia).
    rewrite D2, M2. clearbody q r.
    destruct (Z.ltb_spec (k + 1) 1024); [lia|]. destruct (Z.ltb_spec k 1024).
    + assert (q = 0)%Z by lia. subst q. replace k with 1023%Z by lia. rewrite Z.max_l by lia.
      cbn [Z.add Z.sub Z.opp Z.pos_sub]. change (1 - 25)%Z with (-24)%Z. lra.
    + rewrite Z.max_r by lia. rewrite E. replace (q + 1 - 25)%Z with (1 + (q - 25))%Z by lia.
      rewrite bpow_split. change (bpow radix2 1) with 2. change (1024 + 0)%Z with 1024%Z. change (1024 + 1023)%Z with 2047%Z. lra.
  - assert (D2 : ((k + 1) / 1024 = q)%Z) by (symmetry; apply (Z.div_unique _ _ _ (r + 1)); lia).
    assert (M2 : ((k + 1) mod 1024 = r + 1)%Z) by (symmetry; apply (Z.mod_unique _ _ q); lia).
    rewrite D2, M2. clearbody q r.
    destruct (Z.ltb_spec (k + 1) 1024); destruct (Z.ltb_spec k 1024); try lia.
    + rewrite Z.max_l by lia. rewrite plus_IZR. change (1 - 25)%Z with (-24)%Z. lra.
    + rewrite Z.max_r by lia. replace (1024 + (r + 1))%Z with (1024 + r + 1)%Z by lia. rewrite plus_IZR. lra.
Qed.

Lemma magnitude_0 : halfMagnitude 0 = 0.
Proof. unfold halfMagnitude. cbn. lra. Qed.

Lemma magnitude_lt i : (0 <= i)%Z -> forall j, (i < j <= 31743)%Z -> halfMagnitude i < halfMagnitude j.
Proof.
  intros Hi. assert (G : forall d, halfMagnitude i < halfMagnitude (i + Z.of_nat d + 1) \/ (31743 < i + Z.of_nat d + 1)%Z).
  { induction d as [|d IH].
    - destruct (Z_le_gt_dec (i + 1) 31743); [left|right; lia]. rewrite Z.add_0_r.
      pose proof (magnitude_step i ltac:(lia)) as S. pose proof (bpow_gt_0 radix2 (Z.max 1 (i / 1024) - 25)). lra.
    - destruct IH as [IH|IH]; [|right; lia]. destruct (Z_le_gt_dec (i + Z.of_nat (S d) + 1) 31743); [left|right; lia].
      pose proof (magnitude_step (i + Z.of_nat d + 1) ltac:(lia)) as S.
      pose proof (bpow_gt_0 radix2 (Z.max 1 ((i + Z.of_nat d + 1) / 1024) - 25)).
      replace (i + Z.of_nat (Datatypes.S d) + 1)%Z with (i + Z.of_nat d + 1 + 1)%Z by lia. lra. }
  intros j Hj. destruct (G (Z.to_nat (j - i - 1))) as [H|H]; [|lia].
  replace (i + Z.of_nat (Z.to_nat (j - i - 1)) + 1)%Z with j in H by lia. exact H.
Qed.
Lemma magnitude_pos k : (0 < k <= 31743)%Z -> 0 < halfMagnitude k.
Proof. intro H. rewrite <- magnitude_0. apply magnitude_lt; lia. Qed.
Lemma magnitude_nonneg k : (0 <= k <= 31743)%Z -> 0 <= halfMagnitude k.
Proof.
  intro H. destruct (Z.eq_dec k 0) as [->|]; [rewrite magnitude_0; lra|]. apply Rlt_le, magnitude_pos. lia.
Qed.
Lemma magnitude_max : halfMagnitude 31743 = 65504.
Proof. unfold halfMagnitude. replace (31743 <? 1024)%Z with false by reflexivity.
  change (31743 / 1024 - 25)%Z with 5%Z. change (31743 mod 1024)%Z with 1023%Z. change (bpow radix2 5) with 32. change (1024 + 1023)%Z with 2047%Z. lra. Qed.
(** The step to the next half is at most the number itself, from code 1 on. *)
Lemma magnitude_double k : (1 <= k < 31743)%Z -> halfMagnitude (k + 1) <= 2 * halfMagnitude k.
Proof.
  intro H. pose proof (magnitude_step k ltac:(lia)) as S.
  assert (G : bpow radix2 (Z.max 1 (k / 1024) - 25) <= halfMagnitude k); [|lra].
  pose proof (Z.mod_pos_bound k 1024 ltac:(lia)) as M.
  unfold halfMagnitude. destruct (Z.ltb_spec k 1024).
  - rewrite Z.div_small by lia. change (Z.max 1 0 - 25)%Z with (-24)%Z. pose proof (bpow_gt_0 radix2 (-24)).
    assert (1 <= IZR k) by (apply IZR_le; lia). nra.
  - assert (1 <= k / 1024)%Z by (apply Z.div_le_lower_bound; lia). rewrite Z.max_r by lia.
    pose proof (bpow_gt_0 radix2 (k / 1024 - 25)). assert (1 <= IZR (1024 + k mod 1024)) by (apply IZR_le; lia). nra.
Qed.
Lemma magnitude_eq i j : (0 <= i <= 31743)%Z -> (0 <= j <= 31743)%Z -> halfMagnitude i = halfMagnitude j -> i = j.
Proof.
  intros Hi Hj E. destruct (Z.lt_trichotomy i j) as [H|[H|H]]; [|exact H|].
  - pose proof (magnitude_lt i ltac:(lia) j ltac:(lia)). lra.
  - pose proof (magnitude_lt j ltac:(lia) i ltac:(lia)). lra.
Qed.

(** What the code of a half is. *)
Lemma half_bounds m e : SpecFloat.bounded 11 16 m e = true ->
  (Zpos m < 2048 /\ -24 <= e <= 5 /\ (e = -24 \/ 1024 <= Zpos m))%Z.
Proof.
  intro B. pose proof (bounded_lt_emax 11 16 m e B) as L0.
  unfold SpecFloat.bounded in B. apply andb_true_iff in B as [C Le]. apply Zle_bool_imp_le in Le.
  unfold SpecFloat.canonical_mantissa in C. apply Zeq_bool_eq in C. unfold SpecFloat.fexp, SpecFloat.emin in C.
  rewrite Digits.Zpos_digits2_pos in C. pose proof (Digits.Zdigits_correct radix2 (Zpos m)) as D.
  pose proof (Digits.Zdigits_gt_0 radix2 (Zpos m) ltac:(lia)) as P. change (Z.abs (Zpos m)) with (Zpos m) in D.
  set (d := Digits.Zdigits radix2 (Zpos m)) in *. clearbody d.
  assert (Hd : (d <= 11)%Z) by lia.
  assert (G : (radix2 ^ d <= 2048)%Z).
  { change 2048%Z with (radix2 ^ 11)%Z. apply (Z.pow_le_mono_r radix2); [reflexivity|lia]. }
  split; [lia|]. split; [lia|].
  destruct (Z.eq_dec e (-24)) as [|Ne]; [left; lia|right]. assert (d = 11%Z) by lia. subst d. change (radix2 ^ (11 - 1))%Z with 1024%Z in D. lia.
Qed.

Lemma bits_value (x : binary_float 11 16) : is_finite x = true ->
  ((if Bsign x then 32768 <= halfBits x < 64512 else 0 <= halfBits x < 31744)%Z) /\ B2R x = halfNumber (halfBits x).
Proof.
  destruct x as [s|s| |s m e B]; try discriminate; intros _.
  - destruct s; cbn [halfBits Bsign B2R]; (split; [lia|]); unfold halfNumber; cbn [Z.ltb Z.compare Pos.compare Pos.compare_cont Z.sub Z.add Z.opp Z.pos_sub];
      unfold halfMagnitude; cbn; lra.
  - destruct (half_bounds m e B) as [H1 [H2 H3]]. cbn [halfBits Bsign B2R].
    set (u := ((e + 24) * 1024 + Zpos m)%Z).
    assert (U : (0 <= u < 31744)%Z) by (unfold u; lia).
    assert (V : F2R (Float radix2 (Zpos m) e) = halfMagnitude u).
    { unfold halfMagnitude, F2R. cbn [Fnum Fexp]. destruct (Z.ltb_spec u 1024).
      - assert (e = -24)%Z by (unfold u in *; lia). subst e. unfold u. replace ((-24 + 24) * 1024 + Zpos m)%Z with (Zpos m) by lia. reflexivity.
      - assert (M : (1024 <= Zpos m)%Z) by (unfold u in *; lia).
        assert (E1 : (u / 1024 = e + 25)%Z) by (symmetry; apply (Z.div_unique _ _ _ (Zpos m - 1024)); unfold u; lia).
        assert (E2 : (u mod 1024 = Zpos m - 1024)%Z) by (symmetry; apply (Z.mod_unique _ _ (e + 25)); unfold u; lia).
        rewrite E1, E2. replace (1024 + (Zpos m - 1024))%Z with (Zpos m) by lia. replace (e + 25 - 25)%Z with e by lia. reflexivity. }
    clearbody u. destruct s.
    + split; [lia|]. unfold halfNumber. destruct (Z.ltb_spec (32768 + u) 32768); [lia|].
      replace (32768 + u - 32768)%Z with u by lia. rewrite <- V. cbn [cond_Zopp]. rewrite F2R_Zopp. reflexivity.
    + rewrite Z.add_0_l. split; [lia|]. unfold halfNumber. destruct (Z.ltb_spec u 32768); [|lia]. rewrite <- V. reflexivity.
Qed.

Lemma exact_double m e s : (Z.abs m < 2 ^ 53)%Z -> (-1000 <= e <= 100)%Z ->
  is_finite (binary_normalize 53 1024 prec53 emax53 mode_NE m e s) = true /\
  B2R (binary_normalize 53 1024 prec53 emax53 mode_NE m e s) = IZR m * bpow radix2 e.
Proof.
  intros Hm He. pose proof (normalize_Rounds (p:=53) (e:=1024) m e s) as R.
  assert (E : F2R (Float radix2 m e) = IZR m * bpow radix2 e) by reflexivity. rewrite E in R.
  assert (G : generic_format radix2 (SpecFloat.fexp 53 1024) (IZR m * bpow radix2 e)).
  { apply generic_format_FLT. exists (Float radix2 m e); [now rewrite E|exact Hm|cbn; lia]. }
  unfold Rounds in R. rewrite (rnd_format _ G) in R. rewrite Rlt_bool_true in R; [exact R|].
  rewrite Rabs_mult, (Rabs_pos_eq (bpow radix2 e)) by apply bpow_ge_0. rewrite <- abs_IZR.
  apply Rlt_le_trans with (IZR (2 ^ 53) * bpow radix2 e).
  - apply Rmult_lt_compat_r; [apply bpow_gt_0|now apply IZR_lt].
  - change (2 ^ 53)%Z with (Zpower radix2 53). rewrite IZR_Zpower by lia. rewrite <- bpow_plus. apply bpow_le. lia.
Qed.

Lemma value_code k : finiteCode k -> is_finite (halfValue k) = true /\ B2R (halfValue k) = halfNumber k.
Proof.
  intro H. unfold halfValue.
  set (s := negb (k / 32768 =? 0)%Z). set (e := (k mod 32768 / 1024)%Z). set (f := (k mod 1024)%Z).
  set (u := (if negativeCode k then k - 32768 else k)%Z).
  assert (U : (0 <= u < 31744)%Z) by (unfold u, negativeCode; destruct H; destruct (Z.leb_spec 32768 k); lia).
  assert (Es : s = negativeCode k).
  { unfold s, negativeCode. destruct (Z.leb_spec 32768 k) as [L|L].
    - assert (k / 32768 = 1)%Z by (symmetry; apply (Z.div_unique _ _ _ (k - 32768)); destruct H; lia). now rewrite H0.
    - rewrite Z.div_small by (destruct H; lia). reflexivity. }
  assert (Ku : (k mod 32768 = u)%Z).
  { unfold u, negativeCode. destruct (Z.leb_spec 32768 k) as [L|L].
    - symmetry. apply (Z.mod_unique _ _ 1); destruct H; lia.
    - rewrite Z.mod_small by (destruct H; lia). reflexivity. }
  assert (Fu : f = (u mod 1024)%Z).
  { unfold f, u. destruct (negativeCode k); [|reflexivity]. replace (k - 32768)%Z with (k + (-32) * 1024)%Z by lia.
    now rewrite Z.mod_add by lia. }
  assert (Eu : e = (u / 1024)%Z) by (unfold e; now rewrite Ku).
  assert (Hn : halfNumber k = if s then - halfMagnitude u else halfMagnitude u).
  { unfold halfNumber. rewrite Es. unfold u, negativeCode. destruct (Z.leb_spec 32768 k); destruct (Z.ltb_spec k 32768); try lia; reflexivity. }
  pose proof (Z.mod_pos_bound u 1024 ltac:(lia)) as M.
  assert (E31 : (0 <= u / 1024 < 31)%Z) by (split; [apply Z.div_pos; lia|apply Z.div_lt_upper_bound; lia]).
  rewrite Hn, Eu, Fu. clearbody s. clear Es Ku e f Fu Eu Hn H. clearbody u.
  assert (G : forall m ex, (0 <= m < 2 ^ 50)%Z -> (-1000 <= ex <= 100)%Z ->
     is_finite (binary_normalize 53 1024 prec53 emax53 mode_NE (cond_Zopp s m) ex s) = true /\
     B2R (binary_normalize 53 1024 prec53 emax53 mode_NE (cond_Zopp s m) ex s) = if s then - (IZR m * bpow radix2 ex) else IZR m * bpow radix2 ex).
  { intros m ex Hm Hx. destruct (exact_double (cond_Zopp s m) ex s) as [F B]; [destruct s; cbn [cond_Zopp]; lia|exact Hx|].
    split; [exact F|]. rewrite B. destruct s; cbn [cond_Zopp]; [rewrite opp_IZR; lra|reflexivity]. }
  destruct (Z.eqb_spec (u / 1024) 31) as [|_]; [lia|].
  unfold halfMagnitude. destruct (Z.eqb_spec (u / 1024) 0) as [E0|E0].
  - assert (Hu : (u < 1024)%Z) by (apply Z.div_small_iff in E0; lia). destruct (Z.ltb_spec u 1024); [|lia].
    rewrite Z.mod_small by lia. apply G; lia.
  - destruct (Z.ltb_spec u 1024); [rewrite Z.div_small in E0 by lia; lia|]. apply G; lia.
Qed.
