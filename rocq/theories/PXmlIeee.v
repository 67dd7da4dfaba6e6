(** What the array encodings keep of a double. *)
From Coq Require Import Reals Lra Psatz.
From Flocq Require Import Core BinarySingleNaN.
From Verif Require Import PIeee PTextIeee PNumText PXmlArray SpecXml.
Local Open Scope R_scope.
Local Open Scope list_scope.

Lemma roundedTo_format p e (Hp : Prec_gt_0 p) (He : Prec_lt_emax p e) (x : fl) :
  (p <= 53)%Z -> (e <= 1024)%Z -> (3 - 1024 - 53 <= 3 - e - p)%Z -> roundedTo p e x (f64 (toFormat p e x)).
Proof.
  intros H1 H2 H3.
  assert (F : is_finite x = true -> let r := round radix2 (FLT_exp (3 - e - p) p) ZnearestE (B2R x) in
      if Rlt_bool (Rabs r) (bpow radix2 e)
      then is_finite (f64 (toFormat p e x)) = true /\ B2R (f64 (toFormat p e x)) = r /\ Bsign (f64 (toFormat p e x)) = Bsign x
      else f64 (toFormat p e x) = B754_infinity (Bsign x)).
  { intros Fx r. pose proof (toFormat_Rounds (p2:=p) (e2:=e) x Fx) as R. unfold Rounds, rnd in R.
    change (SpecFloat.fexp p e) with (FLT_exp (3 - e - p) p) in R. fold r in R.
    assert (S : is_nan x = false) by (destruct x; try discriminate; reflexivity).
    destruct (Rlt_bool (Rabs r) (bpow radix2 e)).
    - destruct R as [Fy By]. destruct (widen_exact (p2:=53) (e2:=1024) (toFormat p e x) H1 H2 H3 Fy) as [Fz Bz].
      unfold f64. split; [exact Fz|]. split; [congruence|].
      rewrite toFormat_sign, toFormat_sign; [reflexivity|exact S|now apply finite_not_nan].
    - rewrite R. unfold f64. cbn [toFormat]. f_equal. rewrite <- (toFormat_sign (p2:=p) (e2:=e) x S), R. reflexivity. }
  destruct x as [s|s| |s m ex B]; try reflexivity; exact (F eq_refl).
Qed.

Lemma roundedTo_16 L (x : fl) : roundedTo 11 16 x (@nf16 _ (ieeeNum L) x).
Proof. apply roundedTo_format; lia. Qed.
Lemma roundedTo_32 L (x : fl) : roundedTo 24 128 x (@nf32 _ (ieeeNum L) x).
Proof. apply roundedTo_format; lia. Qed.

Lemma rneDiv_near n d : (0 < d)%Z -> (Z.abs (2 * (rneDiv n d * d - n)) <= d)%Z.
Proof.
  intro H. unfold rneDiv. pose proof (Z.div_mod n d ltac:(lia)) as E. pose proof (Z.mod_pos_bound n d H) as M.
  set (q := (n / d)%Z) in *. set (r := (n mod d)%Z) in *. clearbody q r.
  destruct (Z.ltb_spec (2 * r) d); [nia|]. destruct (Z.ltb_spec d (2 * r)); [nia|]. destruct (Z.even q); nia.
Qed.
Lemma rneDiv_nonneg n d : (0 <= n)%Z -> (0 < d)%Z -> (0 <= rneDiv n d)%Z.
Proof.
  intros Hn H. unfold rneDiv. assert (Q : (0 <= n / d)%Z) by (apply Z.div_pos; lia).
  destruct (_ <? _)%Z; [exact Q|]. destruct (_ <? _)%Z; [lia|]. destruct (Z.even _); lia.
Qed.
Lemma rneDiv_1 n : rneDiv n 1 = n.
Proof. unfold rneDiv. rewrite Z.div_1_r, Z.mod_1_r. reflexivity. Qed.

Lemma frac_value s m e B : B2R (B754_finite s m e B : fl) = signed s (IZR (fracNum m e) / IZR (fracDen e)).
Proof.
  cbn [B2R]. unfold F2R. cbn [Fnum Fexp]. unfold fracNum, fracDen.
  assert (P : IZR (Z.pos m * 2 ^ Z.max 0 e) / IZR (2 ^ Z.max 0 (- e)) = IZR (Z.pos m) * bpow radix2 e).
  { rewrite mult_IZR. change 2%Z with (radix_val radix2). rewrite !IZR_Zpower by lia. unfold Rdiv. rewrite Rmult_assoc. f_equal.
    rewrite <- bpow_opp, <- bpow_plus. f_equal. lia. }
  rewrite P. destruct s; cbn [cond_Zopp signed]; [|reflexivity]. change (Zneg m) with (- Zpos m)%Z. rewrite opp_IZR. lra.
Qed.
Lemma fracNum_pos m e : (0 < fracNum m e)%Z.
Proof. unfold fracNum. apply Z.mul_pos_pos; [reflexivity|apply Z.pow_pos_nonneg; lia]. Qed.
Lemma fracDen_pos e : (0 < fracDen e)%Z.
Proof. apply Z.pow_pos_nonneg; lia. Qed.

Lemma signed_abs s a b : Rabs (signed s a - signed s b) = Rabs (a - b).
Proof. destruct s; cbn [signed]; [|reflexivity]. rewrite <- Rabs_Ropp. f_equal. lra. Qed.

Lemma signed_IZR s z : signed s (IZR z) = IZR (if s then - z else z)%Z.
Proof. destruct s; cbn [signed]; [now rewrite opp_IZR|reflexivity]. Qed.
Lemma signed_div s a b : signed s a / b = signed s (a / b).
Proof. destruct s; cbn [signed]; unfold Rdiv; lra. Qed.

Lemma fixed_near s m e B : let x := (B754_finite s m e B : fl) in
  let z := rneDiv (fracNum m e * 10 ^ 9) (fracDen e) in
  (0 <= z)%Z /\ Rabs (signed s (IZR z) / 10 ^ 9 - B2R x) <= / 2 / 10 ^ 9 /\
  ((0 <= e)%Z -> signed s (IZR z) / 10 ^ 9 = B2R x).
Proof.
  intros x z. pose proof (fracNum_pos m e) as Hn. pose proof (fracDen_pos e) as Hd.
  assert (T : 10 ^ 9 = IZR (10 ^ 9)) by (rewrite pow_IZR; reflexivity).
  split; [apply rneDiv_nonneg; [|exact Hd]; apply Z.mul_nonneg_nonneg; lia|].
  subst x. rewrite frac_value, signed_div. split.
  - rewrite signed_abs. pose proof (rneDiv_near (fracNum m e * 10 ^ 9) (fracDen e) Hd) as N. fold z in N.
    apply IZR_le in N. rewrite abs_IZR, mult_IZR, minus_IZR, !mult_IZR in N. rewrite <- T in N.
    apply IZR_lt in Hd. set (d := IZR (fracDen e)) in *. set (n := IZR (fracNum m e)) in *. set (v := IZR z) in *.
    replace (v / 10 ^ 9 - n / d) with ((2 * (v * d - n * 10 ^ 9)) * (/ 2 / 10 ^ 9 / d)) by (field; lra).
    rewrite Rabs_mult, (Rabs_pos_eq (/ 2 / 10 ^ 9 / d)).
    + apply Rle_trans with (d * (/ 2 / 10 ^ 9 / d)); [apply Rmult_le_compat_r; [|exact N]|right; field; lra].
      apply Rlt_le. apply Rdiv_lt_0_compat; [|exact Hd]. lra.
    + apply Rlt_le. apply Rdiv_lt_0_compat; [|exact Hd]. lra.
  - intro E. f_equal. subst z. unfold fracDen. replace (Z.max 0 (- e)) with 0%Z by lia. change (2 ^ 0)%Z with 1%Z.
    rewrite rneDiv_1, mult_IZR, <- T. field.
Qed.

Lemma decimals_kept L (x : fl) : throughDecimals x (@nf32 _ (ieeeNum L) (flRound (flFixed 9 x))).
Proof.
  unfold throughDecimals. destruct x as [s|s| |s m e B]; cbn [is_finite].
  - exists 0%Z, (B754_zero s). cbn [flFixed flRound B2R is_finite Bsign]. repeat split.
    + replace (0 / 10 ^ 9 - 0) with 0 by lra. rewrite Rabs_R0. lra.
    + replace (IZR 0 / 10 ^ 9) with 0 by lra. symmetry. apply round_0. apply valid_rnd_N.
    + apply (roundedTo_32 L).
  - reflexivity.
  - reflexivity.
  - cbn [flFixed]. set (z := rneDiv (fracNum m e * 10 ^ Z.of_nat 9) (fracDen e)).
    destruct (fixed_near s m e B) as (Hz & Near & Exact). change (rneDiv (fracNum m e * 10 ^ 9) (fracDen e)) with z in *.
    destruct (flRound_dec s (Z.to_N z) (- Z.of_nat 9)) as [R S]. set (d := flRound (NumDec s (Z.to_N z) (- Z.of_nat 9))) in *.
    assert (V : signed s (decR (Z.to_N z) (- Z.of_nat 9)) = signed s (IZR z) / 10 ^ 9).
    { rewrite signed_div. f_equal. unfold decR. rewrite Z2N.id by exact Hz. unfold Rdiv. f_equal. }
    rewrite V in R. exists (if s then - z else z)%Z, d. rewrite <- signed_IZR.
    assert (F : Rabs (rnd (p:=53) (e:=1024) (signed s (IZR z) / 10 ^ 9)) < bpow radix2 1024).
    { destruct (Z_lt_le_dec e 0) as [E|E].
      - assert (X : Rabs (B2R (B754_finite s m e B : fl)) <= bpow radix2 52).
        { cbn [B2R]. rewrite <- F2R_Zabs. rewrite abs_cond_Zopp. unfold F2R. cbn [Fnum Fexp].
          destruct (float_bounds _ _ B) as (M & _). apply Rle_trans with (IZR (2 ^ 53) * bpow radix2 (-1)).
          - apply Rmult_le_compat; [apply IZR_le; lia|apply bpow_ge_0|apply IZR_le; cbn [Z.abs]; lia|apply bpow_le; lia].
          - change (IZR (2 ^ 53)) with (bpow radix2 53). rewrite <- bpow_plus. apply bpow_le. lia. }
        assert (Y : Rabs (signed s (IZR z) / 10 ^ 9) <= bpow radix2 53).
        { change (bpow radix2 53) with 9007199254740992 in *. change (bpow radix2 52) with 4503599627370496 in X.
          pose proof (Rabs_triang_inv (signed s (IZR z) / 10 ^ 9) (B2R (B754_finite s m e B : fl))). lra. }
        apply Rle_lt_trans with (bpow radix2 53); [|apply bpow_lt; lia].
        apply abs_round_le_generic; [apply fexp_valid|apply valid_rnd_N| |exact Y].
        apply generic_format_bpow. unfold SpecFloat.fexp, SpecFloat.emin. lia.
      - rewrite (Exact E). rewrite rnd_id. apply abs_B2R_lt_emax. }
    unfold Rounds in R. rewrite Rlt_bool_true in R by exact F. destruct R as [Fd Bd].
    split; [exact Near|]. split; [exact Fd|]. split; [exact Bd|]. split; [exact S|apply (roundedTo_32 L)].
Qed.

Lemma keeps_ieee L raw enc (x : fl) : arrayKeeps raw enc x (@keepValue fl (ieeeNum L) ieeeText raw enc x).
Proof.
  unfold arrayKeeps, keepValue. destruct raw; cbn [orb]; [apply (roundedTo_16 L)|].
  unfold inList. cbn [existsb].
  destruct (String.eqb enc "integer16bit"); cbn [orb]; [apply (roundedTo_16 L)|].
  destruct (String.eqb_spec enc "hex16bit") as [->|H16]; [cbn; apply (roundedTo_16 L)|]. cbn [orb].
  destruct (String.eqb enc "integer32bit"); cbn [orb]; [apply (roundedTo_32 L)|].
  destruct (String.eqb_spec enc "hex32bit") as [->|H32]; [cbn; apply (roundedTo_32 L)|]. cbn [orb].
  destruct (String.eqb enc "integer64bit"); cbn [orb]; [reflexivity|].
  destruct (String.eqb enc "hex64bit"); cbn [orb]; [reflexivity|].
  apply (decimals_kept L).
Qed.

(** ** The columns *)
Lemma columns_ok dims k : arrayColumns dims = Ok k <-> rowLength dims = Some k.
Proof.
  destruct dims as [|a [|b [|c [|d [|e t]]]]]; cbn; split; intro H; try discriminate; try (injection H as <-; reflexivity).
Qed.
Lemma completeRows_eq {T} k (vs : list T) : k <> 0%nat -> completeRows k vs = firstn (List.length vs / k * k) vs.
Proof.
  intro H. unfold completeRows. f_equal. pose proof (Nat.div_mod (List.length vs) k H). lia.
Qed.

Lemma Forall2_map_r {A B} (P : A -> B -> Prop) f l : (forall x, P x (f x)) -> Forall2 P l (map f l).
Proof. intro H. induction l; constructor; auto. Qed.

Lemma array_round_trip (L : libm) : let N := ieeeNum L in
  forall c (a : array fl) e, arrayWrite c a = Ok e ->
    exists k a', rowLength (a_dims a) = Some k /\ k <> 0%nat /\
      arrayRead (emptyArray (a_raw a)) e = Ok a' /\ a_dims a' = a_dims a /\
      Forall2 (arrayKeeps (a_raw a) (a_enc a)) (completeRows k (a_vals a)) (a_vals a').
Proof.
  intros N c a e E. pose proof (ieeeOk L) as OK. destruct (array_back (OK := OK) c a e E) as (k & C & Nz & R).
  exists k. eexists. split; [now apply columns_ok|]. split; [exact Nz|]. split; [exact R|]. split; [reflexivity|].
  cbn [keptArray a_vals]. rewrite completeRows_eq by exact Nz. apply Forall2_map_r. intro x. apply keeps_ieee.
Qed.

(** When an array can be written. *)
Lemma over32 (L : libm) (x : fl) : tover32 x = is_finite x && negb (is_finite (@nf32 _ (ieeeNum L) x)).
Proof.
  cbn [tover32 ieeeText nf32 ieeeNum]. f_equal. f_equal. destruct (f32of x) as [s|s| |s m e B] eqn:E; try reflexivity.
  cbn [is_finite]. symmetry. unfold f64. apply (widen_exact (p2:=53) (e2:=1024) (B754_finite s m e B)); try lia. reflexivity.
Qed.
Lemma pyint_ok (L : libm) (x : fl) : is_ok (@pyint _ (ieeeNum L) x) <-> is_finite x = true.
Proof.
  unfold pyint, is_ok. cbn [nisnan nisinf ieeeNum]. destruct x; cbn; split; try discriminate; try (intros [y F]; discriminate); intros _;
    try reflexivity; eexists; reflexivity.
Qed.
Lemma roundedTo_unique p e (x y y' : fl) : roundedTo p e x y -> roundedTo p e x y' -> y = y'.
Proof.
  destruct x as [s|s| |s m ex B]; unfold roundedTo; try congruence; cbv zeta;
    (destruct (Rlt_bool _ _); [|congruence]); intros (F & V & S) (F' & V' & S'); apply B2R_Bsign_inj; congruence.
Qed.

Lemma array_writes (L : libm) : let N := ieeeNum L in
  forall c (a : array fl),
    is_ok (arrayWrite c a) <->
    exists k, rowLength (a_dims a) = Some k /\ k <> 0%nat /\
      (completeRows k (a_vals a) <> [] -> a_enc a = "string"%string \/ duiker_on c = true) /\
      (a_int a = true -> forall x, In x (completeRows k (a_vals a)) -> is_finite x = true) /\
      (a_raw a = false -> a_enc a = "hex32bit"%string -> forall x y, In x (completeRows k (a_vals a)) ->
         is_finite x = true -> roundedTo 24 128 x y -> is_finite y = true).
Proof.
  intros N c a. rewrite arrayWrite_ok. unfold arrayWritable. split; intros (k & C & Nz & G & I & O); exists k;
    (split; [now apply columns_ok|]); (split; [exact Nz|]); rewrite ?completeRows_eq in * by exact Nz; (split; [exact G|]); split.
  - intros Hi x Hx. apply (pyint_ok L). auto.
  - intros Hr He x y Hx Fx Ry. specialize (O Hr He x Hx). rewrite (over32 L), Fx in O. cbn [andb] in O.
    rewrite (roundedTo_unique _ _ _ _ _ Ry (roundedTo_32 L x)). now apply negb_false_iff.
  - intros Hi x Hx. apply (pyint_ok L). auto.
  - intros Hr He x Hx. rewrite (over32 L). destruct (is_finite x) eqn:Fx; [|reflexivity]. cbn [andb]. apply negb_false_iff.
    exact (O Hr He x _ Hx Fx (roundedTo_32 L x)).
Qed.
