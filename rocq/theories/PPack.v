From Coq Require Import Reals Lra Psatz.
From Flocq Require Import Core BinarySingleNaN.
From Verif Require Import NumF PIeee PIeeeArith SpecTools PBase.
Local Open Scope Z_scope.

Lemma flFloor_R (x : fl) : is_finite x = true -> flFloor x = Zfloor (B2R x).
Proof.
  destruct x as [s|s| |s m e H]; try discriminate; intros _; cbn [flFloor B2R].
  - symmetry. apply Zfloor_IZR.
  - unfold F2R. cbn [Fnum Fexp]. destruct (Z.leb_spec 0 e) as [He|He].
    + rewrite <- IZR_Zpower by assumption. rewrite <- mult_IZR. now rewrite Zfloor_IZR.
    + replace e with (- - e) at 2 by lia. rewrite bpow_opp, <- IZR_Zpower by lia.
      change (IZR (cond_Zopp s (Z.pos m)) * / IZR (radix2 ^ (- e)))%R with (IZR (cond_Zopp s (Z.pos m)) / IZR (radix2 ^ (- e)))%R.
      rewrite Zfloor_div; [reflexivity|]. apply Z.pow_nonzero; [cbn; lia|lia].
Qed.

Section Pack.
  Variable L : libm.
  #[local] Hint Extern 0 (Num fl) => exact (ieeeNum L) : typeclass_instances.

  Lemma zero_R : B2R (n0 : fl) = 0%R /\ is_finite (n0 : fl) = true.
  Proof. destruct (ofZ_exact L 0 ltac:(reflexivity)) as [A B]. split; [exact B|exact A]. Qed.

  Lemma ntrunc_R (x : fl) : is_finite x = true -> ntrunc x = Ztrunc (B2R x).
  Proof.
    intro H. unfold ntrunc, Ztrunc. destruct zero_R as [Z0 F0].
    change (nltb x n0) with (Bltb x n0). rewrite Bltb_correct by assumption. rewrite Z0.
    destruct (Rlt_bool (B2R x) 0).
    - cbn [nceil ieeeNum]. unfold Zceil. rewrite flFloor_R by now rewrite is_finite_Bopp. now rewrite B2R_Bopp.
    - now apply flFloor_R.
  Qed.

  Lemma pyint_finite (x : fl) : is_finite x = true -> pyint x = Ok (Ztrunc (B2R x)).
  Proof.
    intro H. unfold pyint. destruct x as [s|s| |s m e Hb]; try discriminate; cbn [nisnan nisinf ieeeNum is_nan]; now rewrite ntrunc_R.
  Qed.

  Theorem pack_finite bits shift (x : fl) : 0 <= shift -> is_finite x = true ->
    packSample bits shift x =
    if ((- 2 ^ 63 <=? Ztrunc (B2R x) * 2 ^ shift) && (Ztrunc (B2R x) * 2 ^ shift <? 2 ^ 63))%bool
    then Ok ((Ztrunc (B2R x) * 2 ^ shift) mod 2 ^ bits) else Err OverflowError.
  Proof. intros Hs H. unfold packSample. rewrite pyint_finite by assumption. cbn [bind]. unfold storeUInt. now rewrite Z.shiftl_mul_pow2. Qed.

  (** A value between two codes is written as the lower one. *)
  Theorem pack_between bits shift k (x : fl) : 0 <= shift -> shift <= bits <= 16 -> is_finite x = true ->
    0 <= k < 2 ^ (bits - shift) -> (IZR k <= B2R x < IZR (k + 1))%R -> packSample bits shift x = Ok (k * 2 ^ shift).
  Proof.
    intros Hs Hb H Hk Hx. rewrite pack_finite by assumption.
    assert (E : Ztrunc (B2R x) = k).
    { rewrite Ztrunc_floor by (apply Rle_trans with (2 := proj1 Hx); apply IZR_le; lia). apply Zfloor_imp. exact Hx. }
    rewrite E. assert (B : k * 2 ^ shift < 2 ^ bits).
    { replace bits with ((bits - shift) + shift) by lia. rewrite Z.pow_add_r by lia. apply Z.mul_lt_mono_pos_r; [apply Z.pow_pos_nonneg; lia|lia]. }
    assert (B2 : 2 ^ bits <= 2 ^ 16) by (apply Z.pow_le_mono_r; lia).
    assert (B3 : 0 <= k * 2 ^ shift) by (apply Z.mul_nonneg_nonneg; [lia|apply Z.pow_nonneg; lia]).
    destruct (Z.leb_spec (- 2 ^ 63) (k * 2 ^ shift)); [|lia]. destruct (Z.ltb_spec (k * 2 ^ shift) (2 ^ 63)); [|lia]. cbn [andb].
    f_equal. apply Z.mod_small. lia.
  Qed.

  Theorem pack_code bits shift k : 0 <= shift -> shift <= bits <= 16 -> 0 <= k < 2 ^ (bits - shift) ->
    packSample bits shift (nofZ k : fl) = Ok (k * 2 ^ shift).
  Proof.
    intros Hs Hb Hk. assert (B : 2 ^ (bits - shift) <= 2 ^ 16) by (apply Z.pow_le_mono_r; lia).
    destruct (ofZ_exact L k) as [F V]; [lia|]. apply pack_between; try assumption. rewrite V. split; [lra|]. apply IZR_lt. lia.
  Qed.

  Lemma shifts depth b : In (depth, b) [("10i", 10); ("12i", 12); ("16i", 16)]%string ->
    writeShift depth = 16 - b /\ readDepth b = depth /\ 10 <= b <= 16.
  Proof. intro H. repeat destruct H as [H|H]; try contradiction; inversion H; subst; repeat split; try reflexivity; lia. Qed.

  Lemma read_shift b v : 0 <= b <= 16 -> readSample b v = Ok (v / 2 ^ (16 - b)).
  Proof.
    intro H. unfold readSample, readShift. destruct (Z.eqb_spec (16 - b) 0) as [E|E].
    - rewrite E. now rewrite Z.div_1_r.
    - destruct (Z.ltb_spec (16 - b) 0); [lia|]. now rewrite Z.shiftr_div_pow2 by lia.
  Qed.

  Theorem codes_round_trip depth b k : In (depth, b) [("10i", 10); ("12i", 12); ("16i", 16)]%string -> 0 <= k < 2 ^ b ->
    exists v, packSample 16 (writeShift depth) (nofZ k : fl) = Ok v /\ 0 <= v < 2 ^ 16 /\ readSample b v = Ok k /\ readDepth b = depth.
  Proof.
    intros H Hk. destruct (shifts _ _ H) as [S1 [S2 S3]]. exists (k * 2 ^ (16 - b)). rewrite S1.
    assert (P : 0 < 2 ^ (16 - b)) by (apply Z.pow_pos_nonneg; lia).
    split; [apply pack_code; try lia; replace (16 - (16 - b)) with b by lia; assumption|]. split; [|split; [|assumption]].
    - split; [nia|]. replace 16 with (b + (16 - b)) at 2 by lia. rewrite Z.pow_add_r by lia. nia.
    - rewrite read_shift by lia. now rewrite Z.div_mul by lia.
  Qed.

  Theorem stored_round_trip depth b v k : In (depth, b) [("10i", 10); ("12i", 12); ("16i", 16)]%string -> 0 <= v < 2 ^ 16 ->
    readSample b v = Ok k -> packSample 16 (writeShift depth) (nofZ k : fl) = Ok (v - v mod 2 ^ (16 - b)).
  Proof.
    intros H Hv E. destruct (shifts _ _ H) as [S1 [S2 S3]]. rewrite read_shift in E by lia. apply Ok_inj in E. subst k.
    assert (P : 0 < 2 ^ (16 - b)) by (apply Z.pow_pos_nonneg; lia).
    rewrite S1, pack_code; try lia.
    - f_equal. rewrite Z.mod_eq by lia. ring.
    - replace (16 - (16 - b)) with b by lia. split; [apply Z.div_pos; lia|]. apply Z.div_lt_upper_bound; [lia|].
      rewrite <- Z.pow_add_r by lia. replace (16 - b + b) with 16 by lia. lia.
  Qed.

  (** Outside the range the code wraps around. *)
  Theorem pack_wraps bits shift k : 0 <= shift -> 0 <= bits -> Z.abs k < 2 ^ 53 -> Z.abs (k * 2 ^ shift) < 2 ^ 63 ->
    packSample bits shift (nofZ k : fl) = Ok ((k * 2 ^ shift) mod 2 ^ bits).
  Proof.
    intros Hs Hb Hk Hk2. destruct (ofZ_exact L k Hk) as [F V]. rewrite pack_finite by assumption. rewrite V, Ztrunc_IZR.
    destruct (Z.leb_spec (- 2 ^ 63) (k * 2 ^ shift)); [|lia]. destruct (Z.ltb_spec (k * 2 ^ shift) (2 ^ 63)); [|lia]. reflexivity.
  Qed.

  Lemma pack_fails_in bits shift pixels (x : fl) e : In x pixels -> packSample bits shift x = Err e ->
    exists e', mapM (packSample bits shift) pixels = Err e'.
  Proof.
    intros Hin He. induction pixels as [|y t IH]; [contradiction|]. cbn [mapM]. destruct Hin as [->|Hin].
    - rewrite He. eexists; reflexivity.
    - destruct (packSample bits shift y); [|eexists; reflexivity]. cbn [bind]. destruct (IH Hin) as [e' ->]. eexists; reflexivity.
  Qed.

  Theorem nonfinite_fails depth tagged pixels (x : fl) : bitDepthIsInteger (AStr depth) = true -> In x pixels -> is_finite x = false ->
    exists e, writePixelArray depth tagged pixels = Err e.
  Proof.
    intros Hd Hin Hx. unfold writePixelArray, packPixels, sampleTypeOf.
    assert (Hs : forall bits shift, exists e, packSample bits shift x = Err e).
    { intros. unfold packSample, pyint. destruct x as [s|s| |s m e Hb]; try discriminate; cbn; eexists; reflexivity. }
    unfold bitDepthIsInteger in Hd. cbn [aval_eqb] in Hd. rewrite !Bool.orb_true_iff in Hd.
    destruct (String.eqb depth "8i") eqn:E8.
    - cbn [bind]. destruct (Hs 8 0) as [e He]. destruct (pack_fails_in _ _ _ _ _ Hin He) as [e' ->]. eexists; reflexivity.
    - replace (String.eqb depth "10i" || String.eqb depth "12i" || String.eqb depth "16i")%bool with true
        by (symmetry; rewrite !Bool.orb_true_iff; intuition discriminate).
      cbn [bind]. destruct (Hs 16 (writeShift depth)) as [e He]. destruct (pack_fails_in _ _ _ _ _ Hin He) as [e' ->]. eexists; reflexivity.
  Qed.
End Pack.

(** The bits-per-sample tag of an integer source makes float output impossible. *)
Theorem tagged_float {T} {N : Num T} depth (pixels : list T) : In depth ["16f"; "32f"]%string ->
  writePixelArray depth true pixels = Err KeyError /\
  exists p, writePixelArray depth false pixels = Ok (p, None).
Proof.
  intros [<-|[<-|[]]]; (split; [reflexivity|eexists; reflexivity]).
Qed.
